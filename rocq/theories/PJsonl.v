(** C37-C42, C55: synchronizing a JSONL data file (pkg/handlers/jsonl.go). What the
    data file means is specified in JsonlSpec.v; the string and number functions of
    encoding/json are parameters (Json.v). *)
From Coq Require Import Permutation Sorted.
From Verif Require Import Base Varint Store PageFile PageHist RefValue Node LinkedPage BPTree BPRepr BPIter BPInsert BPLoop BPTop PTree Meta Slots SlotAdd PSlots Cells IndexFile IFileInv PIndex Json Jsonl Grows JsonlRun JsonDoc JsonlDoc JsonlSpec JsonlHist.

Section P.
Variables (unquote : bytes -> bytes) (to_float : bytes -> option bytes) (grams : bytes -> Z -> res (list (bytes * Z * Z))) (hdrs : list bytes).
(** binary.BigEndian.PutUint64 into an 8 byte buffer, pkg/handlers/jsonl.go:106-118, 215-226 *)
Hypothesis float_8 : forall t f, to_float t = Some f -> zlen f = 8.
Notation sync := (jsonl_sync unquote to_float grams hdrs file_slot).
Notation parse := (jparse unquote to_float).
Notation occs := (occs unquote).
Notation entries_of := (entries_of unquote to_float grams hdrs).
Notation total_of := (total_of unquote to_float grams hdrs).
Notation ids := (ids unquote to_float grams hdrs).

(** ** Specification *)
(** A life of an index file of format JSONL: created, its data file grows, the file
    is synchronized (successfully or not), closed and reopened. The index file
    stays below 2^60 bytes and the data file below 2^63. *)
Inductive life : bytes -> st -> Prop :=
| lf_new k s h s' : new_page_file (open_rws k []) = (Ok tt, s) -> new_index_file 0 s = (Ok h, s') -> life [] s'
| lf_data D t s : life D s -> zlen (D ++ t) < 2^63 -> life (D ++ t) s
| lf_sync D s r s' : life D s -> sync D s = (r, s') -> zlen (file s') < 2^60 -> life D s'
| lf_open D s k s1 h s2 : life D s -> new_page_file (open_rws k (file s)) = (Ok tt, s1) -> new_index_file 0 s1 = (Ok h, s2) -> life D s2.
(** A data file within the limits of the theorems: complete lines, each beginning
    with one legal JSON object (what follows it on the line may be anything), and an unfinished last line; lines shorter than 2^32 bytes; no white
    space between the key of a string value and its colon; field names of at most
    236 bytes; a field that is searched has a string whose n-grams lie within the range of
    its value ([search_fits]). *)
Definition line_fits (x : line) : Prop := line_taken to_float x /\ mtight (ln_members x) /\ zlen (line_text x) < 2^32.
Definition name_fits (o : occ) : Prop := zlen (fd_name (fst o)) <= 236 /\ search_fits unquote grams hdrs o.
Definition fits (D : bytes) (ls : list line) (tail : bytes) : Prop :=
  D = data_of ls tail /\ ~ In 10 tail /\ Forall line_fits ls /\ Forall name_fits (occs 0 ls).
(** Index [i] = (name, type) of the file: FindOrCreateIndex finds it without changing
    a byte, with this total; a walk from the least key lists these entries, ascending. *)
Definition index_shows (D : bytes) (s : st) (i : bytes * Z) (total : Z) (es : smap) : Prop :=
  exists m, reads s (find_or_create file_slot (fst i) (snd i)) (m, IM (fst i) (snd i) (determine_type (snd i)) total) /\
    exists es', Permutation es' es /\ ascending es' /\
      forall n, walk (mkCodec (determine_type (snd i)) D parse) m s least n = Ok (firstn n es').

(** ... exactly these entries, in this order *)
Definition index_lists (D : bytes) (s : st) (i : bytes * Z) (total : Z) (es : smap) : Prop :=
  exists m, reads s (find_or_create file_slot (fst i) (snd i)) (m, IM (fst i) (snd i) (determine_type (snd i)) total) /\
    forall n, walk (mkCodec (determine_type (snd i)) D parse) m s least n = Ok (firstn n es).
(** FindOrCreateIndex finds the index [i] and changes nothing *)
Definition exists_index (s : st) (i : bytes * Z) : Prop := exists x, reads s (find_or_create file_slot (fst i) (snd i)) x.
(** names and types the index file can store *)
Definition legal_id (i : bytes * Z) : Prop := zlen (fst i) <= 245 /\ 0 <= snd i < 2^8.
(** The metadata [m'] say that the complete lines of the data file were consumed,
    starting where the metadata [m] had stopped. *)
Definition consumed (df : bytes) (m m' : file_meta) : Prop :=
  fm_version m' = fm_version m /\ fm_format m' = fm_format m /\
  exists before new rest, df = before ++ new ++ rest /\ fm_read_offset m = zlen before /\ fm_read_offset m' = zlen (before ++ new) /\
    (new = [] \/ exists t, new = t ++ [10]) /\ ~ In 10 rest /\ fm_entries m' = (fm_entries m + Z.of_nat (count_occ Z.eq_dec new 10)) mod 2^64.
(** the text of a line that is no object *)
Definition not_object (x : bytes) : Prop := ~ In 10 x /\ match skip_space x with c :: _ => c <> 123 | [] => True end.

(** ** Proofs *)
Notation ifile := (ifile determine_type parse).
Notation expected := (expected unquote to_float grams hdrs).
Lemma lines_app a b : lines_text (a ++ b) = lines_text a ++ lines_text b.
Proof. induction a as [|x a IH]; cbn [app lines_text]; [reflexivity|]. rewrite IH, <- app_assoc. reflexivity. Qed.
Lemma occs_app a b : forall at_, occs at_ (a ++ b) = occs at_ a ++ occs (at_ + zlen (lines_text a)) b.
Proof.
  induction a as [|x a IH]; intros at_; cbn [app JsonlSpec.occs lines_text]; [change (zlen (@nil Z)) with 0; rewrite Z.add_0_r; reflexivity|].
  rewrite IH, <- app_assoc. rewrite zlen_app, zlen_cons. replace (at_ + zlen (line_text x) + 1 + zlen (lines_text a)) with (at_ + (zlen (line_text x) + (1 + zlen (lines_text a)))) by lia. reflexivity.
Qed.
(** cutting a data file *)
Lemma cut ls : forall tail u t, Forall (line_taken to_float) ls -> ~ In 10 tail -> u ++ t = data_of ls tail ->
  exists a b tail', ls = a ++ b /\ u = data_of a tail' /\ ~ In 10 tail'.
Proof.
  induction ls as [|x ls IH]; intros tail u t Hls Ht E.
  - exists [], [], u. split; auto. split; [reflexivity|]. unfold data_of in E. cbn [lines_text app] in E. subst tail. intros X. apply Ht. apply in_or_app. auto.
  - inversion Hls as [|? ? Hx Hls']; subst x0 l. unfold data_of in E. cbn [lines_text] in E. rewrite <- app_assoc in E. cbn [app] in E.
    destruct (Nat.le_gt_cases (length u) (length (line_text x))) as [Hle|Hgt].
    + exists [], (x :: ls), u. split; auto. split; [reflexivity|]. intros X. apply (@no_nl_line unquote to_float grams float_8 x Hx).
      assert (Eu : u = firstn (length u) (line_text x)).
      { assert (Y : firstn (length u) (u ++ t) = firstn (length u) (line_text x ++ 10 :: lines_text ls ++ tail)) by (rewrite E; reflexivity).
        rewrite firstn_app, Nat.sub_diag, firstn_all in Y. cbn [firstn] in Y. rewrite app_nil_r in Y. rewrite firstn_app in Y. replace (length u - length (line_text x))%nat with 0%nat in Y by lia. cbn [firstn] in Y. rewrite app_nil_r in Y. exact Y. }
      rewrite Eu in X. rewrite <- (firstn_skipn (length u) (line_text x)). apply in_or_app. auto.
    + assert (Eu : exists v, u = line_text x ++ 10 :: v /\ v ++ t = data_of ls tail).
      { exists (skipn (S (length (line_text x))) u).
        assert (Y : firstn (S (length (line_text x))) u = line_text x ++ [10]).
        { assert (Z1 : firstn (S (length (line_text x))) (u ++ t) = firstn (S (length (line_text x))) (line_text x ++ 10 :: lines_text ls ++ tail)) by (rewrite E; reflexivity).
          rewrite firstn_app in Z1. replace (S (length (line_text x)) - length u)%nat with 0%nat in Z1 by lia. change (firstn 0 t) with (@nil Z) in Z1. rewrite app_nil_r in Z1. rewrite Z1.
          rewrite firstn_app. replace (S (length (line_text x)) - length (line_text x))%nat with 1%nat by lia. rewrite firstn_all2 by lia. reflexivity. }
        assert (Eu : u = line_text x ++ 10 :: skipn (S (length (line_text x))) u) by (pose proof (firstn_skipn (S (length (line_text x))) u) as FS; rewrite Y in FS; rewrite <- app_assoc in FS; symmetry; exact FS).
        split; auto. rewrite Eu in E. rewrite <- app_assoc in E. cbn [app] in E. apply app_inv_head in E. injection E as E. exact E. }
      destruct Eu as (v & -> & Ev). destruct (IH tail v t Hls' Ht Ev) as (a & b & tail' & -> & -> & Hn). exists (x :: a), b, tail'. split; auto. split; auto.
      unfold data_of. cbn [lines_text]. rewrite <- app_assoc. reflexivity.
Qed.
(** the state after the lines [a] *)
Definition state_of (D : bytes) (a : list line) (s : st) : Prop :=
  exists l, ifile D (FM currentVersion 0 (zlen (lines_text a)) (zlen a)) l s /\ map strip l = expected (occs 0 a) /\ below (zlen (lines_text a)) (map strip l).
Lemma more_text ls : zlen ls <= zlen (lines_text ls).
Proof. induction ls as [|x ls IH]; cbn [lines_text]; [reflexivity|]. rewrite zlen_app, !zlen_cons. pose proof (zlen_nonneg (line_text x)). lia. Qed.
(** synchronizing from the state after the lines [a], when the complete lines are [a ++ b] *)
Lemma sync_state D a b tail s : fits D (a ++ b) tail -> state_of D a s -> small (zlen (file (snd (sync D s)))) (expected (occs 0 (a ++ b))) ->
  exists s', sync D s = (Ok tt, s') /\ state_of D (a ++ b) s'.
Proof.
  intros (HD & Ht & Hls & Hoc) (l & Hi & Hl & Hb) Hf. destruct (ifile_holds (wd_ok grams) Hi) as (HDz & _).
  rewrite occs_app in Hoc. apply Forall_app in Hoc. destruct Hoc as [Ho1 Ho2]. cbn [Z.add] in Ho2. apply Forall_app in Hls. destruct Hls as [Hl1 Hl2].
  assert (HDe : D = lines_text a ++ lines_text b ++ tail) by (rewrite HD; unfold data_of; rewrite lines_app, <- app_assoc; reflexivity).
  destruct (@lacts_ok unquote to_float grams hdrs float_8 D HDz b (zlen (lines_text a)) (lines_text a) tail HDe eq_refl Hl2 Ho2) as (R1 & R2 & R3).
  pose proof (more_text a). pose proof (zlen_nonneg tail). pose proof (zlen_nonneg (lines_text b)). assert (HDl : zlen D = zlen (lines_text a) + zlen (lines_text b) + zlen tail) by (rewrite HDe, !zlen_app; lia).
  pose proof (@sync_run unquote to_float grams hdrs float_8 D _ l s Hi) as SR. cbv zeta in SR.
  rewrite (@loop_lines unquote to_float grams hdrs float_8 D currentVersion 0 HDz b (zlen (lines_text a)) (lines_text a) tail (zlen a) (S (length D)) HDe eq_refl Ht Hl2 Ho2) in SR; [|rewrite HDe, !app_length; lia|apply zlen_nonneg|lia].
  cbn [fst snd] in SR. destruct (@fresh_ok unquote to_float D _ _ _ _ R1 R2 Hb) as [OK BE].
  assert (Eex : run (lacts unquote to_float grams hdrs (zlen (lines_text a)) b) (map strip l) = expected (occs 0 (a ++ b))).
  { rewrite Hl, R3 by apply canon_expected. rewrite expected_app, <- (Z.add_0_l (zlen (lines_text a))), <- occs_app. reflexivity. }
  rewrite Eex in SR. destruct (SR OK Hf) as (l' & s' & E & Hi' & Hl'). rewrite <- Eex in Hl'. exists s'. split; [exact E|]. exists l'. split; [|split].
  - rewrite lines_app, !zlen_app. exact Hi'.
  - rewrite Hl'. exact Eex.
  - rewrite Hl', lines_app, zlen_app. exact BE.
Qed.
Lemma state_more D t a s : state_of D a s -> zlen (D ++ t) < 2^63 -> state_of (D ++ t) a s.
Proof. intros (l & Hi & H) Hz. exists l. split; auto. apply if_more; auto. Qed.
Lemma state_open D a s k s1 h s2 : state_of D a s -> new_page_file (open_rws k (file s)) = (Ok tt, s1) -> new_index_file 0 s1 = (Ok h, s2) -> state_of D a s2.
Proof. intros (l & Hi & H) E1 E2. exists l. split; auto. eapply if_open; eauto. Qed.
Lemma fits_part D a b tail tail' D' : fits D (a ++ b) tail -> D' = data_of a tail' -> ~ In 10 tail' -> fits D' a tail'.
Proof.
  intros (HD & Ht & Hls & Hoc) HD' Ht'. apply Forall_app in Hls. destruct Hls as [Hl1 Hl2]. rewrite occs_app in Hoc. apply Forall_app in Hoc. destruct Hoc as [Ho1 Ho2].
  split; auto.
Qed.
Theorem life_state D s : life D s -> forall ls tail t, fits (D ++ t) ls tail -> exists a b u, ls = a ++ b /\ D = lines_text a ++ u /\ state_of D a s.
Proof.
  induction 1 as [k s h s' E1 E2|D t0 s H IH Hz|D s r s' H IH E Hz|D s k s1 h s2 H IH E1 E2]; intros ls tail t Hfit.
  - exists [], ls, []. split; auto. split; auto. exists []. split; [apply (@if_new determine_type parse k 0 s h s'); auto; lia|]. split; [reflexivity|]. intros c e [].
  - rewrite <- app_assoc in Hfit. destruct (IH ls tail (t0 ++ t) Hfit) as (a & b & u & -> & Hu & Hs). exists a, b, (u ++ t0). split; auto. split; [rewrite Hu, <- app_assoc; reflexivity|]. apply state_more; auto.
  - destruct (IH ls tail t Hfit) as (a & b & u & -> & Hu & Hs). pose proof Hfit as (HD & Ht & Hls & Hoc). apply Forall_app in Hls. destruct Hls as [Hl1 Hl2].
    assert (Eu : u ++ t = data_of b tail).
    { rewrite Hu in HD. unfold data_of in HD |- *. rewrite lines_app, <- !app_assoc in HD. apply app_inv_head in HD. exact HD. }
    destruct (@cut b tail u t ltac:(eapply Forall_impl; [|exact Hl2]; intros x Hx; apply Hx) Ht Eu) as (b1 & b2 & tail' & -> & -> & Hn).
    assert (HD2 : D = data_of (a ++ b1) tail') by (rewrite Hu; unfold data_of; rewrite lines_app, <- app_assoc; reflexivity).
    rewrite app_assoc in Hfit. pose proof (@fits_part _ _ _ _ tail' D Hfit HD2 Hn) as Hf2.
    destruct (@sync_state D a b1 tail' s Hf2 Hs) as (s2 & E2 & S2); [left; rewrite E; exact Hz|]. rewrite E in E2. injection E2 as -> ->.
    exists (a ++ b1), b2, tail'. rewrite app_assoc. split; auto.
  - destruct (IH ls tail t Hfit) as (a & b & u & -> & Hu & Hs). exists a, b, u. split; auto. split; auto. eapply state_open; eauto.
Qed.
(** A sync of a data file within the limits succeeds and leaves the state of all its complete lines. *)
Theorem life_sync D s ls tail : life D s -> fits D ls tail -> zlen (file (snd (sync D s))) < 2^60 -> exists s', sync D s = (Ok tt, s') /\ state_of D ls s'.
Proof.
  intros Hl Hfit Hf. assert (Hfit' : fits (D ++ []) ls tail) by (rewrite app_nil_r; auto).
  destruct (@life_state D s Hl ls tail [] Hfit') as (a & b & u & -> & Hu & Hs). apply (@sync_state D a b tail s); auto. left. auto.
Qed.

(** *** What the state shows *)
Lemma state_meta D a s : state_of D a s -> reads s (if_metadata file_slot) (FM 1 0 (zlen (lines_text a)) (zlen a)).
Proof. intros (l & Hi & _). exact (C22_metadata (wd_ok grams) Hi). Qed.
Lemma state_ids D a s : state_of D a s -> exists l, ifile D (FM currentVersion 0 (zlen (lines_text a)) (zlen a)) l s /\ map (fun ix => (ix_name ix, ix_type ix)) l = ids (occs 0 a) /\
  forall ix, In ix l -> ix_total ix = total_of (occs 0 a) (ix_name ix, ix_type ix) /\ ix_es ix = rev (entries_of (occs 0 a) (ix_name ix, ix_type ix)).
Proof.
  intros (l & Hi & Hl & _). exists l. split; auto. unfold JsonlHist.expected in Hl. split.
  - transitivity (map (fun c => (ci_name c, ci_type c)) (map strip l)); [rewrite map_map; reflexivity|]. rewrite Hl, map_map. cbn [ci_name ci_type]. rewrite <- (map_id (ids (occs 0 a))) at 2. apply map_ext. intros [n ft]. reflexivity.
  - intros ix Hin. assert (X : In (strip ix) (map strip l)) by (apply in_map; auto). rewrite Hl in X. apply in_map_iff in X. destruct X as ([n ft] & E & _).
    unfold strip in E. cbn [fst snd] in E. injection E as E1 E2 E3 E4. rewrite <- E1, <- E2. auto.
Qed.
Lemma state_shows D a s i : state_of D a s -> In i (ids (occs 0 a)) -> index_shows D s i (total_of (occs 0 a) i) (entries_of (occs 0 a) i).
Proof.
  intros Hs Hi. destruct (state_ids Hs) as (l & Hif & Hids & Hx). rewrite <- Hids in Hi. apply in_map_iff in Hi. destruct Hi as (ix & <- & Hin). destruct (Hx ix Hin) as [T E]. cbn [fst snd].
  exists (ix_at ix). split.
  - cbn [fst snd]. rewrite <- T. apply (@C23_existing_is_found determine_type parse D _ l s _ _ ix (wd_ok grams) Hif Hin); auto.
  - destruct (ifile_holds (wd_ok grams) Hif) as (_ & fl & ms & x0 & L & H). destruct (@holds_reads determine_type parse D s _ l fl ms x0 L ix H Hin) as (_ & es & P1 & P2 & P3). exists es. split; [|split; auto].
    rewrite E in P1. eapply Permutation_trans; [exact P1|]. apply Permutation_sym, Permutation_rev.
Qed.

(** *** C37 *)
Lemma index_byte_split b i : index_byte 10 b = Some i -> exists u v, b = u ++ 10 :: v /\ i = zlen u /\ ~ In 10 u.
Proof.
  revert i. induction b as [|c b IH]; intros i; cbn [index_byte]; [discriminate|]. destruct (Z.eqb_spec c 10) as [->|Hc].
  - intros E. injection E as <-. exists [], b. split; auto.
  - destruct (index_byte 10 b) as [j|]; [|discriminate]. cbn [option_map]. intros E. injection E as <-. destruct (IH j eq_refl) as (u & v & -> & -> & Hn). exists (c :: u), v. split; auto. split; [rewrite zlen_cons; lia|]. intros [X|X]; auto.
Qed.
Lemma index_byte_none_inv b : index_byte 10 b = None -> ~ In 10 b.
Proof.
  induction b as [|c b IH]; cbn [index_byte]; [intros _ []|]. destruct (Z.eqb_spec c 10) as [->|Hc]; [discriminate|]. destruct (index_byte 10 b); [discriminate|]. intros _ [X|X]; [auto|]. apply IH; auto.
Qed.
Lemma count_no u : ~ In 10 u -> count_occ Z.eq_dec u 10 = 0%nat.
Proof. intros H. apply count_occ_not_In. exact H. Qed.
Lemma bind_inv {A B} (m : M st A) (k : A -> M st B) s b s' : bind m k s = (Ok b, s') -> exists a s1, m s = (Ok a, s1) /\ k a s1 = (Ok b, s').
Proof. unfold bind. destruct (m s) as [[a| | | |] s1]; try discriminate. eauto. Qed.
Lemma lift_inv {A} (r : res A) (s : st) a s' : lift r s = (Ok a, s') -> r = Ok a /\ s' = s.
Proof. unfold lift. intros E. injection E. auto. Qed.
Lemma loop_consumed df : zlen df < 2^63 -> forall fuel m s m' s', 0 <= fm_read_offset m -> 0 <= fm_entries m < 2^64 ->
  sync_loop unquote to_float grams hdrs fuel file_slot df m s = (Ok m', s') -> consumed df m m'.
Proof.
  intros Hdf. induction fuel as [|fuel IH]; intros m s m' s' Hro Hen; cbn [sync_loop]; [discriminate|]. cbv zeta. destruct (Z.ltb_spec (zlen df) (fm_read_offset m)) as [|Hle]; [discriminate|].
  set (ro := fm_read_offset m) in *. assert (Hs : df = firstn (Z.to_nat ro) df ++ skipn (Z.to_nat ro) df) by (symmetry; apply firstn_skipn).
  assert (Hz : zlen (firstn (Z.to_nat ro) df) = ro) by (unfold zlen in *; rewrite firstn_length; lia).
  destruct (index_byte 10 (skipn (Z.to_nat ro) df)) as [i|] eqn:Ei.
  - intros E. apply bind_inv in E. destruct E as (d & s1 & _ & E). apply bind_inv in E. destruct E as (d1 & s2 & _ & E). apply bind_inv in E. destruct E as (d2 & s3 & _ & E).
    destruct (index_byte_split _ Ei) as (u & v & Eu & -> & Hn).
    assert (Hd : zlen df = ro + zlen u + 1 + zlen v) by (rewrite Hs, Eu, !zlen_app, zlen_cons, Hz; lia). pose proof (zlen_nonneg u). pose proof (zlen_nonneg v).
    assert (Eo : u64 (ro + zlen u + 1) = ro + zlen u + 1) by (unfold u64; rewrite Z.mod_small; lia). rewrite Eo in E.
    apply IH in E; cbn [fm_read_offset fm_entries fm_version fm_format] in *; [|lia|unfold u64; apply Z.mod_pos_bound; reflexivity].
    destruct E as (V1 & V2 & before & new & rest & E1 & E2 & E3 & E4 & E5 & E6). cbn [fm_read_offset fm_entries fm_version fm_format] in *.
    split; auto. split; auto. exists (firstn (Z.to_nat ro) df), (u ++ 10 :: new), rest.
    assert (Eb : before = firstn (Z.to_nat ro) df ++ u ++ [10]).
    { assert (X : before ++ new ++ rest = (firstn (Z.to_nat ro) df ++ u ++ [10]) ++ v) by (rewrite <- E1, <- !app_assoc; cbn [app]; rewrite <- Eu; exact Hs).
      assert (Y : firstn (length before) (before ++ new ++ rest) = firstn (length before) ((firstn (Z.to_nat ro) df ++ u ++ [10]) ++ v)) by (rewrite X; reflexivity).
      assert (Ll : length before = length (firstn (Z.to_nat ro) df ++ u ++ [10])) by (rewrite !app_length; cbn [length]; unfold zlen in *; lia).
      rewrite firstn_app, firstn_all, Nat.sub_diag in Y. change (firstn 0 (new ++ rest)) with (@nil Z) in Y. rewrite app_nil_r in Y. rewrite Ll, firstn_app, firstn_all, Nat.sub_diag in Y. change (firstn 0 v) with (@nil Z) in Y. rewrite app_nil_r in Y. exact Y. }
    split; [rewrite E1 at 1; rewrite Eb, <- !app_assoc; cbn [app]; reflexivity|]. split; [auto|]. split; [rewrite E3, Eb, <- !app_assoc; cbn [app]; reflexivity|]. split; [|split; auto].
    + right. destruct E4 as [->|(t & ->)]; [exists u; reflexivity|]. exists (u ++ 10 :: t). rewrite <- app_assoc. reflexivity.
    + rewrite E6, count_occ_app, (@count_no u Hn). cbn [count_occ]. destruct (Z.eq_dec 10 10); [|contradiction]. unfold u64. rewrite Zplus_mod_idemp_l. f_equal. lia.
  - intros E. apply lift_inv in E. destruct E as [E _]. injection E as <-. split; auto. split; auto. exists (firstn (Z.to_nat ro) df), [], (skipn (Z.to_nat ro) df).
    split; [exact Hs|]. split; [auto|]. split; [rewrite app_nil_r; auto|]. split; [auto|]. split; [apply index_byte_none_inv; auto|]. cbn [count_occ]. rewrite Z.add_0_r, Z.mod_small; auto.
Qed.
(** A successful Synchronize, whatever the index file and the data file contain:
    what it stores last is that exactly the complete lines were consumed. *)
Theorem C37_consumes_complete_lines df s s' : zlen df < 2^63 -> sync df s = (Ok tt, s') ->
  exists m s1 m' s2, if_metadata file_slot s = (Ok m, s1) /\ if_set_metadata file_slot m' s2 = (Ok tt, s') /\ (file_meta_ok m -> consumed df m m').
Proof.
  intros Hdf E. unfold jsonl_sync in E. apply bind_inv in E. destruct E as (m & s1 & E1 & E). apply bind_inv in E. destruct E as (m' & s2 & E2 & E3).
  exists m, s1, m', s2. split; auto. split; auto. intros (_ & _ & H1 & H2). eapply loop_consumed; eauto. lia.
Qed.
(** Within the limits, Synchronize succeeds, and this is what the index file says afterwards. *)
Theorem C37_read_offset_and_entries D s ls tail r s' : life D s -> fits D ls tail -> sync D s = (r, s') -> zlen (file s') < 2^60 ->
  r = Ok tt /\ reads s' (if_metadata file_slot) (FM 1 0 (zlen (lines_text ls)) (zlen ls)).
Proof.
  intros Hl Hfit E Hf. destruct (life_sync Hl Hfit) as (s2 & E2 & S2); [rewrite E; exact Hf|]. rewrite E in E2. injection E2 as -> ->. split; auto. eapply state_meta; eauto.
Qed.

(** *** C38 *)
Lemma upd_same {A} (f b : list A) o l : 0 <= o -> o + zlen b <= zlen f -> l = zlen b -> slice f o l = b -> upd f o b = f.
Proof.
  intros Ho Hl -> E. unfold upd. rewrite <- E at 1. unfold slice. rewrite <- (firstn_skipn (Z.to_nat o) f) at 4. f_equal.
  rewrite <- (firstn_skipn (Z.to_nat (zlen b)) (skipn (Z.to_nat o) f)) at 2. f_equal. rewrite skipn_skipn. f_equal. pose proof (zlen_nonneg b). lia.
Qed.
(** storing the metadata that are stored already changes no byte *)
Lemma set_same D fm l s : ifile D fm l s -> exists p, if_set_metadata file_slot fm s = (Ok tt, set_pos s p).
Proof.
  intros Hi. destruct (ifile_holds (wd_ok grams) Hi) as (_ & fl & ms & x0 & L & H). destruct (ho_fm H) as (F1 & F2 & F3). assert (Hx : nth_error (x0 :: L) 0 = Some x0) by reflexivity.
  destruct (cl_at (ho_cells H) _ Hx) as (M1 & M2 & _). pose proof (cells_slot _ (ho_cells H) Hx) as Hso. destruct (@cells_set s fl ms _ 0%nat x0 (c_meta x0) (ho_cells H) Hx M2) as (p & E & _ & _).
  exists p. unfold if_set_metadata. rewrite (@bind_ok _ _ _ (lift (file_meta_marshal fm)) _ s (c_meta x0) s) by (unfold lift; rewrite F1; reflexivity).
  rewrite <- (holds_slot0 H), E. f_equal. rewrite (@upd_same _ (file s) (zlen (c_meta x0) :: c_meta x0) _ (1 + zlen (c_meta x0))); [destruct s; reflexivity| | | |].
  - pose proof (root_off_bounds Hso) as (B1 & B2 & B3 & B4 & B5). destruct Hso as ((P1 & P2 & P3 & P4) & P5 & P6). unfold pageSize in *; lia.
  - pose proof (root_off_bounds Hso) as (B1 & B2 & B3 & B4 & B5). destruct Hso as ((P1 & P2 & P3 & P4) & P5 & P6). rewrite zlen_cons. unfold pageSize in *; lia.
  - rewrite zlen_cons. reflexivity.
  - exact M1.
Qed.
Lemma ifile_metadata D fm l s : ifile D fm l s -> exists p, if_metadata file_slot s = (Ok fm, set_pos s p) /\ file_meta_ok fm.
Proof.
  intros Hi. destruct (ifile_holds (wd_ok grams) Hi) as (_ & fl & ms & x0 & L & H). destruct (holds_file_metadata H) as (b & p & E1 & E2). exists p. split; [|apply (ho_fm H)].
  unfold if_metadata. rewrite <- (holds_slot0 H), (@bind_ok _ _ _ _ _ _ _ _ E1). unfold lift. rewrite E2. reflexivity.
Qed.
Lemma sync_nothing D fm l s before rest : ifile D fm l s -> D = before ++ rest -> fm_read_offset fm = zlen before -> ~ In 10 rest -> exists p, sync D s = (Ok tt, set_pos s p).
Proof.
  intros Hi HD Hro Hn. destruct (ifile_metadata Hi) as (p & E & _). pose proof (if_read p Hi) as Hi'. destruct (set_same Hi') as (q & E2). exists q. unfold jsonl_sync.
  rewrite (@bind_ok _ _ _ _ _ _ _ _ E). cbn [sync_loop]. cbv zeta. rewrite Hro. pose proof (zlen_nonneg rest). destruct (Z.ltb_spec (zlen D) (zlen before)) as [Hz|_]; [rewrite HD, zlen_app in Hz; lia|].
  replace (skipn (Z.to_nat (zlen before)) D) with rest; [|rewrite HD; unfold zlen; rewrite Nat2Z.id, skipn_app, skipn_all, Nat.sub_diag; reflexivity].
  rewrite (@index_byte_none rest Hn). rewrite (@bind_ok _ _ _ (ret fm) _ _ fm _ eq_refl). rewrite E2. reflexivity.
Qed.
(** Without a new complete line Synchronize succeeds and changes no byte of the index file. *)
Theorem C38_no_new_line D fm l s : ifile D fm l s -> fm_read_offset fm <= zlen D -> ~ In 10 (skipn (Z.to_nat (fm_read_offset fm)) D) ->
  exists s', sync D s = (Ok tt, s') /\ file s' = file s.
Proof.
  intros Hi Hle Hn. destruct (ifile_metadata Hi) as (_ & _ & (_ & _ & Hro & _)).
  destruct (@sync_nothing D fm l s (firstn (Z.to_nat (fm_read_offset fm)) D) (skipn (Z.to_nat (fm_read_offset fm)) D) Hi) as (p & E); auto.
  - symmetry. apply firstn_skipn.
  - unfold zlen in *. rewrite firstn_length. lia.
  - exists (set_pos s p). auto.
Qed.
(** In a life: synchronizing again, with at most an unfinished line added, changes nothing. *)
Theorem C38_synchronize_again D s ls tail r s' u : life D s -> fits D ls tail -> sync D s = (r, s') -> zlen (file s') < 2^60 -> ~ In 10 u -> zlen (D ++ u) < 2^63 ->
  exists s'', sync (D ++ u) s' = (Ok tt, s'') /\ file s'' = file s'.
Proof.
  intros Hl Hfit E Hf Hu Hz. destruct (life_sync Hl Hfit) as (s2 & E2 & S2); [rewrite E; exact Hf|]. rewrite E in E2. injection E2 as -> ->. destruct S2 as (l & Hi & _).
  pose proof (if_more u Hi Hz) as Hi'. destruct Hfit as (HD & Ht & _). destruct (@sync_nothing (D ++ u) _ l s2 (lines_text ls) (tail ++ u) Hi') as (p & E3).
  - rewrite HD. unfold data_of. rewrite <- app_assoc. reflexivity.
  - reflexivity.
  - intros X. apply in_app_or in X. tauto.
  - exists (set_pos s2 p). auto.
Qed.

(** *** C39, C40 *)
Lemma sorted_perm (a : smap) : forall b, ascending a -> ascending b -> Permutation a b -> a = b.
Proof.
  unfold ascending. induction a as [|x a IH]; intros b Ha Hb P; [apply Permutation_nil in P; auto|]. destruct b as [|y b]; [apply Permutation_sym, Permutation_nil in P; discriminate|].
  inversion Ha as [|? ? Ha1 Ha2]; subst. inversion Hb as [|? ? Hb1 Hb2]; subst. rewrite Forall_forall in Ha2, Hb2. assert (x = y).
  { assert (X : In x (y :: b)) by (apply (Permutation_in _ P); left; auto). assert (Y : In y (x :: a)) by (apply (Permutation_in _ (Permutation_sym P)); left; auto).
    destruct X as [X|X]; [auto|]. destruct Y as [Y|Y]; [auto|]. exfalso. apply Hb2 in X. apply Ha2 in Y. apply (@rlt_irrefl (fst x)). eapply rlt_trans; [exact Y|exact X]. }
  subst y. f_equal. apply IH; auto. eapply Permutation_cons_inv; eauto.
Qed.
Lemma shows_lists D s i t es : index_shows D s i t es -> exists es', Permutation es' es /\ ascending es' /\ index_lists D s i t es'.
Proof. intros (m & R & es' & P & A & W). exists es'. split; auto. split; auto. exists m. auto. Qed.
Lemma lists_inj D s i t es t' es' : index_lists D s i t es -> index_lists D s i t' es' -> t = t' /\ es = es'.
Proof.
  intros (m & (s1 & E & _) & W) (m' & (s2 & E' & _) & W'). rewrite E in E'. injection E' as <- <- _. split; auto.
  pose proof (W (length es + length es')%nat) as X. rewrite W' in X. injection X as X. rewrite !firstn_all2 in X by lia. auto.
Qed.
Lemma state_only D a s i : state_of D a s -> zlen (file s) < 2^60 -> legal_id i -> exists_index s i -> In i (ids (occs 0 a)).
Proof.
  intros Hs Hf [Hn Ht] ([m im] & R). destruct (state_ids Hs) as (l & Hi & Hids & _). rewrite <- Hids. destruct i as [n ft]. exact (C23_found_exists (wd_ok grams) Hi Hf Hn Ht R).
Qed.
Lemma state_names D a s : state_of D a s -> reads s (if_field_names file_slot) (first_appearances (map fst (ids (occs 0 a)))).
Proof.
  intros Hs. destruct (state_ids Hs) as (l & Hi & Hids & _). rewrite <- Hids. rewrite map_map. cbn [fst]. exact (C26_field_names (wd_ok grams) Hi).
Qed.
(** Synchronizing in any number of steps, as the data file grows and with any closing
    and reopening between them, gives the same metadata, field names and indexes,
    each with the same total and the same entries in the same order. *)
Theorem C39_incremental_equals_batch D ls tail s1 r1 s1' s2 r2 s2' : fits D ls tail ->
  life D s1 -> sync D s1 = (r1, s1') -> zlen (file s1') < 2^60 -> life D s2 -> sync D s2 = (r2, s2') -> zlen (file s2') < 2^60 ->
  r1 = Ok tt /\ r2 = Ok tt /\
  (exists m, reads s1' (if_metadata file_slot) m /\ reads s2' (if_metadata file_slot) m) /\
  (exists l, reads s1' (if_field_names file_slot) l /\ reads s2' (if_field_names file_slot) l) /\
  (forall i, legal_id i -> exists_index s1' i <-> exists_index s2' i) /\
  (forall i, legal_id i -> exists_index s1' i -> exists total es, index_lists D s1' i total es /\ index_lists D s2' i total es).
Proof.
  intros Hfit L1 E1 F1 L2 E2 F2.
  destruct (life_sync L1 Hfit) as (x & X1 & S1); [rewrite E1; exact F1|]. rewrite E1 in X1. injection X1 as -> ->.
  destruct (life_sync L2 Hfit) as (y & X2 & S2); [rewrite E2; exact F2|]. rewrite E2 in X2. injection X2 as -> ->.
  split; auto. split; auto. split; [eexists; split; [eapply state_meta; exact S1|eapply state_meta; exact S2]|].
  split; [eexists; split; [eapply state_names; exact S1|eapply state_names; exact S2]|].
  assert (G : forall s s', state_of D ls s -> state_of D ls s' -> zlen (file s) < 2^60 -> forall i, legal_id i -> exists_index s i -> exists_index s' i).
  { intros s s' S S' F i Hi He. destruct (@state_shows D ls s' i S' (@state_only D ls s i S F Hi He)) as (m & R & _). eexists; exact R. }
  split; [intros i Hi; split; eapply G; eauto|]. intros i Hi He. pose proof (@state_only D ls x i S1 F1 Hi He) as Hin.
  destruct (shows_lists (@state_shows D ls x i S1 Hin)) as (e1 & P1 & A1 & W1). destruct (shows_lists (@state_shows D ls y i S2 Hin)) as (e2 & P2 & A2 & W2).
  assert (e1 = e2) by (apply sorted_perm; auto; eapply Permutation_trans; [exact P1|apply Permutation_sym; exact P2]). subst e2. eauto.
Qed.
(** Every field of every complete line is indexed, with its value as key and its line's
    range as pointer, and there are no other indexes and no other entries. What is
    missing from the full claim: the limits of [fits]. *)
Theorem C40_every_field_and_nothing_else_partial D s ls tail r s' : life D s -> fits D ls tail -> sync D s = (r, s') -> zlen (file s') < 2^60 ->
  r = Ok tt /\
  (forall i, In i (ids (occs 0 ls)) -> index_shows D s' i (total_of (occs 0 ls) i) (entries_of (occs 0 ls) i)) /\
  (forall i, legal_id i -> exists_index s' i -> In i (ids (occs 0 ls))) /\
  reads s' (if_field_names file_slot) (first_appearances (map fst (ids (occs 0 ls)))).
Proof.
  intros Hl Hfit E Hf. destruct (life_sync Hl Hfit) as (s2 & E2 & S2); [rewrite E; exact Hf|]. rewrite E in E2. injection E2 as -> ->.
  split; auto. split; [intros i Hi; apply state_shows; auto|]. split; [intros i Hi He; exact (@state_only D ls s2 i S2 Hf Hi He)|exact (state_names S2)].
Qed.

(** *** C41 *)
(** A Synchronize that meets a line which is no object, after the good lines [b]:
    it fails, the metadata stay (the read offset does not pass the lines it
    indexed) but the entries of [b] are in the indexes. *)
Lemma sync_bad D a b x rest s : D = lines_text (a ++ b) ++ x ++ 10 :: rest -> not_object x -> Forall line_fits b -> Forall name_fits (occs (zlen (lines_text a)) b) ->
  state_of D a s -> zlen (file (snd (sync D s))) < 2^60 ->
  exists l' s', sync D s = (Err (EMsg "only json objects are supported at the root"), s') /\ ifile D (FM currentVersion 0 (zlen (lines_text a)) (zlen a)) l' s' /\ map strip l' = expected (occs 0 (a ++ b)).
Proof.
  intros HD (Hnl & Hx) Hl2 Ho2 (l & Hi & Hl & Hb) Hf. destruct (ifile_holds (wd_ok grams) Hi) as (HDz & _).
  assert (HDe : D = lines_text a ++ lines_text b ++ x ++ 10 :: rest) by (rewrite HD, lines_app, <- app_assoc; reflexivity).
  destruct (@lacts_ok unquote to_float grams hdrs float_8 D HDz b (zlen (lines_text a)) (lines_text a) (x ++ 10 :: rest) HDe eq_refl Hl2 Ho2) as (R1 & R2 & R3).
  pose proof (more_text a). pose proof (zlen_nonneg (x ++ 10 :: rest)). pose proof (zlen_nonneg (lines_text b)). assert (HDl : zlen D = zlen (lines_text a) + zlen (lines_text b) + zlen (x ++ 10 :: rest)) by (rewrite HDe, !zlen_app; lia).
  pose proof (@sync_run unquote to_float grams hdrs float_8 D _ l s Hi) as SR. cbv zeta in SR.
  assert (Ew : w_loop unquote to_float grams hdrs (S (length D)) D (FM currentVersion 0 (zlen (lines_text a)) (zlen a)) = (lacts unquote to_float grams hdrs (zlen (lines_text a)) b, Err (EMsg "only json objects are supported at the root"))).
  { pose proof (len_lines b) as Hlb. assert (HDn : (length D = length (lines_text a) + length (lines_text b) + length (x ++ 10%Z :: rest))%nat) by (rewrite HDe, !app_length; lia).
    replace (S (length D)) with (length b + S (length D - length b))%nat by lia. rewrite (@loop_prefix unquote to_float grams hdrs float_8 D currentVersion 0 HDz b (zlen (lines_text a)) (lines_text a) (x ++ 10 :: rest) (zlen a) _ HDe eq_refl Hl2 Ho2); [|apply zlen_nonneg|lia].
    rewrite (@loop_bad unquote to_float grams hdrs float_8 D currentVersion 0 _ (zlen a + zlen b) _ (lines_text a ++ lines_text b) x rest); [|rewrite <- app_assoc; auto|rewrite zlen_app; lia|auto|auto].
    cbn [fst snd]. rewrite app_nil_r. reflexivity. }
  rewrite Ew in SR. cbn [fst snd] in SR. destruct (@fresh_ok unquote to_float D _ _ _ _ R1 R2 Hb) as [OK BE].
  destruct (SR OK (or_introl Hf)) as (l' & s' & E & Hi' & Hl'). exists l', s'. split; [exact E|]. split; [exact Hi'|].
  rewrite Hl', Hl, R3 by apply canon_expected. rewrite expected_app, <- (Z.add_0_l (zlen (lines_text a))), <- occs_app. reflexivity.
Qed.
(** After the failure the metadata say what they said before, and the indexes hold the
    entries of the lines before the bad one. Missing from the full claim: a retry, see
    [C41_retry_refuted]. [D0] is what the data file contained so far. *)
Theorem C41_failure_keeps_metadata_partial D0 t ls x rest s r s' : life D0 s -> lines_text ls = D0 ++ t -> fits (lines_text ls) ls [] -> not_object x ->
  zlen (lines_text ls ++ x ++ 10 :: rest) < 2^63 -> sync (lines_text ls ++ x ++ 10 :: rest) s = (r, s') -> zlen (file s') < 2^60 ->
  r = Err (EMsg "only json objects are supported at the root") /\
  (exists m, reads s (if_metadata file_slot) m /\ reads s' (if_metadata file_slot) m) /\
  forall i, In i (ids (occs 0 ls)) -> exists_index s' i.
Proof.
  intros Hl Ht Hfit Hx Hz E Hf. rewrite Ht in Hfit. destruct (@life_state D0 s Hl ls [] t Hfit) as (a & b & u & -> & Hu & Hs).
  set (D := lines_text (a ++ b) ++ x ++ 10 :: rest) in *. assert (Hm : D = D0 ++ (t ++ x ++ 10 :: rest)) by (unfold D; rewrite Ht, <- app_assoc; reflexivity).
  assert (Hs' : state_of D a s) by (rewrite Hm; apply state_more; auto; rewrite <- Hm; auto).
  destruct Hfit as (_ & _ & Hls & Hoc). rewrite occs_app in Hoc. apply Forall_app in Hoc. destruct Hoc as [_ Ho2]. cbn [Z.add] in Ho2. apply Forall_app in Hls. destruct Hls as [_ Hl2].
  destruct (@sync_bad D a b x rest s eq_refl Hx Hl2 Ho2 Hs') as (l' & s2 & E2 & Hi & Hl'); [rewrite E; exact Hf|]. rewrite E in E2. injection E2 as -> ->. split; auto. split.
  - eexists. split; [exact (state_meta Hs)|exact (C22_metadata (wd_ok grams) Hi)].
  - intros i Hin. assert (X : In i (map (fun c => (ci_name c, ci_type c)) (map strip l'))).
    { rewrite Hl'. unfold JsonlHist.expected. rewrite map_map. cbn [ci_name ci_type]. apply in_map_iff. exists i. split; auto. destruct i; reflexivity. }
    rewrite map_map in X. apply in_map_iff in X. destruct X as (ix & <- & Hix). eexists. cbn [fst snd strip ci_name ci_type].
    exact (@C23_existing_is_found determine_type parse D _ l' s2 _ _ ix (wd_ok grams) Hi Hix eq_refl eq_refl).
Qed.
Lemma sync_bad_first D fm l s before x rest : ifile D fm l s -> D = before ++ x ++ 10 :: rest -> fm_read_offset fm = zlen before -> not_object x ->
  exists p, sync D s = (Err (EMsg "only json objects are supported at the root"), set_pos s p).
Proof.
  intros Hi HD Hro (Hnl & Hx). destruct (ifile_metadata Hi) as (p & E & _). exists p. unfold jsonl_sync. rewrite (@bind_ok _ _ _ _ _ _ _ _ E).
  cbn [sync_loop]. cbv zeta. rewrite Hro. pose proof (zlen_nonneg x). pose proof (zlen_nonneg rest).
  destruct (Z.ltb_spec (zlen D) (zlen before)) as [Hz|_]; [rewrite HD, !zlen_app, zlen_cons in Hz; lia|].
  assert (Esk : skipn (Z.to_nat (zlen before)) D = x ++ 10 :: rest) by (rewrite HD; unfold zlen; rewrite Nat2Z.id, skipn_app, skipn_all, Nat.sub_diag; reflexivity).
  rewrite Esk, (@index_byte_line unquote to_float grams float_8 x _ Hnl).
  assert (Esl : slice D (zlen before) (zlen x) = x) by (unfold slice; rewrite Esk; unfold zlen; rewrite Nat2Z.id, firstn_app, Nat.sub_diag, firstn_all; cbn [firstn]; apply app_nil_r).
  rewrite Esl, (@root_bad unquote to_float grams float_8 x Hx). reflexivity.
Qed.
(** If the bad line is the first new one, nothing was changed; once the data file is
    corrected from that line on, Synchronize succeeds and indexes every field of every
    line once. ([C41_retry_refuted]: not so if a good new line precedes it.) *)
Theorem C41_retry_partial D0 ls0 tail0 s s1 t1 x rest r s2 t2 ls tail r' s3 :
  life D0 s -> fits D0 ls0 tail0 -> sync D0 s = (Ok tt, s1) -> zlen (file s1) < 2^60 ->
  (* the bad line *) tail0 ++ t1 = x ++ 10 :: rest -> not_object x -> zlen (D0 ++ t1) < 2^63 -> sync (D0 ++ t1) s1 = (r, s2) ->
  (* the correction *) fits (D0 ++ t2) ls tail -> zlen (D0 ++ t2) < 2^63 -> sync (D0 ++ t2) s2 = (r', s3) -> zlen (file s3) < 2^60 ->
  r = Err (EMsg "only json objects are supported at the root") /\ file s2 = file s1 /\
  r' = Ok tt /\ reads s3 (if_metadata file_slot) (FM 1 0 (zlen (lines_text ls)) (zlen ls)) /\
  (forall i, In i (ids (occs 0 ls)) -> index_shows (D0 ++ t2) s3 i (total_of (occs 0 ls) i) (entries_of (occs 0 ls) i)) /\
  (forall i, legal_id i -> exists_index s3 i -> In i (ids (occs 0 ls))).
Proof.
  intros Hl Hf0 E1 F1 Ht1 Hx Z1 E2 Hf2 Z2 E3 F3.
  pose proof (@lf_sync D0 s (Ok tt) s1 Hl E1 F1) as Hl1.
  destruct (life_sync Hl Hf0) as (y & X1 & S1); [rewrite E1; exact F1|]. rewrite E1 in X1. injection X1 as <-.
  destruct S1 as (l & Hi & Hrest). pose proof (if_more t1 Hi Z1) as Hi1. destruct Hf0 as (HD0 & _ & _).
  destruct (@sync_bad_first (D0 ++ t1) _ l s1 (lines_text ls0) x rest Hi1) as (p & Ep); auto.
  { rewrite HD0. unfold data_of. rewrite <- app_assoc, Ht1. reflexivity. }
  rewrite E2 in Ep. injection Ep as -> ->. split; auto. split; [reflexivity|].
  destruct (@life_state D0 s1 Hl1 ls tail t2 Hf2) as (a & b & u & -> & Hu & Sa).
  assert (S2 : state_of (D0 ++ t2) a (set_pos s1 p)).
  { apply state_more; auto. destruct Sa as (la & Ha & Ra). exists la. split; auto. apply if_read. exact Ha. }
  destruct (@sync_state (D0 ++ t2) a b tail (set_pos s1 p) Hf2 S2) as (y & Y1 & Y2); [left; rewrite E3; exact F3|]. rewrite E3 in Y1. injection Y1 as -> <-.
  split; auto. split; [exact (state_meta Y2)|]. split; [intros i Hin; apply state_shows; auto|]. intros i Hi' He. exact (@state_only (D0 ++ t2) (a ++ b) s3 i Y2 F3 Hi' He).
Qed.

(** *** C42 *)
(** Within the limits: of every entry of every index of strings, the data file range
    of the key parses to the key's value. Missing: white space before the colon. *)
Theorem C42_string_keys_reparse_partial D s ls tail r s' i total es : life D s -> fits D ls tail -> sync D s = (r, s') -> zlen (file s') < 2^60 ->
  In i (ids (occs 0 ls)) -> snd i = FTString -> index_lists D s' i total es ->
  Forall (fun e => parse (slice D (mp_off (rv_dp (fst e))) (mp_len (rv_dp (fst e)))) = Some (rv_val (fst e))) es.
Proof.
  intros Hl Hfit E Hf Hin Hft Hls. destruct (life_sync Hl Hfit) as (s2 & E2 & S2); [rewrite E; exact Hf|]. rewrite E in E2. injection E2 as -> ->.
  destruct (state_ids S2) as (l & Hi & Hids & _). rewrite <- Hids in Hin. apply in_map_iff in Hin. destruct Hin as (ix & <- & Hix). cbn [fst snd] in *.
  destruct (ifile_holds (wd_ok grams) Hi) as (_ & fl & ms & x0 & L & H). apply In_nth_error in Hix. destruct Hix as (k & Hk).
  destruct (holds_nth _ H Hk) as (x & Hx & (C1 & C2 & C3 & C4 & C5) & Ea). pose proof (cells_sys _ (ho_cells H) Hx) as Hsys. rewrite C4, <- Ea in Hsys.
  destruct Hls as (m & R & W). cbn [fst snd] in *.
  destruct (@C23_existing_is_found determine_type parse D _ l s2 _ _ ix (wd_ok grams) Hi (nth_error_In _ _ Hk) eq_refl eq_refl) as (q & Eq & _).
  destruct R as (q' & Eq' & _). rewrite Eq in Eq'. injection Eq' as <- _ _.
  assert (Wx : forall n, walk (mkCodec (determine_type (ix_type ix)) D parse) (ix_at ix) s2 least n = Ok (firstn n (c_es x))).
  { intros n. pose proof (least_all Hsys) as Hla. change (mkCodec (determine_type (ix_type ix)) D parse) with (ix_codec determine_type parse D (ix_type ix)). rewrite (@sys_walk _ s2 _ fl _ (c_pgs x) least n Hsys (or_intror Hla)). destruct (@below_none least (c_es x) Hla) as [_ ->]. reflexivity. }
  assert (Ees : es = c_es x).
  { pose proof (W (length es + length (c_es x))%nat) as Y. rewrite Wx in Y. injection Y as Y. rewrite !firstn_all2 in Y by lia. auto. }
  subst es. apply Forall_forall. intros e He. pose proof (sys_keys_ok Hsys _ He) as Hko. rewrite Hft in Hko. destruct Hko as [_ Hko]. cbn in Hko. exact (proj2 Hko).
Qed.
(** With white space between the key and its colon the range starts before the colon
    and never parses to the value. *)
Theorem C42_space_before_colon_refuted p k w2 w3 b q c : ws (c :: w2) -> ws w3 -> str_body b ->
  let D := p ++ 34 :: k ++ 34 :: (c :: w2) ++ 58 :: w3 ++ vtext (JStr b) ++ q in
  let key_end := zlen p + zlen k + 2 in
  let from := key_end + 1 in
  let to := key_end + zlen (c :: w2) + 1 + zlen w3 + zlen (vtext (JStr b)) in
  parse (slice D from (to - from)) = Some [].
Proof.
  intros Hw Hw3 Hb D key_end from to. assert (Es : slice D from (to - from) = w2 ++ 58 :: w3 ++ vtext (JStr b)).
  { replace D with ((p ++ 34 :: k ++ 34 :: [c]) ++ (w2 ++ 58 :: w3 ++ vtext (JStr b)) ++ q).
    - apply slice_mid.
      + unfold from, key_end. repeat (rewrite zlen_app || rewrite zlen_cons). change (zlen (@nil Z)) with 0. lia.
      + unfold to, from, key_end. repeat (rewrite zlen_app || rewrite zlen_cons). lia.
    - unfold D. repeat first [rewrite <- app_assoc | progress (cbn [app])]. reflexivity. }
  rewrite Es. unfold jparse. rewrite token_two. unfold new_dec. inversion Hw as [|? ? _ Hw2]; subst.
  rewrite loop_skip, (@skip_d_ws unquote to_float w2) by exact Hw2. reflexivity.
Qed.

(** C40: parsing the text of a scalar again, with the white space in front of it, gives the bytes of its key; so
    a key that is stored without its bytes can be read back from the data file. *)
Theorem C40_parse_gives_the_key w v b : ws w -> vwf to_float v -> key_bytes unquote to_float v = Some b -> parse (w ++ vtext v) = Some b.
Proof.
  intros Hw Hv Hk. assert (Hs : is_scalar v = true) by (destruct v; [reflexivity|reflexivity|reflexivity|reflexivity|discriminate|discriminate]).
  unfold jparse, new_dec. rewrite <- (app_nil_r (vtext v)).
  rewrite (@token_scalar unquote to_float TopValue w TopValue v [] 0 [] (pre_ws _ Hw) eq_refl Hv Hs I).
  destruct v; cbn [key_bytes vtok] in *; try discriminate; try (injection Hk as <-; reflexivity).
Qed.
End P.
