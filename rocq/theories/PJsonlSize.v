(** C85: the size of the index file of a JSONL data file. *)
From Coq Require Import Permutation Sorted.
From Verif Require Import Base Varint Store PageFile PageHist RefValue Node LinkedPage BPTree BPRepr BPIter BPInsert BPLoop BPTop PTree Meta Slots SlotAdd PSlots Cells IndexFile IFileInv PIndex PSpace Json Jsonl Grows JsonlRun JsonDoc JsonlDoc JsonlSpec JsonlHist PJsonl.

Section P.
Variables (unquote : bytes -> bytes) (to_float : bytes -> option bytes) (grams : bytes -> Z -> res (list (bytes * Z * Z))) (hdrs : list bytes).
Hypothesis float_8 : forall t f, to_float t = Some f -> zlen f = 8.
Notation sync := (jsonl_sync unquote to_float grams hdrs file_slot).
Notation occs := (occs unquote).
Notation ids := (ids unquote to_float grams hdrs).
Notation expected := (expected unquote to_float grams hdrs).
Notation fits := (fits unquote to_float grams hdrs).
Notation life := (life unquote to_float grams hdrs).
Notation state_of := (state_of unquote to_float grams hdrs).
Notation postings := (postings unquote to_float grams hdrs).

(** ** Specification *)
(** A life of an index file, as in C37-C42, with nothing assumed about the size of
    the index file; the data file stays below 2^44 bytes. *)
Inductive history : bytes -> st -> Prop :=
| hi_new k s h s' : new_page_file (open_rws k []) = (Ok tt, s) -> new_index_file 0 s = (Ok h, s') -> history [] s'
| hi_data D t s : history D s -> zlen (D ++ t) < 2^44 -> history (D ++ t) s
| hi_sync D s r s' : history D s -> sync D s = (r, s') -> history D s'
| hi_open D s k s1 h s2 : history D s -> new_page_file (open_rws k (file s)) = (Ok tt, s1) -> new_index_file 0 s1 = (Ok h, s2) -> history D s2.

(** ** Proofs *)
Definition psize (p : posting) : Z := 1 + zlen (po_entries p).
Definition sum_of {A} (f : A -> Z) (l : list A) : Z := fold_right (fun x t => f x + t) 0 l.
Lemma sum_of_app {A} (f : A -> Z) a b : sum_of f (a ++ b) = sum_of f a + sum_of f b.
Proof. unfold sum_of. induction a as [|x a IH]; cbn [app fold_right]; lia. Qed.
Lemma sum_of_map {A B} (g : A -> B) (f : B -> Z) l : sum_of f (map g l) = sum_of (fun x => f (g x)) l.
Proof. unfold sum_of. induction l as [|x l IH]; cbn [map fold_right]; lia. Qed.
Lemma sum_of_nonneg {A} (f : A -> Z) l : (forall x, 0 <= f x) -> 0 <= sum_of f l.
Proof. intros H. unfold sum_of. induction l as [|x l IH]; cbn [fold_right]; [lia|]. pose proof (H x). lia. Qed.
(** every posting counts for one index only *)
Lemma one_index p (k : Z) : 0 <= k -> forall is, NoDup is -> sum_of (fun i => if id_eqb (po_id p) i then k else 0) is <= k.
Proof.
  intros Hk. induction is as [|i is IH]; intros Hn; [cbn; lia|]. inversion Hn as [|? ? H1 H2]; subst. cbn [sum_of fold_right]. fold (sum_of (fun i => if id_eqb (po_id p) i then k else 0) is).
  destruct (id_eqb (po_id p) i) eqn:E; [|apply IH in H2; lia]. apply id_eqb_spec in E. subst i.
  assert (Z0 : sum_of (fun i => if id_eqb (po_id p) i then k else 0) is = 0); [|lia].
  clear - H1. induction is as [|j is IH]; [reflexivity|]. cbn [sum_of fold_right]. fold (sum_of (fun i => if id_eqb (po_id p) i then k else 0) is). rewrite IH by (intros X; apply H1; right; exact X).
  destruct (id_eqb (po_id p) j) eqn:E; [|lia]. apply id_eqb_spec in E. exfalso. apply H1. left. congruence.
Qed.
Definition nent (ps : list posting) (i : bytes * Z) : Z := zlen (pentries ps i).
Lemma nent_cons p ps i : nent (p :: ps) i = (if id_eqb (po_id p) i then zlen (po_entries p) else 0) + nent ps i.
Proof. unfold nent, pentries. cbn [filter]. destruct (id_eqb (po_id p) i); cbn [flat_map]; [apply zlen_app|reflexivity]. Qed.
Lemma all_indexes is : NoDup is -> forall ps, sum_of (nent ps) is <= sum_of (fun p => zlen (po_entries p)) ps.
Proof.
  intros Hn. induction ps as [|p ps IH].
  - assert (X : sum_of (nent []) is = 0); [|rewrite X; cbn; lia]. clear Hn. induction is as [|i is IH]; [reflexivity|]. unfold sum_of in *. cbn [fold_right]. rewrite IH. reflexivity.
  - assert (E : sum_of (nent (p :: ps)) is = sum_of (fun i => if id_eqb (po_id p) i then zlen (po_entries p) else 0) is + sum_of (nent ps) is).
    { clear. unfold sum_of. induction is as [|i is IH]; [reflexivity|]. cbn [fold_right]. rewrite IH, nent_cons. lia. }
    rewrite E. pose proof (@one_index p _ (zlen_nonneg (po_entries p)) is Hn). unfold sum_of in *. cbn [fold_right]. lia.
Qed.
Lemma firsts_length l : zlen (firsts l) <= zlen l.
Proof.
  induction l as [|x l IH]; cbn [firsts]; [lia|]. rewrite !zlen_cons.
  assert (forall f : bytes * Z -> bool, zlen (filter f (firsts l)) <= zlen (firsts l)); [|pose proof (H (fun y => negb (id_eqb y x))); lia].
  intros f. generalize (firsts l). intros m. induction m as [|y m IHm]; cbn [filter]; [lia|]. destruct (f y); rewrite ?zlen_cons; lia.
Qed.
Lemma pot_expected l : pot (expected l) <= sum_of psize (posts unquote to_float grams hdrs l).
Proof.
  rewrite expected_posts. set (ps := posts unquote to_float grams hdrs l). unfold pexpected, pot. rewrite zlen_map.
  pose proof (firsts_length (map po_id ps)) as H1. rewrite zlen_map in H1. pose proof (@all_indexes (firsts (map po_id ps)) (firsts_nodup _) ps) as H2.
  assert (E1 : fold_right (fun c t => zlen (ci_es c) + t) 0 (map (fun i => CI (fst i) (snd i) (ptotal ps i) (rev (pentries ps i))) (firsts (map po_id ps))) = sum_of (nent ps) (firsts (map po_id ps))).
  { generalize (firsts (map po_id ps)). intros is. induction is as [|i is IH]; [reflexivity|]. cbn [map fold_right sum_of ci_es]. rewrite IH. unfold sum_of, nent, zlen. rewrite rev_length. reflexivity. }
  rewrite E1. assert (E2 : sum_of psize ps = zlen ps + sum_of (fun p => zlen (po_entries p)) ps); [|lia].
  clear. unfold sum_of. induction ps as [|p ps IH]; [reflexivity|]. cbn [fold_right]. rewrite IH, zlen_cons. unfold psize. lia.
Qed.
(** ** The cost of the fields of a text *)
Definition osize (o : occ) : Z := sum_of psize (postings o).
Lemma posts_osize l : sum_of psize (posts unquote to_float grams hdrs l) = sum_of osize l.
Proof. unfold posts. induction l as [|o l IH]; [reflexivity|]. cbn [flat_map]. rewrite sum_of_app, IH. reflexivity. Qed.
Lemma nodup_range (l : list Z) r : NoDup l -> Forall (fun x => 0 <= x < r) l -> zlen l <= Z.max 0 r.
Proof.
  intros Hn Hr. assert (incl l (map Z.of_nat (seq 0 (Z.to_nat r)))).
  { intros x Hx. rewrite Forall_forall in Hr. pose proof (Hr _ Hx). apply in_map_iff. exists (Z.to_nat x). split; [lia|]. apply in_seq. lia. }
  pose proof (NoDup_incl_length Hn H) as X. rewrite map_length, seq_length in X. unfold zlen. lia.
Qed.
Lemma entry_size o : zlen (entry unquote to_float o) <= 1.
Proof. unfold entry. destruct (key_bytes _ _ _); [reflexivity|]. change (zlen (@nil (rv * mptr))) with 0. lia. Qed.
Lemma osize_bound o : search_fits unquote grams hdrs o -> 0 <= fd_to (fst o) - fd_from (fst o) ->
  osize o <= match fd_value (fst o) with JStr _ => 5 + 3 * (fd_to (fst o) - fd_from (fst o)) | _ => 2 end.
Proof.
  intros Hs Hr. unfold osize, JsonlSpec.postings, sum_of. pose proof (entry_size o) as He. cbn [fold_right]. unfold psize at 1. cbn [po_entries].
  destruct (fd_value (fst o)) as [| | |b| |] eqn:Ev; try (cbn [fold_right]; lia).
  destruct (searched hdrs (fd_name (fst o))) eqn:Es; [|cbn [fold_right]; lia].
  specialize (Hs Es). unfold gram_fits in Hs. rewrite Ev in Hs. destruct Hs as [_ Hs].
  assert (G : forall n ft, 1 <= n <= 3 -> psize (gram_posting grams o (unquote b) n ft) <= 1 + (fd_to (fst o) - fd_from (fst o))).
  { intros n ft Hn. destruct (Hs n Hn) as (l & El & Nd & Fa). unfold psize, gram_posting, pieces. cbn [po_entries]. rewrite El, zlen_map.
    pose proof (@nodup_range (map (fun w : bytes * Z * Z => snd (fst w)) l) (fd_to (fst o) - fd_from (fst o)) Nd) as X. rewrite zlen_map in X. rewrite Z.max_r in X by lia.
    assert (zlen l <= fd_to (fst o) - fd_from (fst o)); [|lia]. apply X. apply Forall_map. eapply Forall_impl; [|exact Fa]. cbn. intros w Hw. apply Hw. }
  unfold gram_postings. cbn [fold_right]. pose proof (G 1 FTUnigram ltac:(lia)). pose proof (G 2 FTBigram ltac:(lia)). pose proof (G 3 FTTrigram ltac:(lia)). lia.
Qed.
Definition okf (mp : mptr) (f : field) : Prop := search_fits unquote grams hdrs (f, mp).
Definition fsize (mp : mptr) (f : field) : Z := osize (f, mp).
Ltac zl := repeat first [rewrite zlen_app|rewrite zlen_cons]; change (zlen (@nil Z)) with 0.
Lemma fields_size mp : (forall v path pos, Forall (okf mp) (vfields unquote path pos v) -> sum_of (fsize mp) (vfields unquote path pos v) <= 3 * zlen (vtext v)) /\
  (forall l path pos first, Forall (okf mp) (mfields unquote path pos first l) -> sum_of (fsize mp) (mfields unquote path pos first l) <= 3 * zlen (mtext first l)).
Proof.
  assert (N : forall v, 0 <= zlen (vtext v)) by (intros; apply zlen_nonneg).
  set (PV := fun v => forall path pos, Forall (okf mp) (vfields unquote path pos v) -> sum_of (fsize mp) (vfields unquote path pos v) <= 3 * zlen (vtext v)).
  set (PM := fun l => forall path pos first, Forall (okf mp) (mfields unquote path pos first l) -> sum_of (fsize mp) (mfields unquote path pos first l) <= 3 * zlen (mtext first l)).
  assert (S : forall v, PV v -> forall l, PM l -> forall w1 k w2 w3 w4, PM (MCons w1 k w2 w3 v w4 l)).
  { intros v IV l IM w1 k w2 w3 w4 path pos first H. cbn [mfields] in *. cbv zeta in *. inversion H as [|? ? H1 H2]; subst. apply Forall_app in H2. destruct H2 as [H2 H3].
    unfold sum_of. cbn [fold_right]. set (F := FD _ _ _ _) in *. pose proof (IV _ _ H2) as I1. pose proof (IM _ _ _ H3) as I2.
    assert (Ef : fd_to F - fd_from F = zlen w2 + zlen w3 + zlen (vtext v)) by (cbn; lia).
    pose proof (zlen_nonneg w1). pose proof (zlen_nonneg w2). pose proof (zlen_nonneg w3). pose proof (zlen_nonneg w4). pose proof (zlen_nonneg k). pose proof (N v). pose proof (zlen_nonneg (mtext false l)). pose proof (zlen_nonneg (comma first)).
    pose proof (@osize_bound (F, mp) H1) as O. cbn [fst] in O. rewrite Ef in O. specialize (O ltac:(lia)). change (fd_value F) with v in O. fold (fsize mp F) in O.
    unfold sum_of in *. rewrite fold_right_app. 
    assert (X : forall x m, fold_right (fun f t => fsize mp f + t) x m = fold_right (fun f t => fsize mp f + t) 0 m + x) by (intros x m; induction m as [|y m IHm]; cbn [fold_right]; lia).
    rewrite X. cbn [mtext]. zl. destruct v; cbn [vfields fold_right] in *; try lia. }
  assert (G : (forall v, PV v) /\ (forall l : jitems, True) /\ (forall l, PM l)).
  { apply (json_ind PV (fun _ => True) PM); unfold PV; auto.
    - intros path pos _. cbn [vfields sum_of fold_right]. pose proof (N JNull). lia.
    - intros b path pos _. cbn [vfields sum_of fold_right]. pose proof (N (JBool b)). lia.
    - intros b path pos _. cbn [vfields sum_of fold_right]. pose proof (N (JNum b)). lia.
    - intros b path pos _. cbn [vfields sum_of fold_right]. pose proof (N (JStr b)). lia.
    - intros w l _ path pos _. cbn [vfields sum_of fold_right]. pose proof (N (JArr w l)). lia.
    - intros w l IM path pos H. change (vfields unquote path pos (JObj w l)) with (mfields unquote path (pos + 1 + zlen w) true l) in *. apply IM in H. change (vtext (JObj w l)) with (123 :: w ++ mtext true l ++ [125]). zl. pose proof (zlen_nonneg w). lia.
    - intros path pos first _. cbn [mfields sum_of fold_right mtext]. zl. lia. }
  split; [apply G|apply G].
Qed.
Lemma occs_size : forall ls at_, Forall (fun o => search_fits unquote grams hdrs o) (occs at_ ls) -> sum_of osize (occs at_ ls) <= 3 * zlen (lines_text ls).
Proof.
  induction ls as [|x ls IH]; intros at_ H; [apply Z.le_refl|]. cbn [JsonlSpec.occs lines_text] in *. apply Forall_app in H. destruct H as [H1 H2]. rewrite sum_of_app, sum_of_map.
  apply IH in H2. rewrite Forall_map in H1. apply (proj2 (fields_size (MP at_ (zlen (line_text x))))) in H1. unfold fsize in H1. rewrite zlen_app, zlen_cons.
  assert (El : zlen (line_text x) = zlen (ln_before x) + (1 + zlen (ln_ws x) + zlen (mtext true (ln_members x)) + 1) + zlen (ln_after x)).
  { unfold line_text. change (vtext (JObj (ln_ws x) (ln_members x))) with (123 :: ln_ws x ++ mtext true (ln_members x) ++ [125]). zl. lia. }
  pose proof (zlen_nonneg (ln_before x)). pose proof (zlen_nonneg (ln_ws x)). pose proof (zlen_nonneg (ln_after x)).
  eapply Z.le_trans; [apply Z.add_le_mono; [exact H1|exact H2]|]. rewrite El. lia.
Qed.
Lemma fits_pot D ls tail : fits D ls tail -> pot (expected (occs 0 ls)) <= 3 * zlen D.
Proof.
  intros (HD & _ & _ & Hn). pose proof (pot_expected (occs 0 ls)) as H1. rewrite posts_osize in H1.
  pose proof (@occs_size ls 0) as H2. assert (Hs : Forall (fun o => search_fits unquote grams hdrs o) (occs 0 ls)) by (eapply Forall_impl; [|exact Hn]; intros o Ho; apply Ho). apply H2 in Hs.
  rewrite HD. unfold data_of. rewrite zlen_app. pose proof (zlen_nonneg tail). lia.
Qed.
Lemma state_size D ls tail s : fits D ls tail -> state_of D ls s -> zlen (file s) <= 4096 * (3 + 6 * zlen D).
Proof.
  intros Hfit (l & Hi & Hl & _). pose proof (fits_pot Hfit) as P. rewrite <- Hl in P. pose proof (C71_space_bound (wd_ok grams) Hi) as B. unfold pot in P. rewrite zlen_map in P.
  assert (E : total_entries l = fold_right (fun c t => zlen (ci_es c) + t) 0 (map strip l)) by (unfold total_entries; clear; induction l as [|x l IH]; cbn [map fold_right]; [reflexivity|]; rewrite IH; reflexivity).
  rewrite <- E in P. assert (0 <= total_entries l) by (unfold total_entries; clear; induction l as [|x l IH]; cbn [fold_right]; [lia|]; pose proof (zlen_nonneg (ix_es x)); lia).
  pose proof (zlen_nonneg l). assert ((zlen l + 1) / 15 <= zlen l + 1) by (apply Z.div_le_upper_bound; lia). lia.
Qed.
Lemma life_sync_small D s ls tail : life D s -> fits D ls tail -> zlen D < 2^44 -> exists s', sync D s = (Ok tt, s') /\ state_of D ls s' /\ zlen (file s') < 2^60.
Proof.
  intros Hl Hfit Hz. assert (Hfit' : fits (D ++ []) ls tail) by (rewrite app_nil_r; auto).
  destruct (@life_state unquote to_float grams hdrs float_8 D s Hl ls tail [] Hfit') as (a & b & u & -> & Hu & Hs).
  destruct (@sync_state unquote to_float grams hdrs float_8 D a b tail s Hfit Hs) as (s' & E & S'); [right; pose proof (fits_pot Hfit); lia|].
  exists s'. split; [exact E|]. split; [exact S'|]. pose proof (state_size Hfit S'). lia.
Qed.
Lemma history_short D s : history D s -> zlen D < 2^44.
Proof. induction 1; auto. change (zlen (@nil Z)) with 0. lia. Qed.
Lemma history_life D s : history D s -> forall ls tail t, fits (D ++ t) ls tail -> life D s.
Proof.
  induction 1 as [k s h s' E1 E2|D t0 s H IH Hz|D s r s' H IH E|D s k s1 h s2 H IH E1 E2]; intros ls tail t Hfit.
  - eapply lf_new; eauto.
  - rewrite <- app_assoc in Hfit. apply lf_data; [eapply IH; eauto|lia].
  - pose proof (IH _ _ _ Hfit) as Hl. destruct (@cut unquote to_float grams float_8 ls tail D t) as (a & b & tail' & -> & HD & Ht).
    { destruct Hfit as (_ & _ & X & _). eapply Forall_impl; [|exact X]. intros x Hx. apply Hx. }
    { apply Hfit. }
    { apply Hfit. }
    pose proof (@fits_part unquote to_float grams hdrs _ _ _ _ tail' D Hfit HD Ht) as Hfit2.
    destruct (@life_sync_small D s a tail' Hl Hfit2 (history_short H)) as (s2 & E2 & _ & F2). rewrite E in E2. injection E2 as -> ->.
    eapply lf_sync; eauto.
  - eapply lf_open; eauto.
Qed.

(** Nothing needs to be assumed about the index file: with a data file of less than
    2^44 bytes within the limits of C37-C42, every Synchronize of every life succeeds,
    and leaves an index file of less than 24576 bytes for each byte of the data file,
    three pages aside. *)
Theorem C85_index_file_size D s ls tail r s' : history D s -> fits D ls tail -> sync D s = (r, s') ->
  r = Ok tt /\ zlen (file s') <= 4096 * (3 + 6 * zlen D).
Proof.
  intros H Hfit E. assert (Hfit' : fits (D ++ []) ls tail) by (rewrite app_nil_r; auto).
  destruct (@life_sync_small D s ls tail (@history_life D s H ls tail [] Hfit') Hfit (history_short H)) as (s2 & E2 & S2 & _). rewrite E in E2. injection E2 as -> ->.
  split; [reflexivity|]. eapply state_size; eauto.
Qed.
(** ... so what C37-C42 say about lives with an index file below 2^60 bytes holds of
    all of them: every such history is such a life. *)
Theorem C85_every_history_is_a_life D s ls tail r s' : history D s -> fits D ls tail -> sync D s = (r, s') ->
  life D s /\ life D s' /\ zlen (file s') < 2^60.
Proof.
  intros H Hfit E. assert (Hfit' : fits (D ++ []) ls tail) by (rewrite app_nil_r; auto).
  pose proof (@history_life D s H ls tail [] Hfit') as Hl. destruct (@life_sync_small D s ls tail Hl Hfit (history_short H)) as (s2 & E2 & S2 & F2). rewrite E in E2. injection E2 as -> ->.
  split; [exact Hl|]. split; [eapply lf_sync; eauto|exact F2].
Qed.
(** for example the read offset (C37), the contents (C40) and the equality of batch and
    incremental indexing (C39), with no hypothesis on sizes but that of the data file *)
Theorem C85_contents D s ls tail r s' : history D s -> fits D ls tail -> sync D s = (r, s') ->
  r = Ok tt /\ reads s' (if_metadata file_slot) (FM 1 0 (zlen (lines_text ls)) (zlen ls)) /\
  (forall i, In i (ids (occs 0 ls)) -> index_shows unquote to_float D s' i (total_of unquote to_float grams hdrs (occs 0 ls) i) (entries_of unquote to_float grams hdrs (occs 0 ls) i)) /\
  (forall i, legal_id i -> exists_index s' i -> In i (ids (occs 0 ls))) /\
  reads s' (if_field_names file_slot) (first_appearances (map fst (ids (occs 0 ls)))).
Proof.
  intros H Hfit E. destruct (C85_every_history_is_a_life H Hfit E) as (Hl & _ & F).
  destruct (@C37_read_offset_and_entries unquote to_float grams hdrs float_8 D s ls tail r s' Hl Hfit E F) as [-> R].
  destruct (@C40_every_field_and_nothing_else_partial unquote to_float grams hdrs float_8 D s ls tail _ s' Hl Hfit E F) as (_ & A & B & C). auto.
Qed.
End P.
