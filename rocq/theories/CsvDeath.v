(** The death of the process at any write of a Synchronize of a CSV data file: what is
    left of the index file (Death.v, [dead]). The structure is that of CsvRun.v. *)
From Coq Require Import Permutation.
From Verif Require Import Base Varint Store PageFile PageHist RefValue Node LinkedPage BPTree BPRepr BPIter BPInsert BPLoop BPTop PTree Meta Slots SlotAdd PSlots Cells IndexFile IFileInv PIndex Json Jsonl Grows JsonlRun JsonlSpec JsonlHist Csv CsvSpec CsvRun Crash PCrash SyncCrash PSyncCrash PCsv Death.

Section C.
Variable num : bytes -> option bytes.
Notation cpf := (fun v => Some (csv_parse num v)).
Notation ifile := (ifile wd0 cpf).
Notation dead := (dead wd0 cpf).
Notation sync := (csv_sync num file_slot).
Lemma cbudget D fm l s : ifile D fm l s -> budget s = None.
Proof. intros Hi. destruct (ifile_holds wd0_ok Hi) as (_ & fl & ms & x0 & L & H). exact (cl_bud (ho_cells H)). Qed.
Lemma subs_cexpected q : forall l, subs (cexpected l) (cexpected (l ++ q)).
Proof.
  induction q as [|o q IH]; intros l; [rewrite app_nil_r; apply subs_refl|]. replace (l ++ o :: q) with ((l ++ [o]) ++ q) by (rewrite <- app_assoc; reflexivity).
  eapply subs_trans; [|apply IH]. rewrite <- cexpected_snoc. apply subs_run.
Qed.
Lemma cw_csv_fields df data : forall rec hs cum, cw (csv_fields num file_slot df data hs rec cum).
Proof. induction rec as [|v rec IH]; intros [|h hs] cum; cbn [csv_fields]; [apply cw_ret|apply cw_ret|apply cw_fail|]. apply cw_bind; [apply cw_find|]. intros a. apply cw_bind; [apply cw_bp_insert|]. intros _. apply IH. Qed.
Lemma cw_csv_loop df : forall fuel hs m, cw (csv_loop num fuel file_slot df hs m).
Proof.
  induction fuel as [|fuel IH]; intros hs m; cbn [csv_loop]; [apply cw_lift|]. cbv zeta. destruct (zlen df <? fm_read_offset m); [apply cw_panic|]. destruct (index_byte _ _); [|apply cw_ret].
  apply cw_bind; [apply cw_lift|]. intros rec. destruct hs; [apply IH|]. apply cw_bind; [apply cw_csv_fields|]. intros _. apply IH.
Qed.
Lemma nb_names_from : forall fuel mp acc, nb (if_field_names_from fuel mp acc).
Proof.
  induction fuel as [|fuel IH]; intros mp acc; cbn [if_field_names_from]; [apply nb_lift|]. intros s b. rewrite nb_lp_next. destruct (lp_next mp s) as [[n|[|e]| | |] s1]; cbn [fst snd]; try reflexivity.
  match goal with |- bind ?m ?k _ = _ => assert (H : nb (bind m k)) end; [|apply H].
  apply nb_bind; [apply nb_lp_metadata|]. intros buf. apply nb_bind; [apply nb_lift|]. intros m. apply IH.
Qed.
Lemma nb_names : nb (if_field_names file_slot).
Proof. intros s b. unfold if_field_names. change (fuel_of (set_budget s b)) with (fuel_of s). apply nb_names_from. Qed.
(** one row *)
Lemma fields_dead D data fm : zlen D < 2^63 -> 0 <= mp_off data -> 0 <= mp_len data < 2^32 -> forall rec hs pre post cum l l0 s,
  D = pre ++ commas rec ++ post -> zlen pre = mp_off data + cum -> 0 <= cum -> cum + zlen (commas rec) < 2^32 -> (length rec <= length hs)%nat -> Forall (fun n => zlen n <= 245) hs ->
  ifile D fm l s -> map strip l = cexpected l0 -> below (mp_off data + cum) (cexpected l0) -> small (zlen (file (snd (csv_fields num file_slot D data hs rec cum s)))) (cexpected (l0 ++ cell_occs num data (mp_off data + cum) hs rec)) ->
  crashes (csv_fields num file_slot D data hs rec cum) s (dead D fm (cexpected (l0 ++ cell_occs num data (mp_off data + cum) hs rec))).
Proof.
  intros HD Hoff Hlen. induction rec as [|v rec IH]; intros hs pre post cum l l0 s HDe Hpre Hcum Hsm Hle Hhs Hi Hl Hb Hf.
  - cbn [csv_fields]. apply crashes_ret.
  - destruct hs as [|name hs]; [cbn [length] in Hle; lia|]. cbn [csv_fields cell_occs] in *. inversion Hhs as [|? ? Hn Hhs']; subst x l1.
    assert (Hc : exists tl, commas (v :: rec) = v ++ tl /\ (tl = [] /\ rec = [] \/ tl = 44 :: commas rec)).
    { destruct rec as [|w rec]; [exists []; rewrite app_nil_r; auto|exists (44 :: commas (w :: rec)); auto]. }
    destruct Hc as (tl & Etl & Htl). pose proof (zlen_nonneg v). pose proof (zlen_nonneg tl). pose proof (zlen_nonneg post). assert (Hz : zlen (commas (v :: rec)) = zlen v + zlen tl) by (rewrite Etl, zlen_app; auto).
    assert (HDz : zlen D = zlen pre + zlen v + zlen tl + zlen post) by (rewrite HDe, !zlen_app, Hz; lia).
    assert (Eo : u64 (mp_off data + cum) = mp_off data + cum) by (unfold u64; apply Z.mod_small; lia). assert (E3 : u32 (zlen v) = zlen v) by (unfold u32; apply Z.mod_small; lia).
    rewrite Eo, E3 in *. set (k := RV (MP (mp_off data + cum) (zlen v)) (csv_parse num v)) in *.
    set (o := ((name, cell_type num v), (k, data)) : cocc).
    match type of Hf with small _ (cexpected (l0 ++ ?x :: _)) => assert (Eok : x = o) by (unfold o, k; rewrite parse_spec; reflexivity) end. rewrite Eok in Hf |- *. clear Eok.
    set (q := cell_occs num data (mp_off data + cum + zlen v + 1) hs rec) in *.
    assert (Eapp : l0 ++ o :: q = (l0 ++ [o]) ++ q) by (rewrite <- app_assoc; reflexivity).
    assert (Hf1 : zlen (file s) < 2^60).
    { assert (G : grows (pm <- find_or_create file_slot name (infer num v) ;; bp_insert (ccodec num D) (fst pm) k data ;;; csv_fields num file_slot D data hs rec (u64 (cum + u32 (zlen v + 1))))) by (gr; apply grows_csv_fields). pose proof (G s). eapply csmall_before; [apply wd0_ok|exact Hi| |eassumption|exact Hf]. rewrite Hl. apply pot_cexpected. }
    rewrite infer_spec in *. destruct (@gen_find wd0 cpf wd0_ok D fm l s name (cell_type num v) Hi Hf1 Hn (type_range0 num v)) as (m & im & l1 & s1 & F1 & F2 & (ix & I1 & I2 & I3 & I4) & F3).
    apply crashes_bind_cw; [exact (cbudget Hi)|apply cw_find|rewrite F1; discriminate| |].
    { eapply crashes_mono; [|apply (@find_dead wd0 cpf D wd0_ok fm l s name (cell_type num v) Hi Hf1); [lia|apply type_range0]]. intros f. apply dead_mono. rewrite Hl. apply subs_cexpected. }
    intros a s1' Ea. rewrite F1 in Ea. injection Ea as <- <-.
    rewrite (@bind_ok _ _ _ _ _ _ _ _ F1) in *. cbn [fst snd] in *. subst m.
    assert (El1 : forall X, step (APut name (cell_type num v) k data) (map strip l1) = X -> X = cexpected (l0 ++ [o])).
    { intros X <-. rewrite <- cexpected_snoc. unfold facts2, o. cbn [fst snd run]. rewrite F3, Hl. reflexivity. }
    assert (Hf2 : zlen (file s1) < 2^60).
    { assert (G : grows (bp_insert (ccodec num D) (ix_at ix) k data ;;; csv_fields num file_slot D data hs rec (u64 (cum + u32 (zlen v + 1))))) by (gr; apply grows_csv_fields). pose proof (G s1). eapply csmall_before; [apply wd0_ok|exact F2| |eassumption|exact Hf]. rewrite F3, Hl, Eapp.
      eapply Z.le_trans; [|apply pot_cexpected]. rewrite <- cexpected_snoc. unfold facts2, o. cbn [fst snd run]. apply pot_step. }
    assert (Hb1 : below (mp_off data + cum) (map strip l1)).
    { rewrite F3, Hl. cbn [step]. destruct (existsb _ _); auto. intros c e Hc He. apply in_app_or in Hc. destruct Hc as [Hc|[<-|[]]]; [eapply Hb; eauto|contradiction]. }
    assert (Hop : op_ok (ix_codec wd0 cpf D (ix_type ix)) (k, data)).
    { unfold op_ok, ix_codec, wd0. cbn [fst snd rv_dp rv_val mp_off mp_len cwidth cdata cparse k]. split; [lia|]. split; [lia|]. split; [lia|]. split; [lia|]. split; [intros X; exfalso; apply X; reflexivity|]. intros _. split; [lia|].
      rewrite HDe, Etl. replace (pre ++ (v ++ tl) ++ post) with (pre ++ v ++ (tl ++ post)) by (rewrite <- app_assoc; reflexivity). rewrite slice_mid; [reflexivity|lia|reflexivity]. }
    destruct (@gen_put wd0 cpf wd0_ok D fm l1 s1 ix k data F2 Hf2 I1 Hop) as (l2 & s2 & P1 & P2 & P3).
    { left. reflexivity. }
    { intros c Hc _ X. apply in_map_iff in X. destruct X as (e & E & He). pose proof (Hb1 c e Hc He) as Y. rewrite E in Y. unfold koff, k in Y. cbn [rv_dp mp_off] in Y. lia. }
    change (ix_codec wd0 cpf D (ix_type ix)) with (ccodec num D) in P1.
    apply crashes_bind_cw; [exact (cbudget F2)|apply cw_bp_insert|rewrite P1; discriminate| |].
    { eapply crashes_mono; [|eapply (@put_dead wd0 cpf D wd0_ok fm l1 s1 (ix_at ix) name (cell_type num v) (ix_total ix) k data F2 Hf2)].
      - intros f. apply dead_mono. rewrite (El1 _ eq_refl), Eapp. apply subs_cexpected.
      - exists ix. auto 6.
      - rewrite <- I4. exact Hop. }
    intros [] s2' Ea. rewrite P1 in Ea. injection Ea as <-. rewrite (@bind_ok _ _ _ _ _ _ _ _ P1) in *.
    assert (El2 : map strip l2 = cexpected (l0 ++ [o])) by (rewrite I3, I4 in P3; apply El1; symmetry; exact P3).
    pose proof (@below_snoc (mp_off data + cum) l0 o Hb ltac:(unfold koff, o, k; cbn [fst snd rv_dp mp_off]; lia)) as Hb2. unfold koff at 1 in Hb2. cbn [o fst snd k rv_dp mp_off] in Hb2.
    rewrite Eapp in *. unfold q in *. replace (mp_off data + cum + zlen v + 1) with (mp_off data + (cum + zlen v + 1)) in * by lia.
    destruct Htl as [[-> ->]|Htl]; [cbn [csv_fields]; apply crashes_ret|].
    assert (Et : zlen tl = 1 + zlen (commas rec)) by (rewrite Htl, zlen_cons; reflexivity). pose proof (zlen_nonneg (commas rec)).
    assert (Ec : u64 (cum + u32 (zlen v + 1)) = cum + zlen v + 1) by (unfold u64, u32; rewrite (Z.mod_small (zlen v + 1)) by lia; rewrite Z.mod_small; lia). rewrite Ec in *.
    apply (IH hs (pre ++ v ++ [44]) post (cum + zlen v + 1) l2 (l0 ++ [o]) s2); auto.
    + rewrite HDe, Etl, Htl. repeat first [rewrite <- app_assoc|progress (cbn [app])]. reflexivity.
    + rewrite !zlen_app. change (zlen [44]) with 1. lia.
    + lia.
    + lia.
    + cbn [length] in Hle. lia.
    + eapply below_mono; [exact Hb2|]. lia.
Qed.
(** rows, when the header is known *)
Lemma rows_dead D fm v f e hs : zlen D < 2^63 -> hs <> [] -> Forall (fun n => zlen n <= 245) hs -> forall rows pre tail fuel l l0 s,
  D = pre ++ rows_text rows ++ tail -> ~ In 10 tail -> Forall row_plain rows -> Forall (fun r => (length (cells r) <= length hs)%nat) rows -> (length rows < fuel)%nat ->
  ifile D fm l s -> map strip l = cexpected l0 -> below (zlen pre) (cexpected l0) -> small (zlen (file (snd (csv_loop num fuel file_slot D hs (FM v f (zlen pre) e) s)))) (cexpected (l0 ++ row_occs num (zlen pre) hs rows)) ->
  crashes (csv_loop num fuel file_slot D hs (FM v f (zlen pre) e)) s (dead D fm (cexpected (l0 ++ row_occs num (zlen pre) hs rows))).
Proof.
  intros HD Hne Hhs. induction rows as [|r rows IH]; intros pre tail fuel l l0 s HDe Ht Hr Hlen Hfu Hi Hl Hb Hf; (destruct fuel as [|fuel]; [cbn [length] in Hfu; lia|]); cbn [csv_loop fm_read_offset rows_text row_occs] in *; cbv zeta in *.
  - pose proof (zlen_nonneg tail). destruct (Z.ltb_spec (zlen D) (zlen pre)) as [X|_]; [rewrite HDe, zlen_app in X; cbn [app] in X; lia|].
    replace (skipn (Z.to_nat (zlen pre)) D) with tail; [|rewrite HDe; cbn [app]; unfold zlen; rewrite Nat2Z.id, skipn_app, skipn_all, Nat.sub_diag; reflexivity].
    rewrite index_byte_none by auto. apply crashes_ret.
  - inversion Hr as [|? ? Hx Hr']; subst x l1. inversion Hlen as [|? ? Hlx Hlen']; subst x l1. pose proof (row_no10 Hx) as Hnl. pose proof Hx as (Hx1 & Hx2 & Hx3 & Hx4).
    pose proof (zlen_nonneg pre). pose proof (zlen_nonneg (row_text r)). pose proof (zlen_nonneg (rows_text rows)). pose proof (zlen_nonneg tail).
    assert (HDz : zlen D = zlen pre + zlen (row_text r) + 1 + zlen (rows_text rows) + zlen tail) by (rewrite HDe, !zlen_app, zlen_cons; lia).
    destruct (Z.ltb_spec (zlen D) (zlen pre)) as [X|_]; [lia|].
    assert (Esk : skipn (Z.to_nat (zlen pre)) D = row_text r ++ 10 :: rows_text rows ++ tail).
    { rewrite HDe. unfold zlen. rewrite Nat2Z.id, skipn_app, skipn_all, Nat.sub_diag. cbn [app skipn]. rewrite <- app_assoc. reflexivity. }
    rewrite Esk, index_byte_nl in Hf |- * by auto.
    assert (Esl : slice D (zlen pre) (zlen (row_text r)) = row_text r).
    { unfold slice. rewrite Esk. unfold zlen. rewrite Nat2Z.id, firstn_app, Nat.sub_diag, firstn_all. cbn [firstn]. apply app_nil_r. }
    rewrite Esl, read_row in Hf |- * by auto. rewrite (@bind_ok _ _ _ (lift (Ok (cells r))) _ s (cells r) s eq_refl) in Hf.
    apply crashes_bind_cw; [exact (cbudget Hi)|apply cw_lift|discriminate|apply crashes_lift; discriminate|]. intros rec s0 Es0. injection Es0 as <- <-.
    destruct hs as [|h0 hs0] eqn:Ehs; [congruence|]. rewrite <- Ehs in *.
    assert (Eu : u32 (zlen (row_text r)) = zlen (row_text r)) by (unfold u32; apply Z.mod_small; lia). rewrite Eu in Hf |- *. cbn [fm_version fm_format fm_entries] in *.
    assert (Eo : u64 (zlen pre + zlen (row_text r) + 1) = zlen pre + zlen (row_text r) + 1) by (unfold u64; rewrite Z.mod_small; lia). rewrite Eo in Hf |- *.
    set (data := MP (zlen pre) (zlen (row_text r))) in *.
    assert (Hf1 : small (zlen (file (snd (csv_fields num file_slot D data hs (cells r) 0 s)))) (cexpected (l0 ++ cell_occs num data (mp_off data + 0) hs (cells r)))).
    { cbn [mp_off data]. rewrite Z.add_0_r. destruct Hf as [Hf|Hf]; [left|right; eapply Z.le_lt_trans; [|exact Hf]; rewrite app_assoc; apply pot_cexpected].
      unfold bind in Hf. destruct (csv_fields num file_slot D data hs (cells r) 0 s) as [[a|e0| | |] s1]; cbn [snd] in *; auto. pose proof (grows_csv_loop num D fuel hs (FM v f (zlen pre + zlen (row_text r) + 1) e) s1). lia. }
    assert (Ert : zlen (row_text r) = zlen (commas (cells r)) + zlen (if cr r then [13] else [])) by (unfold row_text; apply zlen_app). pose proof (zlen_nonneg (if cr r then [13] else [])).
    assert (Hpost : D = pre ++ commas (cells r) ++ ((if cr r then [13] else []) ++ 10 :: rows_text rows ++ tail)).
    { rewrite HDe. unfold row_text. repeat first [rewrite <- app_assoc|progress (cbn [app])]. reflexivity. }
    assert (A1 : 0 <= mp_off data) by (cbn; lia). assert (A2 : 0 <= mp_len data < 2^32) by (cbn; lia). assert (A3 : zlen pre = mp_off data + 0) by (cbn [mp_off data]; lia).
    assert (A4 : 0 + zlen (commas (cells r)) < 2^32) by lia. assert (A5 : below (mp_off data + 0) (cexpected l0)) by (rewrite <- A3; exact Hb).
    destruct (@fields_run num D data fm HD A1 A2 (cells r) hs pre _ 0 l l0 s Hpost A3 (Z.le_refl 0) A4 Hlx Hhs Hi Hl A5 Hf1) as (l1 & s1 & R1 & R2 & R3 & R4).
    pose proof (@fields_dead D data fm HD A1 A2 (cells r) hs pre _ 0 l l0 s Hpost A3 (Z.le_refl 0) A4 Hlx Hhs Hi Hl A5 Hf1) as Rd.
    cbn [mp_off data] in R3, R4, Rd. rewrite Z.add_0_r in R3, R4, Rd.
    apply crashes_bind_cw; [exact (cbudget Hi)|apply cw_csv_fields|rewrite R1; discriminate| |].
    { eapply crashes_mono; [|exact Rd]. intros f0. apply dead_mono. rewrite app_assoc. apply subs_cexpected. }
    intros [] s1' Ea. rewrite R1 in Ea. injection Ea as <-. rewrite (@bind_ok _ _ _ _ _ _ _ _ R1) in Hf.
    assert (Ep : zlen pre + zlen (row_text r) + 1 = zlen (pre ++ row_text r ++ [10])) by (rewrite !zlen_app; change (zlen [10]) with 1; lia). rewrite Ep in Hf |- *. rewrite (app_assoc l0) in Hf |- *.
    apply (IH (pre ++ row_text r ++ [10]) tail fuel l1 (l0 ++ cell_occs num data (zlen pre) hs (cells r)) s1); auto.
    { rewrite HDe. repeat first [rewrite <- app_assoc|progress (cbn [app])]. reflexivity. }
    { cbn [length] in Hfu. lia. }
    { eapply below_mono; [exact R4|]. lia. }
Qed.
(** A Synchronize that dies leaves the old metadata, and indexes with entries among those
    it would have written. *)
Theorem csync_dead D h a b tail s : D = row_text h ++ 10 :: rows_text (a ++ b) ++ tail -> ~ In 10 tail -> climits h (a ++ b) -> a ++ b <> [] -> cstate num D h a s -> small (zlen (file (snd (sync D s)))) (cexpected (csv_occs num h (a ++ b))) ->
  crashes (sync D) s (dead D (FM currentVersion 1 (offset_of h a) 0) (cexpected (csv_occs num h (a ++ b)))).
Proof.
  intros HDe Ht Hlim Hne (l & Hi & Hl & Hb) Hf. pose proof Hlim as (L1 & L2 & L3 & L4 & L5 & L6). destruct (ifile_holds wd0_ok Hi) as (HD & _).
  unfold csv_sync in *. destruct (gen_metadata wd0_ok Hi) as (p & E1 & M1 & M2). rewrite (@bind_ok _ _ _ _ _ _ _ _ E1) in Hf. pose proof (if_read p Hi) as Hi1.
  eapply crashes_bind_nb; [apply nb_metadata|exact E1|].
  destruct (gen_names wd0_ok Hi1) as (p2 & E2). rewrite (@bind_ok _ _ _ _ _ _ _ _ E2) in Hf. pose proof (if_read p2 Hi1) as Hi2. set (s2 := set_pos (set_pos s p) p2) in *.
  eapply crashes_bind_nb; [apply nb_names|exact E2|].
  destruct (climits_part _ _ Hlim) as (_ & _ & _ & La4 & La5 & La6).
  rewrite (@state_headers num h a l Hl L2 La5 La6) in Hf |- *. set (hs := match a with [] => [] | _ => cells h end) in *.
  assert (Hf1 : small (zlen (file (snd (csv_loop num (S (length D)) file_slot D hs (FM currentVersion 1 (offset_of h a) 0) s2)))) (cexpected (csv_occs num h (a ++ b)))).
  { destruct Hf as [Hf|Hf]; [left|right; exact Hf]. unfold bind in Hf. destruct (csv_loop _ _ _ _ _ _ s2) as [[m|e| | |] s3]; cbn [snd] in *; auto. pose proof (grows_if_set_metadata file_slot m s3). lia. }
  rewrite rows_app in HDe. apply Forall_app in L4, L5. destruct L4 as [L4a L4b]. destruct L5 as [L5a L5b].
  assert (Hlen : (S (length b) <= length D)%nat).
  { pose proof (len_rows b). rewrite HDe, app_length. cbn [length]. rewrite !app_length. lia. }
  pose proof (zlen_nonneg (row_text h)). pose proof (zlen_nonneg (rows_text a)). pose proof (zlen_nonneg (rows_text b)). pose proof (zlen_nonneg tail).
  assert (HDz : zlen D = zlen (row_text h) + 1 + zlen (rows_text a) + zlen (rows_text b) + zlen tail) by (rewrite HDe, zlen_app, zlen_cons, !zlen_app; lia).
  set (pre := row_text h ++ 10 :: rows_text a). assert (Hpre : zlen pre = zlen (row_text h) + 1 + zlen (rows_text a)) by (unfold pre; rewrite zlen_app, zlen_cons; lia).
  assert (HDp : D = pre ++ rows_text b ++ tail) by (rewrite HDe; unfold pre; repeat first [rewrite <- app_assoc|progress (cbn [app])]; reflexivity).
  assert (Eloop : exists fuel, (length b < fuel)%nat /\ forall s, csv_loop num (S (length D)) file_slot D hs (FM currentVersion 1 (offset_of h a) 0) s = csv_loop num fuel file_slot D (cells h) (FM currentVersion 1 (zlen pre) 0) s).
  { destruct a as [|r a].
    - exists (length D). split; [lia|]. intros s0. unfold hs, offset_of. rewrite (@loop_header num D currentVersion 1 0 (length D) s0 h (rows_text b ++ tail) HD HDe L1). do 2 f_equal. rewrite Hpre. cbn [rows_text]. change (zlen (@nil Z)) with 0. rewrite Z.add_0_r. reflexivity.
    - exists (S (length D)). split; [lia|]. intros s0. unfold hs. rewrite Hpre. reflexivity. }
  destruct Eloop as (fuel & Hfu & Eloop). rewrite Eloop in Hf1.
  assert (Eocc : csv_occs num h a ++ row_occs num (zlen pre) (cells h) b = csv_occs num h (a ++ b)) by (unfold csv_occs; rewrite row_occs_app, Hpre; reflexivity). rewrite <- Eocc in Hf1 |- *.
  assert (Hbp : below (zlen pre) (cexpected (csv_occs num h a))).
  { eapply below_mono; [exact Hb|]. rewrite Hpre. unfold offset_of. destruct a; lia. }
  destruct (@rows_run num D _ currentVersion 1 0 (cells h) HD (commas_nonempty L1) L3 b pre tail fuel l (csv_occs num h a) s2 HDp Ht L4b L5b Hfu Hi2 Hl Hbp Hf1) as (l' & s3 & R1 & R2 & R3 & R4).
  pose proof (@rows_dead D _ currentVersion 1 0 (cells h) HD (commas_nonempty L1) L3 b pre tail fuel l (csv_occs num h a) s2 HDp Ht L4b L5b Hfu Hi2 Hl Hbp Hf1) as Rd.
  apply crashes_bind_cw; [exact (cbudget Hi2)|apply cw_csv_loop|rewrite Eloop, R1; discriminate| |].
  - intros w. specialize (Rd w). rewrite Eloop. exact Rd.
  - intros m s3' Ea. rewrite Eloop, R1 in Ea. injection Ea as _ <-. apply crashes_if_set; [exact (cbudget R2)|]. rewrite <- R3. apply ifile_dead; [apply wd0_ok|exact R2].
Qed.
End C.
