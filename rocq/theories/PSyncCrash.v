(** C83: a Synchronize of a JSONL data file that is cut short by the death of the
    process, and what the next ones make of the file it leaves. *)
From Coq Require Import Permutation.
From Verif Require Import Base Varint Store PageFile PageHist RefValue Node LinkedPage BPTree BPRepr BPIter BPInsert BPLoop BPTop PTree Meta Slots SlotAdd PSlots Cells IndexFile IFileInv PIndex Json Jsonl Grows JsonlRun JsonDoc JsonlDoc JsonlSpec JsonlHist PJsonl Crash PCrash SyncCrash JsonlBlock.
From Verif Require PJsonlQuery.

Section P.
Variables (unquote : bytes -> bytes) (to_float : bytes -> option bytes) (grams : bytes -> Z -> res (list (bytes * Z * Z))) (hdrs : list bytes).
Hypothesis float_8 : forall t f, to_float t = Some f -> zlen f = 8.
Notation sync := (jsonl_sync unquote to_float grams hdrs file_slot).
Notation occs := (occs unquote).
Notation life := (life unquote to_float grams hdrs).
Notation fits := (fits unquote to_float grams hdrs).

(** ** Specification *)
(** the process dies at its write number [n] (counted from 0) during a Synchronize
    and leaves the index file [f] *)
Definition sync_dies (D : bytes) (s : st) (n : nat) (f : bytes) : Prop := exists s', sync D (set_budget s (Some n)) = (Crash, s') /\ file s' = f.
(** What may happen to the index file [f] from then on: it is opened again; the data
    file [D] grows; the file is synchronized, with whatever outcome; closed and reopened. *)
Inductive later (f D : bytes) : bytes -> st -> Prop :=
| lt_start k s1 h s2 : new_page_file (open_rws k f) = (Ok tt, s1) -> new_index_file 0 s1 = (Ok h, s2) -> later f D D s2
| lt_data D' t s : later f D D' s -> zlen (D' ++ t) < 2^63 -> later f D (D' ++ t) s
| lt_sync D' s r s' : later f D D' s -> sync D' s = (r, s') -> zlen (file s') < 2^60 -> later f D D' s'
| lt_open D' s k s1 h s2 : later f D D' s -> new_page_file (open_rws k (file s)) = (Ok tt, s1) -> new_index_file 0 s1 = (Ok h, s2) -> later f D D' s2.
(** a null, boolean, number or string *)
Definition is_scalar (v : jv) : Prop := match v with JArr _ _ | JObj _ _ => False | _ => True end.

(** ** Proofs *)
Notation jparse := (jparse unquote to_float).
Notation ifile := (ifile determine_type jparse).
Notation acts_ok := (acts_ok unquote to_float).
Notation static_ok := (static_ok unquote to_float).
Notation expected := (expected unquote to_float grams hdrs).
Notation lacts := (lacts unquote to_float grams hdrs).
(** what is in an index stays there *)
Lemma step_keeps a n ft k : forall L, (exists c, In c L /\ ci_is n ft c = true /\ In k (map fst (ci_es c))) -> exists c, In c (step a L) /\ ci_is n ft c = true /\ In k (map fst (ci_es c)).
Proof.
  intros L (c & Hc & Hi & Hk). destruct a as [n' ft'|n' ft' k' v'|n' ft' t']; cbn [step].
  - exists c. destruct (existsb _ _); [auto|]. split; [apply in_or_app; auto|auto].
  - eexists. split; [apply in_map; exact Hc|]. cbv beta. destruct (ci_is n' ft' c); [|auto]. split; [exact Hi|]. cbn [ci_es map]. right. exact Hk.
  - eexists. split; [apply in_map; exact Hc|]. cbv beta. destruct (ci_is n' ft' c); [|auto]. split; [exact Hi|exact Hk].
Qed.
Lemma run_keeps n ft k : forall acts L, (exists c, In c L /\ ci_is n ft c = true /\ In k (map fst (ci_es c))) -> exists c, In c (run acts L) /\ ci_is n ft c = true /\ In k (map fst (ci_es c)).
Proof. induction acts as [|a acts IH]; intros L H; cbn [run]; [auto|]. apply IH, step_keeps, H. Qed.
(** a key that is new comes from an insertion *)
Lemma run_new n ft k : forall acts L, (exists c, In c (run acts L) /\ ci_is n ft c = true /\ In k (map fst (ci_es c))) ->
  (exists c, In c L /\ ci_is n ft c = true /\ In k (map fst (ci_es c))) \/ exists v, In (APut n ft k v) acts.
Proof.
  induction acts as [|a acts IH]; intros L H; cbn [run] in H; [auto|]. destruct (IH _ H) as [(c & Hc & Hi & Hk)|(v & Hv)]; [|right; exists v; right; auto].
  destruct a as [n' ft'|n' ft' k' v'|n' ft' t']; cbn [step] in Hc.
  - left. exists c. destruct (existsb _ _); [auto|]. apply in_app_or in Hc. destruct Hc as [Hc|[<-|[]]]; [auto|contradiction].
  - apply in_map_iff in Hc. destruct Hc as (c0 & <- & Hc). destruct (ci_is n' ft' c0) eqn:E; [|left; eauto]. cbn [ci_es map] in Hk. destruct Hk as [<-|Hk]; [|left; exists c0; split; [exact Hc|split; [exact Hi|exact Hk]]].
    right. exists v'. left. apply ci_is_eq in E. change (ci_is n ft (CI (ci_name c0) (ci_type c0) (ci_total c0) ((k', v') :: ci_es c0)) = true) in Hi. apply ci_is_eq in Hi. cbn [ci_name ci_type] in Hi. destruct E as [<- <-], Hi as [<- <-]. reflexivity.
  - apply in_map_iff in Hc. destruct Hc as (c0 & <- & Hc). destruct (ci_is n' ft' c0) eqn:E; left; exists c0; auto.
Qed.
(** the first insertion of a key that is there *)
Lemma first_stop D : forall A L n ft k v, Forall (static_ok D) A -> In (APut n ft k v) A -> (exists c, In c L /\ ci_is n ft c = true /\ In k (map fst (ci_es c))) ->
  exists p n' ft' k' v' q, A = p ++ APut n' ft' k' v' :: q /\ acts_ok D p L /\ present n' ft' k' (run p L).
Proof.
  induction A as [|a A IH]; intros L n ft k v Hs Hin Hp; [destruct Hin|]. inversion Hs as [|? ? Hs1 Hs2]; subst.
  assert (Hgo : act_ok unquote to_float D a L -> In (APut n ft k v) A -> exists p n' ft' k' v' q, a :: A = p ++ APut n' ft' k' v' :: q /\ acts_ok D p L /\ present n' ft' k' (run p L)).
  { intros Ho Hi. destruct (IH (step a L) n ft k v Hs2 Hi (@step_keeps a n ft k L Hp)) as (p & n' & ft' & k' & v' & q & E & Ha & Hpr).
    exists (a :: p), n', ft', k', v', q. split; [rewrite E; reflexivity|]. split; [cbn [JsonlRun.acts_ok]; auto|exact Hpr]. }
  destruct a as [n' ft'|n' ft' k' v'|n' ft' t']; cbn [JsonlHist.static_ok] in Hs1; (destruct Hin as [Hin|Hin]; [try discriminate|]).
  - apply Hgo; auto.
  - injection Hin as -> -> -> ->. exists [], n, ft, k, v, A. split; [reflexivity|]. split; [exact I|]. split; [apply Hs1|exact Hp].
  - assert (Hd : (exists c, In c L /\ ci_is n' ft' c = true /\ In k' (map fst (ci_es c))) \/ ~ (exists c, In c L /\ ci_is n' ft' c = true /\ In k' (map fst (ci_es c)))).
    { clear. induction L as [|c L IH]; [right; intros (c & [] & _)|]. destruct IH as [(c0 & H1 & H2)|IH]; [left; exists c0; split; [right; auto|auto]|].
      destruct (ci_is n' ft' c) eqn:E; [|right; intros (c0 & [<-|H1] & H2 & H3); [congruence|apply IH; eauto]].
      destruct (in_dec rv_eq_dec k' (map fst (ci_es c))) as [X|X]; [left; exists c; split; [left; auto|auto]|right; intros (c0 & [<-|H1] & H2 & H3); [auto|apply IH; eauto]]. }
    destruct Hd as [Hd|Hd]; [exists [], n', ft', k', v', A; split; [reflexivity|]; split; [exact I|]; split; [apply Hs1|exact Hd]|].
    apply Hgo; auto. cbn [JsonlRun.act_ok]. split; [apply Hs1|]. split; [apply Hs1|]. intros c Hc Hi X. apply Hd. exists c. auto.
  - apply Hgo; auto.
Qed.
(** the state of an index file that cannot go on after the lines [a] *)
Definition stuck (D : bytes) (a b : list line) (s : st) : Prop :=
  (exists l n ft k v, ifile D (FM currentVersion 0 (zlen (lines_text a)) (zlen a)) l s /\ In (APut n ft k v) (lacts (zlen (lines_text a)) b) /\
    exists c, In c (map strip l) /\ ci_is n ft c = true /\ In k (map fst (ci_es c))) /\
  exists rest, D = lines_text a ++ lines_text b ++ rest.
Lemma stuck_sync D a b s : Forall (line_fits to_float) b -> Forall (name_fits unquote grams hdrs) (occs (zlen (lines_text a)) b) -> stuck D a b s -> zlen (file (snd (sync D s))) < 2^60 ->
  exists s', sync D s = (Err (EMsg "key already exists"), s') /\ stuck D a b s'.
Proof.
  intros Hls Hoc ((l & n & ft & k & v & Hi & Hin & Hp) & rest & HDe) Hf. destruct (ifile_holds (wd_ok grams) Hi) as (HDz & _).
  destruct (@lacts_ok unquote to_float grams hdrs float_8 D HDz b (zlen (lines_text a)) (lines_text a) rest HDe eq_refl Hls Hoc) as (R1 & R2 & R3).
  destruct (@first_stop D _ (map strip l) n ft k v R2 Hin Hp) as (p & n' & ft' & k' & v' & q & E & Ha & Hpr).
  pose proof (more_text a) as Hm. pose proof (zlen_nonneg rest). pose proof (zlen_nonneg (lines_text b)).
  assert (HDl : zlen D = zlen (lines_text a) + zlen (lines_text b) + zlen rest) by (rewrite HDe, !zlen_app; lia).
  assert (Hfu : exists j, S (length D) = (length b + j)%nat).
  { pose proof (len_lines b). exists (S (length D) - length b)%nat. rewrite HDe, !app_length. lia. }
  destruct Hfu as (j & Hj).
  pose proof (@loop_prefix unquote to_float grams hdrs float_8 D currentVersion 0 HDz b (zlen (lines_text a)) (lines_text a) rest (zlen a) j HDe eq_refl Hls Hoc ltac:(apply zlen_nonneg) ltac:(lia)) as LP.
  rewrite <- Hj in LP.
  destruct (@sync_stops unquote to_float grams hdrs D _ l s p n' ft' k' v' (q ++ fst (w_loop unquote to_float grams hdrs j D (FM currentVersion 0 (zlen (lines_text a) + zlen (lines_text b)) (zlen a + zlen b)))) Hi) as (l' & s' & E1 & I1 & Rl); auto.
  - rewrite LP. cbn [fst]. rewrite E, <- app_assoc. reflexivity.
  - exists s'. split; [exact E1|]. split; [|eauto]. exists l', n, ft, k, v. split; auto. split; auto. rewrite Rl. apply run_keeps, Hp.
Qed.
Lemma stuck_more D t a b s : stuck D a b s -> zlen (D ++ t) < 2^63 -> stuck (D ++ t) a b s.
Proof.
  intros ((l & n & ft & k & v & Hi & H) & rest & HDe) Hz. split; [|exists (rest ++ t); rewrite HDe, <- !app_assoc; reflexivity].
  exists l, n, ft, k, v. split; auto. apply if_more; auto.
Qed.
Lemma stuck_open D a b s k s1 h s2 : stuck D a b s -> new_page_file (open_rws k (file s)) = (Ok tt, s1) -> new_index_file 0 s1 = (Ok h, s2) -> stuck D a b s2.
Proof.
  intros ((l & n & ft & k0 & v & Hi & H) & HDe) E1 E2. split; [|auto]. exists l, n, ft, k0, v. split; auto. eapply if_open; eauto.
Qed.
Lemma stuck_meta D a b s : stuck D a b s -> reads s (if_metadata file_slot) (FM 1 0 (zlen (lines_text a)) (zlen a)).
Proof. intros ((l & n & ft & k & v & Hi & _) & _). exact (C22_metadata (wd_ok grams) Hi). Qed.
Lemma entry_in l o e : In o l -> In e (entry unquote to_float o) -> In e (entries_of unquote to_float grams hdrs l (occ_id o)).
Proof.
  intros Ho He. unfold entries_of. apply in_flat_map. exists (PO (occ_id o) (entry unquote to_float o) (weight o)). split; [|exact He].
  apply filter_In. split; [|apply id_eqb_refl]. unfold posts. apply in_flat_map. exists o. split; auto. left. reflexivity.
Qed.
Lemma id_in l o : In o l -> In (occ_id o) (ids unquote to_float grams hdrs l).
Proof. intros Ho. unfold ids. apply (proj2 (firsts_in unquote to_float grams _ _)). apply in_map_iff. exists (PO (occ_id o) (entry unquote to_float o) (weight o)). split; auto. unfold posts. apply in_flat_map. exists o. split; auto. left. reflexivity. Qed.
Lemma budget_ifile D fm l s : ifile D fm l s -> budget s = None.
Proof. intros Hi. destruct (ifile_holds (wd_ok grams) Hi) as (_ & fl & ms & x0 & L & H). exact (cl_bud (ho_cells H)). Qed.
Lemma meta_differs D D' fm fm' l l' s s' : ifile D fm l s -> ifile D' fm' l' s' -> file s' = file s -> fm' = fm.
Proof.
  intros Hi Hi' Ef. destruct (ifile_holds (wd_ok grams) Hi) as (_ & fl & ms & x0 & L & H). destruct (ifile_holds (wd_ok grams) Hi') as (_ & fl' & ms' & x0' & L' & H').
  destruct (ho_fm H) as (F1 & F2 & F3), (ho_fm H') as (G1 & G2 & G3).
  assert (Hx : nth_error (x0 :: L) 0 = Some x0) by reflexivity. assert (Hx' : nth_error (x0' :: L') 0 = Some x0') by reflexivity.
  destruct (cl_at (ho_cells H) _ Hx) as (M1 & _). destruct (cl_at (ho_cells H') _ Hx') as (M1' & _).
  rewrite (holds_slot0 H) in M1. rewrite (holds_slot0 H') in M1'. unfold meta_is in *. rewrite Ef in M1'.
  set (f := skipn (Z.to_nat (root_off file_slot + 12)) (file s)). unfold slice in M1, M1'. fold f in M1, M1'.
  assert (E : c_meta x0' = c_meta x0).
  { pose proof (zlen_nonneg (c_meta x0)). pose proof (zlen_nonneg (c_meta x0')). replace (Z.to_nat (1 + zlen (c_meta x0))) with (S (Z.to_nat (zlen (c_meta x0)))) in M1 by lia. replace (Z.to_nat (1 + zlen (c_meta x0'))) with (S (Z.to_nat (zlen (c_meta x0')))) in M1' by lia.
    destruct f as [|z f']; [discriminate|]. cbn [firstn] in M1, M1'. injection M1 as E1 E2. injection M1' as E1' E2'. rewrite <- E2, <- E2', <- E1, <- E1'. reflexivity. }
  destruct (file_unmarshal_exact F2 F3 F1) as [U _]. destruct (file_unmarshal_exact G2 G3 G1) as [U' _]. rewrite E in U'. congruence.
Qed.
Lemma occs_from : forall ls at_ o, In o (occs at_ ls) -> exists c d, ls = c ++ d /\ mp_off (snd o) = at_ + zlen (lines_text c) /\ In o (occs (at_ + zlen (lines_text c)) d) /\ d <> [].
Proof.
  induction ls as [|x ls IH]; intros at_ o Ho; cbn [JsonlSpec.occs] in Ho; [destruct Ho|]. apply in_app_or in Ho. destruct Ho as [Ho|Ho].
  - exists [], (x :: ls). split; auto. cbn [lines_text]. change (zlen (@nil Z)) with 0. rewrite Z.add_0_r. split; [|split; [cbn [JsonlSpec.occs]; apply in_or_app; auto|discriminate]].
    apply in_map_iff in Ho. destruct Ho as (f & <- & _). reflexivity.
  - destruct (IH _ _ Ho) as (c & d & -> & E & Hi & Hn). exists (x :: c), d. split; [reflexivity|]. cbn [lines_text]. rewrite zlen_app, zlen_cons.
    replace (at_ + (zlen (line_text x) + (1 + zlen (lines_text c)))) with (at_ + zlen (line_text x) + 1 + zlen (lines_text c)) by lia. auto.
Qed.
(** For every life of an index file and every data file within the limits: if a line that
    is not indexed yet has a scalar field, then there is a moment in the middle of
    Synchronize such that, if the process dies there, the file left behind can be opened,
    still says that the line is not indexed, and every Synchronize from then on, whatever
    is appended to the data file, fails with "key already exists" and does not get further. *)
Theorem C83_a_crash_can_block_indexing_refuted D s ls tail off n : life D s -> fits D ls tail -> zlen (file (snd (sync D s))) < 2^60 ->
  reads s (if_metadata file_slot) (FM 1 0 off n) -> (exists o, In o (occs 0 ls) /\ off <= mp_off (snd o) /\ is_scalar (fd_value (fst o))) ->
  exists w f, sync_dies D s w f /\ (forall k, exists s1 h s2, new_page_file (open_rws k f) = (Ok tt, s1) /\ new_index_file 0 s1 = (Ok h, s2)) /\
    forall D' s', later f D D' s' -> reads s' (if_metadata file_slot) (FM 1 0 off n) /\
      (zlen (file (snd (sync D' s'))) < 2^60 -> fst (sync D' s') = Err (EMsg "key already exists")).
Proof.
  intros Hl Hfit Hf Hmeta (o & Ho & Hoff & Hsc). assert (Hfit' : fits (D ++ []) ls tail) by (rewrite app_nil_r; auto).
  destruct (@life_state unquote to_float grams hdrs float_8 D s Hl ls tail [] Hfit') as (a & b & u & -> & Hu & Hs).
  destruct (state_meta Hs) as (sm & Em & _). destruct Hmeta as (sm' & Em' & _). rewrite Em in Em'. injection Em' as <- <- _.
  destruct Hs as (l & Hi & Hst & Hbe). pose proof Hfit as (HD & Ht & Hls & Hoc). destruct (ifile_holds (wd_ok grams) Hi) as (HDz & _).
  rewrite (@occs_app unquote) in Hoc, Ho. apply Forall_app in Hoc. destruct Hoc as [Ho1 Ho2]. cbn [Z.add] in Ho2, Ho. apply Forall_app in Hls. destruct Hls as [Hl1 Hl2].
  assert (HDe : D = lines_text a ++ lines_text b ++ tail) by (rewrite HD; unfold data_of; rewrite (@lines_app); rewrite <- app_assoc; reflexivity).
  assert (Hob : In o (occs (zlen (lines_text a)) b)).
  { apply in_app_or in Ho. destruct Ho as [Ho|Ho]; [|exact Ho]. exfalso. destruct (@occs_from a 0 o Ho) as (c & d & -> & E & _ & Hn). destruct d as [|x d]; [contradiction|].
    rewrite (@lines_app), zlen_app in Hoff. cbn [lines_text] in Hoff. rewrite zlen_app, zlen_cons in Hoff. pose proof (zlen_nonneg (line_text x)). pose proof (zlen_nonneg (lines_text d)). lia. }
  destruct (@lacts_ok unquote to_float grams hdrs float_8 D HDz b (zlen (lines_text a)) (lines_text a) tail HDe eq_refl Hl2 Ho2) as (R1 & R2 & R3).
  pose proof (more_text a) as Hm. pose proof (zlen_nonneg tail). pose proof (zlen_nonneg (lines_text b)). assert (HDl : zlen D = zlen (lines_text a) + zlen (lines_text b) + zlen tail) by (rewrite HDe, !zlen_app; lia).
  destruct (@fresh_ok unquote to_float D _ _ _ _ R1 R2 Hbe) as [OK BE].
  set (fm := FM currentVersion 0 (zlen (lines_text a)) (zlen a)) in *.
  destruct (@ifile_metadata unquote to_float grams D fm l s Hi) as (p & E0 & _). pose proof (if_read p Hi) as Hi0. pose proof (budget_ifile Hi) as Hb. pose proof (budget_ifile Hi0) as Hb0.
  set (fm' := FM currentVersion 0 (zlen (lines_text a) + zlen (lines_text b)) (zlen a + zlen b)).
  pose proof (@loop_lines unquote to_float grams hdrs float_8 D currentVersion 0 HDz b (zlen (lines_text a)) (lines_text a) tail (zlen a) (S (length D)) HDe eq_refl Ht Hl2 Ho2 ltac:(rewrite HDe, !app_length; lia) ltac:(apply zlen_nonneg) ltac:(lia)) as LL.
  fold fm fm' in LL.
  assert (Hf1 : zlen (file (snd (sync_loop unquote to_float grams hdrs (S (length D)) file_slot D fm (set_pos s p)))) < 2^60).
  { revert Hf. unfold jsonl_sync. rewrite (@bind_ok _ _ _ _ _ _ _ _ E0). unfold bind. destruct (sync_loop _ _ _ _ _ _ _ _ (set_pos s p)) as [[x|e| | |] s1]; cbn [snd]; auto. pose proof (grows_if_set_metadata file_slot x s1). lia. }
  destruct (proj1 (@sim2_loop unquote to_float grams hdrs D (S (length D)) fm) fm l (set_pos s p) Hi0 I) as (l1 & s1 & E1 & I1 & Rl & _); [rewrite LL; exact OK|exact (or_introl Hf1)|].
  rewrite LL in E1, Rl. cbn [fst snd] in E1, Rl.
  assert (Hok : file_meta_ok fm' /\ fm_format fm' <= 1).
  { split; [|cbn; lia]. pose proof (more_text b). pose proof (zlen_nonneg a). pose proof (zlen_nonneg b). unfold file_meta_ok, fm', currentVersion. cbn [fm_version fm_format fm_read_offset fm_entries]. lia. }
  destruct (ifile_holds (wd_ok grams) I1) as (_ & fl & ms & x0 & L & Hh). destruct (holds_set_meta Hh (proj1 Hok) (proj2 Hok)) as (s2 & x' & E2 & _).
  assert (I2 : ifile D fm' l1 s2) by (eapply if_meta; [exact I1|apply Hok|apply Hok|exact E2]).
  assert (Hne : file s2 <> file s1).
  { intros Ef. pose proof (@meta_differs D D fm fm' l1 l1 s1 s2 I1 I2 Ef) as X. unfold fm, fm' in X. injection X as X _. destruct b as [|x b]; [destruct Hob|]. cbn [lines_text] in X. rewrite zlen_app, zlen_cons in X.
    pose proof (zlen_nonneg (line_text x)). pose proof (zlen_nonneg (lines_text b)). lia. }
  assert (Hcr : crash_at (sync D) s (file s1)).
  { unfold jsonl_sync. apply (@crash_at_bind_cw _ _ _ _ s fm (set_pos s p)); auto; [apply cw_if_metadata|].
    apply (@crash_at_bind_cw _ _ _ _ (set_pos s p) fm' s1); auto; [apply cw_sync_loop|].
    apply crash_at_once_cw; [exact (budget_ifile I1)|apply cw_if_set_metadata|rewrite E2; discriminate|rewrite E2; exact Hne]. }
  destruct Hcr as (w & sc & Ec & Ef). exists w, (file s1). split; [exists sc; auto|].
  assert (Hopen : forall k, exists s3 h s4, new_page_file (open_rws k (file s1)) = (Ok tt, s3) /\ new_index_file 0 s3 = (Ok h, s4)).
  { intros k. destruct (@holds_open _ s1 fm l1 fl ms x0 L k 0 Hh) as (s3 & q & F1 & F2 & F3 & F4 & F5). exists s3. eexists _, _. split; [exact F1|exact F5]. }
  split; [exact Hopen|].
  (* the key of the field *)
  assert (Hkey : exists kb, key_bytes unquote to_float (fd_value (fst o)) = Some kb). { destruct (fd_value (fst o)); cbn in *; try contradiction; eauto. }
  destruct Hkey as (kb & Hkey). set (k := RV (MP (fd_from (fst o)) (fd_to (fst o) - fd_from (fst o))) kb).
  assert (Hpr : exists c, In c (map strip l1) /\ ci_is (fst (occ_id o)) (snd (occ_id o)) c = true /\ In k (map fst (ci_es c))).
  { rewrite Rl, Hst, R3 by apply canon_expected. rewrite expected_app. set (os := occs 0 a ++ occs (zlen (lines_text a)) b).
    assert (Hos : In o os) by (apply in_or_app; right; exact Hob).
    exists (CI (fst (occ_id o)) (snd (occ_id o)) (total_of unquote to_float grams hdrs os (occ_id o)) (rev (entries_of unquote to_float grams hdrs os (occ_id o)))). split; [|split].
    - unfold JsonlHist.expected. apply in_map_iff. exists (occ_id o). split; [reflexivity|]. apply id_in, Hos.
    - rewrite ci_is_id. cbn [ci_name ci_type]. destruct (occ_id o). apply id_eqb_refl.
    - cbn [ci_es]. apply in_map_iff. exists (k, snd o). split; [reflexivity|]. rewrite <- in_rev. apply entry_in; auto. unfold entry. rewrite Hkey. left. reflexivity. }
  assert (Hin : exists v, In (APut (fst (occ_id o)) (snd (occ_id o)) k v) (lacts (zlen (lines_text a)) b)).
  { pose proof Hpr as Hpr'. rewrite Rl in Hpr'. destruct (@run_new _ _ _ _ _ Hpr') as [(c & Hc & Hci & Hk)|Hv]; [|exact Hv]. exfalso.
    apply in_map_iff in Hk. destruct Hk as (e & Ee & He). pose proof (Hbe c e Hc He) as Hlt. rewrite Ee in Hlt. unfold koff, k in Hlt. cbn [rv_dp mp_off] in Hlt.
    assert (Hge : zlen (lines_text a) <= fd_from (fst o)).
    { clear -Hob float_8 to_float grams. revert Hob. generalize (zlen (lines_text a)). induction b as [|x b' IH]; intros at_ Ho; cbn [JsonlSpec.occs] in Ho; [destruct Ho|]. apply in_app_or in Ho. destruct Ho as [Ho|Ho].
      - apply in_map_iff in Ho. destruct Ho as (fd & <- & Hfd). cbn [fst].
        destruct (proj2 (proj2 (@PJsonlQuery.within_all unquote to_float grams float_8)) (ln_members x) [] (at_ + zlen (ln_before x) + 1 + zlen (ln_ws x)) true) as [W _].
        unfold PJsonlQuery.within in W. rewrite Forall_forall in W. apply W in Hfd. pose proof (zlen_nonneg (ln_before x)). pose proof (zlen_nonneg (ln_ws x)). lia.
      - apply IH in Ho. pose proof (zlen_nonneg (line_text x)). lia. }
    lia. }
  destruct Hin as (v & Hin).
  assert (Hstuck : forall D' s', later (file s1) D D' s' -> stuck D' a b s').
  { intros D' s' Hlt. induction Hlt as [k' s3 h s4 F1 F2|D' t s3 _ IH Hz|D' s3 r s4 _ IH E Hz|D' s3 k' s4 h s5 _ IH F1 F2].
    - split; [|eauto]. exists l1, (fst (occ_id o)), (snd (occ_id o)), k, v. split; [eapply if_open; eauto|]. split; auto.
    - apply stuck_more; auto.
    - destruct (@stuck_sync D' a b s3 Hl2 Ho2 IH) as (s5 & E5 & S5); [rewrite E; exact Hz|]. rewrite E in E5. injection E5 as -> ->. exact S5.
    - eapply stuck_open; eauto. }
  intros D' s' Hlt. pose proof (Hstuck D' s' Hlt) as S. split; [exact (stuck_meta S)|]. intros Hz. destruct (@stuck_sync D' a b s' Hl2 Ho2 S Hz) as (s5 & E5 & _). rewrite E5. reflexivity.
Unshelve. all: first [exact grams|exact hdrs|exact to_float|exact unquote].
Qed.
(** programs that only read do not see the write budget *)
Lemma nb_metadata : nb (if_metadata file_slot).
Proof.
  unfold if_metadata. apply nb_bind; [|intros a s b; reflexivity]. unfold lp_metadata. change (lp_idx file_slot =? 255) with false. cbv iota.
  apply nb_bind; [apply nb_seek|intros _]. apply nb_bind; [apply nb_pf_read|]. intros [d [e|]]; [intros s b; reflexivity|]. cbv zeta. destruct (_ <? _); intros s b; reflexivity.
Qed.
(** Without a new complete line in the data file a Synchronize may die at any of its
    writes: the index file is byte for byte what it was. *)
Theorem C83_crash_without_a_new_line_partial D fm l s n f : ifile D fm l s -> fm_read_offset fm <= zlen D -> ~ In 10 (skipn (Z.to_nat (fm_read_offset fm)) D) ->
  sync_dies D s n f -> f = file s.
Proof.
  intros Hi Hle Hn (s' & E & <-). destruct (@ifile_metadata unquote to_float grams D fm l s Hi) as (p & Em & _). unfold jsonl_sync, bind at 1 in E. rewrite nb_metadata, Em in E. cbn [fst snd] in E.
  cbn [sync_loop] in E. cbv zeta in E. destruct (Z.ltb_spec (zlen D) (fm_read_offset fm)) as [X|_]; [lia|].
  rewrite (@index_byte_none _ Hn) in E. rewrite (@bind_ok _ _ _ (ret fm) _ _ fm _ eq_refl) in E. unfold if_set_metadata in E.
  assert (Hc : crashes (if_set_metadata file_slot fm) (set_pos s p) (fun g => g = file s)).
  { assert (Hb : budget (set_pos s p) = None) by exact (budget_ifile Hi). unfold if_set_metadata. apply crashes_bind; auto.
    - apply writes_lift. unfold file_meta_marshal. repeat match goal with |- context [if ?b then _ else _] => destruct b end; discriminate.
    - apply crashes_lift. unfold file_meta_marshal. repeat match goal with |- context [if ?b then _ else _] => destruct b end; discriminate.
    - intros a s1 E1. assert (s1 = set_pos s p) as -> by (unfold lift in E1; congruence). unfold lp_set_metadata. destruct (_ =? _); [intros k s0; discriminate|]. destruct (_ || _); [intros k s0; discriminate|].
      apply crashes_bind; auto; [apply writes_seek_start|apply crashes_seek_abs|]. intros a1 s2 E2. apply seek_abs_file in E2. destruct E2 as [E2 E3].
      apply crashes_bind; [congruence|apply writes_pf_write|apply crashes_pf_write; [congruence|rewrite E2; reflexivity]|intros; apply crashes_ret]. }
  exact (Hc n s' E).
Qed.
End P.

(** ** A crash in FindOrCreateIndex *)
Lemma crash_at_try {A B} (m : M st A) (k : res A -> M st B) s r s1 f : budget s = None -> cw m -> m s = (r, s1) -> r <> Crash -> crash_at (k r) s1 f -> crash_at (fun s => let (r, s1) := m s in k r s1) s f.
Proof.
  intros Hb Hw E Hr (j & s' & Ec & Ef). destruct (Hw s Hb) as (fs & W1 & W2 & W3 & W4); [rewrite E; exact Hr|]. exists (length fs + j)%nat, s'. split; auto.
  destruct (W4 (length fs + j)%nat) as [_ W6]. rewrite W6 by lia. rewrite E. cbn [fst snd].
  replace (length fs + j - length fs)%nat with j by lia. exact Ec.
Qed.
Lemma crash_at_ext {A} (m m' : M st A) s f : (forall s, m s = m' s) -> crash_at m' s f -> crash_at m s f.
Proof. intros H (j & s' & E & F). exists j, s'. rewrite H. auto. Qed.
Lemma find_from_crash c name ft : forall d k fuel s fm l fl ms x0 L, holds c s fm l fl ms x0 L -> (k + d = length l)%nat ->
  (forall j ix, (k <= j)%nat -> nth_error l j = Some ix -> ~ same_index name ft ix) -> (d < fuel)%nat ->
  exists p, forall g, crash_at (next <- lp_add_next (slot ms (length l)) ;; let m := IM name ft (determine_type ft) 0 in
     buf <- lift (index_meta_marshal m) ;; lp_set_metadata next buf ;;; ret (next, m)) (set_pos s p) g ->
  crash_at (find_or_create_from fuel (slot ms k) name ft) s g.
Proof.
  induction d as [|d IH]; intros k fuel s fm l fl ms x0 L H Hk Hno Hfuel; (destruct fuel as [|fuel]; [lia|]); cbn [find_or_create_from];
    pose proof (cl_bud (ho_cells H)) as Hb;
    set (A := next <- lp_add_next (slot ms k) ;; _);
    set (B := fun next => buf <- lp_metadata next ;; m <- lift (index_meta_unmarshal buf) ;;
           if name_eqb (im_name m) name && (im_type m =? ft) then ret (next, m) else find_or_create_from fuel next name ft);
    set (K := fun r => match r with Ok n => B n | Err EEof => A | Err e => lift (Err e) | Panic => lift Panic | Crash => lift Crash | Hang => lift Hang end);
    match goal with |- exists p, forall g, _ -> crash_at ?mm s g => assert (Hext : forall g, crash_at (fun s => let (r, s1) := lp_next (slot ms k) s in K r s1) s g -> crash_at mm s g) end;
    try (intros g; apply crash_at_ext; intros s0; destruct (lp_next (slot ms k) s0) as [[n|[|e]| | |] s1]; reflexivity).
  - rewrite Nat.add_0_r in *. subst k. destruct (@holds_next c s fm l fl ms x0 L (length l) H ltac:(lia)) as (p & E).
    destruct (Nat.ltb_spec (length l) (length l)); [lia|]. exists p. intros g Hc. apply Hext.
    apply (@crash_at_try _ _ (lp_next (slot ms (length l))) K s (Err EEof) (set_pos s p)); auto; [apply cw_lp_next|discriminate].
  - destruct (@holds_next c s fm l fl ms x0 L k H ltac:(lia)) as (p & E). destruct (Nat.ltb_spec k (length l)); [|lia].
    destruct (nth_error l k) as [iy|] eqn:Ey; [|apply nth_error_None in Ey; lia].
    destruct (holds_metadata _ (holds_pos p H) Ey) as (b & q & Em & Eu).
    destruct (IH (S k) fuel (set_pos (set_pos s p) q) fm l fl ms x0 L) as (r & Hr).
    + apply holds_pos, holds_pos; auto.
    + lia.
    + intros j iw Hj. apply Hno. lia.
    + lia.
    + exists r. intros g Hc. apply Hext.
      apply (@crash_at_try _ _ (lp_next (slot ms k)) K s (Ok (slot ms (S k))) (set_pos s p)); auto; [apply cw_lp_next|discriminate|].
      subst K A B. cbv beta iota.
      apply (@crash_at_bind_cw _ _ _ _ (set_pos s p) b (set_pos (set_pos s p) q)); auto; [apply cw_lp_metadata|].
      apply (@crash_at_bind_cw _ _ _ _ _ (ix_meta iy) (set_pos (set_pos s p) q)); auto; [apply cw_lift|unfold lift; rewrite Eu; reflexivity|].
      cbn [ix_meta im_name im_type]. destruct (name_eqb (ix_name iy) name && (ix_type iy =? ft)) eqn:Eb; [|apply Hr; exact Hc].
      exfalso. apply (Hno k iy); [lia|auto|]. apply same_indexb_spec. exact Eb.
Qed.
(** For every index file and every new index: there is a moment in FindOrCreateIndex such
    that, if the process dies there, the file left behind can be opened, but creating an
    index fails from then on, for every name and type that was not an index before, and
    changes nothing. *)
Lemma meta_fun f m d d' : meta_is f m d -> meta_is f m d' -> d = d'.
Proof.
  unfold meta_is, slice. set (g := skipn _ f). intros H H'. pose proof (zlen_nonneg d). pose proof (zlen_nonneg d').
  replace (Z.to_nat (1 + zlen d)) with (S (Z.to_nat (zlen d))) in H by lia. replace (Z.to_nat (1 + zlen d')) with (S (Z.to_nat (zlen d'))) in H' by lia.
  destruct g as [|z g']; [discriminate|]. cbn [firstn] in H, H'. injection H as E1 E2. injection H' as E1' E2'. rewrite <- E2, <- E2', <- E1, <- E1'. reflexivity.
Qed.
Theorem C83_crash_while_creating_an_index_refuted wd parse D fm l s name ft : widths_ok wd -> IndexFile.ifile wd parse D fm l s -> fm_version fm = 1 ->
  (forall ix, In ix l -> ~ (ix_name ix = name /\ ix_type ix = ft)) -> zlen (file s) < 2^60 -> zlen name <= 245 -> 0 <= ft < 2^8 ->
  exists w s', find_or_create file_slot name ft (set_budget s (Some w)) = (Crash, s') /\
    forall k, exists s1 s2, new_page_file (open_rws k (file s')) = (Ok tt, s1) /\ new_index_file (fm_format fm) s1 = (Ok file_slot, s2) /\ file s2 = file s' /\
      forall name2 ft2, (forall ix, In ix l -> ~ (ix_name ix = name2 /\ ix_type ix = ft2)) ->
        exists e s3, find_or_create file_slot name2 ft2 s2 = (Err e, s3) /\ file s3 = file s'.
Proof.
  intros Hwd Hi Hv Hno Hf Hname Hft. destruct (ifile_holds Hwd Hi) as (HD & fl & ms & x0 & L & H).
  assert (Hnos : forall n2 f2, (forall ix, In ix l -> ~ (ix_name ix = n2 /\ ix_type ix = f2)) -> forall j ix, (0 <= j)%nat -> nth_error l j = Some ix -> ~ same_index n2 f2 ix).
  { intros n2 f2 Hx j ix _ Hj X. eapply Hx; [eapply nth_error_In; eauto|exact X]. }
  pose proof (holds_len H) as Hlen. pose proof (cl_bud (ho_cells H)) as Hb.
  destruct (marshal_new_len name ft ltac:(lia)) as [Em Lb]. set (b := le 2 ft ++ _) in Em, Lb.
  destruct (@find_from_crash (ix_codec wd parse D) name ft (length l) 0%nat (fuel_of s) s fm l fl ms x0 L H eq_refl (Hnos _ _ Hno) (holds_fuel H)) as (p & Hp).
  destruct (@cells_add (set_pos s p) fl ms (x0 :: L) (ix_codec wd parse D 0) (cells_pos p (ho_cells H)) (@ix_codec_ok wd parse D 0 Hwd HD) Hf) as (s1 & ms' & fl' & E1 & C1 & K1 & S1 & Z1).
  cbn [length] in E1. rewrite tail_is_slot in E1. rewrite <- Hlen in E1.
  assert (Hx : nth_error ((x0 :: L) ++ [Cell [] (ix_codec wd parse D 0) [] []]) (S (length l)) = Some (Cell [] (ix_codec wd parse D 0) [] [])).
  { cbn [app nth_error]. rewrite nth_error_app2 by lia. replace (length l - length L)%nat with 0%nat by lia. reflexivity. }
  assert (Hcr : crash_at (find_or_create file_slot name ft) s (file s1)).
  { assert (X : crash_at (find_or_create_from (fuel_of s) (slot ms 0) name ft) s (file s1)).
    - apply Hp. apply (@crash_at_bind_cw _ _ _ _ (set_pos s p) (slot ms' (S (length l))) s1); auto; [apply cw_lp_add_next|]. cbv zeta.
      apply (@crash_at_bind_cw _ _ _ _ s1 b s1); [exact (cl_bud C1)|apply cw_lift|unfold lift; rewrite Em; reflexivity|].
      destruct (@cells_set s1 fl' ms' _ (S (length l)) _ b C1 Hx ltac:(lia)) as (q & E2 & C2 & _).
      apply crash_at_once_cw; [exact (cl_bud C1)|apply cw_bind; [apply cw_lp_set_metadata|intros; apply cw_ret]| |].
      + unfold bind. rewrite E2. discriminate.
      + unfold bind. rewrite E2. cbn [snd ret]. intros Efile. destruct (cl_at C1 _ Hx) as (M1 & _).
        assert (Hk : (S (length l) < length ((x0 :: L) ++ [Cell [] (ix_codec wd parse D 0) [] []]))%nat) by (apply nth_error_Some; rewrite Hx; discriminate).
        assert (Hy := @nth_lset _ ((x0 :: L) ++ [Cell [] (ix_codec wd parse D 0) [] []]) (S (length l)) (Cell b (ix_codec wd parse D 0) [] []) (S (length l)) Hk).
        destruct (Nat.eq_dec (S (length l)) (S (length l))) as [_|X]; [|congruence]. destruct (cl_at C2 _ Hy) as (M2 & _). cbn [c_meta] in M1, M2.
        cbn [file set_pos set_file] in M2, Efile. rewrite Efile in M2. pose proof (meta_fun M1 M2) as Eb. rewrite <- Eb in Lb. change (zlen (@nil Z)) with 0 in Lb. pose proof (zlen_nonneg name). lia.
    - destruct X as (w & sc & Ec & Efc). exists w, sc. split; auto. unfold find_or_create. rewrite (holds_slot0 H) in Ec. exact Ec. }
  destruct Hcr as (w & sc & Ec & Efc). exists w, sc. split; [exact Ec|]. rewrite Efc. intros k.
  destruct (@cells_reopen s1 fl' ms' _ k C1) as (s2 & p2 & F1 & F2 & C2 & F3).
  assert (E0 : slot ms' 0 = file_slot) by (unfold slot, file_slot; change (0 / 15)%nat with 0%nat; rewrite (cl_first C1); reflexivity).
  destruct (@lp_next_head (set_pos s2 p2) ms' _ (cl_chain C2)) as (q & E3). cbn [app length Nat.ltb Nat.leb] in E3.
  assert (H0 : nth_error ((x0 :: L) ++ [Cell [] (ix_codec wd parse D 0) [] []]) 0 = Some x0) by reflexivity.
  pose proof (cells_pos q C2) as C3. destruct (cl_at C3 _ H0) as (M1 & M2 & _). destruct (ho_fm H) as (G1 & G2 & G3).
  destruct (@lp_metadata_ok (set_pos (set_pos s2 p2) q) _ _ (cells_slot _ C3 H0) M1) as (r & E4); [lia|].
  destruct (file_unmarshal_exact G2 G3 G1) as [G4 _].
  exists s2, (set_pos s2 r). split; [exact F1|]. split; [|split; [exact F3|]].
  { unfold new_index_file. rewrite (@bind_ok _ _ _ _ _ _ _ _ F2). rewrite E3. rewrite (@bind_ok _ _ _ _ _ _ _ _ E4).
    rewrite (@bind_ok _ _ _ (lift (file_meta_unmarshal (c_meta x0))) _ _ fm (set_pos (set_pos (set_pos s2 p2) q) r)) by (unfold lift; rewrite G4; reflexivity).
    rewrite E0, Hv. change (negb (1 =? currentVersion)) with false. cbv iota. rewrite Z.eqb_refl. reflexivity. }
  intros name2 ft2 Hno2. pose proof (cells_pos r C2) as C4. change (set_pos (set_pos s2 p2) r) with (set_pos s2 r) in C4.
  pose proof (cells_fuel C4) as Hfu. rewrite app_length in Hfu. cbn [length] in Hfu.
  destruct (@find_pass name2 ft2 fl' ms' _ (length l) 0%nat (fuel_of (set_pos s2 r)) (set_pos s2 r) C4) as (q5 & Eq).
  { lia. }
  { intros j Hj. destruct (nth_error l j) as [iy|] eqn:Ey; [|apply nth_error_None in Ey; lia].
    destruct (forall2_nth (ho_ix H) _ Ey) as (x & Hx2 & (D1 & D2 & D3 & D4 & D5)). exists x, (ix_meta iy). split; [|split].
    - cbn [app nth_error]. rewrite nth_error_app1 by (apply nth_error_Some; congruence). exact Hx2.
    - apply index_unmarshal_exact; auto.
    - destruct (name_eqb (im_name (ix_meta iy)) name2 && (im_type (ix_meta iy) =? ft2)) eqn:Eb; auto. exfalso.
      apply (Hnos _ _ Hno2 j iy); [lia|auto|]. apply same_indexb_spec. exact Eb. }
  cbn [Nat.add] in Eq. destruct (fuel_of (set_pos s2 r) - length l)%nat as [|fu] eqn:Efu; [lia|].
  destruct (@find_stuck name2 ft2 fl' ms' _ (length l) fu (set_pos (set_pos s2 r) q5) (Cell [] (ix_codec wd parse D 0) [] []) (EMsg "invalid metadata size") (cells_pos q5 C4) Hx eq_refl) as (r6 & Er).
  eexists _, _. unfold find_or_create. rewrite <- E0, Eq, Er. split; [reflexivity|]. exact F3.
Qed.
