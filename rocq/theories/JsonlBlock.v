(** Synchronize over lines some of whose values are already in the index: it stops at
    the first value that is, with "key already exists". *)
From Coq Require Import Permutation.
From Verif Require Import Base Varint Store PageFile PageHist RefValue Node LinkedPage BPTree BPRepr BPIter BPInsert BPLoop BPTop PTree Meta Slots SlotAdd PSlots Cells IndexFile IFileInv PIndex Json Jsonl Grows JsonlRun JsonDoc JsonlDoc JsonlSpec JsonlHist.

Definition exists_err {A} : res A := Err (EMsg "key already exists").

Section Run.
Variables (unquote : bytes -> bytes) (to_float : bytes -> option bytes) (grams : bytes -> Z -> res (list (bytes * Z * Z))) (hdrs : list bytes).
Notation jparse := (jparse unquote to_float).
Notation ifile := (ifile determine_type jparse).
Notation jc := (jc unquote to_float).
Notation acts_ok := (acts_ok unquote to_float).
Notation act_ok := (act_ok unquote to_float).
(** the value is in the index already *)
Definition present (n : bytes) (ft : Z) (k : rv) (l : list ci) : Prop :=
  (determine_type ft = 0 \/ zlen (rv_val k) = determine_type ft - 1) /\ exists c, In c l /\ ci_is n ft c = true /\ In k (map fst (ci_es c)).
Lemma put_present D fm l s m name ft t k v : ifile D fm l s -> has m name ft t l -> present name ft k (map strip l) ->
  bp_insert (jc D ft) m k v s = (exists_err, s).
Proof.
  intros Hi (ix & Hin & E1 & E2 & E3 & E4) (Hw & c & Hc & Hcn & Hk).
  destruct (ifile_holds (wd_ok grams) Hi) as (HD & fl & ms & x0 & L & H).
  apply in_map_iff in Hc. destruct Hc as (iy & <- & Hy). apply same_indexb_spec in Hcn. destruct Hcn as [N1 N2]. cbn [strip ci_es] in Hk.
  assert (iy = ix).
  { destruct (C23_unique (wd_ok grams) Hi) as [U _]. apply In_nth_error in Hy, Hin. destruct Hy as (i & Hy), Hin as (j & Hj). assert (i = j).
    { apply (proj1 (NoDup_nth_error _) U); [rewrite map_length; apply nth_error_Some; congruence|]. rewrite !nth_error_map, Hy, Hj. cbn [option_map]. congruence. }
    subst j. congruence. }
  subst iy. apply In_nth_error in Hin. destruct Hin as (i & Hix). destruct (holds_nth _ H Hix) as (x & Hx & (C1 & C2 & C3 & C4 & C5) & Ea).
  pose proof (cells_sys _ (ho_cells H) Hx) as Hsys. rewrite C4, <- Ea, E1, E3 in Hsys.
  unfold exists_err. eapply insert_dup; [exact Hsys| |].
  - eapply Permutation_in; [apply Permutation_map; symmetry; exact C5|exact Hk].
  - cbn [cwidth ix_codec]. tauto.
Qed.

Section Sim.
Variable D : bytes.
Definition stops_at (P : list ixr -> Prop) {A} (m : M st A) (w : W A) : Prop :=
  forall fm l s p n ft k v q, ifile D fm l s -> P l -> fst w = p ++ APut n ft k v :: q -> acts_ok D p (map strip l) -> present n ft k (run p (map strip l)) ->
    zlen (file (snd (m s))) < 2^60 ->
    exists l' s', m s = (exists_err, s') /\ ifile D fm l' s' /\ map strip l' = run p (map strip l).
(** the simulation of JsonlRun, and this *)
Definition sim2 (P : list ixr -> Prop) (L : Z) {A} (m : M st A) (w : W A) : Prop := sim unquote to_float D P L m w /\ stops_at P m w.
Lemma app_split {A} (a b p q : list A) (x : A) : a ++ b = p ++ x :: q -> (exists r, a = p ++ x :: r) \/ (exists r, p = a ++ r /\ b = r ++ x :: q).
Proof.
  revert p. induction a as [|y a IH]; intros p E; [right; exists p; auto|]. destruct p as [|z p]; cbn [app] in E; injection E as -> E.
  - left. exists a. reflexivity.
  - destruct (IH _ E) as [(r & ->)|(r & -> & Hr)]; [left; exists r; reflexivity|right; exists r; auto].
Qed.
Lemma stops_none P {A} (m : M st A) r : stops_at P m ([], r).
Proof. intros fm l s p n ft k v q _ _ E. cbn in E. destruct p; discriminate. Qed.
Lemma sim2_lift P L {A} (r : res A) : sim2 P L (lift r) (wlift r).
Proof. split; [apply sim_lift|apply stops_none]. Qed.
Lemma sim2_ret P L {A} (a : A) : sim2 P L (ret a) (wret a).
Proof. apply sim2_lift. Qed.
Lemma sim2_fail P L {A} e : sim2 P L (@fail st A e) (wlift (Err e)).
Proof. apply sim2_lift. Qed.
Lemma sim2_mono (P Q : list ixr -> Prop) L L' {A} (m : M st A) w : (forall l, Q l -> P l) -> L' <= L -> sim2 P L m w -> sim2 Q L' m w.
Proof. intros H1 H2 [H3 H4]. split; [eapply sim_mono; eauto|]. intros fm l s p n ft k v q Hi HQ. apply H4; auto. Qed.
Lemma sim2_eq P L {A} (m : M st A) w w' : w = w' -> sim2 P L m w -> sim2 P L m w'.
Proof. intros ->. auto. Qed.
Lemma sim2_bind P L {A B} (m : M st A) (k : A -> M st B) w kw : stable L P -> sim2 P L m w -> (forall a, grows (k a)) -> (forall a, sim2 P L (k a) (kw a)) -> sim2 P L (bind m k) (wbind w kw).
Proof.
  intros HP [Hm1 Hm2] Hg Hk. split; [apply sim_bind; [exact grams|exact HP|exact Hm1|exact Hg|intros a; apply Hk]|]. intros fm l s p n ft key v q Hi Hl E Ha Hd Hf.
  assert (Hf1 : zlen (file (snd (m s))) < 2^60).
  { unfold bind in Hf. destruct (m s) as [[a|e| | |] s1]; cbn [snd] in *; auto. pose proof (Hg a s1). lia. }
  assert (Hin : forall r, fst w = p ++ APut n ft key v :: r -> exists l' s', bind m k s = (exists_err, s') /\ ifile D fm l' s' /\ map strip l' = run p (map strip l)).
  { intros r Er. destruct (Hm2 fm l s p n ft key v r Hi Hl Er Ha Hd Hf1) as (l' & s' & E1 & I1 & R1). exists l', s'. unfold bind. rewrite E1. auto. }
  unfold wbind in E. destruct (snd w) as [a|e| | |] eqn:Ew; cbn [fst] in E; [|eapply Hin; eauto..].
  destruct (@app_split _ _ _ _ _ _ E) as [(r & Er)|(r & -> & Er)]; [eapply Hin; eauto|].
  apply acts_ok_app in Ha. destruct Ha as [Ha1 Ha2]. destruct (Hm1 fm l s Hi Hl Ha1 (or_introl Hf1)) as (l1 & s1 & E1 & I1 & R1 & K1).
  rewrite run_app in *. rewrite <- R1 in *. rewrite Ew in E1. unfold bind in Hf |- *. rewrite E1 in *.
  destruct (proj2 (Hk a) fm l1 s1 r n ft key v q I1 (HP _ _ Hl K1) Er Ha2 Hd Hf) as (l2 & s2 & E2 & I2 & R2). exists l2, s2. auto.
  Unshelve. all: exact grams.
Qed.
Lemma sim2_put L m name ft t k v : sim2 (has m name ft t) L (bp_insert (jc D ft) m k v) (wact (APut name ft k v)).
Proof.
  split; [apply sim_put; exact grams|]. intros fm l s p n ft' k' v' q Hi Hl E Ha Hd Hf. cbn [wact fst] in E.
  destruct p as [|a p]; cbn [app] in E; [|destruct p; discriminate]. injection E as <- <- <- <- _. cbn [run] in *.
  exists l, s. split; [eapply put_present; eauto|auto].
Qed.
Lemma sim2_put_then {A} L m name ft t k v (x : A) : zlen name <= L -> sim2 (has m name ft t) L (bp_insert (jc D ft) m k v ;;; ret x) (put_then name ft k v x).
Proof.
  intros HL. unfold put_then. rewrite wret_map. change ([APut name ft k v], Ok tt) with (wact (APut name ft k v)). apply sim2_bind; [apply has_stable; auto|apply sim2_put|intros; gr|intros; apply sim2_ret].
Qed.
Lemma sim2_grams L m name ft t0 mp len data : zlen name <= L -> forall gl t,
  sim2 (has m name ft t0) L (put_grams (jc D ft) m mp len data gl (u64 t)) (gram_acts name ft mp len data gl, Ok (u64 (t + gram_sum gl))).
Proof.
  intros HL. induction gl as [|[[w o] n] gl IH]; intros t; cbn [put_grams gram_acts gram_sum map fold_right fst snd].
  - rewrite Z.add_0_r. apply sim2_ret.
  - assert (E1 : u64 (u64 t + n) = u64 (t + n)) by (unfold u64; rewrite Zplus_mod_idemp_l; auto). rewrite E1. fold (gram_sum gl). rewrite Z.add_assoc.
    apply (@sim2_bind (has m name ft t0) L unit Z (bp_insert (jc D ft) m (RV (MP (u64 (mp_off mp + o)) (u32 len)) w) data) (fun _ => put_grams (jc D ft) m mp len data gl (u64 (t + n))) (wact (APut name ft (RV (MP (u64 (mp_off mp + o)) (u32 len)) w) data)) (fun _ => (gram_acts name ft mp len data gl, Ok (u64 (t + n + gram_sum gl))))).
    + apply has_stable; auto.
    + apply sim2_put.
    + intros _. apply grows_put_grams.
    + intros _. apply IH.
Qed.
Lemma sim2_value m name ft t data value fo obj wobj d : 0 <= t < 2^64 ->
  (forall d, grows (obj d)) -> (forall d, sim2 (fun _ => True) (zlen name) (obj d) (wobj d)) ->
  sim2 (has m name ft t) (zlen name) (index_value unquote to_float grams m (IM name ft (determine_type ft) t) D data value fo obj d ft) (wmap (addt t) (w_value unquote to_float grams data name value fo wobj d ft)).
Proof.
  intros Ht Hg Ho. assert (HS : stable (zlen name) (has m name ft t)) by (apply has_stable; lia). unfold index_value, w_value. cbv zeta. cbn [im_width im_total].
  change (jcodec unquote to_float (determine_type ft) D) with (jc D ft). set (mp := MP _ _).
  assert (Hput : forall v n, sim2 (has m name ft t) (zlen name) (bp_insert (jc D ft) m (RV mp v) data ;;; ret (d, u64 (t + n))) (wmap (addt t) ([APut name ft (RV mp v) data], Ok (d, n)))).
  { intros v n. apply (@sim2_put_then _ (zlen name) m name ft t (RV mp v) data (d, u64 (t + n))). lia. }
  assert (Hret : forall x, sim2 (has m name ft t) (zlen name) (ret (x, t)) (wmap (addt t) (wret (x, 0)))).
  { intros x. eapply sim2_eq; [|apply sim2_ret]. unfold wmap, wret, addt. cbn. rewrite Z.add_0_r, u64_small by auto. reflexivity. }
  assert (Hfail : forall e, sim2 (has m name ft t) (zlen name) (fail e) (wmap (addt t) (wlift (Err e)))) by (intros e; apply sim2_fail).
  destruct (ft =? FTString); [destruct value; auto|].
  destruct (is_gram ft).
  { destruct value; auto. rewrite wmap_bind. apply sim2_bind; auto; [apply sim2_lift|intros; gr; apply grows_put_grams|]. intros gl.
    eapply sim2_eq; [|apply (@sim2_bind _ _ Z _ _ (fun t' => ret (d, t')) (gram_acts name ft mp (zlen v) data gl, Ok (u64 (t + gram_sum gl))) (fun t' => wret (d, t'))); auto; [|intros; gr|intros; apply sim2_ret]].
    - unfold wbind, wret, wmap, addt. cbn. rewrite app_nil_r. reflexivity.
    - pose proof (@sim2_grams (zlen name) m name ft t mp (zlen v) data (Z.le_refl _) gl t) as X. rewrite u64_small in X at 1 by auto. exact X. }
  destruct (ft =? FTNull).
  { specialize (Hput [] 0). rewrite Z.add_0_r, u64_small in Hput by auto. exact Hput. }
  destruct ((ft =? FTFloat64) || (ft =? FTUint64) || (ft =? FTInt64)); [apply Hput|].
  destruct (ft =? FTBoolean); [destruct value; auto|].
  destruct ((ft =? FTArray) || (ft =? FTObject)); [|auto].
  destruct value; auto. destruct (c =? 91); [|destruct (c =? 123); auto].
  - rewrite wmap_bind. apply sim2_bind; auto; [apply sim2_lift|intros; gr].
  - rewrite wmap_bind. apply sim2_bind; auto; [|intros; gr|].
    + apply (@sim2_mono (fun _ => True) (has m name ft t) (zlen name) (zlen name)); [auto|lia|apply Ho].
    + intros d'. rewrite wmap_bind. apply sim2_bind; auto; [apply sim2_lift|intros; gr].
Qed.
Lemma sim2_ft L data name value fo obj wobj d ft : L < zlen name -> (forall d, grows (obj d)) -> (forall d, sim2 (fun _ => True) (zlen name) (obj d) (wobj d)) ->
  sim2 (fun _ => True) L (index_ft unquote to_float grams file_slot D data name value fo obj d ft) (w_ft unquote to_float grams data name value fo wobj d ft).
Proof.
  intros HL Hg Ho. split; [apply sim_ft; auto; intros; apply Ho|].
  intros fm l s p n ft' key v q Hi _ E Ha Hd Hf. unfold w_ft in *. pose proof (grows_index_ft unquote to_float grams file_slot D data name value fo obj d ft Hg s) as G0.
  change (wbind (wact (AFind name ft)) ?k) with (AFind name ft :: fst (k tt), snd (k tt)) in *. cbv beta in *. cbn [fst] in E.
  destruct p as [|a p]; cbn [app] in E; [discriminate|]. injection E as <- E. cbn [JsonlRun.acts_ok run] in *. destruct Ha as [[Hn Hft] Ha].
  destruct (@find_step unquote to_float grams D fm l s name ft Hi ltac:(lia) Hn Hft) as (m & t & l1 & s1 & E1 & I1 & H1 & Ht & R1 & K1).
  rewrite <- R1 in *. unfold index_ft in *. rewrite (@bind_ok _ _ _ _ _ _ _ _ E1) in *. cbv zeta in *. cbn [fst snd im_name im_type im_width] in *.
  set (X := index_value _ _ _ _ _ _ _ _ _ _ _ _) in *. set (wX := w_value _ _ _ _ _ _ _ _ _ _) in *.
  assert (HX : sim2 (has m name ft t) (zlen name) X (wmap (addt t) wX)) by (apply sim2_value; auto). clearbody X wX.
  assert (Hf1 : zlen (file (snd (X s1))) < 2^60).
  { match type of Hf with zlen (file (snd (bind X ?k s1))) < _ => assert (Y : forall a, grows (k a)) by (intros; gr) end.
    unfold bind at 1 in Hf. destruct (X s1) as [[a|e| | |] s2]; cbn [snd] in *; auto. pose proof (Y a s2). lia. }
  assert (Hin : exists r, fst wX = p ++ APut n ft' key v :: r).
  { unfold wbind at 1 in E. destruct (snd wX) as [[d' nn]|e| | |]; cbn [fst] in E; [|exists q; exact E..].
    unfold wbind, wact, wret in E. cbn [fst snd app] in E. destruct (@app_split _ _ _ _ _ _ E) as [X1|(r & -> & X2)]; [exact X1|].
    destruct r as [|b r]; cbn [app] in X2; [discriminate|]. injection X2 as _ X2. destruct r; discriminate. }
  destruct Hin as (r & Er). destruct (proj2 HX fm l1 s1 p n ft' key v r I1 H1 Er Ha Hd Hf1) as (l2 & s2 & E2 & I2 & R2).
  exists l2, s2. unfold bind. rewrite E2. auto.
Qed.
Lemma sim2_fts L f wf : (forall d ft, grows (f d ft)) -> (forall d ft, sim2 (fun _ => True) L (f d ft) (wf d ft)) -> forall fts d, sim2 (fun _ => True) L (index_fts f fts d) (w_fts wf fts d).
Proof.
  intros Hg H. induction fts as [|ft fts IH]; intros d; cbn [index_fts w_fts]; [apply sim2_ret|]. apply sim2_bind; auto; [apply true_stable|]. intros. apply grows_index_fts. auto.
Qed.
Theorem sim2_handle data : forall fuel path d, sim2 (fun _ => True) (plen path) (handle_object unquote to_float grams hdrs fuel file_slot D data path d) (scan unquote to_float grams hdrs fuel data path d).
Proof.
  induction fuel as [|fuel IH]; intros path d; cbn [handle_object scan]; [apply sim2_lift|]. destruct (negb (more d)); [apply sim2_ret|].
  assert (Hg : forall path d, grows (handle_object unquote to_float grams hdrs fuel file_slot D data path d)) by (intros; apply grows_handle).
  assert (Hgf : forall name v fo key d ft, grows (index_ft unquote to_float grams file_slot D data name v fo (handle_object unquote to_float grams hdrs fuel file_slot D data (path ++ [key])) d ft)) by (intros; apply grows_index_ft; auto).
  apply sim2_bind; [apply true_stable|apply sim2_lift| |].
  { intros [[c|key|v|b|] d1]; cbn [fst snd]; gr. apply grows_index_fts. auto. }
  intros [[c|key|v|b|] d1]; cbn [fst snd]; try apply sim2_fail.
  apply sim2_bind; [apply true_stable|apply sim2_lift| |].
  { intros a. gr. apply grows_index_fts. auto. }
  intros [v d2]. cbn [fst snd]. apply sim2_bind; [apply true_stable|apply sim2_lift| |].
  { intros a. gr. apply grows_index_fts. auto. }
  intros ft. apply sim2_bind; [apply true_stable| |auto|].
  - apply sim2_fts; [auto|]. intros d3 ft3. apply sim2_ft; [apply plen_lt; first [exact grams|exact unquote|exact to_float|exact hdrs]|auto|]. intros d4.
    pose proof (IH (path ++ [key]) d4) as X. rewrite plen_snoc in X. exact X.
  - intros d3. apply IH.
Qed.
Lemma sim2_loop : forall fuel m, sim2 (fun _ => True) (-1) (sync_loop unquote to_float grams hdrs fuel file_slot D m) (w_loop unquote to_float grams hdrs fuel D m).
Proof.
  induction fuel as [|fuel IH]; intros m; cbn [sync_loop w_loop]; [apply sim2_lift|]. cbv zeta. destruct (zlen D <? fm_read_offset m); [apply (@sim2_lift _ _ _ Panic)|].
  destruct (index_byte _ _) as [i|]; [|apply sim2_ret].
  assert (HgL : forall m, grows (sync_loop unquote to_float grams hdrs fuel file_slot D m)) by (intros; apply grows_sync_loop).
  apply sim2_bind; [intros ? ? ? ?; exact I|apply sim2_lift|intros; gr; apply grows_handle|]. intros x.
  apply sim2_bind; [intros ? ? ? ?; exact I| |intros; gr|].
  - apply (@sim2_handle (MP (fm_read_offset m) (u32 i)) _ [] x).
  - intros d. apply sim2_bind; [intros ? ? ? ?; exact I|apply sim2_lift|intros; gr|]. intros _. apply IH.
Qed.
End Sim.

(** Synchronize stops at the first value that is in its index; the metadata stay. *)
Theorem sync_stops D fm l s p n ft k v q : ifile D fm l s -> fst (w_loop unquote to_float grams hdrs (S (length D)) D fm) = p ++ APut n ft k v :: q ->
  acts_ok D p (map strip l) -> present n ft k (run p (map strip l)) -> zlen (file (snd (jsonl_sync unquote to_float grams hdrs file_slot D s))) < 2^60 ->
  exists l' s', jsonl_sync unquote to_float grams hdrs file_slot D s = (exists_err, s') /\ ifile D fm l' s' /\ map strip l' = run p (map strip l).
Proof.
  intros Hi Ew Ha Hd Hf. destruct (ifile_holds (wd_ok grams) Hi) as (HD & fl & ms & x0 & L & H).
  destruct (holds_if_metadata H) as (s0 & E0 & Ef). unfold jsonl_sync in *. rewrite (@bind_ok _ _ _ _ _ _ _ _ E0) in *.
  assert (Hi0 : ifile D fm l s0).
  { pose proof (holds_file_metadata H) as (b & p0 & F1 & F2). assert (Es : s0 = set_pos s p0).
    { revert E0. unfold if_metadata. rewrite <- (holds_slot0 H). rewrite (@bind_ok _ _ _ _ _ _ _ _ F1). unfold lift. rewrite F2. intros X. injection X. auto. }
    subst s0. apply if_read. exact Hi. }
  assert (Hf1 : zlen (file (snd (sync_loop unquote to_float grams hdrs (S (length D)) file_slot D fm s0))) < 2^60).
  { unfold bind in Hf. destruct (sync_loop _ _ _ _ _ _ _ _ s0) as [[a|e| | |] s1]; cbn [snd] in *; auto. pose proof (grows_if_set_metadata file_slot a s1). lia. }
  destruct (proj2 (@sim2_loop D (S (length D)) fm) fm l s0 p n ft k v q Hi0 I Ew Ha Hd Hf1) as (l' & s' & E1 & I1 & R1).
  unfold bind. rewrite E1. exists l', s'. auto.
Qed.
End Run.
