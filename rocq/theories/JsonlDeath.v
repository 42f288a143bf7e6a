(** The death of the process at any write of a Synchronize of a JSONL data file: what
    is left of the index file (Death.v, [dead]). The structure is that of JsonlRun.v and
    JsonlBlock.v. *)
From Coq Require Import Permutation.
From Verif Require Import Base Varint Store PageFile PageHist RefValue Node LinkedPage BPTree BPRepr BPIter BPInsert BPLoop BPTop PTree Meta Slots SlotAdd PSlots Cells IndexFile IFileInv PIndex Json Jsonl Grows JsonlRun JsonDoc JsonlDoc JsonlSpec JsonlHist Crash PCrash SyncCrash JsonlBlock PJsonl PSyncCrash Death.

Section Run.
Variables (unquote : bytes -> bytes) (to_float : bytes -> option bytes) (grams : bytes -> Z -> res (list (bytes * Z * Z))) (hdrs : list bytes).
Notation jparse := (jparse unquote to_float).
Notation ifile := (ifile determine_type jparse).
Notation jc := (jc unquote to_float).
Notation acts_ok := (acts_ok unquote to_float).
Notation act_ok := (act_ok unquote to_float).

Section Sim.
Variable D : bytes.
Notation dead := (dead determine_type jparse D).
Definition dies_ok (P : list ixr -> Prop) {A} (m : M st A) (w : W A) : Prop :=
  forall fm l s, ifile D fm l s -> P l -> acts_ok D (fst w) (map strip l) -> small (zlen (file (snd (m s)))) (run (fst w) (map strip l)) -> snd w <> Crash ->
    crashes m s (dead fm (run (fst w) (map strip l))).
(** the simulation of JsonlRun, and this *)
Definition sim3 (P : list ixr -> Prop) (L : Z) {A} (m : M st A) (w : W A) : Prop := sim unquote to_float D P L m w /\ cw m /\ dies_ok P m w.
Lemma sim3_lift P L {A} (r : res A) : sim3 P L (lift r) (wlift r).
Proof. split; [apply sim_lift|]. split; [apply cw_lift|]. intros fm l s _ _ _ _ Hn. apply crashes_lift. exact Hn. Qed.
Lemma sim3_ret P L {A} (a : A) : sim3 P L (ret a) (wret a).
Proof. apply sim3_lift. Qed.
Lemma sim3_fail P L {A} e : sim3 P L (@fail st A e) (wlift (Err e)).
Proof. apply sim3_lift. Qed.
Lemma sim3_mono (P Q : list ixr -> Prop) L L' {A} (m : M st A) w : (forall l, Q l -> P l) -> L' <= L -> sim3 P L m w -> sim3 Q L' m w.
Proof. intros H1 H2 (H3 & H4 & H5). split; [eapply sim_mono; eauto|]. split; auto. intros fm l s Hi HQ. apply H5; auto. Qed.
Lemma sim3_eq P L {A} (m : M st A) w w' : w = w' -> sim3 P L m w -> sim3 P L m w'.
Proof. intros ->. auto. Qed.
Lemma budget_of fm l s : ifile D fm l s -> budget s = None.
Proof. intros Hi. destruct (ifile_holds (wd_ok grams) Hi) as (_ & fl & ms & x0 & L & H). exact (cl_bud (ho_cells H)). Qed.
Lemma sim3_bind P L {A B} (m : M st A) (k : A -> M st B) w kw : stable L P -> sim3 P L m w -> (forall a, grows (k a)) -> (forall a, sim3 P L (k a) (kw a)) -> sim3 P L (bind m k) (wbind w kw).
Proof.
  intros HP (Hm1 & Hm2 & Hm3) Hg Hk. split; [apply sim_bind; [exact grams|exact HP|exact Hm1|exact Hg|intros a; apply Hk]|]. split; [apply cw_bind; auto; intros a; apply Hk|].
  intros fm l s Hi Hl Ha Hf Hn.
  assert (Ha1 : acts_ok D (fst w) (map strip l)).
  { unfold wbind in Ha. destruct (snd w); cbn [fst] in Ha; auto. apply (@acts_ok_app unquote to_float grams) in Ha. tauto. }
  assert (Hf1 : small (zlen (file (snd (m s)))) (run (fst w) (map strip l))).
  { destruct Hf as [Hf|Hf]; [left|right].
    - unfold bind in Hf. destruct (m s) as [[a|e| | |] s1]; cbn [snd] in *; auto. pose proof (Hg a s1). lia.
    - unfold wbind in Hf. destruct (snd w); cbn [fst] in Hf; auto. rewrite run_app in Hf. eapply Z.le_lt_trans; [apply pot_run|exact Hf]. }
  assert (Hn1 : snd w <> Crash). { unfold wbind in Hn. destruct (snd w); cbn [snd] in Hn; congruence. }
  destruct (Hm1 fm l s Hi Hl Ha1 Hf1) as (l1 & s1 & E1 & I1 & R1 & K1).
  apply crashes_bind_cw; [exact (budget_of Hi)|exact Hm2|rewrite E1; exact Hn1| |].
  - eapply crashes_mono; [|apply Hm3; eauto]. intros f. apply dead_mono. unfold wbind. destruct (snd w); cbn [fst]; try apply subs_refl. rewrite run_app. apply subs_run.
  - intros a s1' E. rewrite E1 in E. injection E as Ew <-. unfold wbind, bind in *. rewrite Ew in *. cbn [fst snd] in *. rewrite E1 in Hf. apply (@acts_ok_app unquote to_float grams) in Ha. destruct Ha as [_ Ha]. rewrite run_app in *. rewrite <- R1 in *.
    apply (proj2 (proj2 (Hk a))); auto. eapply HP; eauto.
Qed.
Lemma sim3_put L m name ft t k v : sim3 (has m name ft t) L (bp_insert (jc D ft) m k v) (wact (APut name ft k v)).
Proof.
  split; [apply sim_put; exact grams|]. split; [apply cw_bp_insert|]. intros fm l s Hi Hl [Ha _] Hf _. cbn [wact fst run] in *.
  pose proof (grows_bp_insert (jc D ft) m k v s) as Hg.
  assert (Hf0 : zlen (file s) < 2^60) by (exact (@small_before _ _ _ _ _ _ _ [APut name ft k v] (wd_ok grams) Hi Hg Hf)).
  eapply put_dead; eauto; [apply (wd_ok grams)|]. apply Ha.
Qed.
Lemma sim3_put_then {A} L m name ft t k v (x : A) : zlen name <= L -> sim3 (has m name ft t) L (bp_insert (jc D ft) m k v ;;; ret x) (put_then name ft k v x).
Proof.
  intros HL. unfold put_then. rewrite wret_map. change ([APut name ft k v], Ok tt) with (wact (APut name ft k v)). apply sim3_bind; [apply has_stable; auto|apply sim3_put|intros; gr|intros; apply sim3_ret].
Qed.
Lemma sim3_grams L m name ft t0 mp len data : zlen name <= L -> forall gl t,
  sim3 (has m name ft t0) L (put_grams (jc D ft) m mp len data gl (u64 t)) (gram_acts name ft mp len data gl, Ok (u64 (t + gram_sum gl))).
Proof.
  intros HL. induction gl as [|[[w o] n] gl IH]; intros t; cbn [put_grams gram_acts gram_sum map fold_right fst snd].
  - rewrite Z.add_0_r. apply sim3_ret.
  - assert (E1 : u64 (u64 t + n) = u64 (t + n)) by (unfold u64; rewrite Zplus_mod_idemp_l; auto). rewrite E1. fold (gram_sum gl). rewrite Z.add_assoc.
    apply (@sim3_bind (has m name ft t0) L unit Z (bp_insert (jc D ft) m (RV (MP (u64 (mp_off mp + o)) (u32 len)) w) data) (fun _ => put_grams (jc D ft) m mp len data gl (u64 (t + n))) (wact (APut name ft (RV (MP (u64 (mp_off mp + o)) (u32 len)) w) data)) (fun _ => (gram_acts name ft mp len data gl, Ok (u64 (t + n + gram_sum gl))))).
    + apply has_stable; auto.
    + apply sim3_put.
    + intros _. apply grows_put_grams.
    + intros _. apply IH.
Qed.
Lemma sim3_value m name ft t data value fo obj wobj d : 0 <= t < 2^64 ->
  (forall d, grows (obj d)) -> (forall d, sim3 (fun _ => True) (zlen name) (obj d) (wobj d)) ->
  sim3 (has m name ft t) (zlen name) (index_value unquote to_float grams m (IM name ft (determine_type ft) t) D data value fo obj d ft) (wmap (addt t) (w_value unquote to_float grams data name value fo wobj d ft)).
Proof.
  intros Ht Hg Ho. assert (HS : stable (zlen name) (has m name ft t)) by (apply has_stable; lia). unfold index_value, w_value. cbv zeta. cbn [im_width im_total].
  change (jcodec unquote to_float (determine_type ft) D) with (jc D ft). set (mp := MP _ _).
  assert (Hput : forall v n, sim3 (has m name ft t) (zlen name) (bp_insert (jc D ft) m (RV mp v) data ;;; ret (d, u64 (t + n))) (wmap (addt t) ([APut name ft (RV mp v) data], Ok (d, n)))).
  { intros v n. apply (@sim3_put_then _ (zlen name) m name ft t (RV mp v) data (d, u64 (t + n))). lia. }
  assert (Hret : forall x, sim3 (has m name ft t) (zlen name) (ret (x, t)) (wmap (addt t) (wret (x, 0)))).
  { intros x. eapply sim3_eq; [|apply sim3_ret]. unfold wmap, wret, addt. cbn. rewrite Z.add_0_r, u64_small by auto. reflexivity. }
  assert (Hfail : forall e, sim3 (has m name ft t) (zlen name) (fail e) (wmap (addt t) (wlift (Err e)))) by (intros e; apply sim3_fail).
  destruct (ft =? FTString); [destruct value; auto|].
  destruct (is_gram ft).
  { destruct value; auto. rewrite wmap_bind. apply sim3_bind; auto; [apply sim3_lift|intros; gr; apply grows_put_grams|]. intros gl.
    eapply sim3_eq; [|apply (@sim3_bind _ _ Z _ _ (fun t' => ret (d, t')) (gram_acts name ft mp (zlen v) data gl, Ok (u64 (t + gram_sum gl))) (fun t' => wret (d, t'))); auto; [|intros; gr|intros; apply sim3_ret]].
    - unfold wbind, wret, wmap, addt. cbn. rewrite app_nil_r. reflexivity.
    - pose proof (@sim3_grams (zlen name) m name ft t mp (zlen v) data (Z.le_refl _) gl t) as X. rewrite u64_small in X at 1 by auto. exact X. }
  destruct (ft =? FTNull).
  { specialize (Hput [] 0). rewrite Z.add_0_r, u64_small in Hput by auto. exact Hput. }
  destruct ((ft =? FTFloat64) || (ft =? FTUint64) || (ft =? FTInt64)); [apply Hput|].
  destruct (ft =? FTBoolean); [destruct value; auto|].
  destruct ((ft =? FTArray) || (ft =? FTObject)); [|auto].
  destruct value; auto. destruct (c =? 91); [|destruct (c =? 123); auto].
  - rewrite wmap_bind. apply sim3_bind; auto; [apply sim3_lift|intros; gr].
  - rewrite wmap_bind. apply sim3_bind; auto; [|intros; gr|].
    + apply (@sim3_mono (fun _ => True) (has m name ft t) (zlen name) (zlen name)); [auto|lia|apply Ho].
    + intros d'. rewrite wmap_bind. apply sim3_bind; auto; [apply sim3_lift|intros; gr].
Qed.
Lemma sim3_ft L data name value fo obj wobj d ft : L < zlen name -> (forall d, grows (obj d)) -> (forall d, sim3 (fun _ => True) (zlen name) (obj d) (wobj d)) ->
  sim3 (fun _ => True) L (index_ft unquote to_float grams file_slot D data name value fo obj d ft) (w_ft unquote to_float grams data name value fo wobj d ft).
Proof.
  intros HL Hg Ho. split; [apply sim_ft; auto; intros; apply Ho|]. split; [apply cw_index_ft; intros; apply Ho|].
  intros fm l s Hi _ Ha Hf Hnc. unfold w_ft in *. pose proof (grows_index_ft unquote to_float grams file_slot D data name value fo obj d ft Hg s) as G0.
  change (wbind (wact (AFind name ft)) ?k) with (AFind name ft :: fst (k tt), snd (k tt)) in *. cbv beta in *. cbn [fst snd JsonlRun.acts_ok run] in *. destruct Ha as [[Hn Hft] Ha].
  assert (Hf0 : zlen (file s) < 2^60) by (eapply (@small_before _ _ _ _ _ _ _ (AFind name ft :: _) (wd_ok grams) Hi G0); exact Hf).
  destruct (@find_step unquote to_float grams D fm l s name ft Hi Hf0 Hn Hft) as (m & t & l1 & s1 & E1 & I1 & H1 & Ht & R1 & K1).
  rewrite <- R1 in *. unfold index_ft in *.
  apply crashes_bind_cw; [exact (budget_of Hi)|apply cw_find|rewrite E1; discriminate| |].
  { eapply crashes_mono; [|apply (@find_dead determine_type jparse D (wd_ok grams) fm l s name ft Hi Hf0); [lia|exact Hft]]. intros f. apply dead_mono.
    eapply subs_trans; [|apply subs_run]. rewrite R1. apply subs_step. }
  intros a s1' Ea. rewrite E1 in Ea. injection Ea as <- <-. rewrite (@bind_ok _ _ _ _ _ _ _ _ E1) in *. cbv zeta in *. cbn [fst snd im_name im_type im_width] in *.
  set (X := index_value _ _ _ _ _ _ _ _ _ _ _ _) in *. set (wX := w_value _ _ _ _ _ _ _ _ _ _) in *.
  assert (HX : sim3 (has m name ft t) (zlen name) X (wmap (addt t) wX)) by (apply sim3_value; auto). clearbody X wX.
  assert (Ha1 : acts_ok D (fst wX) (map strip l1)).
  { unfold wbind in Ha. destruct (snd wX); cbn [fst] in Ha; auto. apply (@acts_ok_app unquote to_float grams) in Ha. tauto. }
  assert (Hf1 : small (zlen (file (snd (X s1)))) (run (fst wX) (map strip l1))).
  { destruct Hf as [Hf|Hf]; [left|right].
    - match type of Hf with zlen (file (snd (bind X ?k s1))) < _ => assert (Y : forall a, grows (k a)) by (intros; gr) end.
      unfold bind at 1 in Hf. destruct (X s1) as [[a|e| | |] s2]; cbn [snd] in *; auto. pose proof (Y a s2). lia.
    - unfold wbind in Hf. destruct (snd wX); cbn [fst] in Hf; auto. rewrite run_app in Hf. eapply Z.le_lt_trans; [apply pot_run|exact Hf]. }
  assert (Hn1 : snd (wmap (addt t) wX) <> Crash).
  { cbn [wmap snd]. unfold wbind in Hnc. destruct (snd wX); cbn [snd rmap] in *; congruence. }
  destruct HX as (HX1 & HX2 & HX3). destruct (HX1 fm l1 s1 I1 H1 Ha1 Hf1) as (l2 & s2 & E2 & I2 & R2 & K2).
  apply crashes_bind_cw; [exact (budget_of I1)|exact HX2|rewrite E2; exact Hn1| |].
  - eapply crashes_mono; [|apply HX3; eauto]. intros f. cbn [wmap fst]. apply dead_mono. unfold wbind. destruct (snd wX); cbn [fst]; try apply subs_refl. rewrite run_app. apply subs_run.
  - intros [d' t'] s2' Ex. rewrite E2 in Ex. injection Ex as Ew <-. cbn [fst snd].
    apply crashes_bind_cw; [exact (budget_of I2)|apply cw_save| | |intros; apply crashes_ret].
    + cbn [wmap snd] in Ew. destruct (snd wX) as [[d1 n1]|e| | |] eqn:EwX; cbn [rmap] in Ew; try discriminate. unfold addt in Ew. injection Ew as <- <-. cbn [fst snd].
      destruct (@add_step unquote to_float grams D fm l2 s2 m name ft t n1 I2) as (l3 & s3 & E3 & _); [eapply has_kept; [|exact H1|exact K2]; lia|exact Hn|]. rewrite E3. discriminate.
    + apply crashes_save; [exact (budget_of I2)|]. eapply dead_mono; [|apply (ifile_dead (wd_ok grams) I2)]. rewrite R2. cbn [wmap fst].
      unfold wbind. destruct (snd wX); cbn [fst]; try apply subs_refl. rewrite run_app. apply subs_run.
Qed.
Lemma sim3_fts L f wf : (forall d ft, grows (f d ft)) -> (forall d ft, sim3 (fun _ => True) L (f d ft) (wf d ft)) -> forall fts d, sim3 (fun _ => True) L (index_fts f fts d) (w_fts wf fts d).
Proof.
  intros Hg H. induction fts as [|ft fts IH]; intros d; cbn [index_fts w_fts]; [apply sim3_ret|]. apply sim3_bind; auto; [apply true_stable|]. intros. apply grows_index_fts. auto.
Qed.
Theorem sim3_handle data : forall fuel path d, sim3 (fun _ => True) (plen path) (handle_object unquote to_float grams hdrs fuel file_slot D data path d) (scan unquote to_float grams hdrs fuel data path d).
Proof.
  induction fuel as [|fuel IH]; intros path d; cbn [handle_object scan]; [apply sim3_lift|]. destruct (negb (more d)); [apply sim3_ret|].
  assert (Hg : forall path d, grows (handle_object unquote to_float grams hdrs fuel file_slot D data path d)) by (intros; apply grows_handle).
  assert (Hgf : forall name v fo key d ft, grows (index_ft unquote to_float grams file_slot D data name v fo (handle_object unquote to_float grams hdrs fuel file_slot D data (path ++ [key])) d ft)) by (intros; apply grows_index_ft; auto).
  apply sim3_bind; [apply true_stable|apply sim3_lift| |].
  { intros [[c|key|v|b|] d1]; cbn [fst snd]; gr. apply grows_index_fts. auto. }
  intros [[c|key|v|b|] d1]; cbn [fst snd]; try apply sim3_fail.
  apply sim3_bind; [apply true_stable|apply sim3_lift| |].
  { intros a. gr. apply grows_index_fts. auto. }
  intros [v d2]. cbn [fst snd]. apply sim3_bind; [apply true_stable|apply sim3_lift| |].
  { intros a. gr. apply grows_index_fts. auto. }
  intros ft. apply sim3_bind; [apply true_stable| |auto|].
  - apply sim3_fts; [auto|]. intros d3 ft3. apply sim3_ft; [apply plen_lt; first [exact grams|exact unquote|exact to_float|exact hdrs]|auto|]. intros d4.
    pose proof (IH (path ++ [key]) d4) as X. rewrite plen_snoc in X. exact X.
  - intros d3. apply IH.
Qed.
Lemma sim3_loop : forall fuel m, sim3 (fun _ => True) (-1) (sync_loop unquote to_float grams hdrs fuel file_slot D m) (w_loop unquote to_float grams hdrs fuel D m).
Proof.
  induction fuel as [|fuel IH]; intros m; cbn [sync_loop w_loop]; [apply sim3_lift|]. cbv zeta. destruct (zlen D <? fm_read_offset m); [apply (@sim3_lift _ _ _ Panic)|].
  destruct (index_byte _ _) as [i|]; [|apply sim3_ret].
  assert (HgL : forall m, grows (sync_loop unquote to_float grams hdrs fuel file_slot D m)) by (intros; apply grows_sync_loop).
  apply sim3_bind; [intros ? ? ? ?; exact I|apply sim3_lift|intros; gr; apply grows_handle|]. intros x.
  apply sim3_bind; [intros ? ? ? ?; exact I| |intros; gr|].
  - apply (@sim3_handle (MP (fm_read_offset m) (u32 i)) _ [] x).
  - intros d. apply sim3_bind; [intros ? ? ? ?; exact I|apply sim3_lift|intros; gr|]. intros _. apply IH.
Qed.
End Sim.

(** A Synchronize that dies leaves the old metadata, and indexes with entries among those
    it would have written. *)
Theorem sync_dead D fm l s : ifile D fm l s -> let w := w_loop unquote to_float grams hdrs (S (length D)) D fm in
  acts_ok D (fst w) (map strip l) -> small (zlen (file (snd (jsonl_sync unquote to_float grams hdrs file_slot D s)))) (run (fst w) (map strip l)) -> snd w <> Crash ->
  crashes (jsonl_sync unquote to_float grams hdrs file_slot D) s (dead determine_type jparse D fm (run (fst w) (map strip l))).
Proof.
  intros Hi w Ha Hf Hn. destruct (@ifile_metadata unquote to_float grams D fm l s Hi) as (p & Em & _). unfold jsonl_sync in *. rewrite (@bind_ok _ _ _ _ _ _ _ _ Em) in Hf.
  eapply crashes_bind_nb; [apply nb_metadata|exact Em|]. pose proof (if_read p Hi) as Hi1.
  assert (Hf1 : small (zlen (file (snd (sync_loop unquote to_float grams hdrs (S (length D)) file_slot D fm (set_pos s p))))) (run (fst w) (map strip l))).
  { destruct Hf as [Hf|Hf]; [left|right; auto]. unfold bind in Hf. destruct (sync_loop _ _ _ _ _ _ _ _ (set_pos s p)) as [[a|e| | |] s1]; cbn [snd] in *; auto. pose proof (grows_if_set_metadata file_slot a s1). lia. }
  destruct (@sim3_loop D (S (length D)) fm) as (H1 & H2 & H3). destruct (H1 fm l _ Hi1 I Ha Hf1) as (l' & s' & E1 & I1 & R1 & _).
  apply crashes_bind_cw; [exact (budget_of Hi1)|exact H2|rewrite E1; exact Hn|apply H3; auto|].
  intros fm' s1 E. rewrite E1 in E. injection E as _ <-. apply crashes_if_set; [exact (budget_of I1)|]. fold w in R1. rewrite <- R1. apply ifile_dead; [apply (wd_ok grams)|exact I1].
Qed.
End Run.
