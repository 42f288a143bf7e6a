(** FreePage and reopening preserve the free list invariant. *)
From Verif Require Import Base Store PageFile.
From Coq Require Import Permutation.

Lemma pf_inv_ring s fl : pf_inv s fl -> exists tail, ring_at s fl tail.
Proof. intros [(t & H) _ _ _ _ _]. exists t. exact H. Qed.

Lemma existsb_zeros o n : o <> 0 -> existsb (Z.eqb o) (zeros n) = false.
Proof.
  intros Ho. unfold zeros. induction (Z.to_nat n) as [|k IH]; [reflexivity|]. cbn [repeat existsb].
  rewrite IH. destruct (Z.eqb_spec o 0); [contradiction|reflexivity].
Qed.
Lemma existsb_in o l : existsb (Z.eqb o) l = true <-> In o l.
Proof.
  rewrite existsb_exists. split.
  - intros (x & Hx & E). apply Z.eqb_eq in E. subst. auto.
  - intros H. exists o. split; auto. apply Z.eqb_refl.
Qed.
Lemma ring_mem s fl tail o : ring_at s fl tail -> o <> 0 -> existsb (Z.eqb o) (ring s) = true <-> In o fl.
Proof.
  intros (_ & _ & -> & _) Ho. rewrite !existsb_app, !existsb_zeros by auto. rewrite orb_false_l, orb_false_r. apply existsb_in.
Qed.
Lemma aligned_rem o : 0 <= o -> Z.rem o pageSize = o mod pageSize.
Proof. intros. apply Z.rem_mod_nonneg; unfold pageSize; lia. Qed.

(** FreePage of a page of the file that is not free: it panics exactly when the
    queue reaches the end of the ring. *)
Lemma free_page_ok s fl tail o : pf_inv s fl -> ring_at s fl tail -> budget s = None ->
  page_ok (file s) o -> ~ In o fl -> tail + zlen fl < 512 ->
  exists s', free_page o s = (Ok tt, s') /\ pf_inv s' (fl ++ [o]) /\ ring_at s' (fl ++ [o]) tail /\
    file s' = upd (file s) 0 (enc_free (fl ++ [o])) /\ kind s' = kind s /\ budget s' = None /\ lastPage s' = lastPage s.
Proof.
  intros Hinv Hring Hb Ho Hni Hlt. pose proof Ho as (Ho1 & Ho2 & Ho3 & Ho4).
  pose proof Hring as (Ht & Hle & Hr & Hh & Hc). pose proof (zlen_nonneg fl) as Hfl.
  destruct Hinv as [_ Hlen Hmin Hok Hnd H0].
  unfold free_page. rewrite aligned_rem by lia. destruct (Z.eqb_spec (o mod pageSize) 0); [|lia]. cbn [negb].
  destruct (Z.eqb_spec (fcount s) ringSize); [unfold ringSize in *; lia|].
  destruct (existsb (Z.eqb o) (ring s)) eqn:Ex.
  { apply (ring_mem Hring) in Ex; [contradiction | lia]. }
  set (s1 := set_free s _ _ _).
  assert (Lfl : zlen (fl ++ [o]) = zlen fl + 1) by (rewrite zlen_app; reflexivity).
  assert (Hring1 : ring_at s1 (fl ++ [o]) tail).
  { split; [lia|]. split; [lia|]. unfold s1; cbn [ring set_free fhead fcount]. split; [|split].
    - rewrite Hr, Hh. rewrite Z.mod_small by lia.
      rewrite app_assoc.
      rewrite (@zset_app _ (zeros tail ++ fl) _ o 0 (zeros (512 - tail - zlen fl - 1))).
      + rewrite <- !app_assoc. cbn [app]. rewrite Lfl.
        replace (512 - tail - (zlen fl + 1)) with (512 - tail - zlen fl - 1) by lia. reflexivity.
      + apply zeros_S. lia.
      + rewrite zlen_app, zlen_zeros by lia. reflexivity.
    - rewrite Hh, Lfl. rewrite (Z.mod_small (tail + zlen fl)) by lia. unfold ringSize. f_equal. lia.
    - lia. }
  pose proof Hring1 as (_ & Hle1 & Hr1 & Hh1 & Hc1).
  assert (Etail : ring_tail s1 = tail).
  { unfold ring_tail, ringSize. eapply ring_tail_calc with (n := zlen (fl ++ [o])); eauto; lia. }
  unfold write_free_page_indices. rewrite Etail, Hc1.
  destruct (Z.ltb_spec 0 (zlen (fl ++ [o]))); [|lia].
  destruct (Z.ltb_spec ringSize (tail + zlen (fl ++ [o]))); [unfold ringSize in *; lia|]. cbn [andb].
  assert (Esl : slice (ring s1) tail (zlen (fl ++ [o])) = fl ++ [o]).
  { rewrite Hr1. apply slice_app_mid; [symmetry; apply zlen_zeros; lia | reflexivity]. }
  rewrite Esl.
  assert (Henc : zlen (enc_free (fl ++ [o])) = pageSize) by (apply zlen_enc_free; lia).
  rewrite (@bind_ok _ _ _ _ _ _ _ _ (@seek_start_ok s1 0 ltac:(cbn; pose proof (zlen_nonneg (file s)); lia))).
  destruct (@rws_write_ok (set_pos s1 0) (enc_free (fl ++ [o]))) as (n0 & p & E);
    [cbn; auto | cbn; pose proof (zlen_nonneg (file s)); lia |].
  unfold bind at 1. rewrite E. cbn [ret]. eexists. split; [reflexivity|].
  cbn [pos set_pos file set_file].
  assert (L : zlen (upd (file s) 0 (enc_free (fl ++ [o]))) = zlen (file s)).
  { rewrite zlen_upd by (unfold pageSize in *; lia). lia. }
  assert (Hring2 : forall p, ring_at (set_pos (set_file (set_pos s1 0) (upd (file s) 0 (enc_free (fl ++ [o])))) p) (fl ++ [o]) tail)
    by (intros; exact Hring1).
  split; [|split; [apply Hring2 | cbn; auto]].
  constructor.
  - exists tail. apply Hring2.
  - cbn [file set_pos set_file]. change (file s1) with (file s). rewrite L. auto.
  - cbn [file set_pos set_file]. change (file s1) with (file s). rewrite L. auto.
  - cbn [file set_pos set_file]. change (file s1) with (file s). apply Forall_app. split.
    + eapply Forall_impl; [|exact Hok]. intros a Ha. eapply page_ok_mono; [|exact Ha]. lia.
    + constructor; [|constructor]. eapply page_ok_mono; [|exact Ho]. lia.
  - apply (Permutation_NoDup (Permutation_cons_append fl o)). constructor; auto.
  - cbn [file set_pos set_file]. change (file s1) with (file s). rewrite <- Henc. apply slice_upd_same. unfold pageSize in *; lia.
Qed.
Lemma free_page_panics s fl tail o : pf_inv s fl -> ring_at s fl tail ->
  page_ok (file s) o -> ~ In o fl -> zlen fl < 512 -> tail + zlen fl = 512 ->
  exists s', free_page o s = (Panic, s').
Proof.
  intros Hinv Hring Ho Hni Hn Ht512. pose proof Ho as (Ho1 & Ho2 & Ho3 & Ho4).
  pose proof Hring as (Ht & Hle & Hr & Hh & Hc). pose proof (zlen_nonneg fl) as Hfl.
  unfold free_page. rewrite aligned_rem by lia. destruct (Z.eqb_spec (o mod pageSize) 0); [|lia]. cbn [negb].
  destruct (Z.eqb_spec (fcount s) ringSize); [unfold ringSize in *; lia|].
  destruct (existsb (Z.eqb o) (ring s)) eqn:Ex.
  { apply (ring_mem Hring) in Ex; [contradiction | lia]. }
  set (s1 := set_free s _ _ _).
  assert (Etail : ring_tail s1 = tail).
  { unfold ring_tail, ringSize, s1. cbn [fhead fcount set_free]. rewrite Hh, Hc, Ht512. unfold ringSize. change (512 mod 512) with 0. lia. }
  unfold write_free_page_indices. rewrite Etail. unfold s1 at 1 2. cbn [fcount set_free]. rewrite Hc.
  destruct (Z.ltb_spec 0 (zlen fl + 1)); [|lia].
  destruct (Z.ltb_spec ringSize (tail + (zlen fl + 1))); [|unfold ringSize in *; lia]. cbn [andb]. eauto.
Qed.
(** FreePage that returns an error changes nothing *)
Lemma free_page_err s fl o e s' : pf_inv s fl -> budget s = None -> free_page o s = (Err e, s') -> s' = s.
Proof.
  intros Hinv Hb. unfold free_page. destruct (negb _); [congruence|]. destruct (fcount s =? ringSize); [congruence|].
  destruct (existsb _ _); [congruence|]. set (s1 := set_free s _ _ _). unfold write_free_page_indices.
  destruct (_ && _); [congruence|].
  destruct Hinv as [_ Hlen Hmin Hok Hnd H0].
  rewrite (@bind_ok _ _ _ _ _ _ _ _ (@seek_start_ok s1 0 ltac:(cbn; pose proof (zlen_nonneg (file s)); lia))).
  match goal with |- context [rws_write ?b] => destruct (@rws_write_ok (set_pos s1 0) b) as (n0 & p & E) end;
    [cbn; auto | cbn; pose proof (zlen_nonneg (file s)); lia |].
  unfold bind at 1. rewrite E. cbn [ret]. discriminate.
Qed.
(** an offset that is not free yet and is accepted must be new in the queue *)
Lemma free_page_ok_inv s fl tail o s' : pf_inv s fl -> ring_at s fl tail -> budget s = None ->
  0 < o -> o + pageSize <= zlen (file s) -> o < 2^63 -> free_page o s = (Ok tt, s') ->
  page_ok (file s) o /\ ~ In o fl /\ tail + zlen fl < 512.
Proof.
  intros Hinv Hring Hb Ho1 Ho2 Ho3 E.
  pose proof Hring as (Ht & Hle & Hr & Hh & Hc).
  assert (Ha : o mod pageSize = 0).
  { unfold free_page in E. rewrite aligned_rem in E by lia. destruct (Z.eqb_spec (o mod pageSize) 0); [auto|discriminate]. }
  assert (Hpo : page_ok (file s) o) by (split; auto).
  assert (Hni : ~ In o fl).
  { intros Hin. apply (ring_mem Hring) in Hin; [|lia]. unfold free_page in E. destruct (negb _); [discriminate|].
    destruct (fcount s =? ringSize); [discriminate|]. rewrite Hin in E. discriminate. }
  split; auto. split; auto.
  destruct (Z.eq_dec (tail + zlen fl) 512) as [E512|]; [|lia]. exfalso.
  destruct (Z.eq_dec (zlen fl) 512) as [Efull|Hnf].
  - unfold free_page in E. destruct (negb _); [discriminate|]. rewrite Hc, Efull in E. discriminate.
  - pose proof (zlen_nonneg fl). destruct (@free_page_panics s fl tail o Hinv Hring Hpo Hni ltac:(lia) E512) as (s2 & E2). congruence.
Qed.

(** opening an existing file *)
Lemma new_page_file_reopen s fl k : pf_inv s fl ->
  exists s', new_page_file (open_rws k (file s)) = (Ok tt, s') /\ pf_inv s' fl /\
    (ring_at s' fl 0) /\ file s' = file s /\ kind s' = k /\ budget s' = None /\ lastPage s' = zlen (file s) / pageSize.
Proof.
  intros [(tail & Ht & Hle & Hr & Hh & Hc) Hlen Hmin Hok Hnd H0].
  pose proof (zlen_nonneg fl) as Hfl.
  unfold new_page_file.
  rewrite (@bind_ok _ _ _ _ _ _ _ _ (@seek_start_ok (open_rws k (file s)) 0 ltac:(cbn; unfold pageSize in *; lia))).
  rewrite (@bind_ok _ _ _ _ _ _ _ _ (@rws_read_ok (set_pos (open_rws k (file s)) 0) pageSize ltac:(cbn; lia) ltac:(unfold pageSize; lia) ltac:(cbn; unfold pageSize in *; lia))).
  cbn [pos set_pos file open_rws]. rewrite H0.
  assert (Hp : pad_page (enc_free fl) = enc_free fl).
  { unfold pad_page. rewrite zlen_enc_free by lia. rewrite Z.sub_diag. change (zeros 0) with (@nil Z). apply app_nil_r. }
  rewrite Hp, read_offsets_enc_free; [|lia|].
  2:{ eapply Forall_impl; [|exact Hok]. intros a Ha. eapply page_ok_range; eauto. }
  unfold bind at 1. cbn [set_free]. set (s1 := set_free _ _ _ _).
  rewrite (@bind_ok _ _ _ _ _ _ _ _ (seek_end_ok s1)).
  change (file s1) with (file s).
  destruct (Z.eqb_spec (zlen (file s) mod pageSize) 0); [|lia]. cbn [negb].
  eexists. split; [reflexivity|].
  assert (Hra : ring_at (set_lastPage (set_pos s1 (zlen (file s))) (zlen (file s) / pageSize)) fl 0).
  { split; [lia|]. split; [lia|]. cbn [ring fhead fcount set_lastPage set_pos s1 set_free].
    split; [|split; reflexivity]. unfold s1; cbn [ring set_free].
    change (zeros 0) with (@nil Z). cbn [app]. unfold zeros. replace (Z.to_nat (512 - 0 - zlen fl)) with (512 - length fl)%nat by (unfold zlen; lia). reflexivity. }
  split; [|split; [exact Hra | cbn; auto 10]].
  constructor; cbn [file set_lastPage set_pos s1 set_free open_rws]; auto. exists 0. exact Hra.
Qed.
(** creating a file *)
Lemma new_page_file_fresh k :
  exists s', new_page_file (open_rws k []) = (Ok tt, s') /\ pf_inv s' [] /\ ring_at s' [] 0 /\
    zlen (file s') = pageSize /\ kind s' = k /\ budget s' = None /\ lastPage s' = 1.
Proof.
  assert (G : exists p, new_page_file (open_rws k []) =
     (Ok tt, mkSt k (zeros pageSize) p None (repeat 0 512) 0 0 1)).
  { destruct k; eexists; vm_compute; reflexivity. }
  destruct G as (p & E). eexists. split; [exact E|].
  assert (R : ring_at (mkSt k (zeros pageSize) p None (repeat 0 512) 0 0 1) [] 0).
  { split; [lia|]. split; [unfold zlen; cbn [length]; lia|]. split; [reflexivity|]. split; reflexivity. }
  split; [|split; [exact R|]].
  - constructor; cbn [file]; [exists 0; exact R| | | constructor | constructor | ].
    + rewrite zlen_zeros by (unfold pageSize; lia). reflexivity.
    + rewrite zlen_zeros by (unfold pageSize; lia). lia.
    + vm_compute. reflexivity.
  - cbn [file kind budget lastPage]. rewrite zlen_zeros by (unfold pageSize; lia). auto.
Qed.
(** NewPage never moves the end of the queue forward *)
Lemma new_page_ring s fl tail buf o s' : pf_inv s fl -> ring_at s fl tail -> budget s = None -> new_page buf s = (Ok o, s') ->
  exists tail', ring_at s' (tl fl) tail' /\ tail' + zlen (tl fl) <= tail + zlen fl.
Proof.
  intros Hinv Hring Hb E. destruct (Z.le_gt_cases (zlen buf) pageSize) as [Hl|Hl].
  2:{ rewrite new_page_too_large in E by lia. discriminate. }
  destruct (@new_page_ok_ring s fl buf Hinv Hb Hl) as (s2 & E2 & _ & _ & _ & _ & _ & _ & R). rewrite E in E2. injection E2 as -> <-.
  destruct fl as [|x fl]; cbn [tl].
  - destruct R as (R1 & R2 & R3). exists tail. split; [|lia]. unfold ring_at in *. rewrite R1, R2, R3. exact Hring.
  - destruct R as (t & R1 & R2 & _). exists t. split; auto.
    assert (Et : ring_tail s = tail).
    { destruct Hring as (Rt & Rle & Rr & Rh & Rc). unfold ring_tail, ringSize. rewrite zlen_cons in *. pose proof (zlen_nonneg fl).
      eapply ring_tail_calc with (n := 1 + zlen fl); eauto; lia. }
    lia.
Qed.
