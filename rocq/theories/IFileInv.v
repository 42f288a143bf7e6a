(** Every history of an index file keeps the invariant [holds]. *)
From Coq Require Import Permutation.
From Verif Require Import Base Varint Store PageFile PageHist RefValue Node LinkedPage BPTree BPRepr BPIter BPInsert BPLoop BPTop PTree Meta Slots SlotAdd PSlots Cells IndexFile.

Lemma holds_put c s fm l fl ms x0 L k ix key v : holds c s fm l fl ms x0 L -> nth_error l k = Some ix -> kw (c (ix_type ix)) <= 2016 ->
  zlen (file s) < 2^60 -> key_ok (c (ix_type ix)) key -> mptr_ok v -> ~ In key (map fst (ix_es ix)) ->
  exists s' fl' L', bp_insert (c (ix_type ix)) (ix_at ix) key v s = (Ok tt, s') /\ kind s' = kind s /\ zlen (file s) <= zlen (file s') /\
    holds c s' fm (lset l k (with_put key v ix)) fl' ms x0 L' /\
    (forall j iy, nth_error l j = Some iy -> j <> k -> slot_same (file s) (file s') (ix_at iy)) /\ grown L L'.
Proof.
  intros H Hk Hkw Hf Hkey Hv Hnew. destruct (holds_nth _ H Hk) as (x & Hx & (C1 & C2 & C3 & C4 & C5) & Ea). rewrite <- C4 in *.
  destruct (@cells_insert s fl ms _ (S k) x key v (ho_cells H) Hx Hkw Hf Hkey Hv) as (s' & fl' & pgs' & E & K & Z & C' & O' & Gr).
  { intros X. apply Hnew. eapply Permutation_in; [apply Permutation_map; exact C5|exact X]. }
  assert (Hlt : (k < length l)%nat) by (apply nth_error_Some; congruence).
  exists s', fl', (lset L k (Cell (c_meta x) (c_codec x) (insert_entry key v (c_es x)) pgs')). rewrite Ea. split; auto. split; auto. split; auto.
  split; [|split; [intros j iy Hj Hne; destruct (holds_nth _ H Hj) as (xj & Hxj & _ & ->); apply O'; [apply nth_error_Some; congruence|lia]|eapply grown_lset; [exact Hx|exact Gr]]].
  constructor.
  - exact C'.
  - apply (ho_fm H).
  - apply (ho_c0 H).
  - apply forall2_lset; [apply (ho_ix H)|auto|]. split; [exact C1|]. split; auto. split; auto. split; auto.
    cbn [c_es with_put ix_es]. eapply Permutation_trans; [apply insert_entry_perm|]. constructor; auto.
  - rewrite length_lset, map_lset by auto. rewrite <- (ho_at H). apply lset_same. rewrite nth_error_map, Hk. reflexivity.
  - rewrite map_lset. rewrite lset_same; [apply (ho_nd H)|]. rewrite nth_error_map, Hk. reflexivity.
Qed.
Lemma holds_total c s fm l fl ms x0 L k ix t : holds c s fm l fl ms x0 L -> nth_error l k = Some ix -> 0 <= t < 2^64 ->
  6 + zlen (ix_name ix) + zlen (put_uvarint t) <= 252 ->
  exists s' L', save_index_meta (ix_at ix) (ix_meta (with_total t ix)) s = (Ok tt, s') /\ kind s' = kind s /\ zlen (file s') = zlen (file s) /\
    holds c s' fm (lset l k (with_total t ix)) fl ms x0 L' /\ grown L L'.
Proof.
  intros H Hk Ht Hlen. destruct (holds_nth _ H Hk) as (x & Hx & (C1 & C2 & C3 & C4 & C5) & Ea).
  assert (Hok : index_meta_ok (ix_meta (with_total t ix))) by (destruct C2 as (D1 & D2 & _); split; [exact D1|split; [exact D2|exact Ht]]).
  destruct (@index_meta_roundtrip (ix_meta (with_total t ix)) [] Hok C3) as (b & E1 & _ & E3). cbn [ix_meta with_total im_name im_total ix_name ix_total] in E3.
  assert (Hlt : (k < length l)%nat) by (apply nth_error_Some; congruence).
  destruct (@cells_set s fl ms _ (S k) x b (ho_cells H) Hx ltac:(lia)) as (p & E & C' & Z).
  eexists _, (lset L k (Cell b (c_codec x) (c_es x) (c_pgs x))). split; [|split; [|split; [|split; [constructor|eapply grown_lset; [exact Hx|apply incl_refl]]]]].
  - unfold save_index_meta. rewrite (@bind_ok _ _ _ (lift (index_meta_marshal (ix_meta (with_total t ix)))) _ s b s) by (unfold lift; rewrite E1; reflexivity).
    rewrite Ea. exact E.
  - reflexivity.
  - exact Z.
  - exact C'.
  - apply (ho_fm H).
  - apply (ho_c0 H).
  - apply forall2_lset; [apply (ho_ix H)|auto|]. split; [exact E1|]. split; auto.
  - rewrite length_lset, map_lset by auto. rewrite <- (ho_at H). apply lset_same. rewrite nth_error_map, Hk. reflexivity.
  - rewrite map_lset. rewrite lset_same; [apply (ho_nd H)|]. rewrite nth_error_map, Hk. reflexivity.
Qed.
Lemma holds_set_meta c s fm fm' l fl ms x0 L : holds c s fm l fl ms x0 L -> file_meta_ok fm' -> fm_format fm' <= 1 ->
  exists s' x', if_set_metadata file_slot fm' s = (Ok tt, s') /\ kind s' = kind s /\ zlen (file s') = zlen (file s) /\ holds c s' fm' l fl ms x' L.
Proof.
  intros H Hok Hfmt. destruct (file_meta_roundtrip [] Hok Hfmt) as (b & E1 & _ & E3). pose proof (put_uvarint_length (proj2 (proj2 (proj2 Hok)))) as Hv.
  assert (Hx : nth_error (x0 :: L) 0 = Some x0) by reflexivity.
  destruct (@cells_set s fl ms _ 0%nat x0 b (ho_cells H) Hx ltac:(lia)) as (p & E & C' & Z).
  eexists _, (Cell b (c_codec x0) (c_es x0) (c_pgs x0)). split; [|split; [|split; [|constructor]]].
  - unfold if_set_metadata. rewrite (@bind_ok _ _ _ (lift (file_meta_marshal fm')) _ s b s) by (unfold lift; rewrite E1; reflexivity).
    rewrite <- (holds_slot0 H). exact E.
  - reflexivity.
  - exact Z.
  - exact C'.
  - auto.
  - apply (ho_c0 H).
  - apply (ho_ix H).
  - apply (ho_at H).
  - apply (ho_nd H).
Qed.
Lemma holds_open c s fm l fl ms x0 L k fmt : holds c s fm l fl ms x0 L ->
  exists s1 p, new_page_file (open_rws k (file s)) = (Ok tt, s1) /\ file s1 = file s /\ kind s1 = k /\
    holds c (set_pos s1 p) fm l fl ms x0 L /\
    new_index_file fmt s1 = ((if fm_version fm =? currentVersion then if fm_format fm =? fmt then Ok file_slot else Err (EMsg "unsupported format")
       else Err (EMsg "unsupported version")), set_pos s1 p).
Proof.
  intros H. destruct (@cells_reopen s fl ms _ k (ho_cells H)) as (s1 & p & E1 & E2 & C1 & F1).
  pose proof (cl_inv (ho_cells H)) as Hpi. destruct (@new_page_file_reopen s fl k Hpi) as (s1' & E1' & _ & _ & _ & K1 & _). rewrite E1 in E1'. injection E1' as <-.
  assert (H1 : holds c (set_pos s1 p) fm l fl ms x0 L) by (destruct H as [A B B' C D E]; constructor; auto).
  pose proof (holds_slot0 H1) as E0.
  destruct (@lp_next_head (set_pos s1 p) ms _ (cl_chain C1)) as (q & E3). cbn [length Nat.ltb Nat.leb] in E3.
  destruct (holds_file_metadata (holds_pos q H1)) as (b & r & E4 & E5).
  exists s1, r. split; auto. split; auto. split; auto. split; [change (set_pos s1 r) with (set_pos (set_pos s1 p) r); apply holds_pos; exact H1|].
  unfold new_index_file. rewrite (@bind_ok _ _ _ _ _ _ _ _ E2). rewrite E3. rewrite (@bind_ok _ _ _ _ _ _ _ _ E4).
  rewrite (@bind_ok _ _ _ (lift (file_meta_unmarshal b)) _ _ fm (set_pos (set_pos (set_pos s1 p) q) r)) by (unfold lift; rewrite E5; reflexivity).
  rewrite E0. destruct (fm_version fm =? currentVersion); [|reflexivity]. destruct (fm_format fm =? fmt); reflexivity.
Qed.
Lemma holds_create c k fmt : (forall ft, codec_ok (c ft)) -> 0 <= fmt <= 1 ->
  exists s1 s' fl ms x0, new_page_file (open_rws k []) = (Ok tt, s1) /\ new_index_file fmt s1 = (Ok file_slot, s') /\ kind s' = k /\
    zlen (file s') = 2 * pageSize /\ holds c s' (FM currentVersion fmt 0 0) [] fl ms x0 [].
Proof.
  intros Hc Hfmt. destruct (new_page_file_fresh k) as (s0 & F1 & F2 & F3 & F4 & F5 & F6 & F7).
  destruct (@new_multi_fresh s0 F2 F6 F4) as (s2 & G1 & G2 & G3 & G4 & G5 & G6 & G7 & G8).
  assert (C0 : cells s2 [] [pageSize] []).
  { constructor; auto.
    - cbn. constructor; [intros []|constructor].
    - intros [|j] x Hx; discriminate. }
  destruct (@lp_next_head s2 [pageSize] 0 G5) as (q & E3). cbn [Nat.ltb Nat.leb] in E3.
  destruct (@cells_add (set_pos s2 q) [] [pageSize] [] (c 0) (cells_pos q C0) (Hc 0)) as (s3 & ms' & fl' & E4 & C3 & K3 & S3 & Z3).
  { cbn [file set_pos]. rewrite G7. unfold pageSize. lia. }
  assert (Hok : file_meta_ok (FM currentVersion fmt 0 0)) by (unfold file_meta_ok, currentVersion; cbn; lia).
  destruct (@file_meta_roundtrip (FM currentVersion fmt 0 0) [] Hok) as (b & E1 & _ & E5); [cbn; lia|].
  cbn [fm_entries] in E5. change (zlen (put_uvarint 0)) with 1 in E5.
  destruct (@cells_set s3 fl' ms' _ 0%nat _ b C3 eq_refl ltac:(lia)) as (p & E6 & C6 & Z6). cbn [c_codec c_es c_pgs] in C6.
  assert (E0 : slot ms' 0 = file_slot) by (unfold slot, file_slot; change (0 / 15)%nat with 0%nat; rewrite (cl_first C3); reflexivity).
  exists s0, (set_pos (set_file s3 (upd (file s3) (root_off (slot ms' 0) + 12) (zlen b :: b))) p), fl', ms', (Cell b (c 0) [] []). split; auto. split; [|split; [|split]].
  - unfold new_index_file. rewrite (@bind_ok _ _ _ _ _ _ _ _ G1). rewrite E3. cbn [tail_of length] in E4. rewrite (@bind_ok _ _ _ _ _ _ _ _ E4).
    rewrite (@bind_ok _ _ _ (lift (file_meta_marshal (FM currentVersion fmt 0 0))) _ s3 b s3) by (unfold lift; rewrite E1; reflexivity).
    rewrite (@bind_ok _ _ _ _ _ _ _ _ E6). rewrite E0. reflexivity.
  - cbn [kind set_pos set_file]. rewrite K3. cbn [kind set_pos]. congruence.
  - cbn [file set_pos set_file]. rewrite Z6. cbn [file set_pos] in Z3.
    (* the second slot page was not needed *)
    assert (Hch : mchain (file s3) ms' 1) by exact (cl_chain C3).
    revert E4. cbn [tail_of length]. unfold lp_add_next.
    assert (Hp : page_ok (file s2) pageSize) by (unfold page_ok; rewrite G7; unfold pageSize; lia).
    destruct (@lp_count_ok (set_pos s2 q) (head_of [pageSize]) (2^64-1) 0 Hp) as (p1 & Ec).
    { exact (mc_hdr G5 (j := 0%nat) ltac:(cbn; lia)). }
    rewrite (@bind_ok _ _ _ _ _ _ _ _ Ec). cbn [head_of lp_idx lp_off nth]. change ((255 + 1) mod 256 <? 0) with false. change (negb (0 =? numSlots)) with true. cbv iota.
    change (s64 ((pageSize + 8) mod 2 ^ 64)) with 4104. change [(0 + 1) mod 256] with [1].
    destruct (@seek_pf_write (set_pos (set_pos s2 q) p1) 4104 [1]) as (n5 & p5 & E5'); [exact G3 | cbn [file set_pos]; rewrite G7; unfold pageSize; lia | change (zlen [1]) with 1; unfold pageSize; lia |].
    intros E4'. assert (Ef : file s3 = upd (file s2) 4104 [1]).
    { revert E4' E5'. unfold bind. destruct (seek_start 4104 (set_pos (set_pos s2 q) p1)) as [[?| | | |] ?]; try discriminate. intros E4' E5'. rewrite E5' in E4'.
      unfold ret in E4'. injection E4' as _ <-. reflexivity. }
    rewrite Ef, zlen_upd by (rewrite G7; unfold pageSize; lia). rewrite G7. change (zlen [1]) with 1. unfold pageSize. lia.
  - constructor; auto.
    + cbn. repeat split; auto; try (apply Hok). lia.
    + constructor.
Qed.
Lemma holds_more wd parse D t s fm l fl ms x0 L : (forall ft, 0 <= wd ft <= 2017) -> zlen (D ++ t) < 2^63 ->
  holds (ix_codec wd parse D) s fm l fl ms x0 L -> exists x0' L', holds (ix_codec wd parse (D ++ t)) s fm l fl ms x0' L' /\ grown L L'.
Proof.
  intros Hwd HD H. set (g := fun c => mkCodec (cwidth c) (D ++ t) (cparse c)).
  assert (Hcod : forall x, In x (x0 :: L) -> exists ft, c_codec x = ix_codec wd parse D ft).
  { intros x [<-|Hx]; [exists 0; apply (proj1 (ho_c0 H))|]. apply In_nth_error in Hx. destruct Hx as (k & Hx).
    destruct (forall2_nth_r (ho_ix H) _ Hx) as (ix & _ & (_ & _ & _ & C4 & _)). eauto. }
  assert (C : cells s fl ms (map (fun x => Cell (c_meta x) (g (c_codec x)) (c_es x) (c_pgs x)) (x0 :: L))).
  { apply cells_longer; [apply (ho_cells H)|]. intros x Hx. destruct (Hcod x Hx) as (ft & ->). unfold ix_codec, g. cbn [cwidth cdata cparse]. split.
    - split; [reflexivity|]. split; [reflexivity|]. exists t. reflexivity.
    - split; cbn [cwidth cdata]; [pose proof (Hwd ft); lia|lia]. }
  cbn [map] in C. eexists _, _. split; [constructor; [exact C| | | | |]|apply grown_map; reflexivity].
  - apply (ho_fm H).
  - split; cbn [c_codec c_es]; [rewrite (proj1 (ho_c0 H)); reflexivity|apply (proj2 (ho_c0 H))].
  - pose proof (ho_ix H) as F. clear - F. induction F as [|ix x l L (C1 & C2 & C3 & C4 & C5) F IH]; cbn [map]; constructor; auto.
    split; auto. split; auto. split; auto. cbn [c_codec c_es]. rewrite C4. auto.
  - apply (ho_at H).
  - apply (ho_nd H).
Qed.

(** ** The invariant of histories *)
Definition widths_ok (wd : Z -> Z) : Prop := forall ft, 0 <= wd ft <= 2017.
Lemma ix_codec_ok wd parse D ft : widths_ok wd -> zlen D < 2^63 -> codec_ok (ix_codec wd parse D ft).
Proof. intros H1 H2. split; cbn [ix_codec cwidth cdata]; [pose proof (H1 ft); lia|lia]. Qed.
Lemma ix_codec_kw wd parse D ft : widths_ok wd -> kw (ix_codec wd parse D ft) <= 2016.
Proof. intros H. unfold kw. cbn [ix_codec cwidth]. pose proof (H ft). destruct (wd ft =? 0); lia. Qed.

Theorem ifile_holds wd parse D fm l s : widths_ok wd -> ifile wd parse D fm l s ->
  zlen D < 2^63 /\ exists fl ms x0 L, holds (ix_codec wd parse D) s fm l fl ms x0 L.
Proof.
  intros Hwd. induction 1 as [k fmt s h s' Hfmt E1 E2
    | D fm l s name ft m im s' _ (HD & fl & ms & x0 & L & H) Hf Hname Hft E
    | D fm l s ix k v s' _ (HD & fl & ms & x0 & L & H) Hin Hf Hop E
    | D fm l s ix t s' _ (HD & fl & ms & x0 & L & H) Hin Ht Hlen E
    | D fm fm' l s s' _ (HD & fl & ms & x0 & L & H) Hok Hfmt E
    | D fm l s k fmt s1 h s' _ (HD & fl & ms & x0 & L & H) E1 E2
    | D t fm l s _ (HD & fl & ms & x0 & L & H) HD'
    | D fm l s p _ (HD & fl & ms & x0 & L & H)].
  - split; [change (zlen (@nil Z)) with 0; lia|].
    destruct (@holds_create (ix_codec wd parse []) k fmt) as (s1 & s2 & fl & ms & x0 & F1 & F2 & _ & _ & F3); auto.
    { intros ft. apply ix_codec_ok; auto. change (zlen (@nil Z)) with 0; lia. }
    rewrite E1 in F1. injection F1 as <-. rewrite E2 in F2. injection F2 as _ <-. eauto 6.
  - split; auto. destruct (existsb (same_indexb name ft) l) eqn:Hex.
    + destruct (find_existing _ _ H Hex) as (p & ix & I1 & I2 & I3). rewrite E in I3. injection I3 as _ _ ->. exists fl, ms, x0, L. apply holds_pos; auto.
    + destruct (@find_new (ix_codec wd parse D) s fm l fl ms x0 L name ft) as (s2 & fl' & ms' & L' & F1 & F2 & F3 & F4 & _); auto.
      { intros; apply ix_codec_ok; auto. }
      rewrite E in F1. injection F1 as Em _ Es. subst m s'. exists fl', ms', x0, L'. exact F4.
  - split; auto. apply In_nth_error in Hin. destruct Hin as (j & Hj).
    destruct (in_dec rv_eq_dec k (map fst (ix_es ix))) as [Hdup|Hnew]; [exfalso|].
    2:{ assert (Hw : cwidth (ix_codec wd parse D (ix_type ix)) = 0 \/ zlen (rv_val k) = cwidth (ix_codec wd parse D (ix_type ix)) - 1).
      { destruct (Z.eq_dec (cwidth (ix_codec wd parse D (ix_type ix))) 0) as [|Hne]; [auto|]. right.
        destruct (Z.eq_dec (zlen (rv_val k)) (cwidth (ix_codec wd parse D (ix_type ix)) - 1)) as [|Hne2]; [auto|]. exfalso.
        destruct Hop as (_ & _ & _ & _ & H5 & _). cbn [fst] in H5. specialize (H5 Hne). pose proof (Hwd (ix_type ix)). cbn [ix_codec cwidth] in *.
        rewrite insert_wrong_width in E; [discriminate|auto|]. cbn [ix_codec cwidth]. pose proof (zlen_nonneg (rv_val k)). rewrite !Z.mod_small by lia. auto. }
      destruct (op_key_ok Hop Hw) as [Hk Hv].
      destruct (@holds_put _ s fm l fl ms x0 L j ix k v H Hj (@ix_codec_kw wd parse D _ Hwd) Hf Hk Hv Hnew) as (s2 & fl' & L' & F1 & F2 & F3 & F4 & F5 & _).
      rewrite E in F1. injection F1 as <-. rewrite (at_index_lset j _ H Hj). eauto 6. }
    destruct (holds_nth _ H Hj) as (x & Hx & (C1 & C2 & C3 & C4 & C5) & Ea).
      pose proof (cells_sys _ (ho_cells H) Hx) as Hsys. rewrite C4, <- Ea in Hsys.
      destruct (@insert_step _ _ _ _ _ _ k v _ _ (@ix_codec_kw wd parse D _ Hwd) Hsys Hf Hop E) as [([_ X] & _)|(_ & (e & Ee) & _)]; [|discriminate].
      apply X. eapply Permutation_in; [apply Permutation_map, Permutation_sym; exact C5|exact Hdup].
  - split; auto. apply In_nth_error in Hin. destruct Hin as (j & Hj).
    destruct (@holds_total _ s fm l fl ms x0 L j ix t H Hj Ht Hlen) as (s2 & L' & F1 & F2 & F3 & F4 & _). rewrite E in F1. injection F1 as <-.
    rewrite (at_index_lset j _ H Hj). eauto 6.
  - split; auto. destruct (@holds_set_meta _ s fm fm' l fl ms x0 L H Hok Hfmt) as (s2 & x' & F1 & F2 & F3 & F4). rewrite E in F1. injection F1 as <-. eauto 6.
  - split; auto. destruct (@holds_open _ s fm l fl ms x0 L k fmt H) as (s2 & p & F1 & F2 & F3 & F4 & F5). rewrite E1 in F1. injection F1 as <-.
    rewrite E2 in F5. injection F5 as _ ->. eauto 6.
  - split; auto. destruct (@holds_more wd parse D t s fm l fl ms x0 L Hwd HD' H) as (x0' & L' & F & _). eauto 6.
  - split; auto. exists fl, ms, x0, L. apply holds_pos; auto.
Qed.
