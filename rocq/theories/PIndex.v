(** C22-C26, C35: the index file as a list of independent indexes. The theorems
    speak about every history of an index file ([ifile], IndexFile.v): creating
    it, FindOrCreateIndex, Insert into an index, storing an index's metadata,
    SetMetadata, closing and reopening, and appending to the data file. *)
From Coq Require Import Permutation.
From Verif Require Import Base Varint Store PageFile PageHist RefValue Node LinkedPage BPTree BPRepr BPIter BPInsert BPLoop BPTop PTree Meta Slots SlotAdd PSlots Cells IndexFile IFileInv.

(** ** Specification *)
(** [reads s r v]: the read-only call [r] returns [v] and changes no byte. *)
Definition reads {A} (s : st) (r : M st A) (v : A) : Prop := exists s', r s = (Ok v, s') /\ file s' = file s.
(** the metadata of the index at [m], as its readers decode it *)
Definition index_metadata (m : lp) : M st index_meta := b <- lp_metadata m ;; lift (index_meta_unmarshal b).
(** Index [ix] can be read from [s]: its metadata say its name, type, width and
    total; a walk from the least key lists its entries once, in ascending order. *)
Definition reads_as (wd : Z -> Z) (parse : bytes -> option bytes) (D : bytes) (s : st) (ix : ixr) : Prop :=
  reads s (index_metadata (ix_at ix)) (IM (ix_name ix) (ix_type ix) (determine_type (ix_type ix)) (ix_total ix)) /\
  exists es, Permutation es (ix_es ix) /\ ascending es /\
    forall n, walk (ix_codec wd parse D (ix_type ix)) (ix_at ix) s least n = Ok (firstn n es).
(** the elements of a list in order of first appearance *)
Fixpoint first_appearances (l : list bytes) : list bytes :=
  match l with
  | [] => []
  | x :: t => x :: filter (fun y => if list_eq_dec Z.eq_dec y x then false else true) (first_appearances t)
  end.

(** ** Proofs *)
Lemma least_all c s m fl es pgs : sys c s m fl es pgs -> forall x, In x (map fst es) -> rle least x.
Proof.
  intros Hs x Hx. apply in_map_iff in Hx. destruct Hx as (e & <- & He). apply least_le. destruct (sys_keys_ok Hs _ He) as [X _]. exact X.
Qed.
Lemma holds_reads wd parse D s fm l fl ms x0 L ix : holds (ix_codec wd parse D) s fm l fl ms x0 L -> In ix l -> reads_as wd parse D s ix.
Proof.
  intros H Hin. apply In_nth_error in Hin. destruct Hin as (k & Hk). destruct (holds_nth _ H Hk) as (x & Hx & (C1 & C2 & C3 & C4 & C5) & Ea). split.
  - destruct (holds_metadata _ H Hk) as (b & p & E1 & E2). rewrite <- Ea in E1. exists (set_pos s p). split; [|reflexivity].
    unfold index_metadata. rewrite (@bind_ok _ _ _ _ _ _ _ _ E1). unfold lift. rewrite E2. reflexivity.
  - pose proof (cells_sys _ (ho_cells H) Hx) as Hsys. rewrite C4, <- Ea in Hsys. exists (c_es x). split; auto. split; [eapply sys_ascending; eauto|].
    intros n. pose proof (least_all Hsys) as Hl. rewrite (@sys_walk _ s _ fl _ (c_pgs x) least n Hsys (or_intror Hl)).
    destruct (@below_none least (c_es x) Hl) as [_ ->]. reflexivity.
Qed.

(** *** C22 *)
(** A new file can be created for either format; it has version 1, no entries and no index. *)
Theorem C22_create wd parse k fmt : widths_ok wd -> 0 <= fmt <= 1 ->
  exists s h s', new_page_file (open_rws k []) = (Ok tt, s) /\ new_index_file fmt s = (Ok h, s') /\
    h = file_slot /\ reads s' (if_metadata file_slot) (FM 1 fmt 0 0) /\ ifile wd parse [] (FM 1 fmt 0 0) [] s'.
Proof.
  intros Hwd Hf. destruct (@holds_create (ix_codec wd parse []) k fmt) as (s1 & s2 & fl & ms & x0 & F1 & F2 & _ & _ & F3); auto.
  { intros ft. apply ix_codec_ok; auto. change (zlen (@nil Z)) with 0; lia. }
  exists s1, file_slot, s2. split; auto. split; auto. split; auto. split; [|eapply if_new; eauto].
  destruct (holds_file_metadata F3) as (b & p & E1 & E2). exists (set_pos s2 p). split; [|reflexivity].
  unfold if_metadata. rewrite <- (holds_slot0 F3). rewrite (@bind_ok _ _ _ _ _ _ _ _ E1). unfold lift. rewrite E2. reflexivity.
Qed.
Lemma holds_if_metadata c s fm l fl ms x0 L : holds c s fm l fl ms x0 L -> reads s (if_metadata file_slot) fm.
Proof.
  intros F3. destruct (holds_file_metadata F3) as (b & p & E1 & E2). exists (set_pos s p). split; [|reflexivity].
  unfold if_metadata. rewrite <- (holds_slot0 F3). rewrite (@bind_ok _ _ _ _ _ _ _ _ E1). unfold lift. rewrite E2. reflexivity.
Qed.
(** Reopening with the same format: succeeds, changes no byte, same metadata, same indexes. *)
Theorem C22_reopen wd parse D fm l s k : widths_ok wd -> ifile wd parse D fm l s -> fm_version fm = 1 ->
  exists s1 s2, new_page_file (open_rws k (file s)) = (Ok tt, s1) /\ new_index_file (fm_format fm) s1 = (Ok file_slot, s2) /\
    file s2 = file s /\ reads s2 (if_metadata file_slot) fm /\ Forall (reads_as wd parse D s2) l.
Proof.
  intros Hwd Hi Hv. destruct (ifile_holds Hwd Hi) as (HD & fl & ms & x0 & L & H).
  destruct (@holds_open _ s fm l fl ms x0 L k (fm_format fm) H) as (s2 & p & F1 & F2 & F3 & F4 & F5).
  exists s2, (set_pos s2 p). split; auto. unfold currentVersion in F5. rewrite Hv, !Z.eqb_refl in F5. split; auto. split; auto.
  split; [eapply holds_if_metadata; eauto|]. apply Forall_forall. intros ix Hix. eapply holds_reads; eauto.
Qed.
(** Another version or another format: an error, and no byte changes. *)
Theorem C22_foreign_refused wd parse D fm l s k fmt : widths_ok wd -> ifile wd parse D fm l s -> fm_version fm <> 1 \/ fm_format fm <> fmt ->
  exists s1 e s2, new_page_file (open_rws k (file s)) = (Ok tt, s1) /\ new_index_file fmt s1 = (Err e, s2) /\ file s2 = file s.
Proof.
  intros Hwd Hi Hv. destruct (ifile_holds Hwd Hi) as (HD & fl & ms & x0 & L & H).
  destruct (@holds_open _ s fm l fl ms x0 L k fmt H) as (s2 & p & F1 & F2 & F3 & F4 & F5). unfold currentVersion in F5.
  exists s2. destruct (Z.eqb_spec (fm_version fm) 1) as [E1|N1]; [destruct (Z.eqb_spec (fm_format fm) fmt) as [E2|N2]|].
  - destruct Hv; contradiction.
  - eexists _, _. split; [exact F1|]. split; [exact F5|exact F2].
  - eexists _, _. split; [exact F1|]. split; [exact F5|exact F2].
Qed.
(** The metadata read back are those last stored. *)
Theorem C22_metadata wd parse D fm l s : widths_ok wd -> ifile wd parse D fm l s -> reads s (if_metadata file_slot) fm.
Proof. intros Hwd Hi. destruct (ifile_holds Hwd Hi) as (HD & fl & ms & x0 & L & H). eapply holds_if_metadata; eauto. Qed.
Theorem C22_set_metadata wd parse D fm l s fm' : widths_ok wd -> ifile wd parse D fm l s -> file_meta_ok fm' -> fm_format fm' <= 1 ->
  exists s', if_set_metadata file_slot fm' s = (Ok tt, s') /\ reads s' (if_metadata file_slot) fm' /\ Forall (reads_as wd parse D s') l.
Proof.
  intros Hwd Hi H1 H2. destruct (ifile_holds Hwd Hi) as (HD & fl & ms & x0 & L & H).
  destruct (@holds_set_meta _ s fm fm' l fl ms x0 L H H1 H2) as (s2 & x' & F1 & F2 & F3 & F4). exists s2. split; auto.
  split; [eapply holds_if_metadata; eauto|]. apply Forall_forall. intros ix Hix. eapply holds_reads; eauto.
Qed.

(** *** C23 *)
(** An index that exists is returned and no byte changes. *)
Theorem C23_existing_is_found wd parse D fm l s name ft ix : widths_ok wd -> ifile wd parse D fm l s ->
  In ix l -> ix_name ix = name -> ix_type ix = ft ->
  reads s (find_or_create file_slot name ft) (ix_at ix, IM name ft (determine_type ft) (ix_total ix)).
Proof.
  intros Hwd Hi Hin En Et. destruct (ifile_holds Hwd Hi) as (HD & fl & ms & x0 & L & H).
  assert (Hex : existsb (same_indexb name ft) l = true) by (apply existsb_exists; exists ix; split; auto; apply same_indexb_spec; split; auto).
  destruct (find_existing _ _ H Hex) as (p & iy & I1 & (I2a & I2b) & I3). assert (iy = ix).
  { apply In_nth_error in Hin. destruct Hin as (i & Hi'). apply In_nth_error in I1. destruct I1 as (j & Hj).
    assert (i = j).
    { apply (proj1 (NoDup_nth_error (map (fun ix => (ix_name ix, ix_type ix)) l)) (ho_nd H)).
      - rewrite map_length. apply nth_error_Some. congruence.
      - rewrite !nth_error_map, Hi', Hj. cbn [option_map]. congruence. }
    subst j. congruence. }
  subst iy. exists (set_pos s p). rewrite I3. unfold ix_meta. rewrite En, Et. split; reflexivity.
Qed.
(** An index that does not exist is created: it is new, empty, comes last, and
    the others are as before. (Names of more than 245 bytes: see below.) *)
Theorem C23_new_is_created_partial wd parse D fm l s name ft : widths_ok wd -> ifile wd parse D fm l s ->
  (forall ix, In ix l -> ~ (ix_name ix = name /\ ix_type ix = ft)) -> zlen (file s) < 2^60 -> zlen name <= 245 -> 0 <= ft < 2^8 ->
  exists m s', find_or_create file_slot name ft s = (Ok (m, IM name ft (determine_type ft) 0), s') /\
    ~ In m (map ix_at l) /\ ifile wd parse D fm (l ++ [IX m name ft 0 []]) s' /\ zlen (file s') <= zlen (file s) + pageSize /\
    Forall (reads_as wd parse D s') (l ++ [IX m name ft 0 []]) /\ reads s' (if_metadata file_slot) fm.
Proof.
  intros Hwd Hi Hno Hf Hname Hft. destruct (ifile_holds Hwd Hi) as (HD & fl & ms & x0 & L & H).
  assert (Hex : existsb (same_indexb name ft) l = false).
  { destruct (existsb (same_indexb name ft) l) eqn:E; auto. apply existsb_exists in E. destruct E as (ix & I1 & I2). apply same_indexb_spec in I2. exfalso. eapply Hno; eauto. }
  destruct (@find_new (ix_codec wd parse D) s fm l fl ms x0 L name ft) as (s2 & fl' & ms' & L' & F1 & F2 & F3 & F4 & _); auto.
  { intros; apply ix_codec_ok; auto. }
  eexists _, s2. split; [exact F1|]. split; [|split; [|split; [|split]]].
  - pose proof (ho_at F4) as Hat. rewrite map_app, app_length in Hat. cbn [map ix_at length] in Hat. rewrite Nat.add_1_r, seq_S, map_app in Hat.
    apply app_inj_tail in Hat. destruct Hat as [Hat _]. rewrite Hat. intros X. apply in_map_iff in X. destruct X as (k & Ek & Hk). apply in_seq in Hk.
    pose proof (cl_chain (ho_cells F4)) as Hc. pose proof (holds_len F4) as Hl. rewrite app_length in Hl. cbn [length] in Hl, Hc.
    apply (slot_inj Hc) in Ek; lia.
  - pose proof (@if_index wd parse D fm l s name ft _ _ _ Hi Hf Hname Hft F1) as X. rewrite Hex in X. exact X.
  - lia.
  - apply Forall_forall. intros ix Hix. eapply holds_reads; eauto.
  - eapply holds_if_metadata; eauto.
Qed.
(** A call that changes nothing was for an index that exists: creating one changes the file. *)
Lemma chain_next f ms n j : mchain f ms n -> (j < length ms)%nat -> 0 <= next_of ms j < 2^64 /\ ((S j < length ms)%nat -> next_of ms j = nth (S j) ms 0 /\ next_of ms j < 2^62) /\ ((length ms <= S j)%nat -> next_of ms j = 2^64 - 1).
Proof.
  intros Hc Hj. unfold next_of. destruct (nth_error ms (S j)) as [o|] eqn:E.
  - assert (Hl : (S j < length ms)%nat) by (apply nth_error_Some; congruence). destruct (nth_ok Hc Hl) as [(P1 & P2 & P3 & P4) P5]. rewrite (nth_error_nth _ _ 0 E) in *. unfold pageSize in *. split; [lia|]. split; [auto|lia].
  - apply nth_error_None in E. split; [lia|]. split; [lia|auto].
Qed.
Lemma app_last {A} (a b : list A) x y : a ++ [x] = b ++ [y] -> a = b /\ x = y.
Proof. apply app_inj_tail. Qed.
Lemma le8_inj a b : 0 <= a < 2^64 -> 0 <= b < 2^64 -> le 8 a = le 8 b -> a = b.
Proof. intros Ha Hb E. rewrite <- (unle_le 8 (v:=a)), <- (unle_le 8 (v:=b)), E; auto. Qed.
Lemma chain_same f ms n ms' n' : mchain f ms n -> mchain f ms' n' -> nth 0 ms 0 = nth 0 ms' 0 -> n = n'.
Proof.
  intros H H' H0.
  assert (G : forall ms n ms' n', mchain f ms n -> mchain f ms' n' -> nth 0 ms 0 = nth 0 ms' 0 -> forall j, (j < length ms)%nat -> (j < length ms')%nat /\ nth j ms 0 = nth j ms' 0).
  { clear. intros ms n ms' n' H H' H0. induction j as [|j IH]; intros Hj; [split; auto; apply (mc_len H')|]. destruct (IH ltac:(lia)) as [Hj' E].
    pose proof (@mc_hdr f ms n H j ltac:(lia)) as E1. pose proof (mc_hdr H' Hj') as E2. rewrite E in E1. rewrite E1 in E2. apply app_last in E2. destruct E2 as [E2 _].
    destruct (chain_next H (j:=j) ltac:(lia)) as (N1 & N2 & N3). destruct (chain_next H' Hj') as (N1' & N2' & N3'). apply le8_inj in E2; auto. destruct (N2 Hj) as [N4 N5].
    assert (Hl : (S j < length ms')%nat) by (destruct (Nat.le_gt_cases (length ms') (S j)) as [X|X]; [rewrite (N3' X) in E2; lia|auto]).
    split; auto. destruct (N2' Hl) as [N6 _]. congruence. }
  assert (El : length ms = length ms').
  { pose proof (mc_len H). pose proof (mc_len H'). destruct (G _ _ _ _ H H' H0 (length ms - 1)%nat ltac:(lia)). destruct (G _ _ _ _ H' H (eq_sym H0) (length ms' - 1)%nat ltac:(lia)). lia. }
  pose proof (mc_len H) as Hl. destruct (G _ _ _ _ H H' H0 (length ms - 1)%nat ltac:(lia)) as [Hl' E].
  pose proof (@mc_hdr f ms n H (length ms - 1)%nat ltac:(lia)) as E1. pose proof (mc_hdr H' Hl') as E2. rewrite E in E1. rewrite E1 in E2. apply app_last in E2. destruct E2 as [_ E2].
  unfold count_of in E2. rewrite El in E2. destruct (Nat.ltb_spec (S (length ms' - 1)) (length ms')); lia.
Qed.
Theorem C23_found_exists wd parse D fm l s name ft m im : widths_ok wd -> ifile wd parse D fm l s -> zlen (file s) < 2^60 -> zlen name <= 245 -> 0 <= ft < 2^8 ->
  reads s (find_or_create file_slot name ft) (m, im) -> In (name, ft) (map (fun ix => (ix_name ix, ix_type ix)) l).
Proof.
  intros Hwd Hi Hf Hname Hft (s' & E & Ef). destruct (ifile_holds Hwd Hi) as (HD & fl & ms & x0 & L & H).
  destruct (existsb (same_indexb name ft) l) eqn:Hex.
  - apply existsb_exists in Hex. destruct Hex as (ix & I1 & I2). apply same_indexb_spec in I2. destruct I2 as [<- <-]. apply in_map_iff. eauto.
  - destruct (@find_new (ix_codec wd parse D) s fm l fl ms x0 L name ft) as (s2 & fl' & ms' & L' & F1 & F2 & F3 & F4 & _); auto.
    { intros; apply ix_codec_ok; auto. }
    rewrite E in F1. injection F1 as _ _ <-. pose proof (cl_chain (ho_cells H)) as C1. pose proof (cl_chain (ho_cells F4)) as C2. rewrite Ef in C2.
    pose proof (chain_same C1 C2) as X. rewrite (cl_first (ho_cells H)), (cl_first (ho_cells F4)) in X. specialize (X eq_refl). cbn [length] in X.
    pose proof (holds_len H) as L1. pose proof (holds_len F4) as L2. rewrite app_length in L2. cbn [length] in L2. lia.
Qed.
(** There is never more than one index per name and type, and never two at the same place. *)
Theorem C23_unique wd parse D fm l s : widths_ok wd -> ifile wd parse D fm l s ->
  NoDup (map (fun ix => (ix_name ix, ix_type ix)) l) /\ NoDup (map ix_at l).
Proof.
  intros Hwd Hi. destruct (ifile_holds Hwd Hi) as (HD & fl & ms & x0 & L & H). split; [apply (ho_nd H)|].
  rewrite (ho_at H). pose proof (cl_chain (ho_cells H)) as Hc. cbn [length] in Hc. rewrite <- (holds_len H) in Hc.
  assert (G : forall j a, (a + j <= S (length l))%nat -> NoDup (map (slot ms) (seq a j))).
  { induction j as [|j IH]; intros a Hj; [constructor|]. cbn [seq map]. constructor; [|apply IH; lia].
    intros X. apply in_map_iff in X. destruct X as (i & Ei & Hi'). apply in_seq in Hi'. apply (slot_inj Hc) in Ei; lia. }
  apply G. lia.
Qed.

(** *** C24 *)
Lemma find_pass name ft fl ms Lx : forall d k fuel s, cells s fl ms Lx -> (d <= fuel)%nat ->
  (forall j, (k <= j < k + d)%nat -> exists x m, nth_error Lx (S j) = Some x /\ index_meta_unmarshal (c_meta x) = Ok m /\
     name_eqb (im_name m) name && (im_type m =? ft) = false) ->
  exists p, find_or_create_from fuel (slot ms k) name ft s = find_or_create_from (fuel - d) (slot ms (k + d)) name ft (set_pos s p).
Proof.
  induction d as [|d IH]; intros k fuel s H Hfu Hno.
  - exists (pos s). rewrite Nat.sub_0_r, Nat.add_0_r. destruct s; reflexivity.
  - destruct fuel as [|fuel]; [lia|]. cbn [find_or_create_from].
    destruct (Hno k ltac:(lia)) as (x & m & Hx & Em & Ne). pose proof (cells_lt _ H Hx) as Hlt.
    destruct (@lp_next_ok s ms _ k (cl_chain H) ltac:(lia)) as (p & E). rewrite E. destruct (Nat.ltb_spec (S k) (length Lx)); [|lia].
    destruct (cl_at H _ Hx) as (M1 & M2 & _).
    destruct (@lp_metadata_ok (set_pos s p) _ _ (cells_slot _ H Hx) M1) as (q & E2); [lia|].
    rewrite (@bind_ok _ _ _ _ _ _ _ _ E2). rewrite (@bind_ok _ _ _ (lift (index_meta_unmarshal (c_meta x))) _ _ m (set_pos (set_pos s p) q)) by (unfold lift; rewrite Em; reflexivity).
    rewrite Ne. destruct (IH (S k) fuel (set_pos (set_pos s p) q)) as (r & Er).
    + apply cells_pos, cells_pos; auto.
    + lia.
    + intros j Hj. apply Hno. lia.
    + exists r. rewrite Er. cbn [Nat.sub]. replace (S k + d)%nat with (k + S d)%nat by lia. reflexivity.
Qed.
Lemma find_stuck name ft fl ms Lx k fuel s x e : cells s fl ms Lx -> nth_error Lx (S k) = Some x -> index_meta_unmarshal (c_meta x) = Err e ->
  exists p, find_or_create_from (S fuel) (slot ms k) name ft s = (Err e, set_pos s p).
Proof.
  intros H Hx Ee. pose proof (cells_lt _ H Hx) as Hlt. cbn [find_or_create_from].
  destruct (@lp_next_ok s ms _ k (cl_chain H) ltac:(lia)) as (p & E). rewrite E. destruct (Nat.ltb_spec (S k) (length Lx)); [|lia].
  destruct (cl_at H _ Hx) as (M1 & M2 & _).
  destruct (@lp_metadata_ok (set_pos s p) _ _ (cells_slot _ H Hx) M1) as (q & E2); [lia|].
  rewrite (@bind_ok _ _ _ _ _ _ _ _ E2). unfold bind at 1, lift. rewrite Ee. exists q. reflexivity.
Qed.
Lemma cells_fuel s fl ms Lx : cells s fl ms Lx -> (length Lx <= fuel_of s)%nat.
Proof.
  intros H. pose proof (cl_chain H) as Hc. pose proof (mc_n Hc) as Hn.
  assert (Hp : pageSize * zlen ms <= zlen (file s)).
  { apply pages_count; [apply (mc_nd Hc)|]. eapply Forall_impl; [|exact (mc_ok Hc)]. intros a [X _]; auto. }
  unfold fuel_of, zlen, pageSize in *. lia.
Qed.
(** C24 fails: for every index file and every name of more than 248 bytes that
    is not an index yet, FindOrCreateIndex reports an error but leaves a half
    made index behind; from then on FindOrCreateIndex fails for every name and
    type that is not an index yet. *)
Theorem C24_bad_name_bricks_the_file_refuted wd parse D fm l s name ft : widths_ok wd -> ifile wd parse D fm l s ->
  (forall ix, In ix l -> ~ (ix_name ix = name /\ ix_type ix = ft)) -> zlen (file s) < 2^60 -> 248 < zlen name ->
  exists e s', find_or_create file_slot name ft s = (Err e, s') /\
    forall name2 ft2, (forall ix, In ix l -> ~ (ix_name ix = name2 /\ ix_type ix = ft2)) ->
      exists e2 s2, find_or_create file_slot name2 ft2 s' = (Err e2, s2).
Proof.
  intros Hwd Hi Hno Hf Hname. destruct (ifile_holds Hwd Hi) as (HD & fl & ms & x0 & L & H).
  assert (Hnos : forall n2 f2, (forall ix, In ix l -> ~ (ix_name ix = n2 /\ ix_type ix = f2)) -> forall j ix, (0 <= j)%nat -> nth_error l j = Some ix -> ~ same_index n2 f2 ix).
  { intros n2 f2 Hx j ix _ Hj X. eapply Hx; [eapply nth_error_In; eauto|exact X]. }
  destruct (@find_from_none _ name ft (length l) 0%nat (fuel_of s) s fm l fl ms x0 L H eq_refl (Hnos _ _ Hno) (holds_fuel H)) as (p & E).
  pose proof (holds_len H) as Hlen.
  destruct (@cells_add (set_pos s p) fl ms (x0 :: L) (ix_codec wd parse D 0) (cells_pos p (ho_cells H)) (@ix_codec_ok wd parse D 0 Hwd HD) Hf) as (s1 & ms' & fl' & E1 & C1 & K1 & S1 & Z1).
  cbn [length] in E1. rewrite tail_is_slot in E1. rewrite <- Hlen in E1.
  assert (Em : exists b, index_meta_marshal (IM name ft (determine_type ft) 0) = Ok b /\ 255 < zlen b).
  { rewrite index_meta_marshal_eq by (cbn; lia). eexists. split; [reflexivity|]. cbn [im_name im_total im_type im_width]. rewrite !zlen_app, !zlen_le.
    change (zlen (put_uvarint 0)) with 1. lia. }
  destruct Em as (b & Em & Lb).
  exists (EMsg "metadata too large"), s1. split.
  - unfold find_or_create. rewrite <- (holds_slot0 H). rewrite E. cbv zeta. rewrite (@bind_ok _ _ _ _ _ _ _ _ E1).
    rewrite (@bind_ok _ _ _ (lift (index_meta_marshal (IM name ft (determine_type ft) 0))) _ s1 b s1) by (unfold lift; rewrite Em; reflexivity).
    unfold bind. rewrite lp_set_metadata_err; [reflexivity| |lia].
    pose proof (fun x => @cells_slot s1 fl' ms' _ (S (length l)) x C1) as Hs. rewrite nth_error_app2 in Hs by (cbn [length]; lia). cbn [length] in Hs.
    replace (S (length l) - S (length L))%nat with 0%nat in Hs by lia. specialize (Hs _ eq_refl). destruct Hs as (_ & Hs & _). unfold numSlots in Hs. lia.
  - intros name2 ft2 Hno2.
    assert (E0 : slot ms' 0 = file_slot) by (unfold slot, file_slot; change (0 / 15)%nat with 0%nat; rewrite (cl_first C1); reflexivity).
    pose proof (cells_fuel C1) as Hfu. rewrite app_length in Hfu. cbn [length] in Hfu.
    destruct (@find_pass name2 ft2 fl' ms' _ (length l) 0%nat (fuel_of s1) s1 C1) as (q & Eq).
    { lia. }
    { intros j Hj. destruct (nth_error l j) as [iy|] eqn:Ey; [|apply nth_error_None in Ey; lia].
      destruct (forall2_nth (ho_ix H) _ Ey) as (x & Hx & (D1 & D2 & D3 & D4 & D5)). exists x, (ix_meta iy). split; [|split].
      - cbn [app nth_error]. rewrite nth_error_app1 by (apply nth_error_Some; congruence). exact Hx.
      - apply index_unmarshal_exact; auto.
      - destruct (name_eqb (im_name (ix_meta iy)) name2 && (im_type (ix_meta iy) =? ft2)) eqn:Eb; auto. exfalso.
        apply (Hnos _ _ Hno2 j iy); [lia|auto|]. apply same_indexb_spec. exact Eb. }
    cbn [Nat.add] in Eq. destruct (fuel_of s1 - length l)%nat as [|fu] eqn:Efu; [lia|].
    destruct (@find_stuck name2 ft2 fl' ms' _ (length l) fu (set_pos s1 q) (Cell [] (ix_codec wd parse D 0) [] []) (EMsg "invalid metadata size") (cells_pos q C1)) as (r & Er).
    { cbn [app nth_error]. rewrite nth_error_app2 by lia. replace (length l - length L)%nat with 0%nat by lia. reflexivity. }
    { reflexivity. }
    eexists _, _. unfold find_or_create. rewrite <- E0, Eq, Er. reflexivity.
Qed.
(** What still works then (and always): the indexes made before are found. *)
Theorem C24_existing_indexes_still_found_partial wd parse D fm l s name ft e s' : widths_ok wd -> ifile wd parse D fm l s ->
  (forall ix, In ix l -> ~ (ix_name ix = name /\ ix_type ix = ft)) -> zlen (file s) < 2^60 -> 248 < zlen name ->
  find_or_create file_slot name ft s = (Err e, s') ->
  forall ix, In ix l -> reads s' (find_or_create file_slot (ix_name ix) (ix_type ix)) (ix_at ix, IM (ix_name ix) (ix_type ix) (determine_type (ix_type ix)) (ix_total ix)).
Proof.
  intros Hwd Hi Hno Hf Hname Efail ix Hix. destruct (ifile_holds Hwd Hi) as (HD & fl & ms & x0 & L & H).
  assert (Hnos : forall j ix, (0 <= j)%nat -> nth_error l j = Some ix -> ~ same_index name ft ix).
  { intros j iy _ Hj X. eapply Hno; [eapply nth_error_In; eauto|exact X]. }
  destruct (@find_from_none _ name ft (length l) 0%nat (fuel_of s) s fm l fl ms x0 L H eq_refl Hnos (holds_fuel H)) as (p & E).
  pose proof (holds_len H) as Hlen.
  destruct (@cells_add (set_pos s p) fl ms (x0 :: L) (ix_codec wd parse D 0) (cells_pos p (ho_cells H)) (@ix_codec_ok wd parse D 0 Hwd HD) Hf) as (s1 & ms' & fl' & E1 & C1 & K1 & S1 & Z1).
  cbn [length] in E1. rewrite tail_is_slot in E1. rewrite <- Hlen in E1.
  assert (Em : exists b, index_meta_marshal (IM name ft (determine_type ft) 0) = Ok b /\ 255 < zlen b).
  { rewrite index_meta_marshal_eq by (cbn; lia). eexists. split; [reflexivity|]. cbn [im_name im_total im_type im_width]. rewrite !zlen_app, !zlen_le.
    change (zlen (put_uvarint 0)) with 1. lia. }
  destruct Em as (b & Em & Lb).
  assert (s' = s1).
  { revert Efail. unfold find_or_create. rewrite <- (holds_slot0 H). rewrite E. cbv zeta. rewrite (@bind_ok _ _ _ _ _ _ _ _ E1).
    rewrite (@bind_ok _ _ _ (lift (index_meta_marshal (IM name ft (determine_type ft) 0))) _ s1 b s1) by (unfold lift; rewrite Em; reflexivity).
    unfold bind. rewrite lp_set_metadata_err; [congruence| |lia].
    pose proof (fun x => @cells_slot s1 fl' ms' _ (S (length l)) x C1) as Hs. rewrite nth_error_app2 in Hs by (cbn [length]; lia). cbn [length] in Hs.
    replace (S (length l) - S (length L))%nat with 0%nat in Hs by lia. specialize (Hs _ eq_refl). destruct Hs as (_ & Hs & _). unfold numSlots in Hs. lia. }
  subst s'. clear Efail.
  assert (E0 : slot ms' 0 = file_slot) by (unfold slot, file_slot; change (0 / 15)%nat with 0%nat; rewrite (cl_first C1); reflexivity).
  pose proof (cells_fuel C1) as Hfu. rewrite app_length in Hfu. cbn [length] in Hfu.
  apply In_nth_error in Hix. destruct Hix as (k & Hk). assert (Hkl : (k < length l)%nat) by (apply nth_error_Some; congruence).
  destruct (@find_pass (ix_name ix) (ix_type ix) fl' ms' _ k 0%nat (fuel_of s1) s1 C1) as (q & Eq).
  { lia. }
  { intros j Hj. destruct (nth_error l j) as [iy|] eqn:Ey; [|apply nth_error_None in Ey; lia].
    destruct (forall2_nth (ho_ix H) _ Ey) as (x & Hx & (D1 & D2 & D3 & D4 & D5)). exists x, (ix_meta iy). split; [|split].
    - cbn [app nth_error]. rewrite nth_error_app1 by (apply nth_error_Some; congruence). exact Hx.
    - apply index_unmarshal_exact; auto.
    - destruct (name_eqb (im_name (ix_meta iy)) (ix_name ix) && (im_type (ix_meta iy) =? ix_type ix)) eqn:Eb; auto. exfalso.
      apply same_indexb_spec in Eb. destruct Eb as [B1 B2]. assert (j = k); [|lia].
      apply (proj1 (NoDup_nth_error (map (fun ix => (ix_name ix, ix_type ix)) l)) (ho_nd H)).
      + rewrite map_length. apply nth_error_Some. congruence.
      + rewrite !nth_error_map, Hk, Ey. cbn [option_map]. congruence. }
  cbn [Nat.add] in Eq. destruct (fuel_of s1 - k)%nat as [|fu] eqn:Efu; [lia|].
  destruct (holds_nth _ H Hk) as (x & Hx & (D1 & D2 & D3 & D4 & D5) & Ea).
  assert (Hx' : nth_error ((x0 :: L) ++ [Cell [] (ix_codec wd parse D 0) [] []]) (S k) = Some x) by (rewrite nth_error_app1 by (cbn [length]; lia); exact Hx).
  destruct (@lp_next_ok (set_pos s1 q) ms' _ k (cl_chain C1)) as (r & Er); [rewrite app_length; cbn [length]; lia|].
  rewrite app_length in Er. cbn [length] in Er. destruct (Nat.ltb_spec (S k) (S (length L) + 1)) as [_|]; [|lia].
  destruct (cl_at C1 _ Hx') as (M1 & M2 & _).
  destruct (@lp_metadata_ok (set_pos (set_pos s1 q) r) _ _ (cells_slot _ C1 Hx') M1) as (t & Et); [lia|].
  exists (set_pos (set_pos (set_pos s1 q) r) t). split; [|reflexivity].
  unfold find_or_create. rewrite <- E0, Eq. cbn [find_or_create_from]. rewrite Er. rewrite (@bind_ok _ _ _ _ _ _ _ _ Et).
  rewrite (@bind_ok _ _ _ (lift (index_meta_unmarshal (c_meta x))) _ _ (ix_meta ix) (set_pos (set_pos (set_pos s1 q) r) t)) by (unfold lift; rewrite (index_unmarshal_exact D2 D3 D1); reflexivity).
  cbn [ix_meta im_name im_type]. rewrite Z.eqb_refl, (proj2 (name_eqb_spec (ix_name ix) (ix_name ix)) eq_refl). cbn [andb].
  unfold ret. rewrite Ea. rewrite S1 by (cbn [length]; lia). reflexivity.
Qed.

(** *** C25: the answer of IsEmpty is always the wrong one *)
Theorem C25_is_empty_refuted wd parse D fm l s : widths_ok wd -> ifile wd parse D fm l s ->
  exists b, reads s (if_is_empty file_slot) b /\ (b = true <-> l <> []).
Proof.
  intros Hwd Hi. destruct (ifile_holds Hwd Hi) as (HD & fl & ms & x0 & L & H).
  destruct (@holds_next _ s fm l fl ms x0 L 0%nat H ltac:(lia)) as (p & E). rewrite (holds_slot0 H) in E.
  unfold reads, if_is_empty. rewrite E. destruct l as [|ix l]; cbn [length Nat.ltb Nat.leb].
  - exists false. split; [eexists; split; reflexivity|]. split; [discriminate|congruence].
  - exists true. split; [eexists; split; reflexivity|]. split; [discriminate|reflexivity].
Qed.

(** *** C26 *)
Lemma names_from c : forall d k fuel s acc fm l fl ms x0 L, holds c s fm l fl ms x0 L -> (k + d = length l)%nat -> (d < fuel)%nat ->
  exists p, if_field_names_from fuel (slot ms k) acc s =
    (Ok (fold_left (fun acc n => if existsb (name_eqb n) acc then acc else acc ++ [n]) (map ix_name (skipn k l)) acc), set_pos s p).
Proof.
  induction d as [|d IH]; intros k fuel s acc fm l fl ms x0 L H Hk Hfu; (destruct fuel as [|fuel]; [lia|]); cbn [if_field_names_from].
  - destruct (@holds_next c s fm l fl ms x0 L k H ltac:(lia)) as (p & E). rewrite E. destruct (Nat.ltb_spec k (length l)); [lia|].
    rewrite skipn_all2 by lia. exists p. reflexivity.
  - destruct (@holds_next c s fm l fl ms x0 L k H ltac:(lia)) as (p & E). rewrite E. destruct (Nat.ltb_spec k (length l)); [|lia].
    destruct (nth_error l k) as [iy|] eqn:Ey; [|apply nth_error_None in Ey; lia].
    destruct (holds_metadata _ (holds_pos p H) Ey) as (b & q & Em & Eu). rewrite (@bind_ok _ _ _ _ _ _ _ _ Em).
    rewrite (@bind_ok _ _ _ (lift (index_meta_unmarshal b)) _ _ (ix_meta iy) (set_pos (set_pos s p) q)) by (unfold lift; rewrite Eu; reflexivity).
    cbn [ix_meta im_name].
    destruct (IH (S k) fuel (set_pos (set_pos s p) q) (if existsb (name_eqb (ix_name iy)) acc then acc else acc ++ [ix_name iy]) fm l fl ms x0 L) as (r & Er);
      [apply holds_pos, holds_pos; auto|lia|lia|].
    rewrite Er. exists r. f_equal. f_equal.
    assert (Es : skipn k l = iy :: skipn (S k) l).
    { clear - Ey. revert k Ey. induction l as [|a l IH]; intros [|k] E; cbn in *; try discriminate; [congruence|]. rewrite (IH _ E). reflexivity. }
    rewrite Es. reflexivity.
Qed.
Lemma existsb_name n l : existsb (name_eqb n) l = true <-> In n l.
Proof.
  rewrite existsb_exists. split; [intros (x & H1 & H2); apply name_eqb_spec in H2; subst; auto|intros H; exists n; split; auto; apply name_eqb_spec; auto].
Qed.
Lemma filter_filter {A} (f g : A -> bool) l : filter f (filter g l) = filter (fun x => f x && g x) l.
Proof. induction l as [|a l IH]; cbn; auto. destruct (g a); cbn; destruct (f a); cbn; rewrite ?IH; auto. Qed.
Lemma names_spec l : forall acc, fold_left (fun acc n => if existsb (name_eqb n) acc then acc else acc ++ [n]) l acc =
  acc ++ filter (fun n => negb (existsb (name_eqb n) acc)) (first_appearances l).
Proof.
  induction l as [|a l IH]; intros acc; cbn [fold_left first_appearances filter]; [rewrite app_nil_r; reflexivity|].
  rewrite IH. destruct (existsb (name_eqb a) acc) eqn:Ea; cbn [negb].
  - f_equal. rewrite filter_filter. apply filter_ext_in. intros n Hn.
    destruct (list_eq_dec Z.eq_dec n a) as [->|Hne]; [rewrite Ea; reflexivity|rewrite andb_true_r; reflexivity].
  - rewrite <- app_assoc. f_equal. cbn [app]. f_equal. rewrite filter_filter. apply filter_ext_in. intros n Hn.
    rewrite existsb_app. cbn [existsb]. unfold name_eqb at 2. destruct (list_eq_dec Z.eq_dec n a) as [->|Hne]; [rewrite orb_true_r, andb_false_r|rewrite orb_false_r, andb_true_r]; reflexivity.
Qed.
(** IndexFieldNames returns the names of the indexes, each once, in order of first creation. *)
Theorem C26_field_names wd parse D fm l s : widths_ok wd -> ifile wd parse D fm l s ->
  reads s (if_field_names file_slot) (first_appearances (map ix_name l)).
Proof.
  intros Hwd Hi. destruct (ifile_holds Hwd Hi) as (HD & fl & ms & x0 & L & H).
  destruct (@names_from _ (length l) 0%nat (fuel_of s) s [] fm l fl ms x0 L H eq_refl (holds_fuel H)) as (p & E).
  exists (set_pos s p). split; [|reflexivity]. unfold if_field_names. rewrite <- (holds_slot0 H), E. cbn [skipn]. rewrite names_spec. cbn [app].
  f_equal. f_equal. erewrite filter_ext; [|intros; cbn [existsb negb]; reflexivity]. clear. induction (first_appearances (map ix_name l)) as [|a q IH]; cbn; congruence.
Qed.
(** [first_appearances] lists exactly the elements, each once *)
Theorem C26_first_appearances_spec l : NoDup (first_appearances l) /\ forall x, In x (first_appearances l) <-> In x l.
Proof.
  induction l as [|a l [IH1 IH2]]; cbn [first_appearances]; [split; [constructor|reflexivity]|]. split.
  - constructor; [|apply NoDup_filter; auto]. intros X. apply filter_In in X. destruct X as [_ X]. destruct (list_eq_dec Z.eq_dec a a); congruence.
  - intros x. cbn [In]. rewrite filter_In, IH2. destruct (list_eq_dec Z.eq_dec x a) as [->|Hne]; [tauto|]. split; [tauto|]. intros [->|X]; [congruence|tauto].
Qed.

(** *** C35 *)
(** After any history every index reads as what was put into it. *)
Theorem C35_indexes_read_as_their_history wd parse D fm l s : widths_ok wd -> ifile wd parse D fm l s -> Forall (reads_as wd parse D s) l.
Proof.
  intros Hwd Hi. destruct (ifile_holds Hwd Hi) as (HD & fl & ms & x0 & L & H). apply Forall_forall. intros ix Hix. eapply holds_reads; eauto.
Qed.
(** An Insert into one index (successful or not) leaves the root pointer, the
    metadata and the contents of every other index, and the file metadata, as they were. *)
Theorem C35_insert_touches_one_index wd parse D fm l s ix k v r s' : widths_ok wd -> ifile wd parse D fm l s -> In ix l ->
  zlen (file s) < 2^60 -> op_ok (ix_codec wd parse D (ix_type ix)) (k, v) ->
  bp_insert (ix_codec wd parse D (ix_type ix)) (ix_at ix) k v s = (r, s') ->
  reads s' (if_metadata file_slot) fm /\
  forall iy, In iy l -> iy <> ix -> reads_as wd parse D s' iy /\ exists mp, reads s (lp_root (ix_at iy)) mp /\ reads s' (lp_root (ix_at iy)) mp.
Proof.
  intros Hwd Hi Hin Hf Hop E. destruct (ifile_holds Hwd Hi) as (HD & fl & ms & x0 & L & H).
  apply In_nth_error in Hin. destruct Hin as (j & Hj). destruct (holds_nth _ H Hj) as (x & Hx & (C1 & C2 & C3 & C4 & C5) & Ea).
  pose proof (cells_sys _ (ho_cells H) Hx) as Hsys. rewrite C4, <- Ea in Hsys.
  destruct (@insert_step _ _ _ _ _ _ k v r s' (@ix_codec_kw wd parse D _ Hwd) Hsys Hf Hop E) as [(Ha & -> & _)|(_ & (e & ->) & ->)].
  - destruct Ha as [Hw Hnew]. destruct (op_key_ok Hop Hw) as [Hk Hv].
    destruct (@holds_put _ s fm l fl ms x0 L j ix k v H Hj (@ix_codec_kw wd parse D _ Hwd) Hf Hk Hv) as (s2 & fl' & L' & F1 & F2 & F3 & F4 & F5 & _).
    { intros X. apply Hnew. eapply Permutation_in; [apply Permutation_map, Permutation_sym; exact C5|exact X]. }
    rewrite E in F1. injection F1 as <-. split; [eapply holds_if_metadata; eauto|].
    intros iy Hy Hne. apply In_nth_error in Hy. destruct Hy as (i & Hy). assert (Hij : i <> j) by (intros ->; congruence).
    assert (Hjl : (j < length l)%nat) by (apply nth_error_Some; congruence).
    assert (Hy' : nth_error (lset l j (with_put k v ix)) i = Some iy) by (rewrite nth_lset by auto; destruct (Nat.eq_dec i j); [contradiction|auto]).
    split; [eapply holds_reads; [exact F4|eapply nth_error_In; exact Hy']|].
    destruct (holds_nth _ H Hy) as (xi & Hxi & _ & Ei). pose proof (cells_slot _ (ho_cells H) Hxi) as Hsl. rewrite <- Ei in Hsl.
    destruct (@lp_root_ok s _ Hsl) as (p & E1). assert (Hsl' : slot_ok (file s') (ix_at iy)) by (eapply slot_ok_mono; eauto). destruct (@lp_root_ok s' _ Hsl') as (q & E2).
    rewrite (slot_same_root Hsl (F5 _ _ Hy Hij)) in E2. exists (root_at (file s) (ix_at iy)). split; eexists; split; eauto; reflexivity.
  - split; [eapply holds_if_metadata; eauto|]. intros iy Hy Hne. split; [eapply holds_reads; eauto|].
    apply In_nth_error in Hy. destruct Hy as (i & Hy). destruct (holds_nth _ H Hy) as (xi & Hxi & _ & Ei). pose proof (cells_slot _ (ho_cells H) Hxi) as Hsl. rewrite <- Ei in Hsl.
    destruct (@lp_root_ok s _ Hsl) as (p & E1). exists (root_at (file s) (ix_at iy)). split; eexists; split; eauto; reflexivity.
Qed.
(** Every index of the file is a tree in the sense of C27-C34. *)
Theorem C35_every_index_is_a_tree wd parse D fm l s ix : widths_ok wd -> ifile wd parse D fm l s -> In ix l ->
  exists es, index_ready (ix_codec wd parse D (ix_type ix)) s (ix_at ix) es /\ Permutation es (ix_es ix).
Proof.
  intros Hwd Hi Hin. destruct (ifile_holds Hwd Hi) as (HD & fl & ms & x0 & L & H).
  apply In_nth_error in Hin. destruct Hin as (j & Hj). destruct (holds_nth _ H Hj) as (x & Hx & (C1 & C2 & C3 & C4 & C5) & Ea).
  pose proof (cells_sys _ (ho_cells H) Hx) as Hsys. rewrite C4, <- Ea in Hsys. exists (c_es x). split; [exists fl, (c_pgs x); exact Hsys|exact C5].
Qed.
(** ... so inserting a new key of the right width into an index of a file succeeds. *)
Theorem C33_insert_into_an_index_of_a_file wd parse D fm l s ix k v : widths_ok wd -> ifile wd parse D fm l s -> In ix l ->
  zlen (file s) < 2^60 -> op_ok (ix_codec wd parse D (ix_type ix)) (k, v) ->
  wd (ix_type ix) = 0 \/ zlen (rv_val k) = wd (ix_type ix) - 1 -> ~ In k (map fst (ix_es ix)) ->
  exists s', bp_insert (ix_codec wd parse D (ix_type ix)) (ix_at ix) k v s = (Ok tt, s') /\
    ifile wd parse D fm (at_index (ix_at ix) (with_put k v) l) s'.
Proof.
  intros Hwd Hi Hin Hf Hop Hw Hn. destruct (C35_every_index_is_a_tree _ Hwd Hi Hin) as (es & Hr & P).
  destruct (@C33_insert_never_fails_partial _ _ _ _ k v (@ix_codec_kw wd parse D _ Hwd) Hr Hf Hop Hw) as (s' & E & _).
  - intros X. apply Hn. eapply Permutation_in; [apply Permutation_map; exact P|exact X].
  - exists s'. split; auto. eapply if_put; eauto.
Qed.

(** ** A concrete history: two indexes, one of them with an entry *)
Example ifile_example : exists s m1 m2, ifile determine_type (fun b => Some b) [] (FM 1 0 0 0)
    [IX m1 [97] FTFloat64 0 [(RV (MP 0 1) [192; 0; 0; 0; 0; 0; 0; 0], MP 0 10)]; IX m2 [98] FTBoolean 0 []] s /\ m1 <> m2.
Proof.
  assert (Hwd : widths_ok determine_type) by (intros ft; pose proof (determine_type_range ft); lia).
  destruct (@holds_create (ix_codec determine_type (fun b => Some b) []) KMmap 0) as (s0 & s1 & fl & ms & x0 & F1 & F2 & _ & F3 & _).
  { intros ft. apply ix_codec_ok; auto. change (zlen (@nil Z)) with 0; lia. }
  { lia. }
  pose proof (@if_new determine_type (fun b => Some b) KMmap 0 s0 file_slot s1 ltac:(lia) F1 F2) as H1.
  destruct (@C23_new_is_created_partial _ _ _ _ _ _ [97] FTFloat64 Hwd H1) as (m1 & s2 & E2 & _ & H2 & Z2 & _).
  { intros ix []. } { unfold pageSize in *; lia. } { change (zlen [97]) with 1; lia. } { unfold FTFloat64; lia. }
  destruct (@C23_new_is_created_partial _ _ _ _ _ _ [98] FTBoolean Hwd H2) as (m2 & s3 & E3 & N3 & H3 & Z3 & _).
  { intros ix [<-|[]] [X _]. cbn in X. congruence. } { unfold pageSize in *; lia. } { change (zlen [98]) with 1; lia. } { unfold FTBoolean; lia. }
  destruct (@C33_insert_into_an_index_of_a_file _ _ _ _ _ _ (IX m1 [97] FTFloat64 0 []) (RV (MP 0 1) [192; 0; 0; 0; 0; 0; 0; 0]) (MP 0 10) Hwd H3) as (s4 & _ & H4).
  { left; auto. } { unfold pageSize in *; lia. }
  { unfold op_ok. cbn [fst snd mp_off mp_len rv_dp rv_val ix_type ix_codec cwidth]. change (zlen [192; 0; 0; 0; 0; 0; 0; 0]) with 8.
    change (determine_type FTFloat64) with 9. repeat split; intros; lia. }
  { right. reflexivity. } { intros []. }
  assert (Hm : m1 <> m2) by (intros ->; apply N3; left; reflexivity).
  exists s4, m1, m2. split; auto. cbn [app at_index map ix_at] in H4. rewrite lp_eqb_refl, (lp_eqb_neq (not_eq_sym Hm)) in H4. exact H4.
Qed.
