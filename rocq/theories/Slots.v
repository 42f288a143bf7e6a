(** The chain of meta pages and its slots: what the operations of
    pkg/linkedpage/linkedpage.go do to the file. *)
From Verif Require Import Base Store PageFile RefValue LinkedPage BPLoop.

(** ** The stored chain *)
(** [ms]: the meta pages in order; [n]: the number of slots. *)
Definition next_of (ms : list Z) (j : nat) : Z := match nth_error ms (S j) with Some o => o | None => 2^64 - 1 end.
Definition count_of (ms : list Z) (n j : nat) : Z := if Nat.ltb (S j) (length ms) then 15 else Z.of_nat n - 15 * Z.of_nat j.
Definition slot (ms : list Z) (k : nat) : lp := LP (nth (k / 15) ms 0) (Z.of_nat (k mod 15)).
Definition last_page (ms : list Z) : Z := nth (length ms - 1) ms 0.
Record mchain (f : bytes) (ms : list Z) (n : nat) : Prop := mkChain {
  mc_len : (1 <= length ms)%nat;
  mc_n : (n <= 15 * length ms)%nat;
  mc_n' : (15 * (length ms - 1) < n \/ length ms = 1)%nat;
  mc_ok : Forall (fun o => page_ok f o /\ o < 2^62) ms;
  mc_nd : NoDup ms;
  mc_hdr : forall j, (j < length ms)%nat -> slice f (nth j ms 0) 9 = le 8 (next_of ms j) ++ [count_of ms n j] }.
(** the part of the last meta page that no slot uses yet is zero *)
Definition unused_zero (f : bytes) (ms : list Z) (n : nat) : Prop :=
  let c := count_of ms n (length ms - 1) in
  slice f (last_page ms + (9 + 265 * c)) (pageSize - (9 + 265 * c)) = zeros (pageSize - (9 + 265 * c)).
(** slot [m] of file [f] holds the metadata [d] *)
Definition meta_is (f : bytes) (m : lp) (d : bytes) : Prop := slice f (root_off m + 12) (1 + zlen d) = zlen d :: d.

Lemma nth_ok f ms n j : mchain f ms n -> (j < length ms)%nat -> page_ok f (nth j ms 0) /\ nth j ms 0 < 2^62.
Proof.
  intros H Hj. pose proof (mc_ok H) as Hf. rewrite Forall_forall in Hf. apply Hf, nth_In; auto.
Qed.
Lemma slot_idx f ms n k : mchain f ms n -> (k < n)%nat -> (k / 15 < length ms)%nat.
Proof. intros H Hk. pose proof (mc_n H). lia. Qed.
Lemma slot_okk f ms n k : mchain f ms n -> (k < n)%nat -> slot_ok f (slot ms k).
Proof.
  intros H Hk. destruct (nth_ok H (slot_idx H Hk)) as [H1 H2]. unfold slot_ok, slot, numSlots; cbn [lp_off lp_idx].
  split; auto. split; auto. lia.
Qed.
Lemma root_off_slot f ms n k : mchain f ms n -> (k < n)%nat ->
  root_off (slot ms k) = nth (k / 15) ms 0 + 9 + 265 * Z.of_nat (k mod 15).
Proof. intros H Hk. rewrite (root_off_eq (slot_okk H Hk)). unfold slot; cbn [lp_off lp_idx]. lia. Qed.
Lemma nth_inj (ms : list Z) i j : NoDup ms -> (i < length ms)%nat -> (j < length ms)%nat -> nth i ms 0 = nth j ms 0 -> i = j.
Proof. intros H Hi Hj E. apply (proj1 (NoDup_nth ms 0) H); auto. Qed.
Lemma slot_inj f ms n k k' : mchain f ms n -> (k < n)%nat -> (k' < n)%nat -> slot ms k = slot ms k' -> k = k'.
Proof.
  intros H Hk Hk' E. unfold slot in E.
  assert (E1 : nth (k / 15) ms 0 = nth (k' / 15) ms 0) by congruence.
  assert (E2 : Z.of_nat (k mod 15) = Z.of_nat (k' mod 15)) by congruence.
  apply (nth_inj (mc_nd H)) in E1; [lia | eapply slot_idx; eauto | eapply slot_idx; eauto].
Qed.
(** slots are 265 bytes apart *)
Lemma slot_disj f ms n k k' : mchain f ms n -> (k < n)%nat -> (k' < n)%nat -> k <> k' ->
  root_off (slot ms k) + 265 <= root_off (slot ms k') \/ root_off (slot ms k') + 265 <= root_off (slot ms k).
Proof.
  intros H Hk Hk' Hne. rewrite (root_off_slot H Hk), (root_off_slot H Hk').
  destruct (Nat.eq_dec (k / 15) (k' / 15)) as [E|E].
  - rewrite E. lia.
  - destruct (nth_ok H (slot_idx H Hk)) as [(P1 & P2 & _) _]. destruct (nth_ok H (slot_idx H Hk')) as [(Q1 & Q2 & _) _].
    assert (Hn : nth (k / 15) ms 0 <> nth (k' / 15) ms 0).
    { intros X. apply E, (nth_inj (mc_nd H)); auto; eapply slot_idx; eauto. }
    destruct (aligned_disj P2 Q2 Hn); unfold pageSize in *; lia.
Qed.

(** ** Reading the header *)
Lemma lp_count_ok s m nx c : page_ok (file s) (lp_off m) -> slice (file s) (lp_off m) 9 = le 8 nx ++ [c] ->
  exists p, lp_count m s = (Ok c, set_pos s p).
Proof.
  intros (H1 & H2 & H3 & H4) E. unfold lp_count. rewrite s64_small by lia.
  rewrite (@bind_ok _ _ _ _ _ _ _ _ (@seek_start_ok s (lp_off m + 8) ltac:(unfold pageSize in *; lia))).
  rewrite (@bind_ok _ _ _ _ _ _ _ _ (@read_full_ok (set_pos s (lp_off m + 8)) 1
      ltac:(cbn; lia) ltac:(lia) ltac:(cbn; unfold pageSize in *; lia) ltac:(cbn; unfold pageSize in *; lia))).
  cbn [pos set_pos file].
  assert (Es : slice (file s) (lp_off m + 8) 1 = [c]).
  { rewrite <- (@slice_slice _ (file s) (lp_off m) 9 8 1) by lia. rewrite E.
    change (slice (le 8 nx ++ [c]) 8 1) with (slice (le 8 nx ++ [c] ++ []) 8 1). apply slice_app_mid; [rewrite zlen_le; reflexivity|reflexivity]. }
  rewrite Es. exists (lp_off m + 8 + 1). unfold ret. cbn [unle]. f_equal. f_equal. lia.
Qed.
Lemma lp_next_page_offset_ok s m nx c : page_ok (file s) (lp_off m) -> slice (file s) (lp_off m) 9 = le 8 nx ++ [c] ->
  0 <= nx < 2^64 -> exists p, lp_next_page_offset m s = (Ok nx, set_pos s p).
Proof.
  intros (H1 & H2 & H3 & H4) E Hn. unfold lp_next_page_offset. rewrite s64_small by lia.
  rewrite (@bind_ok _ _ _ _ _ _ _ _ (@seek_start_ok s (lp_off m) ltac:(unfold pageSize in *; lia))).
  rewrite (@bind_ok _ _ _ _ _ _ _ _ (@read_full_ok (set_pos s (lp_off m)) 8
      ltac:(cbn; lia) ltac:(lia) ltac:(cbn; unfold pageSize in *; lia) ltac:(cbn; unfold pageSize in *; lia))).
  cbn [pos set_pos file].
  assert (Es : slice (file s) (lp_off m) 8 = le 8 nx).
  { replace (lp_off m) with (lp_off m + 0) by lia. rewrite <- (@slice_slice _ (file s) (lp_off m) 9 0 8) by lia. rewrite E.
    change 8 with (zlen (le 8 nx)). apply slice_app_exact. }
  rewrite Es, unle_le by (cbn; lia). exists (lp_off m + 8). reflexivity.
Qed.

Lemma next_of_range f ms n j : mchain f ms n -> 0 <= next_of ms j < 2^64.
Proof.
  intros H. unfold next_of. destruct (nth_error ms (S j)) as [o|] eqn:E; [|lia].
  apply nth_error_In in E. pose proof (mc_ok H) as Hf. rewrite Forall_forall in Hf. destruct (Hf _ E) as [(X & _) Y]. lia.
Qed.

(** ** Next *)
Lemma lp_next_ok s ms n k : mchain (file s) ms n -> (k < n)%nat ->
  exists p, lp_next (slot ms k) s = ((if Nat.ltb (S k) n then Ok (slot ms (S k)) else Err EEof), set_pos s p).
Proof.
  intros H Hk. pose proof (slot_idx H Hk) as Hj. destruct (nth_ok H Hj) as [Hp _].
  pose proof (mc_hdr H Hj) as Hh. pose proof (mc_n H) as Hn. pose proof (mc_n' H) as Hn'.
  unfold lp_next. destruct (@lp_count_ok s (slot ms k) _ _ Hp Hh) as (p1 & E1). rewrite (@bind_ok _ _ _ _ _ _ _ _ E1).
  cbn [lp_idx slot]. rewrite (Z.mod_small (_ + 1)) by lia.
  unfold count_of in *. destruct (Nat.ltb_spec (S (k / 15)) (length ms)) as [Hl|Hl].
  - destruct (Z.ltb_spec (Z.of_nat (k mod 15) + 1) 15) as [Hi|Hi].
    + destruct (Nat.ltb_spec (S k) n); [|lia]. exists p1. unfold ret. f_equal. f_equal. unfold slot; cbn [lp_off]. f_equal; [f_equal; lia | lia].
    + assert (Hnx : next_of ms (k / 15) = nth (S (k / 15)) ms 0).
      { unfold next_of. rewrite (nth_error_nth' ms 0 Hl). reflexivity. }
      destruct (@lp_next_page_offset_ok (set_pos s p1) (slot ms k) _ _ Hp Hh (next_of_range _ H)) as (p2 & E2).
      rewrite (@bind_ok _ _ _ _ _ _ _ _ E2). rewrite Hnx.
      destruct (nth_ok H Hl) as [(X & _) Y].
      destruct (Z.eqb_spec (nth (S (k / 15)) ms 0) (2^64 - 1)); [lia|].
      destruct (Nat.ltb_spec (S k) n); [|lia]. exists p2. unfold ret. f_equal. f_equal. unfold slot. f_equal; [f_equal; lia|lia].
  - destruct (Z.ltb_spec (Z.of_nat (k mod 15) + 1) (Z.of_nat n - 15 * Z.of_nat (k / 15))) as [Hi|Hi].
    + destruct (Nat.ltb_spec (S k) n); [|lia]. exists p1. unfold ret. f_equal. f_equal. unfold slot; cbn [lp_off]. f_equal; [f_equal; lia | lia].
    + assert (Hnx : next_of ms (k / 15) = 2^64 - 1).
      { unfold next_of. rewrite (proj2 (nth_error_None ms (S (k / 15)))) by lia. reflexivity. }
      destruct (@lp_next_page_offset_ok (set_pos s p1) (slot ms k) _ _ Hp Hh (next_of_range _ H)) as (p2 & E2).
      rewrite (@bind_ok _ _ _ _ _ _ _ _ E2). rewrite Hnx, Z.eqb_refl.
      destruct (Nat.ltb_spec (S k) n); [lia|]. exists p2. reflexivity.
Qed.
(** the list head *)
Definition head_of (ms : list Z) : lp := LP (nth 0 ms 0) 255.
Lemma lp_next_head s ms n : mchain (file s) ms n ->
  exists p, lp_next (head_of ms) s = ((if Nat.ltb 0 n then Ok (slot ms 0) else Err EEof), set_pos s p).
Proof.
  intros H. assert (Hj : (0 < length ms)%nat) by (pose proof (mc_len H); lia). destruct (nth_ok H Hj) as [Hp _].
  pose proof (mc_hdr H Hj) as Hh. pose proof (mc_n H) as Hn. pose proof (mc_n' H) as Hn'.
  unfold lp_next. destruct (@lp_count_ok s (head_of ms) _ _ Hp Hh) as (p1 & E1). rewrite (@bind_ok _ _ _ _ _ _ _ _ E1).
  cbn [lp_idx head_of]. change ((255 + 1) mod 256) with 0. change (Z.of_nat 0) with 0 in *.
  assert (Hc : 0 < count_of ms n 0 <-> (0 < n)%nat).
  { unfold count_of. destruct (Nat.ltb_spec 1 (length ms)); lia. }
  destruct (Z.ltb_spec 0 (count_of ms n 0)) as [Hi|Hi].
  - destruct (Nat.ltb_spec 0 n); [|lia]. exists p1. reflexivity.
  - destruct (Nat.ltb_spec 0 n); [lia|].
    assert (Hnx : next_of ms 0 = 2^64 - 1).
    { unfold next_of. rewrite (proj2 (nth_error_None ms 1)) by lia. reflexivity. }
    destruct (@lp_next_page_offset_ok (set_pos s p1) (head_of ms) _ _ Hp Hh (next_of_range _ H)) as (p2 & E2).
    rewrite (@bind_ok _ _ _ _ _ _ _ _ E2). rewrite Hnx, Z.eqb_refl. exists p2. reflexivity.
Qed.

(** ** Metadata *)
Lemma lp_metadata_gen s m d : slot_ok (file s) m -> meta_is (file s) m d -> zlen d <= 255 ->
  exists p, lp_metadata m s = ((if zlen d <=? 254 then Ok d else Panic), set_pos s p).
Proof.
  intros H Hm Hle. pose proof (root_off_bounds H) as (B1 & B2 & B3 & B4 & B5).
  destruct H as ((H1 & H2 & H3 & H4) & H5 & H6). pose proof (zlen_nonneg d) as Hd.
  unfold lp_metadata. destruct (Z.eqb_spec (lp_idx m) 255); [unfold numSlots in *; lia|].
  rewrite (Z.mod_small (root_off m + 8 + 4)) by (unfold pageSize in *; lia). rewrite s64_small by (unfold pageSize in *; lia).
  rewrite (@bind_ok _ _ _ _ _ _ _ _ (@seek_start_ok s (root_off m + 8 + 4) ltac:(unfold pageSize in *; lia))).
  change (4 + slotSize) with 260.
  rewrite (@bind_ok _ _ _ _ _ _ _ _ (@pf_read_ok (set_pos s (root_off m + 8 + 4)) 260 ltac:(cbn; unfold pageSize in *; lia) ltac:(lia)
     ltac:(cbn; unfold pageSize in *; lia) ltac:(cbn; unfold pageSize, numSlots in *; lia))).
  cbn [pos set_pos file].
  set (b := slice (file s) (root_off m + 8 + 4) 260).
  assert (Lb : zlen b = 260) by (apply zlen_slice; unfold pageSize in *; lia).
  rewrite Lb. change (zeros (260 - 260)) with (@nil Z). rewrite app_nil_r.
  exists (root_off m + 8 + 4 + 260). 
  assert (Eb : slice b 0 (1 + zlen d) = zlen d :: d).
  { unfold b. rewrite slice_slice by lia. rewrite <- Hm. f_equal. lia. }
  assert (Eh : match b with x :: _ => x | [] => 0 end = zlen d).
  { destruct b as [|x b0]; [discriminate|]. unfold slice in Eb. change (Z.to_nat 0) with 0%nat in Eb. cbn [skipn] in Eb.
    replace (Z.to_nat (1 + zlen d)) with (S (Z.to_nat (zlen d))) in Eb by lia. cbn [firstn] in Eb. congruence. }
  rewrite Eh.
  destruct (Z.leb_spec (zlen d) 254).
  - rewrite Z.mod_small by lia. destruct (Z.ltb_spec (1 + zlen d) 1); [lia|].
    unfold ret. f_equal. f_equal. replace (1 + zlen d - 1) with (zlen d) by lia.
    replace (slice b 1 (zlen d)) with (slice (slice b 0 (1 + zlen d)) 1 (zlen d)) by (rewrite slice_slice by lia; reflexivity).
    rewrite Eb. unfold slice. change (Z.to_nat 1) with 1%nat. cbn [skipn]. unfold zlen. rewrite Nat2Z.id. apply firstn_all.
  - replace (zlen d) with 255 by lia. reflexivity.
Qed.
Lemma lp_metadata_ok s m d : slot_ok (file s) m -> meta_is (file s) m d -> zlen d <= 254 ->
  exists p, lp_metadata m s = (Ok d, set_pos s p).
Proof.
  intros H Hm Hd. destruct (@lp_metadata_gen s m d H Hm) as (p & E); [lia|]. exists p. rewrite E. destruct (Z.leb_spec (zlen d) 254); [reflexivity|lia].
Qed.
Lemma lp_set_metadata_ok s m d : slot_ok (file s) m -> budget s = None -> zlen d <= 255 ->
  exists p, lp_set_metadata m d s = (Ok tt, set_pos (set_file s (upd (file s) (root_off m + 12) (zlen d :: d))) p).
Proof.
  intros H Hb Hd. pose proof (root_off_bounds H) as (B1 & B2 & B3 & B4 & B5).
  destruct H as ((H1 & H2 & H3 & H4) & H5 & H6). pose proof (zlen_nonneg d) as Hd0.
  unfold lp_set_metadata. destruct (Z.eqb_spec (lp_idx m) 255); [unfold numSlots in *; lia|].
  unfold slotSize. destruct (Z.ltb_spec 256 (zlen d)); [lia|]. destruct (Z.ltb_spec 255 (zlen d)); [lia|]. cbn [orb].
  rewrite (Z.mod_small (root_off m + 8 + 4)) by (unfold pageSize in *; lia). rewrite s64_small by (unfold pageSize in *; lia).
  replace (root_off m + 8 + 4) with (root_off m + 12) by lia.
  rewrite (@bind_ok _ _ _ _ _ _ _ _ (@seek_start_ok s (root_off m + 12) ltac:(unfold pageSize in *; lia))).
  destruct (@pf_write_ok (set_pos s (root_off m + 12)) (zlen d :: d)) as (n0 & p & E).
  { cbn; auto. }
  { cbn; unfold pageSize in *; lia. }
  { rewrite zlen_cons. cbn [pos set_pos]; unfold pageSize, numSlots in *; lia. }
  rewrite (@bind_ok _ _ _ _ _ _ _ _ E). exists p. reflexivity.
Qed.
Lemma lp_set_metadata_err s m d : lp_idx m <> 255 -> 255 < zlen d ->
  lp_set_metadata m d s = (Err (EMsg "metadata too large"), s).
Proof.
  intros H Hd. unfold lp_set_metadata. destruct (Z.eqb_spec (lp_idx m) 255); [contradiction|].
  destruct (Z.ltb_spec 255 (zlen d)); [|lia]. rewrite orb_true_r. reflexivity.
Qed.
Lemma meta_is_upd f m d : slot_ok f m -> zlen d <= 255 -> meta_is (upd f (root_off m + 12) (zlen d :: d)) m d.
Proof.
  intros H Hd. pose proof (root_off_bounds H) as (B1 & B2 & B3 & B4 & B5). destruct H as ((H1 & H2 & H3 & H4) & H5 & H6).
  unfold meta_is. rewrite <- (zlen_cons (zlen d) d). apply slice_upd_same. unfold pageSize in *; lia.
Qed.

(** ** Frames *)
(** a slot keeps root and metadata when its 265 bytes are unchanged *)
Definition slot_same (f f' : bytes) (m : lp) : Prop := slice f' (root_off m) 265 = slice f (root_off m) 265.
Lemma slot_same_root f f' m : slot_ok f m -> slot_same f f' m -> root_at f' m = root_at f m.
Proof.
  intros H E. pose proof (root_off_bounds H) as (B1 & B2 & B3 & B4 & B5). unfold root_at. f_equal.
  replace (root_off m) with (root_off m + 0) by lia.
  rewrite <- (@slice_slice _ f' (root_off m) 265 0 12), <- (@slice_slice _ f (root_off m) 265 0 12) by (unfold pageSize in *; lia).
  rewrite E. reflexivity.
Qed.
Lemma slot_same_meta f f' m d : slot_ok f m -> slot_same f f' m -> zlen d <= 252 -> meta_is f m d -> meta_is f' m d.
Proof.
  intros H E Hd Hm. pose proof (root_off_bounds H) as (B1 & B2 & B3 & B4 & B5). pose proof (zlen_nonneg d).
  unfold meta_is in *. rewrite <- Hm.
  rewrite <- (@slice_slice _ f' (root_off m) 265 12 (1 + zlen d)), <- (@slice_slice _ f (root_off m) 265 12 (1 + zlen d)) by (unfold pageSize in *; lia).
  rewrite E. reflexivity.
Qed.

(** the chain only depends on the headers *)
Lemma mchain_frame f f' ms n : mchain f ms n -> zlen f <= zlen f' ->
  (forall j, (j < length ms)%nat -> slice f' (nth j ms 0) 9 = slice f (nth j ms 0) 9) -> mchain f' ms n.
Proof.
  intros [A1 A2 A3 A4 A5 A6] L Hh. constructor; auto.
  - eapply Forall_impl; [|exact A4]. intros o [X Y]. split; auto. eapply page_ok_mono; eauto.
  - intros j Hj. rewrite Hh by auto. apply A6; auto.
Qed.
Lemma count_bounds f ms n : mchain f ms n -> 0 <= count_of ms n (length ms - 1) <= 15.
Proof. intros [A1 A2 A3 _ _ _]. unfold count_of. destruct (Nat.ltb_spec (S (length ms - 1)) (length ms)); lia. Qed.
Lemma in_nth (ms : list Z) p : In p ms -> exists j, (j < length ms)%nat /\ nth j ms 0 = p.
Proof. intros H. apply (In_nth _ _ 0) in H. destruct H as (j & H1 & H2); eauto. Qed.

(** writing inside the body of a slot, or up to 3 bytes beyond it *)
Lemma mchain_slot_write f ms n k o b : mchain f ms n -> (k < n)%nat ->
  root_off (slot ms k) <= o -> o + zlen b <= root_off (slot ms k) + 268 ->
  mchain (upd f o b) ms n /\ (o + zlen b <= root_off (slot ms k) + 265 -> unused_zero f ms n -> unused_zero (upd f o b) ms n).
Proof.
  intros H Hk Ho Hb. pose proof (zlen_nonneg b). pose proof (slot_idx H Hk) as Hj0. destruct (nth_ok H Hj0) as [(P1 & P2 & P3 & P4) _].
  rewrite (root_off_slot H Hk) in *.
  assert (Hof : 0 <= o <= zlen f) by (unfold pageSize in *; lia).
  split; [apply (@mchain_frame f _ ms n H)|].
  - rewrite zlen_upd by auto. lia.
  - intros j Hj. destruct (nth_ok H Hj) as [(Q1 & Q2 & Q3 & Q4) _].
    apply slice_upd_disj; [auto|unfold pageSize in *; lia|].
    destruct (Nat.eq_dec j (k / 15)) as [->|Hne]; [lia|].
    assert (Hn : nth j ms 0 <> nth (k / 15) ms 0) by (intros X; apply Hne, (nth_inj (mc_nd H)); auto).
    destruct (aligned_disj Q2 P2 Hn); unfold pageSize in *; lia.
  - intros Hb' Hz. unfold unused_zero in *. cbv zeta in *. rewrite <- Hz. pose proof (count_bounds H) as Hc. pose proof (mc_len H) as Hl.
    assert (Hll : (length ms - 1 < length ms)%nat) by lia. destruct (nth_ok H Hll) as [(Q1 & Q2 & Q3 & Q4) _].
    unfold last_page. apply slice_upd_disj; [auto|unfold pageSize in *; lia|].
    destruct (Nat.eq_dec (length ms - 1) (k / 15)) as [E|Hne].
    + rewrite <- E in *. right. unfold count_of. pose proof (mc_n H). destruct (Nat.ltb_spec (S (length ms - 1)) (length ms)); [lia|].
      lia.
    + assert (Hn : nth (length ms - 1) ms 0 <> nth (k / 15) ms 0) by (intros X; apply Hne, (nth_inj (mc_nd H)); auto).
      destruct (aligned_disj Q2 P2 Hn); unfold pageSize in *; lia.
Qed.
Lemma slot_write_other f ms n k k' o b : mchain f ms n -> (k < n)%nat -> (k' < n)%nat -> k <> k' ->
  root_off (slot ms k) <= o -> o + zlen b <= root_off (slot ms k) + 265 -> slot_same f (upd f o b) (slot ms k').
Proof.
  intros H Hk Hk' Hne Ho Hb. pose proof (zlen_nonneg b).
  pose proof (root_off_bounds (slot_okk H Hk)) as (B1 & B2 & B3 & B4 & B5).
  pose proof (root_off_bounds (slot_okk H Hk')) as (C1 & C2 & C3 & C4 & C5).
  destruct (slot_okk H Hk) as ((_ & _ & P3 & _) & _).
  unfold slot_same. apply slice_upd_disj; [unfold pageSize in *; lia | unfold pageSize in *; lia |].
  destruct (slot_disj H Hk Hk' Hne); lia.
Qed.
