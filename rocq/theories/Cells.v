(** The index file as a list of cells: each slot holds metadata bytes and a
    B+ tree; all pages are disjoint. The three updates of an index file - a new
    slot, new metadata, an insert - change one cell and leave the others alone. *)
From Coq Require Import Permutation.
From Verif Require Import Base Varint Store PageFile PageHist RefValue Node LinkedPage BPTree BPRepr BPIter BPInsert BPLoop BPTop PTree Slots SlotAdd PSlots.

Record cell := Cell { c_meta : bytes; c_codec : codec; c_es : list entry; c_pgs : list Z }.
Definition cell_at (f : bytes) (m : lp) (x : cell) : Prop :=
  meta_is f m (c_meta x) /\ zlen (c_meta x) <= 252 /\ codec_ok (c_codec x) /\ tree_at (c_codec x) f m (c_es x) (c_pgs x).
Definition all_pages (L : list cell) : list Z := concat (map c_pgs L).
Record cells (s : st) (fl ms : list Z) (L : list cell) : Prop := mkCells {
  cl_inv : pf_inv s fl;
  cl_bud : budget s = None;
  cl_chain : mchain (file s) ms (length L);
  cl_first : nth 0 ms 0 = pageSize;
  cl_zero : unused_zero (file s) ms (length L);
  cl_nd : NoDup (ms ++ all_pages L ++ fl);
  cl_free : fl = [];
  cl_size : zlen (file s) = pageSize * (1 + zlen (ms ++ all_pages L ++ fl));
  cl_at : forall k x, nth_error L k = Some x -> cell_at (file s) (slot ms k) x }.
(** the pages of a cell stay with it *)
Definition grown (L L' : list cell) : Prop := forall k x, nth_error L k = Some x -> exists x', nth_error L' k = Some x' /\ incl (c_pgs x) (c_pgs x').
Lemma grown_refl L : grown L L.
Proof. intros k x H. exists x. split; auto. apply incl_refl. Qed.
Lemma grown_trans L1 L2 L3 : grown L1 L2 -> grown L2 L3 -> grown L1 L3.
Proof. intros H1 H2 k x H. destruct (H1 _ _ H) as (y & Hy & I1). destruct (H2 _ _ Hy) as (z & Hz & I2). exists z. split; auto. eapply incl_tran; eauto. Qed.
Lemma grown_app L R : grown L (L ++ R).
Proof. intros k x H. exists x. split; [|apply incl_refl]. rewrite nth_error_app1; auto. apply nth_error_Some. congruence. Qed.
Lemma grown_map L g : (forall x, c_pgs (g x) = c_pgs x) -> grown L (map g L).
Proof. intros Hg k x H. exists (g x). split; [rewrite nth_error_map, H; reflexivity|rewrite Hg; apply incl_refl]. Qed.
Definition lset {A} (l : list A) (k : nat) (x : A) : list A := firstn k l ++ x :: skipn (S k) l.

Lemma length_lset {A} (l : list A) k x : (k < length l)%nat -> length (lset l k x) = length l.
Proof. intros H. unfold lset. rewrite app_length, firstn_length, Nat.min_l by lia. cbn [length]. rewrite skipn_length. lia. Qed.
Lemma nth_lset {A} (l : list A) k x j : (k < length l)%nat -> nth_error (lset l k x) j = if Nat.eq_dec j k then Some x else nth_error l j.
Proof.
  intros H. unfold lset. destruct (Nat.eq_dec j k) as [->|Hne].
  - rewrite nth_error_app2; rewrite firstn_length, Nat.min_l by lia; [|lia]. rewrite Nat.sub_diag. reflexivity.
  - destruct (Nat.lt_ge_cases j k).
    + rewrite nth_error_app1 by (rewrite firstn_length; lia). rewrite nth_error_firstn'. destruct (Nat.ltb_spec j k); [auto|lia].
    + rewrite nth_error_app2; rewrite firstn_length, Nat.min_l by lia; [|lia]. replace (j - k)%nat with (S (j - S k)) by lia. cbn [nth_error].
      rewrite nth_error_skipn'. f_equal; lia.
Qed.
Lemma grown_lset L k x y : nth_error L k = Some x -> incl (c_pgs x) (c_pgs y) -> grown L (lset L k y).
Proof.
  intros Hx Hi j z Hz. assert (Hk : (k < length L)%nat) by (apply nth_error_Some; congruence). rewrite nth_lset by auto.
  destruct (Nat.eq_dec j k) as [->|_]; [|exists z; split; [auto|apply incl_refl]]. exists y. split; auto. assert (z = x) as -> by congruence. auto.
Qed.
Lemma lset_split {A} (l : list A) k y : nth_error l k = Some y -> l = firstn k l ++ y :: skipn (S k) l.
Proof. intros H. apply nth_error_split in H. destruct H as (a & b & -> & <-). rewrite firstn_app_exact by auto. f_equal. 
  replace (a ++ y :: b) with ((a ++ [y]) ++ b) by (rewrite <- app_assoc; reflexivity). rewrite skipn_app_exact; [reflexivity|]. rewrite app_length; cbn; lia. Qed.
Lemma all_pages_lset L k y x : nth_error L k = Some y ->
  exists A, Permutation (all_pages L) (c_pgs y ++ A) /\ Permutation (all_pages (lset L k x)) (c_pgs x ++ A).
Proof.
  intros H. exists (all_pages (firstn k L) ++ all_pages (skipn (S k) L)). unfold lset, all_pages. split.
  - rewrite (lset_split _ _ H) at 1. rewrite map_app, concat_app. cbn [map concat]. rewrite !app_assoc. apply Permutation_app_tail, Permutation_app_comm.
  - rewrite map_app, concat_app. cbn [map concat]. rewrite !app_assoc. apply Permutation_app_tail, Permutation_app_comm.
Qed.
Lemma in_all_pages L k x p : nth_error L k = Some x -> In p (c_pgs x) -> In p (all_pages L).
Proof. intros H Hp. unfold all_pages. apply in_concat. exists (c_pgs x). split; auto. apply in_map. eapply nth_error_In; eauto. Qed.

Lemma cells_pos s fl ms L p : cells s fl ms L -> cells (set_pos s p) fl ms L.
Proof. intros [A B C D E F FF FG G]. constructor; auto. apply pf_inv_pos; auto. Qed.
Lemma cells_slot s fl ms L k x : cells s fl ms L -> nth_error L k = Some x -> slot_ok (file s) (slot ms k).
Proof. intros H Hk. eapply slot_okk; [apply (cl_chain H)|]. apply nth_error_Some. congruence. Qed.
Lemma cells_lt s fl ms L k x : cells s fl ms L -> nth_error L k = Some x -> (k < length L)%nat.
Proof. intros H Hk. apply nth_error_Some. congruence. Qed.
Lemma cells_pages s fl ms L : cells s fl ms L -> Forall (page_ok (file s)) (ms ++ all_pages L ++ fl).
Proof.
  intros H. apply Forall_app. split; [|apply Forall_app; split].
  - eapply Forall_impl; [|exact (mc_ok (cl_chain H))]. intros a [X _]; auto.
  - apply Forall_forall. intros p Hp. unfold all_pages in Hp. apply in_concat in Hp. destruct Hp as (pg & Hpg & Hp). apply in_map_iff in Hpg.
    destruct Hpg as (x & <- & Hx). apply In_nth_error in Hx. destruct Hx as (k & Hx). destruct (cl_at H _ Hx) as (_ & _ & _ & Ht).
    apply tree_at_pages in Ht. rewrite Forall_forall in Ht. auto.
  - apply (pi_ok (cl_inv H)).
Qed.

(** a tree does not notice changes outside its pages and its root pointer *)
Lemma tree_at_frame c f f' m es pgs : zlen f <= zlen f' -> root_at f' m = root_at f m -> (forall p, In p pgs -> page f' p = page f p) ->
  tree_at c f m es pgs -> tree_at c f' m es pgs.
Proof.
  intros L Er Ep [(H1 & H2 & H3)|(h & root & rlen & H1 & H2 & R)].
  - left. rewrite Er. auto.
  - right. exists h, root, rlen. rewrite Er. split; auto. split; auto. eapply repr_frame; [exact R|].
    intros o n Ho Hn. eapply node_at_frame; eauto.
Qed.
Lemma cell_at_frame f f' m x : slot_ok f m -> zlen f <= zlen f' -> slot_same f f' m -> (forall p, In p (c_pgs x) -> page f' p = page f p) ->
  cell_at f m x -> cell_at f' m x.
Proof.
  intros Hs L Hss Hp (H1 & H2 & H3 & H4). split; [eapply slot_same_meta; eauto|]. split; auto. split; auto.
  eapply tree_at_frame; eauto. apply slot_same_root; auto.
Qed.

(** ** A new slot *)
Lemma cells_add s fl ms L c : cells s fl ms L -> codec_ok c -> zlen (file s) < 2^60 ->
  exists s' ms' fl', lp_add_next (tail_of ms (length L)) s = (Ok (slot ms' (length L)), s') /\
    cells s' fl' ms' (L ++ [Cell [] c [] []]) /\ kind s' = kind s /\
    (forall k, (k < length L)%nat -> slot ms' k = slot ms k) /\ zlen (file s) <= zlen (file s') <= zlen (file s) + pageSize.
Proof.
  intros H Hc Hf. pose proof (cells_pages H) as Hok. destruct H as [H1 H2 H3 H4 H5 H6 Hfree H6' H7].
  assert (Hnd : NoDup (ms ++ fl)).
  { apply NoDup_app_intro; [eapply PSlots.NoDup_app_l; eauto | eapply NoDup_app_r, NoDup_app_r; eauto |].
    intros x X Y. eapply NoDup_app_disj; [exact H6|exact X|apply in_or_app; auto]. }
  destruct (@lp_add_next_ok s fl ms _ H1 H2 H3 Hnd Hf) as (s2 & ms' & fl' & E' & G1 & G2 & G3 & G4 & G5 & G6 & (G7 & G8) & (G9 & G10)).
  exists s2, ms', fl'. split; auto.
  assert (Hkeep : forall k, (k < length L)%nat -> slot ms' k = slot ms k).
  { intros k Hk. destruct G5 as [[-> _]|[-> _]]; auto. apply slot_app. eapply slot_idx; eauto. }
  destruct (G6 H5) as [U' Z'].
  split; [|auto]. constructor; rewrite ?app_length; cbn [length]; rewrite ?Nat.add_1_r; auto.
  - destruct G5 as [[-> _]|[-> _]]; auto. rewrite app_nth1; auto. pose proof (mc_len H3). lia.
  - replace (all_pages (L ++ [Cell [] c [] []])) with (all_pages L) by (unfold all_pages; rewrite map_app, concat_app; cbn; rewrite !app_nil_r; reflexivity).
    destruct G5 as [[-> ->]|[-> ->]]; auto.
    destruct (@np_fresh s fl (ms ++ all_pages L) H1) as [N1 N2].
    { rewrite app_assoc in Hok. apply Forall_app in Hok. tauto. }
    { rewrite <- app_assoc; auto. }
    eapply Permutation_NoDup; [|exact N2]. rewrite <- !app_assoc. cbn [app]. apply Permutation_middle.
  - rewrite Hfree in G5. destruct G5 as [[_ X]|[_ X]]; exact X.
  - replace (all_pages (L ++ [Cell [] c [] []])) with (all_pages L) by (unfold all_pages; rewrite map_app, concat_app; cbn; rewrite !app_nil_r; reflexivity).
    rewrite G10, H6', !zlen_app. lia.
  - intros k x Hx. destruct (Nat.lt_ge_cases k (length L)) as [Hk|Hk].
    + rewrite nth_error_app1 in Hx by auto. rewrite Hkeep by auto.
      apply (@cell_at_frame (file s)); [eapply slot_okk; eauto | exact G7 | | | apply H7; exact Hx].
      * unfold slot_same. pose proof (root_off_bounds (slot_okk H3 Hk)) as (B1 & B2 & B3 & B4 & B5).
        pose proof (slot_idx H3 Hk) as Hj. destruct (nth_ok H3 Hj) as [(P1 & P2 & P3 & P4) _]. cbn [slot lp_off] in *.
        apply G8; [lia | lia | unfold pageSize in *; lia | |].
        -- intros pg Hpg. pose proof (pi_ok H1) as Hfl. rewrite Forall_forall in Hfl. destruct (Hfl _ Hpg) as (Q1 & Q2 & Q3 & Q4).
           assert (Hne : nth (k / 15) ms 0 <> pg).
           { intros X. eapply NoDup_app_disj; [exact Hnd| |exact Hpg]. rewrite <- X. apply nth_In; auto. }
           destruct (aligned_disj P2 Q2 Hne); unfold pageSize in *; lia.
        -- unfold last_page. pose proof (mc_len H3) as Hlen. assert (Hll : (length ms - 1 < length ms)%nat) by lia.
           destruct (nth_ok H3 Hll) as [(Q1 & Q2 & Q3 & Q4) _].
           destruct (Nat.eq_dec (k / 15) (length ms - 1)) as [Eq|Hne]; [rewrite <- Eq; lia|].
           assert (Hn : nth (k / 15) ms 0 <> nth (length ms - 1) ms 0) by (intros X; apply Hne, (nth_inj (mc_nd H3)); auto).
           destruct (aligned_disj P2 Q2 Hn); unfold pageSize in *; lia.
      * intros p Hp. assert (Hin : In p (all_pages L)) by (eapply in_all_pages; eauto).
        rewrite Forall_forall in Hok. destruct (Hok p) as (P1 & P2 & P3 & P4); [apply in_or_app; right; apply in_or_app; auto|].
        assert (Hge : pageSize <= p) by (unfold pageSize in *; lia).
        unfold page. apply G8; [auto | unfold pageSize; lia | lia | |].
        -- intros pg Hpg. destruct (Hok pg) as (Q1 & Q2 & Q3 & Q4); [apply in_or_app; right; apply in_or_app; auto|].
           assert (Hne : p <> pg).
           { intros X. subst pg. apply NoDup_app_r in H6. eapply NoDup_app_disj; [exact H6|exact Hin|exact Hpg]. }
           destruct (aligned_disj P2 Q2 Hne); unfold pageSize in *; lia.
        -- unfold last_page. pose proof (mc_len H3) as Hlen. assert (Hll : (length ms - 1 < length ms)%nat) by lia.
           destruct (nth_ok H3 Hll) as [(Q1 & Q2 & Q3 & Q4) _].
           assert (Hne : p <> nth (length ms - 1) ms 0).
           { intros X. eapply NoDup_app_disj; [exact H6| |apply in_or_app; left; exact Hin]. rewrite X. apply nth_In; auto. }
           destruct (aligned_disj P2 Q2 Hne); unfold pageSize in *; lia.
    + assert (Ek : k = length L).
      { assert (Hlt : (k < length (L ++ [Cell [] c [] []]))%nat) by (apply nth_error_Some; congruence). rewrite app_length in Hlt. cbn [length] in Hlt. lia. }
      subst k. rewrite nth_error_app2, Nat.sub_diag in Hx by lia. cbn [nth_error] in Hx. injection Hx as <-.
      assert (Hso : slot_ok (file s2) (slot ms' (length L))) by (apply (slot_okk G4); lia).
      pose proof (root_off_bounds Hso) as (B1 & B2 & B3 & B4 & B5).
      assert (Ez : forall a b, 0 <= a -> 0 <= b -> a + b <= 265 -> slice (file s2) (root_off (slot ms' (length L)) + a) b = zeros b).
      { intros a b Ha Hb Hab. rewrite <- (@slice_slice _ (file s2) (root_off (slot ms' (length L))) 265 a b) by (unfold pageSize in *; lia).
        rewrite Z'. apply slice_zeros; lia. }
      split; [|split; [|split; [auto|]]]; cbn [c_meta c_codec c_es c_pgs].
      * unfold meta_is. change (1 + zlen (@nil Z)) with 1. rewrite Ez by lia. reflexivity.
      * change (zlen (@nil Z)) with 0. lia.
      * left. split; auto. split; auto. unfold root_at. rewrite <- (Z.add_0_r (root_off _)), Ez by lia. reflexivity.
Qed.

(** ** New metadata *)
Lemma cells_set s fl ms L k x d : cells s fl ms L -> nth_error L k = Some x -> zlen d <= 252 ->
  exists p, lp_set_metadata (slot ms k) d s = (Ok tt, set_pos (set_file s (upd (file s) (root_off (slot ms k) + 12) (zlen d :: d))) p) /\
    cells (set_pos (set_file s (upd (file s) (root_off (slot ms k) + 12) (zlen d :: d))) p) fl ms
      (lset L k (Cell d (c_codec x) (c_es x) (c_pgs x))) /\
    zlen (upd (file s) (root_off (slot ms k) + 12) (zlen d :: d)) = zlen (file s).
Proof.
  intros H Hx Hd. pose proof (cells_lt _ H Hx) as Hk. pose proof (cells_slot _ H Hx) as Hso. pose proof (cells_pages H) as Hok.
  destruct H as [H1 H2 H3 H4 H5 H6 Hfree H6' H7].
  pose proof (root_off_bounds Hso) as (B1 & B2 & B3 & B4 & B5). pose proof Hso as ((P1 & P2 & P3 & P4) & P5 & P6).
  pose proof (zlen_nonneg d) as Hd0. assert (Lz : zlen (zlen d :: d) = 1 + zlen d) by apply zlen_cons.
  destruct (@lp_set_metadata_ok s _ d Hso H2 ltac:(lia)) as (p & E'). exists p. split; [exact E'|].
  destruct (@mchain_slot_write _ ms _ k (root_off (slot ms k) + 12) (zlen d :: d) H3 Hk ltac:(lia) ltac:(lia)) as [Hmc Hmz].
  set (f' := upd (file s) (root_off (slot ms k) + 12) (zlen d :: d)) in *.
  assert (Lf : zlen f' = zlen (file s)) by (unfold f'; rewrite zlen_upd by (unfold pageSize in *; lia); unfold pageSize in *; lia).
  split; [|exact Lf]. destruct (@all_pages_lset _ _ _ (Cell d (c_codec x) (c_es x) (c_pgs x)) Hx) as (A & A1 & A2). cbn [c_pgs] in A2.
  assert (Hpm : Permutation (all_pages L) (all_pages (lset L k (Cell d (c_codec x) (c_es x) (c_pgs x))))).
  { eapply Permutation_trans; [exact A1|]. apply Permutation_sym; exact A2. }
  assert (Hpg : forall q, In q (all_pages L) -> page f' q = page (file s) q).
  { intros q Hq. rewrite Forall_forall in Hok. destruct (Hok q) as (Q1 & Q2 & Q3 & Q4); [apply in_or_app; right; apply in_or_app; auto|].
    assert (Hne : q <> lp_off (slot ms k)).
    { intros X. eapply NoDup_app_disj; [exact H6| |apply in_or_app; left; exact Hq]. rewrite X. cbn [slot lp_off]. apply nth_In. eapply slot_idx; eauto. }
    unfold page, f'. apply slice_upd_disj; [unfold pageSize in *; lia | unfold pageSize in *; lia |]. destruct (aligned_disj Q2 P2 Hne); unfold pageSize in *; lia. }
  constructor; cbn [file set_pos set_file budget]; rewrite ?length_lset by auto; auto.
  - apply pf_inv_write; auto; unfold pageSize in *; lia.
  - apply Hmz; auto. lia.
  - eapply Permutation_NoDup; [|exact H6]. apply Permutation_app_head, Permutation_app_tail. exact Hpm.
  - rewrite Lf, H6'. unfold zlen. rewrite !app_length, (Permutation_length Hpm). reflexivity.
  - intros j y Hy. rewrite nth_lset in Hy by auto. destruct (Nat.eq_dec j k) as [->|Hne].
    + injection Hy as <-. destruct (H7 _ _ Hx) as (M1 & M2 & M3 & M4). split; [|split; [|split]]; cbn [c_meta c_codec c_es c_pgs]; auto.
      * apply meta_is_upd; auto; lia.
      * eapply tree_at_frame; [| | |exact M4]; [lia| |].
        -- unfold root_at. f_equal. unfold f'. apply slice_upd_disj; [unfold pageSize in *; lia | unfold pageSize in *; lia | lia].
        -- intros q Hq. apply Hpg. eapply in_all_pages; eauto.
    + assert (Hj : (j < length L)%nat) by (apply nth_error_Some; congruence).
      apply (@cell_at_frame (file s)); [eapply slot_okk; eauto | lia | | | apply H7; exact Hy].
      * unfold f'. apply (@slot_write_other (file s) ms (length L) k j _ _ H3 Hk Hj); [auto | lia | lia].
      * intros q Hq. apply Hpg. eapply in_all_pages; eauto.
Qed.

(** ** An insert *)
Lemma cells_sys s fl ms L k x : cells s fl ms L -> nth_error L k = Some x -> sys (c_codec x) s (slot ms k) fl (c_es x) (c_pgs x).
Proof.
  intros H Hx. pose proof (cells_lt _ H Hx) as Hk. pose proof (cells_slot _ H Hx) as Hso. destruct H as [H1 H2 H3 H4 H5 H6 Hfree H6' H7].
  destruct (H7 _ _ Hx) as (M1 & M2 & M3 & M4). split; auto. split; auto. split; auto. split; auto. split; auto.
  destruct (@all_pages_lset _ _ _ x Hx) as (A & A1 & _).
  assert (Hnd : NoDup (ms ++ (c_pgs x ++ fl) ++ A)).
  { eapply Permutation_NoDup; [|exact H6]. apply Permutation_app_head. rewrite <- app_assoc.
    eapply Permutation_trans; [apply Permutation_app_tail; exact A1|]. rewrite <- app_assoc. apply Permutation_app_head, Permutation_app_comm. }
  split; [apply NoDup_app_r, PSlots.NoDup_app_l in Hnd; auto|].
  intros X. eapply NoDup_app_disj; [exact Hnd| |apply in_or_app; left; exact X]. cbn [slot lp_off]. apply nth_In. eapply slot_idx; eauto.
Qed.
Lemma cells_insert s fl ms L k x key v : cells s fl ms L -> nth_error L k = Some x -> kw (c_codec x) <= 2016 -> zlen (file s) < 2^60 ->
  key_ok (c_codec x) key -> mptr_ok v -> ~ In key (map fst (c_es x)) ->
  exists s' fl' pgs', bp_insert (c_codec x) (slot ms k) key v s = (Ok tt, s') /\ kind s' = kind s /\ zlen (file s) <= zlen (file s') /\
    cells s' fl' ms (lset L k (Cell (c_meta x) (c_codec x) (insert_entry key v (c_es x)) pgs')) /\
    (forall j, (j < length L)%nat -> j <> k -> slot_same (file s) (file s') (slot ms j)) /\ incl (c_pgs x) pgs'.
Proof.
  intros H Hx Hkw Hf Hkey Hv Hnew. pose proof (cells_lt _ H Hx) as Hk. pose proof (cells_slot _ H Hx) as Hso. pose proof (cells_pages H) as Hok.
  pose proof (cells_sys _ H Hx) as Hsys. destruct H as [H1 H2 H3 H4 H5 H6 Hfree H6' H7].
  destruct (@insert_new _ _ _ _ _ _ key v Hkw Hsys Hf Hkey Hv Hnew) as (s' & E & fl' & pgs' & news & X1 & X2 & X3 & X4 & X5 & X6 & X7 & X8 & X9 & X10 & X11).
  exists s', fl', pgs'. split; [exact E|]. split; auto. pose proof X7 as [Lz Hun]. split; auto.
  pose proof (root_off_bounds Hso) as (B1 & B2 & B3 & B4 & B5). pose proof Hso as ((P1 & P2 & P3 & P4) & P5 & P6).
  destruct (@all_pages_lset _ _ _ (Cell (c_meta x) (c_codec x) (insert_entry key v (c_es x)) pgs') Hx) as (A & A1 & A2). cbn [c_pgs] in A2.
  assert (Hpm : Permutation (ms ++ all_pages L ++ fl) ((ms ++ A) ++ (c_pgs x ++ fl))).
  { rewrite <- app_assoc. apply Permutation_app_head. eapply Permutation_trans; [apply Permutation_app_tail; exact A1|].
    rewrite !app_assoc. apply Permutation_app_tail, Permutation_app_comm. }
  pose proof (Permutation_NoDup Hpm H6) as Hnd. rewrite Forall_forall in Hok.
  (* anything inside a page outside the tree's own pages and the free list is unchanged *)
  assert (Hframe : forall q o l, In q (ms ++ A) -> q <= o -> 0 <= l -> o + l <= q + pageSize ->
     o + l <= root_off (slot ms k) \/ root_off (slot ms k) + 12 <= o -> slice (file s') o l = slice (file s) o l).
  { intros q o l Hq Ho Hl Hol Hro. assert (Hqo : page_ok (file s) q).
    { apply Hok. eapply Permutation_in; [apply Permutation_sym; exact Hpm|]. apply in_or_app; auto. }
    destruct Hqo as (Q1 & Q2 & Q3 & Q4). apply Hun; auto.
    - unfold pageSize in *; lia.
    - unfold pageSize in *; lia.
    - intros p Hp. assert (Hpo : page_ok (file s) p).
      { apply Hok. eapply Permutation_in; [apply Permutation_sym; exact Hpm|]. apply in_or_app; auto. }
      destruct Hpo as (R1 & R2 & R3 & R4).
      assert (Hne : q <> p) by (intros Eq; subst p; eapply NoDup_app_disj; eauto).
      pose proof (aligned_disj Q2 R2 Hne) as Had. clear - Had Ho Hl Hol. lia. }
  assert (Hmsin : forall j, (j < length ms)%nat -> In (nth j ms 0) (ms ++ A)) by (intros j Hj; apply in_or_app; left; apply nth_In; auto).
  assert (Hchain : mchain (file s') ms (length L)).
  { apply (@mchain_frame _ _ _ _ H3 Lz). intros j Hj. apply (Hframe (nth j ms 0)); auto; [lia | lia | unfold pageSize; lia |].
    destruct (nth_ok H3 Hj) as [(Q1 & Q2 & Q3 & Q4) _].
    destruct (Z.eq_dec (nth j ms 0) (lp_off (slot ms k))) as [Eq|Hne]; [rewrite Eq; left; unfold pageSize in *; lia|].
    destruct (aligned_disj Q2 P2 Hne); unfold pageSize in *; lia. }
  assert (Hother : forall j, (j < length L)%nat -> j <> k -> slot_same (file s) (file s') (slot ms j)).
  { intros j Hj Hne. pose proof (slot_okk H3 Hj) as Hsj. pose proof (root_off_bounds Hsj) as (D1 & D2 & D3 & D4 & D5).
    unfold slot_same. apply (Hframe (lp_off (slot ms j))); [cbn [slot lp_off]; apply Hmsin; eapply slot_idx; eauto | lia | lia | unfold pageSize in *; lia |].
    destruct (slot_disj H3 Hj Hk Hne); lia. }
  split; [|split; [exact Hother|]].
  2:{ intros p Hp. destruct X2 as (kk & Ek). rewrite Hfree, skipn_nil in Ek. subst fl fl'. rewrite !app_nil_r in X5.
      eapply Permutation_in; [apply Permutation_sym; exact X5|]. apply in_or_app; auto. }
  constructor; rewrite ?length_lset by auto; auto.
  - unfold unused_zero in *. cbv zeta in *. rewrite <- H5. pose proof (count_bounds H3) as Hc. pose proof (mc_len H3) as Hlen.
    assert (Hll : (length ms - 1 < length ms)%nat) by lia. destruct (nth_ok H3 Hll) as [(Q1 & Q2 & Q3 & Q4) _].
    apply (Hframe (last_page ms)); [apply Hmsin; auto | unfold last_page; lia | unfold pageSize; lia | unfold pageSize; lia |].
    unfold last_page. rewrite (root_off_slot H3 Hk).
    destruct (nth_ok H3 (slot_idx H3 Hk)) as [(R1 & R2 & R3 & R4) _].
    destruct (Nat.eq_dec (length ms - 1) (k / 15)) as [Eq|Hne].
    + rewrite Eq. right. rewrite <- Eq. unfold count_of. pose proof (mc_n H3) as Hmn. clear - Hmn Hk Hlen Eq. destruct (Nat.ltb_spec (S (length ms - 1)) (length ms)); [lia|]. lia.
    + assert (Hn : nth (length ms - 1) ms 0 <> nth (k / 15) ms 0) by (intros X; apply Hne, (nth_inj (mc_nd H3)); auto; eapply slot_idx; eauto).
      destruct (aligned_disj Q2 R2 Hn); unfold pageSize in *; lia.
  - assert (Hperm : Permutation (ms ++ all_pages (lset L k (Cell (c_meta x) (c_codec x) (insert_entry key v (c_es x)) pgs')) ++ fl') ((ms ++ all_pages L ++ fl) ++ news)).
    { eapply Permutation_trans; [apply Permutation_app_head, Permutation_app_tail; exact A2|].
      eapply Permutation_trans; [|apply Permutation_app_tail, Permutation_sym; exact Hpm].
      clear - X5. perm_lia. }
    eapply Permutation_NoDup; [apply Permutation_sym; exact Hperm|]. apply NoDup_app_intro; auto.
    + pose proof (Permutation_NoDup X5 X4) as N. apply NoDup_app_r, NoDup_app_r in N. exact N.
    + intros p Y1 Y2. rewrite Forall_forall in X6. specialize (X6 _ Y2). destruct (Hok _ Y1) as (_ & _ & Q3 & _). unfold pageSize in *; lia.
  - destruct X2 as (kk & ->). rewrite Hfree. apply skipn_nil.
  - assert (Hperm : Permutation (ms ++ all_pages (lset L k (Cell (c_meta x) (c_codec x) (insert_entry key v (c_es x)) pgs')) ++ fl') ((ms ++ all_pages L ++ fl) ++ news)).
    { eapply Permutation_trans; [apply Permutation_app_head, Permutation_app_tail; exact A2|].
      eapply Permutation_trans; [|apply Permutation_app_tail, Permutation_sym; exact Hpm].
      clear - X5. perm_lia. }
    rewrite X10, H6'. apply Permutation_length in Hperm. unfold zlen. rewrite Hperm, (app_length _ news). unfold pageSize. lia.
  - intros j y Hy. rewrite nth_lset in Hy by auto. destruct (Nat.eq_dec j k) as [->|Hne].
    + injection Hy as <-. destruct (H7 _ _ Hx) as (M1 & M2 & M3 & M4). split; [|split; [|split]]; cbn [c_meta c_codec c_es c_pgs]; auto.
      * unfold meta_is in *. rewrite <- M1. pose proof (zlen_nonneg (c_meta x)). apply (Hframe (lp_off (slot ms k))); try (unfold pageSize in *; lia).
        cbn [slot lp_off]. apply Hmsin. eapply slot_idx; eauto.
      * right; exact X3.
    + assert (Hj : (j < length L)%nat) by (apply nth_error_Some; congruence).
      pose proof (slot_okk H3 Hj) as Hsj. pose proof (root_off_bounds Hsj) as (D1 & D2 & D3 & D4 & D5).
      apply (@cell_at_frame (file s)); [exact Hsj | exact Lz | | | apply H7; exact Hy].
      * apply Hother; auto.
      * intros q Hq.
        assert (HqA : In q A).
        { assert (Hqa : In q (all_pages (lset L k (Cell (c_meta x) (c_codec x) (c_es x) [])))).
          { apply (@in_all_pages _ j y); [|exact Hq]. rewrite nth_lset by auto. destruct (Nat.eq_dec j k) as [Ej|_]; [contradiction|exact Hy]. }
          destruct (@all_pages_lset _ _ _ (Cell (c_meta x) (c_codec x) (c_es x) []) Hx) as (A' & A1' & A2'). cbn [c_pgs app] in A2'.
          assert (PA : Permutation A A').
          { apply (Permutation_app_inv_l (c_pgs x)). eapply Permutation_trans; [apply Permutation_sym; exact A1|exact A1']. }
          eapply Permutation_in; [apply Permutation_sym; exact PA|]. eapply Permutation_in; [exact A2'|exact Hqa]. }
        assert (Hin : In q (ms ++ A)) by (apply in_or_app; auto).
        assert (Hqo : page_ok (file s) q).
        { apply Hok. eapply Permutation_in; [apply Permutation_sym; exact Hpm|]. apply in_or_app; auto. }
        destruct Hqo as (Q1 & Q2 & Q3 & Q4).
        unfold page. apply (Hframe q); auto; [lia | unfold pageSize; lia | lia |].
        assert (Hnq : q <> lp_off (slot ms k)).
        { intros X. apply PSlots.NoDup_app_l in Hnd. eapply NoDup_app_disj; [exact Hnd| |exact HqA]. rewrite X. cbn [slot lp_off]. apply nth_In. eapply slot_idx; eauto. }
        destruct (aligned_disj Q2 P2 Hnq); unfold pageSize in *; lia.
Qed.

(** ** Reopening, and a longer data file *)
Lemma cells_reopen s fl ms L k : cells s fl ms L ->
  exists s' p, new_page_file (open_rws k (file s)) = (Ok tt, s') /\ new_multi s' = (Ok (head_of ms), set_pos s' p) /\
    cells (set_pos s' p) fl ms L /\ file s' = file s.
Proof.
  intros [H1 H2 H3 H4 H5 H6 Hfree H6' H7]. destruct (@new_page_file_reopen s fl k H1) as (s' & E & F1 & F2 & F3 & F4 & F5 & F6).
  rewrite <- F3 in H3, H5. destruct (@new_multi_reopen s' ms _ H3 H4) as (p & E2). exists s', p. split; auto. split; auto. split; auto.
  constructor; cbn [file set_pos budget]; auto. apply pf_inv_pos; auto. rewrite F3; exact H6'. rewrite F3. auto.
Qed.
Definition longer (c c' : codec) : Prop := cwidth c' = cwidth c /\ cparse c' = cparse c /\ exists t, cdata c' = cdata c ++ t.
Lemma longer_key c c' k : longer c c' -> key_ok c k -> key_ok c' k.
Proof.
  intros (Ew & Ep & t & Ed) [H1 H2]. split; auto. rewrite Ew, Ep, Ed. destruct (cwidth c =? 0); auto. destruct H2 as [H2 H3]. destruct H1 as [O1 O2].
  split; [rewrite zlen_app; pose proof (zlen_nonneg t); lia|]. rewrite slice_app_within by lia. exact H3.
Qed.
Lemma longer_node c c' f o n : longer c c' -> node_at c f o n -> node_at c' f o n.
Proof.
  intros Hl (H1 & (N1 & N2 & N3 & N4 & N5) & t & E). split; auto. split; [|exists t; destruct Hl as (-> & _); auto].
  split; auto. split; auto. split; auto. eapply Forall_impl; [|exact N3]. intros k. apply longer_key; auto.
Qed.
Lemma longer_tree c c' f m es pgs : longer c c' -> tree_at c f m es pgs -> tree_at c' f m es pgs.
Proof.
  intros Hl [H|(h & root & rlen & H1 & H2 & R)]; [left; auto|]. right. exists h, root, rlen. split; auto. split; auto.
  eapply repr_frame; [exact R|]. intros o n _. apply longer_node; auto.
Qed.
Lemma cells_longer s fl ms L g : cells s fl ms L -> (forall x, In x L -> longer (c_codec x) (g (c_codec x)) /\ codec_ok (g (c_codec x))) ->
  cells s fl ms (map (fun x => Cell (c_meta x) (g (c_codec x)) (c_es x) (c_pgs x)) L).
Proof.
  intros [H1 H2 H3 H4 H5 H6 Hfree H6' H7] Hg. constructor; rewrite ?map_length; auto.
  - unfold all_pages. rewrite map_map. cbn [c_pgs]. exact H6.
  - unfold all_pages. rewrite map_map. cbn [c_pgs]. exact H6'.
  - intros k x Hx. rewrite nth_error_map in Hx. destruct (nth_error L k) as [y|] eqn:Ey; [|discriminate]. cbn [option_map] in Hx. injection Hx as <-.
    destruct (H7 _ _ Ey) as (M1 & M2 & M3 & M4). destruct (Hg y (nth_error_In _ _ Ey)) as [G1 G2].
    split; [|split; [|split]]; cbn [c_meta c_codec c_es c_pgs]; auto. eapply longer_tree; eauto.
Qed.
