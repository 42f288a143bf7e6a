(** C56, C57: the double-ended heap of distances. *)
From Coq Require Import Permutation.
From Verif Require Import Base Cells Heap.
Local Open Scope nat_scope.

(** ** Specification *)
(** What a heap holds after a history of calls: a set of pairs (id, distance).
    - inserting a new id adds a pair;
    - re-inserting an id with the distance it has changes nothing;
    - re-inserting the id of a smallest item, the one PeekMinItem returns, changes its distance;
    - a pop removes the pair of the id it returned. *)
Definition without (id : Z) (c : list item) : list item := filter (fun x => negb (Z.eqb (fst x) id)) c.
Inductive heap_hist : heap -> list item -> Prop :=
| hh_new : heap_hist new_heap []
| hh_insert h c id d : heap_hist h c -> ~ In id (map fst c) -> heap_hist (hinsert h id d) ((id, d) :: c)
| hh_again h c id d : heap_hist h c -> In (id, d) c -> heap_hist (hinsert h id d) c
| hh_min h c id d d' : heap_hist h c -> peek_min h = Some (id, d) -> heap_hist (hinsert h id d') ((id, d') :: without id c)
| hh_pop_min h c x h' : heap_hist h c -> pop_min h = Some (x, h') -> heap_hist h' (without (fst x) c)
| hh_pop_max h c x h' : heap_hist h c -> pop_max h = Some (x, h') -> heap_hist h' (without (fst x) c).

(** ** Proofs *)
Lemma without_perm (x : item) c l : NoDup (map fst c) -> Permutation c (x :: l) -> Permutation (without (fst x) c) l.
Proof.
  intros Hnd Hp. assert (E : forall a b : list item, Permutation a b -> Permutation (without (fst x) a) (without (fst x) b)).
  { induction 1; cbn; auto; repeat match goal with |- context [if ?b then _ else _] => destruct b end; auto; try apply perm_swap. eapply Permutation_trans; eauto. }
  pose proof (E _ _ Hp) as H1. eapply Permutation_trans; [exact H1|]. cbn. rewrite Z.eqb_refl. cbn [negb].
  assert (N : NoDup (map fst (x :: l))) by (eapply Permutation_NoDup; [apply Permutation_map; exact Hp|auto]). cbn [map] in N. inversion N as [|? ? Nx _]; subst.
  clear - Nx. induction l as [|y l IH]; cbn; auto. cbn in Nx.
  destruct (Z.eqb_spec (fst y) (fst x)) as [E|]; [exfalso; apply Nx; auto|]. cbn. constructor. apply IH. tauto.
Qed.
Lemma new_heap_ok : heap_ok new_heap.
Proof. split; [intros id k; cbn; split; [discriminate|lia]|intros j k _ Hk; cbn in Hk; lia]. Qed.
(** re-inserting: the contents, always *)
Lemma again_contents h id d d' : wf h -> In (id, d) (items h) -> wf (hinsert h id d') /\ Permutation (items (hinsert h id d')) ((id, d') :: without id (items h)).
Proof.
  intros Hw Hin. unfold hinsert. apply in_items in Hin. destruct Hin as (k & Hk & Ek).
  assert (Ev : visited h id = Some k) by (apply Hw; rewrite Ek; auto). rewrite Ev. fold (set_dist h k d').
  destruct (set_dist_wf d' Hw Hk) as (W & L & I). destruct (@fix_same (set_dist h k d') k (hlen h) W ltac:(auto) Hk) as (W2 & L2 & I2 & _).
  split; auto. eapply Permutation_trans; [apply perm_of_in; [exact W|exact W2|exact I2]|].
  rewrite Ek in I. cbn [fst] in I.
  assert (P : Permutation (items (set_dist h k d')) ((id, d') :: without id (items (set_dist h k d')))).
  { assert (Hin : In (id, d') (items (set_dist h k d'))) by (apply in_items; exists k; rewrite L, I, Nat.eqb_refl; auto).
    apply in_split in Hin. destruct Hin as (a & b & E). assert (Q : Permutation (items (set_dist h k d')) ((id, d') :: a ++ b)) by (rewrite E; apply Permutation_sym, Permutation_middle).
    eapply Permutation_trans; [exact Q|]. constructor. apply Permutation_sym. apply (@without_perm (id, d')); auto. apply wf_nodup; auto. }
  eapply Permutation_trans; [exact P|]. constructor. apply NoDup_Permutation.
  - apply NoDup_filter. eapply NoDup_map_inv, wf_nodup; eauto.
  - apply NoDup_filter. eapply NoDup_map_inv, wf_nodup; eauto.
  - intros [i v]. unfold without. rewrite !filter_In, !in_items, L. cbn [fst]. split; intros [(j & Hj & E) Hne]; (split; [|auto]); exists j; (split; [auto|]); rewrite I in *; destruct (Nat.eqb_spec j k) as [->|]; auto.
    + injection E as -> ->. rewrite Z.eqb_refl in Hne. discriminate.
    + rewrite Ek in E. injection E as -> ->. rewrite Z.eqb_refl in Hne. discriminate.
Qed.
Lemma again_ordered h id d d' : heap_ok h -> In (id, d) (items h) -> d' = d \/ peek_min h = Some (id, d) -> heap_ok (hinsert h id d').
Proof.
  intros [Hw Ho] Hin Hc. split; [eapply again_contents; eauto|]. pose proof (again_contents _ _ d' Hw Hin) as [W' P'].
  unfold hinsert in *. pose proof Hin as Hin'. apply in_items in Hin'. destruct Hin' as (k & Hk & Ek).
  assert (Ev : visited h id = Some k) by (apply Hw; rewrite Ek; auto). rewrite Ev in *. fold (set_dist h k d') in *.
  destruct (set_dist_wf d' Hw Hk) as (W & L & I). destruct (@fix_same (set_dist h k d') k (hlen h) W ltac:(auto) Hk) as (_ & L2 & _ & _). rewrite L2, L. rewrite <- L. apply fix_ok; auto; [lia|]. rewrite L.
  rewrite Ek in I. cbn [fst] in I. destruct Hc as [->|Hp].
  - intros a b Ha Hb _. unfold hd. assert (I' : forall q, hitem (set_dist h k d) q = hitem h q) by (intros q; rewrite I; destruct (Nat.eqb_spec q k) as [->|]; auto). rewrite !I'. apply Ho; auto.
  - unfold peek_min in Hp. destruct (hlen h =? 0); [discriminate|]. injection Hp as Hp.
    assert (k = 0) as -> by (apply (@wf_unique h k 0); auto; [lia|rewrite Ek, Hp; auto]).
    intros a b Ha Hb Hne. pose proof (anc_lt Ha). unfold hd. rewrite !I. destruct (Nat.eqb_spec a 0); [lia|]. destruct (Nat.eqb_spec b 0); [lia|]. apply Ho; auto.
Qed.
Theorem heap_hist_ok h c : heap_hist h c -> heap_ok h /\ Permutation (items h) c.
Proof.
  induction 1 as [|h c id d H IH Hn|h c id d H IH Hin|h c id d d' H IH Hp|h c x h' H IH Hp|h c x h' H IH Hp].
  - split; [apply new_heap_ok|constructor].
  - destruct IH as [Hok Hpm]. destruct (@push_ok h id d Hok) as [A B].
    + intros X. apply Hn. apply in_map_iff in X. destruct X as (y & E & Hy). apply in_map_iff. exists y. split; auto. eapply Permutation_in; eauto.
    + split; auto. eapply Permutation_trans; [exact B|]. constructor; auto.
  - destruct IH as [Hok Hpm]. assert (Hin' : In (id, d) (items h)) by (eapply Permutation_in; [apply Permutation_sym; exact Hpm|auto]).
    split; [eapply again_ordered; eauto|]. destruct (again_contents _ _ d (proj1 Hok) Hin') as [_ P]. eapply Permutation_trans; [exact P|]. eapply Permutation_trans; [|exact Hpm].
    apply in_split in Hin'. destruct Hin' as (a & b & E). assert (Q : Permutation (items h) ((id, d) :: a ++ b)) by (rewrite E; apply Permutation_sym, Permutation_middle).
    apply Permutation_sym. eapply Permutation_trans; [exact Q|]. constructor. apply Permutation_sym. apply (@without_perm (id, d)); auto. apply wf_nodup; apply Hok.
  - destruct IH as [Hok Hpm]. assert (Hin' : In (id, d) (items h)).
    { unfold peek_min in Hp. destruct (Nat.eqb_spec (hlen h) 0); [discriminate|]. injection Hp as <-. apply in_items. exists 0. split; auto; lia. }
    split; [eapply again_ordered; eauto|]. destruct (again_contents _ _ d' (proj1 Hok) Hin') as [_ P]. eapply Permutation_trans; [exact P|]. constructor.
    clear - Hpm. induction Hpm; cbn; auto; repeat match goal with |- context [if ?b then _ else _] => destruct b end; auto; try apply perm_swap. eapply Permutation_trans; eauto.
  - destruct IH as [Hok Hpm]. assert (H0 : 0 < hlen h) by (unfold pop_min in Hp; destruct (Nat.eqb_spec (hlen h) 0); [discriminate|lia]).
    destruct (pop_min_ok Hok H0) as (h2 & E & Ok2 & P2). rewrite E in Hp. injection Hp as <- <-. split; auto. apply Permutation_sym.
    apply without_perm; [|eapply Permutation_trans; [apply Permutation_sym; exact Hpm|exact P2]].
    eapply Permutation_NoDup; [apply Permutation_map; exact Hpm|apply wf_nodup, Hok].
  - destruct IH as [Hok Hpm]. assert (H0 : 0 < hlen h) by (unfold pop_max in Hp; destruct (Nat.eqb_spec (hlen h) 0); [discriminate|lia]).
    destruct (pop_max_ok Hok H0) as (h2 & E & Ok2 & P2). rewrite E in Hp. injection Hp as <- <-. split; auto. apply Permutation_sym.
    apply without_perm; [|eapply Permutation_trans; [apply Permutation_sym; exact Hpm|exact P2]].
    eapply Permutation_NoDup; [apply Permutation_map; exact Hpm|apply wf_nodup, Hok].
Qed.

(** ** C56 *)
(** In every history, PeekMinItem and PopMinItem return an item of least distance
    of those present (and fail exactly on an empty heap); by [heap_hist] the other
    items stay. *)
Lemma empty_len h (c : list item) : Permutation (items h) c -> hlen h = 0 -> c = [].
Proof. intros P E. unfold hlen in E. apply length_zero_iff_nil in E. rewrite E in P. apply Permutation_nil in P. auto. Qed.
Theorem C56_pop_min h c : heap_hist h c ->
  match pop_min h with
  | None => c = []
  | Some (x, h') => In x c /\ (forall y, In y c -> (snd x <= snd y)%Z) /\ heap_hist h' (without (fst x) c) /\ peek_min h = Some x
  end.
Proof.
  intros H. pose proof (heap_hist_ok H) as [Hok Hpm]. destruct (Nat.eq_dec (hlen h) 0) as [E0|N0].
  - unfold pop_min. rewrite E0. cbn. eapply empty_len; eauto.
  - destruct (pop_min_ok Hok ltac:(lia)) as (h2 & E & Ok2 & P2). rewrite E. split; [|split; [|split]].
    + eapply Permutation_in; [exact Hpm|]. apply in_items. exists 0. split; auto; lia.
    + intros y Hy. eapply Permutation_in in Hy; [|apply Permutation_sym; exact Hpm]. apply in_items in Hy. destruct Hy as (k & Hk & <-). apply (@ordered_min (hd h) (hlen h)); auto. apply Hok.
    + change (heap_hist h2 (without (fst (hitem h 0)) c)). eapply hh_pop_min; eauto.
    + unfold peek_min. destruct (Nat.eqb_spec (hlen h) 0); [lia|auto].
Qed.
Theorem C56_pop_max h c : heap_hist h c ->
  match pop_max h with
  | None => c = []
  | Some (x, h') => In x c /\ (forall y, In y c -> (snd y <= snd x)%Z) /\ heap_hist h' (without (fst x) c) /\ peek_max h = Some x
  end.
Proof.
  intros H. pose proof (heap_hist_ok H) as [Hok Hpm]. destruct (Nat.eq_dec (hlen h) 0) as [E0|N0].
  - unfold pop_max. rewrite E0. cbn. eapply empty_len; eauto.
  - destruct (pop_max_ok Hok ltac:(lia)) as (h2 & E & Ok2 & P2). rewrite E. split; [|split; [|split]].
    + eapply Permutation_in; [exact Hpm|]. apply in_items. exists (max_pos h). split; auto. apply (@max_pos_ok h 0); [apply Hok|lia].
    + intros y Hy. eapply Permutation_in in Hy; [|apply Permutation_sym; exact Hpm]. apply in_items in Hy. destruct Hy as (k & Hk & <-). apply max_pos_ok; auto. apply Hok.
    + eapply hh_pop_max; eauto.
    + unfold peek_max. destruct (Nat.eqb_spec (hlen h) 0); [lia|auto].
Qed.
(** Draining: popping the minimum until the heap is empty returns the items in ascending order. *)
Fixpoint drain (n : nat) (h : heap) : list item :=
  match n with 0 => [] | S n => match pop_min h with None => [] | Some (x, h) => x :: drain n h end end.
Theorem C56_drain h c : heap_hist h c -> Permutation (drain (length c) h) c /\
  forall a x b y d, drain (length c) h = a ++ x :: b ++ y :: d -> (snd x <= snd y)%Z.
Proof.
  intros H. remember (length c) as n eqn:En. revert h c H En. induction n as [|n IH]; intros h c H En; cbn [drain].
  - destruct c; [|discriminate]. split; auto. intros [|? ?] x b y d E; discriminate.
  - pose proof (C56_pop_min H) as P. destruct (pop_min h) as [[x h']|]; [|subst c; discriminate].
    destruct P as (Hin & Hle & Hh & _). pose proof (heap_hist_ok H) as [Hok Hpm].
    assert (Hnd : NoDup (map fst c)) by (eapply Permutation_NoDup; [apply Permutation_map; exact Hpm|apply wf_nodup, Hok]).
    assert (Q : Permutation c (x :: without (fst x) c)).
    { apply in_split in Hin. destruct Hin as (a & b & E). assert (Q : Permutation c (x :: a ++ b)) by (rewrite E; apply Permutation_sym, Permutation_middle).
      eapply Permutation_trans; [exact Q|]. constructor. apply Permutation_sym. apply without_perm; auto. }
    assert (En' : n = length (without (fst x) c)) by (apply Permutation_length in Q; cbn in Q; lia).
    destruct (IH _ _ Hh En') as [I1 I2]. split; [eapply Permutation_trans; [constructor; exact I1|apply Permutation_sym; auto]|].
    intros [|z a] u b y d E; cbn in E.
    + injection E as -> E. apply Hle. assert (Hy : In y (without (fst u) c)) by (eapply Permutation_in; [exact I1|]; rewrite E; apply in_or_app; right; left; auto).
      unfold without in Hy. apply filter_In in Hy. tauto.
    + injection E as -> E. eapply I2. exact E.
Qed.
(** a history with every operation *)
Definition heap_example : heap :=
  let h := hinsert (hinsert (hinsert (hinsert new_heap 10 5) 11 3) 12 9) 13 4 in
  let h := hinsert h 11 3 in hinsert h 11 20.
Example heap_example_hist : exists c, heap_hist heap_example c /\ length c = 4 /\ drain 4 heap_example = [(13, 4); (10, 5); (12, 9); (11, 20)]%Z.
Proof.
  exists ((11, 20) :: without 11 [(13, 4); (12, 9); (11, 3); (10, 5)])%Z. split; [|split; [reflexivity|vm_compute; reflexivity]].
  unfold heap_example. apply hh_min with (d := 3%Z); [|vm_compute; reflexivity]. apply hh_again; [|cbn; tauto].
  repeat (apply hh_insert; [|cbn; intuition discriminate]). apply hh_new.
Qed.

(** ** C57 *)
(** Re-inserting an id replaces its pair, in any heap whose index map is right
    (every history is such a heap)... *)
Theorem C57_reinsert_contents_partial h c id d d' : heap_hist h c -> In (id, d) c -> Permutation (items (hinsert h id d')) ((id, d') :: without id c).
Proof.
  intros H Hin. pose proof (heap_hist_ok H) as [Hok Hpm]. assert (Hin' : In (id, d) (items h)) by (eapply Permutation_in; [apply Permutation_sym; exact Hpm|auto]).
  destruct (again_contents _ _ d' (proj1 Hok) Hin') as [_ P]. eapply Permutation_trans; [exact P|]. constructor.
  clear - Hpm. induction Hpm; cbn; auto; repeat match goal with |- context [if ?b then _ else _] => destruct b end; auto; try apply perm_swap. eapply Permutation_trans; eauto.
Qed.
(** ... and if the distance is the same, or the item is the one at the front, pops
    stay right (see [heap_hist]: C56 covers hh_again and hh_min). Missing: any
    other item, because: *)
Theorem C57_reinsert_refuted : exists h c id d d' x h', heap_hist h c /\ In (id, d) c /\ pop_min (hinsert h id d') = Some (x, h') /\
  exists y, In y ((id, d') :: without id c) /\ (snd y < snd x)%Z.
Proof.
  exists (hinsert (hinsert (hinsert (hinsert new_heap 100 8) 101 9) 102 5) 103 8), [(103, 8); (102, 5); (101, 9); (100, 8)]%Z, 101%Z, 9%Z, 2%Z.
  destruct (pop_min (hinsert (hinsert (hinsert (hinsert (hinsert new_heap 100 8) 101 9) 102 5) 103 8) 101 2)) as [[x h']|] eqn:E; [|vm_compute in E; discriminate].
  exists x, h'. split; [|split; [|split; [auto|]]].
  - repeat (apply hh_insert; [|cbn; intuition discriminate]). apply hh_new.
  - cbn. tauto.
  - exists (101, 2)%Z. split; [left; auto|]. apply (f_equal (option_map fst)) in E. vm_compute in E. injection E as <-. cbn. lia.
Qed.
