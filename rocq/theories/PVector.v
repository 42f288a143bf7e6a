(** C65, C80: the neighbour lists written by the vector page manager (pkg/hnsw/friends.go,
    pkg/vectorpage/manager.go). *)
From Coq Require Import Permutation Sorted.
From Verif Require Import Base Cells Heap PHeap Hnsw HnswInv PHnsw.
Local Open Scope Z_scope.

Section Flush.
Variables (F : Type) (fzero : F) (fsub fadd fmul : F -> F -> F) (rank : F -> Z).
(** see PHnsw.v *)
Hypothesis sq_sym : forall a b, fmul (fsub a b) (fsub a b) = fmul (fsub b a) (fsub b a).
Notation inv := (inv fzero fsub fadd fmul rank).
Notation valid := (valid fzero fsub fadd fmul rank).
Notation edge := (edge fzero fsub fadd fmul rank).
Notation link := (link fzero fsub fadd fmul rank).
Notation insert_levels := (insert_levels fzero fsub fadd fmul rank).
Notation insert_vector := (insert_vector fzero fsub fadd fmul rank).
Notation graph := (graph fzero fsub fadd fmul rank).
Notation search_level := (search_level fzero fsub fadd fmul rank).

(** ** Specification *)
(** a neighbour: one byte for the level, four bytes (big endian) for the id *)
Definition neighbour (level : nat) (id : Z) : bytes := (Z.of_nat level mod 256) :: be 4 (id mod 2^32).
(** items in ascending order of their distances *)
Definition ascending (l : list item) : Prop := forall a x b y c, l = a ++ x :: b ++ y :: c -> snd x <= snd y.

(** ** Proofs *)
(** every friend has a recorded level, which is one of the levels of the node *)
Definition known (h : hnsw F) : Prop := forall a f, nth_error (fr h) a = Some f ->
  forall L hp x, nth_error (levels f) L = Some hp -> In x (items hp) -> exists l, max_levels f (fst x) = Some l /\ (l < length (levels f))%nat.
Definition known_f (f : friends) : Prop := forall L hp x, nth_error (levels f) L = Some hp -> In x (items hp) -> exists l, max_levels f (fst x) = Some l /\ (l < length (levels f))%nat.
Lemma set_known h i f f' : known h -> nth_error (fr h) (Z.to_nat i) = Some f -> known_f f' -> known (set_friends h i f').
Proof.
  intros HR Ef Hf' a g Eg. assert (Hlt : (Z.to_nat i < length (fr h))%nat) by (apply nth_error_Some; congruence).
  destruct (Nat.eq_dec a (Z.to_nat i)) as [->|Hne]; [rewrite set_friends_same in Eg by auto; injection Eg as <-; exact Hf'|]. rewrite set_friends_other in Eg by auto. apply (HR _ _ Eg).
Qed.
Lemma insert_friend_known h i f L id d f' : inv h -> known h -> nth_error (fr h) (Z.to_nat i) = Some f -> insert_friend f L id d = Ok f' -> known (set_friends h i f').
Proof.
  intros HI HR Ef E. unfold insert_friend in E. destruct (negb (has_level f L)) eqn:HL; [discriminate|]. apply negb_false_iff in HL. unfold has_level in HL. apply Nat.ltb_lt in HL.
  assert (Ef' : f' = FR (insert_upto (S L) (levels f) id d) (set_v (max_levels f) id (Some L))) by congruence. subst f'.
  eapply set_known; eauto. intros L' hp x El Hx. cbn [levels max_levels] in *. rewrite length_upto. unfold set_v.
  destruct (Z.eqb_spec (fst x) id) as [Ei|Ei]; [exists L; auto|]. rewrite nth_upto in El. destruct (L' <? S L)%nat; [|eapply (HR _ _ Ef); eauto].
  destruct (nth_error (levels f) L') as [hp0|] eqn:E0; [|discriminate]. cbn in El. injection El as <-. apply (hinsert_in fzero fadd rank) in Hx; [|apply (i_fr HI _ _ Ef E0)]. destruct Hx as [Hx|Hx]; [|contradiction]. eapply (HR _ _ Ef); eauto.
Qed.
Lemma link_known q qId L : forall ns h fq h', inv h -> 0 <= qId -> nth_error (points h) (Z.to_nat qId) = Some q -> nth_error (fr h) (Z.to_nat qId) = Some fq -> (L < length (levels fq))%nat ->
  (forall x, In x ns -> valid h q L x) -> link h q qId L ns = Ok h' -> known h -> known h'.
Proof.
  induction ns as [|[n nd] ns IH]; intros h fq h' HI H0 Hq Hfq HL Hns E HR; cbn [Hnsw.link] in E; [assert (h = h') by congruence; subst; auto|].
  assert (Hv : valid h q L (n, nd)) by (apply Hns; left; auto). pose proof Hv as (N0 & fn & p & Efn & HLn & Ep & Ed). cbn [fst snd] in *.
  unfold point_of, friends_of in E. rewrite Ep in E. cbn [rbind] in E. rewrite Ed in E. cbn [rbind] in E. rewrite Efn in E. cbn [rbind] in E.
  assert (Lp : length p = length q).
  { pose proof (i_dim HI) as X. rewrite Forall_forall in X. rewrite (X p), (X q); auto; eapply nth_error_In; eauto. }
  destruct (@euclid_ok F fzero fsub fadd fmul rank sq_sym p q Lp) as (d' & Ed1 & Ed2). assert (d' = nd) by congruence. subst d'.
  assert (E1 : edge h (Z.to_nat n) L (qId, nd)) by (split; [auto|]; exists fq, q, p; cbn [fst snd]; auto).
  destruct (@insert_friend_ok F fzero fsub fadd fmul rank sq_sym h n fn L (qId, nd) HI Efn HLn E1) as (fn' & Ei1 & HI1 & S1 & _). cbn [fst snd] in Ei1. rewrite Ei1 in E. cbn [rbind] in E. cbv zeta in E.
  assert (HR1 : known (set_friends h n fn')) by (eapply insert_friend_known; eauto).
  set (h1 := set_friends h n fn') in *. destruct (shape_nth _ S1 Hfq) as (fq1 & Efq1 & Lfq1). rewrite Efq1 in E. cbn [rbind] in E.
  assert (E2 : edge h1 (Z.to_nat qId) L (n, nd)).
  { apply (shape_edge sq_sym S1). split; [auto|]. exists fn, p, q. cbn [fst snd]. auto. }
  assert (HLq1 : (L < length (levels fq1))%nat) by lia.
  destruct (@insert_friend_ok F fzero fsub fadd fmul rank sq_sym h1 qId fq1 L (n, nd) HI1 Efq1 HLq1 E2) as (fq' & Ei2 & HI2 & S2 & _). cbn [fst snd] in Ei2. rewrite Ei2 in E. cbn [rbind] in E.
  assert (HR2 : known (set_friends h1 qId fq')) by (eapply insert_friend_known; eauto). set (h2 := set_friends h1 qId fq') in *.
  pose proof (shape_trans S1 S2) as S12. destruct (shape_nth _ S12 Hfq) as (fq2 & Efq2 & Lfq2).
  eapply (IH h2 fq2 h'); eauto; [lia|].
  intros x Hx. apply (shape_valid sq_sym S12). apply Hns. right; auto.
Qed.
Lemma trim_known L : forall ns h h', inv h -> 0 <= bigM h -> trim_all h L ns = Ok h' -> known h -> known h'.
Proof.
  induction ns as [|[n nd] ns IH]; intros h h' HI HM E HR; cbn [trim_all] in E; [assert (h = h') by congruence; subst; auto|].
  unfold friends_of in E. destruct (nth_error (fr h) (Z.to_nat n)) as [fn|] eqn:Efn; [|discriminate]. cbn [rbind] in E. unfold get_friends, has_level in E. destruct (Nat.ltb_spec L (length (levels fn))) as [Hl|]; [|discriminate]. cbn [negb rbind] in E.
  destruct (nth_error (levels fn) L) as [hp|] eqn:El; [|apply nth_error_None in El; lia]. rewrite (nth_error_nth _ _ _ El) in E. pose proof (i_fr HI _ _ Efn El) as Ghp.
  destruct (@trim_good _ (bigM h) (S (hlen hp)) hp HM ltac:(lia) Ghp) as (hp' & Et & G' & _). rewrite Et in E. cbn [rbind] in E.
  set (f' := FR (lset (levels fn) L hp') (max_levels fn)) in *. assert (EL : length (levels f') = length (levels fn)) by (apply length_lset; auto).
  assert (HI1 : inv (set_friends h n f')).
  { eapply set_friends_inv; eauto. intros L' hq Hq. unfold f' in Hq; cbn [levels] in Hq. rewrite nth_lset in Hq by auto. destruct (Nat.eq_dec L' L) as [->|]; [injection Hq as <-; auto|apply (i_fr HI _ _ Efn Hq)]. }
  eapply (IH (set_friends h n f') h'); eauto. eapply set_known; eauto. intros L' hq x Hq Hx. rewrite EL. unfold f' in Hq |- *; cbn [levels max_levels] in Hq |- *. rewrite nth_lset in Hq by auto.
  destruct (Nat.eq_dec L' L) as [->|]; [|eapply (HR _ _ Efn); eauto]. injection Hq as <-. eapply (HR _ _ Efn); eauto. eapply trim_in; [apply Ghp|exact Et|auto].
Qed.
Lemma insert_levels_known q qId : forall k h ep fq h', inv h -> length q = dim h -> 1 <= ef h -> 0 <= bigM h -> 0 <= qId -> nth_error (points h) (Z.to_nat qId) = Some q ->
  nth_error (fr h) (Z.to_nat qId) = Some fq -> (k <= length (levels fq))%nat -> (forall L, (L < k)%nat -> valid h q L ep) -> insert_levels k h q qId ep = Ok h' -> known h -> known h'.
Proof.
  induction k as [|L IH]; intros h ep fq h' HI Hq He HM H0 Hqp Hqf Hk Hv E HR; cbn [Hnsw.insert_levels] in E; [assert (h = h') by congruence; subst; auto|].
  destruct (@search_level_ok F fzero fsub fadd fmul rank sq_sym h q ep (ef h) L HI Hq He (Hv L ltac:(lia))) as (nn & Enn & Gn & Ln & _).
  rewrite Enn in E. cbn [rbind] in E.
  destruct (@select_ok F fzero fsub fadd fmul rank sq_sym h nn _ HM Gn ltac:(lia)) as (l & nn' & Esel & Pl & Gn' & Ln' & _). rewrite Esel in E. cbn [rbind fst snd] in E.
  destruct (@link_ok F fzero fsub fadd fmul rank sq_sym q qId L l h fq HI) as (h2 & E2 & HI2 & S2 & _); auto. rewrite E2 in E. cbn [rbind] in E.
  assert (HR2 : known h2) by (eapply (@link_known q qId L l h fq h2); eauto).
  assert (HM2 : 0 <= bigM h2) by (assert (bigM h2 = bigM h) by apply S2; lia).
  destruct (@trim_all_ok F fzero fsub fadd fmul rank sq_sym q L l h2 HI2) as (h3 & E3 & HI3 & S3 & _); [auto|intros x Hx; apply (shape_valid sq_sym S2), (Pl x Hx)|].
  rewrite E3 in E. cbn [rbind] in E. assert (HR3 : known h3) by (eapply (@trim_known L l h2 h3); eauto).
  pose proof (shape_trans S2 S3) as S23. pose proof (pop_min_good Gn') as Hp. destruct (pop_min nn') as [[y nn2]|]; [|discriminate]. destruct Hp as (Py & _).
  destruct (shape_nth _ S23 Hqf) as (fq3 & Eq3 & L3).
  assert (D3 : dim h3 = dim h /\ points h3 = points h /\ ef h3 = ef h /\ bigM h3 = bigM h) by (destruct S23 as (A & _ & B & C & D & _); auto). destruct D3 as (D1 & D2 & D4 & D5).
  eapply (IH h3 y fq3 h'); eauto; try congruence; try lia.
  intros L' HL'. apply (shape_valid sq_sym S23). eapply valid_le; [exact sq_sym| |exact Py]. lia.
Qed.
Lemma insert_known h q l id h' : inv h -> 1 <= ef h -> 0 <= bigM h -> known h -> insert_vector h q l = Ok (id, h') -> known h'.
Proof.
  intros HI Hef HM HR E. assert (Hq : length q = dim h) by (unfold Hnsw.insert_vector in E; destruct (Nat.eqb_spec (length q) (dim h)); [auto|discriminate]).
  unfold Hnsw.insert_vector in E. rewrite (proj2 (Nat.eqb_eq _ _) Hq) in E. cbn [negb] in E. pose proof (i_entry HI) as He. destruct (inv_point sq_sym HI He) as (pe & fe & Epe & Hpe & Efe).
  unfold friends_of at 1 in E. rewrite Efe in E. cbn [rbind] in E. cbv zeta in E.
  match type of E with context [find_closer _ _ _ _ _ ?x q l] => set (h1 := x) in * end.
  assert (HI1 : inv h1) by exact (@add_node_inv F fzero fsub fadd fmul rank sq_sym h q l HI Hq).
  assert (Efe1 : nth_error (fr h1) (Z.to_nat (entry h1)) = Some fe) by (unfold h1; cbn [fr entry]; rewrite nth_error_app1; auto; apply nth_error_Some; congruence).
  destruct (@find_closer_ok F fzero fsub fadd fmul rank sq_sym h1 q l fe HI1 Hq Efe1) as (ep & Eep & Vep). rewrite Eep in E. cbn [rbind] in E.
  set (n := zlen (points h)) in *. assert (Nn : Z.to_nat n = length (points h)) by (unfold n, zlen; lia).
  assert (Hqp : nth_error (points h1) (Z.to_nat n) = Some q) by (unfold h1; cbn [points]; rewrite Nn, nth_error_app2, Nat.sub_diag by lia; reflexivity).
  assert (Hqf : nth_error (fr h1) (Z.to_nat n) = Some (new_friends l)) by (unfold h1; cbn [fr]; rewrite Nn, <- (i_len HI), nth_error_app2, Nat.sub_diag by lia; reflexivity).
  assert (HR1 : known h1).
  { intros a f Ef L hp x El Hx. unfold h1 in Ef; cbn [fr] in Ef. destruct (Nat.lt_ge_cases a (length (fr h))) as [Ha|Ha]; [rewrite nth_error_app1 in Ef by auto; eapply (HR _ _ Ef); eauto|].
    rewrite nth_error_app2 in Ef by auto. destruct (a - length (fr h))%nat as [|[|]]; [injection Ef as <-|discriminate|discriminate].
    cbn [new_friends levels] in El. apply nth_error_In in El. change (In hp (repeat new_heap (S l))) in El. apply repeat_spec in El. subst hp. destruct Hx. }
  destruct (insert_levels _ h1 q n ep) as [h2| | | |] eqn:E2; try discriminate. cbn [rbind] in E.
  assert (HR2 : known h2).
  { eapply (@insert_levels_known q n); [exact HI1|exact Hq|exact Hef|exact HM|unfold n, zlen; lia|exact Hqp|exact Hqf| | |exact E2|exact HR1].
    - cbn [new_friends levels]. rewrite repeat_length. lia.
    - intros L HL. eapply valid_le; [exact sq_sym| |exact Vep]. lia. }
  destruct (top_level fe <? l)%nat; assert (X : fr h' = fr h2) by (injection E as _ <-; reflexivity); unfold known in *; rewrite X; exact HR2.
Qed.
Lemma graph_known d efc m h ps ls : 1 <= efc -> 0 <= m -> graph d efc m h ps ls -> known h.
Proof.
  intros He Hm. induction 1 as [p h E|h ps ls q l id h' H IH E].
  - unfold new_hnsw in E. destruct ((d =? 0)%nat || negb (length p =? d)%nat); [discriminate|]. injection E as <-. intros [|[|a]] f Ef; cbn in Ef; try discriminate. injection Ef as <-.
    intros [|[|L]] hp x El Hx; cbn in El; try discriminate. injection El as <-. destruct Hx.
  - destruct (@graph_inv F fzero fsub fadd fmul rank sq_sym d efc m h ps ls He Hm H) as (HI & Hp & Hd & Hef & HM). eapply insert_known; eauto; lia.
Qed.

Lemma flush_loop_ok f P : forall n hp, good P hp -> (forall x, In x (items hp) -> exists l, max_levels f (fst x) = Some l) ->
  exists cl lv, Permutation cl (items hp) /\ ascending cl /\ (forall x, In x cl -> max_levels f (fst x) = Some (lv (fst x))) /\
    flush_loop n f hp = Ok (concat (map (fun x => neighbour (lv (fst x)) (fst x)) (firstn n cl)) ++ zeros (5 * Z.of_nat (n - length cl))).
Proof.
  intros n hp G Hk. set (lv := fun id => match max_levels f id with Some l => l | None => 0%nat end).
  assert (Hlv : forall x, In x (items hp) -> max_levels f (fst x) = Some (lv (fst x))) by (intros x Hx; destruct (Hk x Hx) as (l & E); unfold lv; rewrite E; reflexivity).
  clear Hk. remember (hlen hp) as k eqn:Ek. revert n hp G Hlv Ek. induction k as [|k IH]; intros n hp G Hlv Ek.
  - exists [], lv. assert (E0 : items hp = []) by (unfold hlen in Ek; destruct (items hp); [reflexivity|discriminate]). rewrite E0. split; [constructor|]. split; [intros [|? ?] x b y c X; discriminate|]. split; [intros x []|].
    rewrite firstn_nil. cbn [map concat app length]. rewrite Nat.sub_0_r. clear Hlv. induction n as [|n IHn]; cbn [flush_loop]; [reflexivity|]. rewrite <- Ek. cbn [Nat.eqb]. rewrite IHn. cbn [rbind].
    f_equal. unfold zeros. rewrite <- repeat_app. f_equal. lia.
  - pose proof (pop_min_good G) as Hp. destruct (pop_min hp) as [[x hp']|] eqn:Epop; [|lia]. destruct Hp as (Px & Ix & G' & L' & Hmin & Pm).
    destruct (IH (Nat.pred n) hp' G') as (cl & lv' & Pc & Hs & Hl & Ef); [intros y Hy; apply Hlv; eapply Permutation_in; [apply Permutation_sym; exact Pm|right; auto]|lia|].
    exists (x :: cl), lv. split; [rewrite Pm; constructor; exact Pc|]. split.
    { intros [|z a] u b y c X; cbn [app] in X.
      - injection X as -> X. apply Hmin. eapply Permutation_in; [apply Permutation_sym; exact Pm|]. right. eapply Permutation_in; [exact Pc|]. rewrite X. apply in_or_app. right. left. auto.
      - injection X as -> X. eapply Hs; exact X. }
    assert (Hl2 : forall y, In y (x :: cl) -> max_levels f (fst y) = Some (lv (fst y))).
    { intros y Hy. apply Hlv. eapply Permutation_in; [apply Permutation_sym; exact Pm|]. destruct Hy as [->|Hy]; [left; auto|right; eapply Permutation_in; eauto]. }
    split; [exact Hl2|]. destruct n as [|n]; [cbn [flush_loop firstn map concat app Nat.sub]; reflexivity|]. cbn [Nat.pred] in Ef. cbn [flush_loop]. rewrite <- Ek. cbn [Nat.eqb]. rewrite Epop.
    rewrite (Hl2 x (or_introl eq_refl)), Ef. cbn [rbind firstn map concat length Nat.sub]. rewrite <- app_assoc. do 2 f_equal. f_equal. f_equal.
    apply map_ext_in. intros y Hy. assert (Hy' : In y cl) by (rewrite <- (firstn_skipn n cl); apply in_or_app; auto).
    pose proof (Hl y Hy') as A. pose proof (Hl2 y (or_intror Hy')) as B. rewrite A in B. injection B as ->. reflexivity.
Qed.

(** ** C65 *)
(** In every graph, Flush(n) never fails. It gives 5n bytes: a record for each of the (at most n) closest
    friends on level 0, in ascending order of distance, with a recorded level, then zeros. *)
Theorem C65_flush_partial d efc m h ps ls a f its n : graph d efc m h ps ls -> 1 <= efc -> 0 <= m -> nth_error (fr h) a = Some f -> friends_at h a 0 = Some its ->
  exists cl lv, Permutation cl its /\ ascending cl /\ (forall x, In x cl -> 0 <= fst x < zlen ps /\ max_levels f (fst x) = Some (lv (fst x)) /\ (lv (fst x) < length (levels f))%nat) /\
    flush f n = Ok (concat (map (fun x => neighbour (lv (fst x)) (fst x)) (firstn n cl)) ++ zeros (5 * Z.of_nat (n - length cl))).
Proof.
  intros Hg He Hm Ef Hf. pose proof (@graph_known d efc m h ps ls He Hm Hg _ _ Ef) as Hk.
  assert (Hpts : forall x, In x its -> 0 <= fst x < zlen ps).
  { intros [id dist] Hx. destruct (@C61_friends_are_points F fzero fsub fadd fmul rank sq_sym d efc m h ps ls a 0 its Hg He Hm Hf) as [_ X]. apply (X _ _ Hx). }
  destruct (@graph_inv F fzero fsub fadd fmul rank sq_sym d efc m h ps ls He Hm Hg) as (HI & _). unfold friends_at in Hf. rewrite Ef in Hf.
  unfold flush. pose proof (i_lev HI _ Ef) as Hne. destruct (levels f) as [|l0 lr] eqn:El; [congruence|]. cbn [nth_error option_map] in Hf. injection Hf as <-. unfold clone.
  assert (E0 : nth_error (levels f) 0 = Some l0) by (rewrite El; reflexivity).
  destruct (@flush_loop_ok f _ n l0 (i_fr HI _ _ Ef E0)) as (cl & lv & P & A & B & E).
  { intros x Hx. destruct (Hk 0%nat l0 x eq_refl Hx) as (l & X & _). eauto. }
  exists cl, lv. split; [exact P|]. split; [exact A|]. split; [|exact E]. intros x Hx. assert (Hx' : In x (items l0)) by (eapply Permutation_in; eauto).
  split; [auto|]. split; [auto|]. destruct (Hk 0%nat l0 x eq_refl Hx') as (l & X & Hl). rewrite (B x Hx) in X. injection X as ->. exact Hl.
Qed.
End Flush.

(** ** Witnesses, with integer coordinates *)
(** points 0, 1, 2 with M = 2; the second and third on levels 0 and 1 *)
Definition near : hnsw Z := zinsert (zinsert (zstart 10 2 0) 1 1) 2 1.
Lemma zgraph_insert efc m h ps ls q l id h' : zgraph 1 efc m h ps ls -> insert_vector 0 Z.sub Z.add Z.mul (fun x => x) h [q] l = Ok (id, h') -> zgraph 1 efc m h' (ps ++ [[q]]) (ls ++ [l]).
Proof. intros G E. exact (@g_insert _ _ _ _ _ _ _ _ _ _ _ _ _ _ _ _ G E). Qed.
Lemma zstart_graph efc m p : zgraph 1 efc m (zstart efc m p) [[p]] [].
Proof. apply g_new. reflexivity. Qed.
Lemma near_graph : zgraph 1 10 2 near [[0]; [1]; [2]] [1; 1]%nat /\ zgraph 1 10 2 (zinsert (zstart 10 2 0) 1 1) [[0]; [1]] [1]%nat.
Proof.
  assert (G1 : zgraph 1 10 2 (zinsert (zstart 10 2 0) 1 1) [[0]; [1]] [1]%nat).
  { apply (@zgraph_insert 10 2 (zstart 10 2 0) [[0]] [] 1 1%nat 1); [apply zstart_graph|vm_compute; reflexivity]. }
  split; [|exact G1]. apply (@zgraph_insert 10 2 (zinsert (zstart 10 2 0) 1 1) [[0]; [1]] [1%nat] 2 1%nat 2); [exact G1|vm_compute; reflexivity].
Qed.
(** C65: point 1 is a friend of point 2 on level 1, but its record says level 0 *)
Theorem C65_level_refuted : exists h ps ls f, zgraph 1 10 2 h ps ls /\ nth_error (fr h) 2 = Some f /\ (exists its d, friends_at h 2 1 = Some its /\ In (1, d) its) /\
  flush f 2 = Ok (neighbour 0 2 ++ neighbour 0 1).
Proof.
  exists near, [[0]; [1]; [2]], [1; 1]%nat, (match nth_error (fr near) 2 with Some f => f | None => new_friends 0 end). split; [apply near_graph|]. split; [vm_compute; reflexivity|].
  split; [exists [(1, 1)], 1; split; [vm_compute; reflexivity|left; reflexivity]|vm_compute; reflexivity].
Qed.
(** C65: the zeros at the end read like records of point 0 on level 0: a point without friends and a point
    whose only friend is point 0 give the same bytes *)
Theorem C65_padding_refuted : exists h ps ls f h' ps' ls' f', zgraph 1 10 2 h ps ls /\ nth_error (fr h) 0 = Some f /\ friends_at h 0 0 = Some [] /\
  zgraph 1 10 2 h' ps' ls' /\ nth_error (fr h') 1 = Some f' /\ (exists d, friends_at h' 1 0 = Some [(0, d)]) /\ flush f 8 = flush f' 8 /\ flush f 8 = Ok (zeros 40).
Proof.
  exists (zstart 10 2 0), [[0]], [], (new_friends 0), (zinsert (zstart 10 2 0) 1 1), [[0]; [1]], [1%nat], (match nth_error (fr (zinsert (zstart 10 2 0) 1 1)) 1 with Some f => f | None => new_friends 0 end).
  split; [apply zstart_graph|]. split; [reflexivity|]. split; [reflexivity|]. split; [apply near_graph|]. split; [vm_compute; reflexivity|]. split; [exists 1; vm_compute; reflexivity|]. split; vm_compute; reflexivity.
Qed.
