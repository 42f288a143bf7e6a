(** C60, C61, C64, C65: the vector index graph. *)
From Coq Require Import Permutation.
From Verif Require Import Base Cells Heap PHeap Hnsw HnswInv.
Local Open Scope Z_scope.

Section Claims.
Variables (F : Type) (fzero : F) (fsub fadd fmul : F -> F -> F) (rank : F -> Z).
(** The only fact about float32 arithmetic that is needed: (a-b)^2 and (b-a)^2 are
    the same number. It holds in IEEE arithmetic, where a-b is -(b-a). *)
Hypothesis sq_sym : forall a b, fmul (fsub a b) (fsub a b) = fmul (fsub b a) (fsub b a).
Notation euclid := (euclid fzero fsub fadd fmul rank).
Notation insert_vector := (insert_vector fzero fsub fadd fmul rank).
Notation knn_search := (knn_search fzero fsub fadd fmul rank).

(** ** Specification *)
(** A graph made by NewHnsw and any number of calls of InsertVector, each of
    which drew some level; [ps] are the points in order. *)
Inductive graph (d : nat) (efc m : Z) : hnsw F -> list (point F) -> list nat -> Prop :=
| g_new p h : new_hnsw d efc m p = Ok h -> graph d efc m h [p] []
| g_insert h ps ls q l id h' : graph d efc m h ps ls -> insert_vector h q l = Ok (id, h') -> graph d efc m h' (ps ++ [q]) (ls ++ [l]).
(** the friends of point a on level l, with the stored distances *)
Definition friends_at (h : hnsw F) (a : nat) (l : nat) : option (list item) :=
  match nth_error (fr h) a with Some f => option_map items (nth_error (levels f) l) | None => None end.

(** ** Proofs *)
Lemma graph_inv d efc m h ps ls : 1 <= efc -> 0 <= m -> graph d efc m h ps ls -> inv fzero fsub fadd fmul rank h /\ points h = ps /\ dim h = d /\ ef h = efc /\ bigM h = m.
Proof.
  intros He Hm. induction 1 as [p h E|h ps ls q l id h' H IH E].
  - destruct (@new_hnsw_inv F fzero fsub fadd fmul rank sq_sym d efc m p h E) as (A & B & C & D & G & _). auto.
  - destruct IH as (HI & Hp & Hd & Hef & HM). destruct (Nat.eq_dec (length q) (dim h)) as [Hq|Hq].
    + destruct (@insert_vector_ok F fzero fsub fadd fmul rank sq_sym h q l HI Hq) as (h2 & E2 & HI2 & P2 & D2 & F2 & M2); [lia|lia|]. assert (h' = h2) by congruence. subst h2. split; auto. split; [rewrite P2, Hp; reflexivity|]. split; [congruence|]. split; congruence.
    + exfalso. unfold Hnsw.insert_vector in E. apply Nat.eqb_neq in Hq. rewrite Hq in E. discriminate.
Qed.

(** ** C61 *)
(** KnnSearch never fails, and returns at most k items; their ids are distinct ids
    of inserted points, with the true distances to q; if k >= 1 there is one. *)
Theorem C61_knn_search d efc m h ps ls q k : graph d efc m h ps ls -> 1 <= efc -> 0 <= m -> length q = d -> 0 <= k ->
  exists nn, knn_search h q k = Ok nn /\ zlen (items nn) <= k /\ NoDup (map fst (items nn)) /\ (1 <= k -> items nn <> []) /\
    forall id dist, In (id, dist) (items nn) -> 0 <= id < zlen ps /\ exists p, nth_error ps (Z.to_nat id) = Some p /\ euclid p q = Ok dist.
Proof.
  intros Hg He Hm Hq Hk. destruct (graph_inv He Hm Hg) as (HI & Hp & Hd & Hef & HM).
  destruct (@knn_ok F fzero fsub fadd fmul rank sq_sym h q k HI) as (nn & E & G & L1 & L2); [congruence|lia|auto|].
  exists nn. split; auto. split; [exact L1|]. split; [apply wf_nodup, G|]. split; [intros H1 X; specialize (L2 H1); unfold hlen in L2; rewrite X in L2; cbn in L2; lia|].
  intros id dist Hin. destruct G as [_ G]. destruct (G _ Hin) as (H0 & f & p & Ef & _ & Ep & Ed). cbn [fst snd] in *. rewrite Hp in Ep. split; eauto.
  assert (Z.to_nat id < length ps)%nat by (apply nth_error_Some; congruence). unfold zlen. lia.
Qed.
(** InsertVector accepts every vector of the right length, at whatever level, gives
    the ids 0, 1, 2, ... in order and keeps all points. *)
Theorem C61_insert_vector d efc m h ps ls q l : graph d efc m h ps ls -> 1 <= efc -> 0 <= m -> length q = d ->
  exists h', insert_vector h q l = Ok (zlen ps, h') /\ points h' = ps ++ [q].
Proof.
  intros Hg He Hm Hq. destruct (graph_inv He Hm Hg) as (HI & Hp & Hd & Hef & HM).
  destruct (@insert_vector_ok F fzero fsub fadd fmul rank sq_sym h q l HI) as (h2 & E2 & HI2 & P2 & _); [congruence|lia|lia|]. exists h2. rewrite <- Hp. auto.
Qed.
(** Friend lists hold distinct known points, with their true distances, that
    themselves exist on that level. *)
Theorem C61_friends_are_points d efc m h ps ls a l its : graph d efc m h ps ls -> 1 <= efc -> 0 <= m -> friends_at h a l = Some its ->
  NoDup (map fst its) /\ forall id dist, In (id, dist) its -> 0 <= id < zlen ps /\ friends_at h (Z.to_nat id) l <> None /\
    exists p pa, nth_error ps (Z.to_nat id) = Some p /\ nth_error ps a = Some pa /\ euclid p pa = Ok dist.
Proof.
  intros Hg He Hm Hf. destruct (graph_inv He Hm Hg) as (HI & Hp & Hd & Hef & HM). unfold friends_at in Hf. destruct (nth_error (fr h) a) as [f|] eqn:Ef; [|discriminate].
  destruct (nth_error (levels f) l) as [hp|] eqn:El; [|discriminate]. injection Hf as <-. pose proof (i_fr HI _ _ Ef El) as [Hok HE]. split; [apply wf_nodup, Hok|].
  intros id dist Hin. destruct (HE _ Hin) as (H0 & g & p & pa & Eg & Hl & Ep & Epa & Ed). cbn [fst snd] in *. rewrite Hp in *.
  assert (Z.to_nat id < length ps)%nat by (apply nth_error_Some; congruence). split; [unfold zlen; lia|]. split; [|eauto 6].
  unfold friends_at. rewrite Eg. destruct (nth_error (levels g) l) eqn:X; [discriminate|]. apply nth_error_None in X. lia.
Qed.

(** ** C60, C64: flat graphs *)
(** all levels drawn were 0 *)
Definition flat_small (h : hnsw F) : Prop := forall a f, nth_error (fr h) a = Some f -> length (levels f) = 1%nat /\
  forall hp, nth_error (levels f) 0 = Some hp -> Z.of_nat (hlen hp) <= bigM h /\ forall x, In x (items hp) -> fst x <> Z.of_nat a.
Definition all_edges (R : nat -> Z -> Prop) (h : hnsw F) : Prop := forall a f L hp x, nth_error (fr h) a = Some f -> nth_error (levels f) L = Some hp -> In x (items hp) -> R a (fst x).
Lemma hinsert_in hp id d x : heap_ok hp -> In x (items (hinsert hp id d)) -> In x (items hp) \/ fst x = id.
Proof.
  intros Hok Hx. destruct (in_dec Z.eq_dec id (map fst (items hp))) as [Hin|Hnin].
  - apply in_map_iff in Hin. destruct Hin as ([i d0] & E & Hin). cbn in E. subst i. destruct (again_contents _ _ d (proj1 Hok) Hin) as [_ P].
    eapply Permutation_in in Hx; [|exact P]. destruct Hx as [<-|Hx]; [right; auto|]. left. apply filter_In in Hx. tauto.
  - destruct (push_ok _ d Hok Hnin) as [_ P]. eapply Permutation_in in Hx; [|exact P]. destruct Hx as [<-|Hx]; [right; auto|auto].
Qed.
Lemma set_edges R h i f f' : all_edges R h -> nth_error (fr h) (Z.to_nat i) = Some f ->
  (forall L hp x, nth_error (levels f') L = Some hp -> In x (items hp) -> R (Z.to_nat i) (fst x)) -> all_edges R (set_friends h i f').
Proof.
  intros HR Ef Hf' a g L hp x Eg El Hx. assert (Hlt : (Z.to_nat i < length (fr h))%nat) by (apply nth_error_Some; congruence).
  destruct (Nat.eq_dec a (Z.to_nat i)) as [->|Hne]; [rewrite set_friends_same in Eg by auto; injection Eg as <-; eauto|]. rewrite set_friends_other in Eg by auto. eapply HR; eauto.
Qed.
Lemma insert_friend_edges R h i f L id d f' : inv fzero fsub fadd fmul rank h -> all_edges R h -> nth_error (fr h) (Z.to_nat i) = Some f -> insert_friend f L id d = Ok f' -> R (Z.to_nat i) id -> all_edges R (set_friends h i f').
Proof.
  intros HI HR Ef E Hr. unfold insert_friend in E. destruct (negb _); [discriminate|]. assert (Ef' : f' = FR (insert_upto (S L) (levels f) id d) (set_v (max_levels f) id (Some L))) by congruence. subst f'.
  eapply set_edges; eauto. cbn [levels]. intros L' hp x El Hx. rewrite nth_upto in El. destruct (L' <? S L)%nat; [|eapply HR; eauto].
  destruct (nth_error (levels f) L') as [hp0|] eqn:E0; [|discriminate]. cbn in El. injection El as <-. apply hinsert_in in Hx; [|apply (i_fr HI _ _ Ef E0)]. destruct Hx as [Hx| ->]; auto. eapply HR; eauto.
Qed.
Lemma link_edges R q qId L : forall ns h fq h', inv fzero fsub fadd fmul rank h -> 0 <= qId -> nth_error (points h) (Z.to_nat qId) = Some q -> nth_error (fr h) (Z.to_nat qId) = Some fq -> (L < length (levels fq))%nat ->
  (forall x, In x ns -> valid fzero fsub fadd fmul rank h q L x) -> link fzero fsub fadd fmul rank h q qId L ns = Ok h' -> all_edges R h ->
  (forall x, In x ns -> R (Z.to_nat (fst x)) qId /\ R (Z.to_nat qId) (fst x)) -> all_edges R h'.
Proof.
  induction ns as [|[n nd] ns IH]; intros h fq h' HI H0 Hq Hfq HL Hns E HR Hr; cbn [link] in E; [assert (h = h') by congruence; subst; auto|].
  assert (Hv : valid fzero fsub fadd fmul rank h q L (n, nd)) by (apply Hns; left; auto). pose proof Hv as (N0 & fn & p & Efn & HLn & Ep & Ed). cbn [fst snd] in *.
  unfold point_of, friends_of in E. rewrite Ep in E. cbn [rbind] in E. rewrite Ed in E. cbn [rbind] in E. rewrite Efn in E. cbn [rbind] in E.
  assert (Lp : length p = length q).
  { pose proof (i_dim HI) as X. rewrite Forall_forall in X. rewrite (X p), (X q); auto; eapply nth_error_In; eauto. }
  destruct (@euclid_ok F fzero fsub fadd fmul rank sq_sym p q Lp) as (d' & Ed1 & Ed2). assert (d' = nd) by congruence. subst d'.
  assert (E1 : edge fzero fsub fadd fmul rank h (Z.to_nat n) L (qId, nd)) by (split; [auto|]; exists fq, q, p; cbn [fst snd]; auto).
  destruct (@insert_friend_ok F fzero fsub fadd fmul rank sq_sym h n fn L (qId, nd) HI Efn HLn E1) as (fn' & Ei1 & HI1 & S1 & _). cbn [fst snd] in Ei1. rewrite Ei1 in E. cbn [rbind] in E. cbv zeta in E.
  destruct (Hr (n, nd) (or_introl eq_refl)) as [Hr1 Hr2]. cbn [fst] in Hr1, Hr2. assert (HR1 : all_edges R (set_friends h n fn')) by (eapply insert_friend_edges; eauto).
  set (h1 := set_friends h n fn') in *. destruct (shape_nth _ S1 Hfq) as (fq1 & Efq1 & Lfq1). rewrite Efq1 in E. cbn [rbind] in E.
  assert (E2 : edge fzero fsub fadd fmul rank h1 (Z.to_nat qId) L (n, nd)).
  { apply (shape_edge sq_sym S1). split; [auto|]. exists fn, p, q. cbn [fst snd]. auto. }
  assert (HLq1 : (L < length (levels fq1))%nat) by lia.
  destruct (@insert_friend_ok F fzero fsub fadd fmul rank sq_sym h1 qId fq1 L (n, nd) HI1 Efq1 HLq1 E2) as (fq' & Ei2 & HI2 & S2 & _). cbn [fst snd] in Ei2. rewrite Ei2 in E. cbn [rbind] in E.
  assert (HR2 : all_edges R (set_friends h1 qId fq')) by (eapply insert_friend_edges; eauto). set (h2 := set_friends h1 qId fq') in *.
  pose proof (shape_trans S1 S2) as S12. destruct (shape_nth _ S12 Hfq) as (fq2 & Efq2 & Lfq2).
  eapply (IH h2 fq2 h'); eauto; [lia| |].
  - intros x Hx. apply (shape_valid sq_sym S12). apply Hns. right; auto.
  - intros x Hx. apply Hr. right; auto.
Qed.
Lemma trim_in m n : forall hp hp' x, heap_ok hp -> trim n m hp = Ok hp' -> In x (items hp') -> In x (items hp).
Proof.
  induction n as [|n IH]; intros hp hp' x Hok E Hx; cbn [trim] in E; [assert (hp = hp') by congruence; subst; auto|]. destruct (m <? Z.of_nat (hlen hp)); [|assert (hp = hp') by congruence; subst; auto].
  pose proof (@pop_max_good (fun _ => True) hp (conj Hok (fun _ _ => I))) as Hp. destruct (pop_max hp) as [[y hp1]|]; [|discriminate]. destruct Hp as (_ & G1 & _ & _ & P1).
  eapply Permutation_in; [apply Permutation_sym; exact P1|]. right. eapply IH; eauto. apply G1.
Qed.
Lemma trim_edges R L : forall ns h h', inv fzero fsub fadd fmul rank h -> 0 <= bigM h -> trim_all h L ns = Ok h' -> all_edges R h -> all_edges R h'.
Proof.
  induction ns as [|[n nd] ns IH]; intros h h' HI HM E HR; cbn [trim_all] in E; [assert (h = h') by congruence; subst; auto|].
  unfold friends_of in E. destruct (nth_error (fr h) (Z.to_nat n)) as [fn|] eqn:Efn; [|discriminate]. cbn [rbind] in E. unfold get_friends, has_level in E. destruct (Nat.ltb_spec L (length (levels fn))) as [Hl|]; [|discriminate]. cbn [negb rbind] in E.
  destruct (nth_error (levels fn) L) as [hp|] eqn:El; [|apply nth_error_None in El; lia]. rewrite (nth_error_nth _ _ _ El) in E. pose proof (i_fr HI _ _ Efn El) as Ghp.
  destruct (@trim_good _ (bigM h) (S (hlen hp)) hp HM ltac:(lia) Ghp) as (hp' & Et & G' & _). rewrite Et in E. cbn [rbind] in E.
  set (f' := FR (lset (levels fn) L hp') (max_levels fn)) in *. assert (EL : length (levels f') = length (levels fn)) by (apply length_lset; auto).
  assert (HI1 : inv fzero fsub fadd fmul rank (set_friends h n f')).
  { eapply set_friends_inv; eauto. intros L' hq Hq. unfold f' in Hq; cbn [levels] in Hq. rewrite nth_lset in Hq by auto. destruct (Nat.eq_dec L' L) as [->|]; [injection Hq as <-; auto|apply (i_fr HI _ _ Efn Hq)]. }
  eapply (IH (set_friends h n f') h'); eauto. eapply set_edges; eauto. intros L' hq x Hq Hx. unfold f' in Hq; cbn [levels] in Hq. rewrite nth_lset in Hq by auto.
  destruct (Nat.eq_dec L' L) as [->|]; [|eapply HR; eauto]. injection Hq as <-. eapply HR; eauto. eapply trim_in; [apply Ghp|exact Et|auto].
Qed.
Lemma flat_insert h q id h' : inv fzero fsub fadd fmul rank h -> 1 <= ef h -> 0 <= bigM h -> flat_small h -> insert_vector h q 0 = Ok (id, h') -> flat_small h'.
Proof.
  intros HI Hef HM Hfl E. assert (Hq : length q = dim h) by (unfold Hnsw.insert_vector in E; destruct (Nat.eqb_spec (length q) (dim h)); [auto|discriminate]).
  unfold Hnsw.insert_vector in E. rewrite (proj2 (Nat.eqb_eq _ _) Hq) in E. cbn [negb] in E. pose proof (i_entry HI) as He. destruct (inv_point sq_sym HI He) as (pe & fe & Epe & Hpe & Efe).
  unfold friends_of at 1 in E. rewrite Efe in E. cbn [rbind] in E. cbv zeta in E. destruct (Hfl _ _ Efe) as [Lfe _]. assert (Tfe : top_level fe = 0%nat) by (unfold top_level; lia). rewrite Tfe in E.
  match type of E with context [find_closer _ _ _ _ _ ?x q 0] => set (h1 := x) in * end.
  assert (HI1 : inv fzero fsub fadd fmul rank h1) by exact (@add_node_inv F fzero fsub fadd fmul rank sq_sym h q 0 HI Hq).
  assert (Efe1 : nth_error (fr h1) (Z.to_nat (entry h1)) = Some fe) by (unfold h1; cbn [fr entry]; rewrite nth_error_app1; auto; apply nth_error_Some; congruence).
  unfold find_closer, friends_of, point_of in E. rewrite Efe1 in E. cbn [rbind] in E.
  assert (Epe1 : nth_error (points h1) (Z.to_nat (entry h1)) = Some pe) by (unfold h1; cbn [points entry]; rewrite nth_error_app1; auto; apply nth_error_Some; congruence).
  rewrite Epe1 in E. cbn [rbind] in E. destruct (@euclid_ok F fzero fsub fadd fmul rank sq_sym pe q) as (dd & Edd & _); [congruence|]. rewrite Edd in E. cbn [rbind] in E.
  rewrite Tfe in E. cbn [closer_loop Nat.sub Nat.add rbind Nat.min insert_levels] in E.
  set (n := zlen (points h)) in *. assert (Nn : Z.to_nat n = length (points h)) by (unfold n, zlen; lia).
  set (K := fun i : Z => 0 <= i < n).
  assert (Hold : forall a, (a < length (fr h))%nat -> nth_error (fr h1) a = nth_error (fr h) a) by (intros a Ha; unfold h1; cbn [fr]; apply nth_error_app1; auto).
  assert (Hkfr : forall a, 0 <= a < n -> (Z.to_nat a < length (fr h))%nat) by (intros a Ha; rewrite (i_len HI); unfold n, zlen in Ha; lia).
  assert (Hcl : closed K h1 0).
  { intros a f hp x Ka Ef El Hx. rewrite Hold in Ef by (apply Hkfr; exact Ka). pose proof (i_fr HI _ _ Ef El) as [_ HE]. destruct (HE _ Hx) as (H0 & g & p & pa & _ & _ & Ep & _).
    assert (Z.to_nat (fst x) < length (points h))%nat by (apply nth_error_Some; congruence). unfold K, n, zlen. lia. }
  assert (Hv : validK fzero fsub fadd fmul rank K h1 q 0 (entry h1, dd)).
  { split; [|exact He]. split; [cbn; apply He|]. exists fe, pe. cbn [fst snd]. rewrite Lfe. auto. }
  destruct (@search_level_K F fzero fsub fadd fmul rank sq_sym K h1 q (entry h1, dd) (ef h1) 0 Hcl HI1 Hq Hef Hv) as (nn & Enn & Gn & Ln). rewrite Enn in E. cbn [rbind] in E.
  destruct (@select_ok F fzero fsub fadd fmul rank sq_sym h1 _ _ HM Gn ltac:(lia)) as (l & nn' & Esel & Pl & Gn' & Ln' & Ll & _). rewrite Esel in E. cbn [rbind fst snd] in E.
  assert (Hqp : nth_error (points h1) (Z.to_nat n) = Some q) by (unfold h1; cbn [points]; rewrite Nn, nth_error_app2, Nat.sub_diag by lia; reflexivity).
  assert (Hqf : nth_error (fr h1) (Z.to_nat n) = Some (new_friends 0)) by (unfold h1; cbn [fr]; rewrite Nn, <- (i_len HI), nth_error_app2, Nat.sub_diag by lia; reflexivity).
  destruct (@link_ok F fzero fsub fadd fmul rank sq_sym q n 0 l h1 (new_friends 0) HI1) as (h2 & E2 & HI2 & S2 & U2 & G2); auto; [unfold n, zlen; lia|intros x Hx; apply (Pl x Hx)|].
  rewrite E2 in E. cbn [rbind] in E. assert (HM2 : bigM h2 = bigM h) by apply S2.
  destruct (@trim_all_ok F fzero fsub fadd fmul rank sq_sym q 0 l h2 HI2) as (h3 & E3 & HI3 & S3 & U3 & B3); [lia|intros x Hx; apply (shape_valid sq_sym S2), (Pl x Hx)|].
  rewrite E3 in E. cbn [rbind] in E. destruct (pop_min nn') as [[y nn2]|]; [|discriminate]. cbn [rbind Nat.ltb Nat.leb] in E. assert (h3 = h') by congruence. subst h3. clear E.
  assert (Hne : forall x, In x l -> fst x <> n) by (intros x Hx; destruct (Pl x Hx) as [_ Kx]; unfold K in Kx; lia).
  assert (Hne' : forall x, In x l -> Z.to_nat n <> Z.to_nat (fst x)) by (intros x Hx; destruct (Pl x Hx) as [_ Kx]; unfold K in Kx; lia).
  assert (HM3 : bigM h' = bigM h) by (destruct S3 as (_ & _ & _ & _ & X & _); congruence).
  pose proof (shape_trans S2 S3) as S23.
  (* own friends *)
  assert (Hpts : points h' = points h1) by apply S23.
  intros a f Ef.
  assert (Hlev : length (levels f) = 1%nat).
  { destruct S23 as (_ & _ & _ & _ & _ & X). assert (Y : nth_error (map (fun f => length (levels f)) (fr h')) a = Some (length (levels f))) by (rewrite nth_error_map, Ef; auto). rewrite X, nth_error_map in Y.
    destruct (nth_error (fr h1) a) as [g|] eqn:Eg; [|discriminate]. cbn in Y. assert (length (levels g) = 1%nat); [|congruence].
    destruct (Nat.lt_ge_cases a (length (fr h))) as [Ha|Ha]; [rewrite Hold in Eg by auto; apply (Hfl _ _ Eg)|]. unfold h1 in Eg; cbn [fr] in Eg. rewrite nth_error_app2 in Eg by auto.
    destruct (a - length (fr h))%nat as [|[|]]; [injection Eg as <-; reflexivity|discriminate|discriminate]. }
  split; auto. intros hp El. rewrite HM3. split.
  - destruct (in_dec Nat.eq_dec a (map (fun y : item => Z.to_nat (fst y)) l)) as [Hi|Hi].
    + apply in_map_iff in Hi. destruct Hi as (x & <- & Hx). rewrite <- HM2. eapply B3; eauto.
    + assert (Hni : forall x, In x l -> a <> Z.to_nat (fst x)) by (intros x Hx ->; apply Hi; apply in_map_iff; eauto).
      rewrite (U3 a Hni) in Ef. destruct (Nat.eq_dec a (Z.to_nat n)) as [->|Na].
      * specialize (G2 Hne _ Ef 0%nat new_heap hp eq_refl El). unfold hlen at 2 in G2. cbn in G2. unfold zlen in Ll. cbn [bigM h1] in Ll. unfold h1 in Ll. cbn [bigM] in Ll. lia.
      * rewrite (U2 a Na Hni) in Ef. destruct (Nat.lt_ge_cases a (length (fr h))) as [Ha|Ha]; [rewrite Hold in Ef by auto; apply (Hfl _ _ Ef); auto|].
        exfalso. assert (a < length (fr h1))%nat by (apply nth_error_Some; congruence). unfold h1 in H; cbn [fr] in H. rewrite app_length in H; cbn in H. rewrite Nn, <- (i_len HI) in Na. lia.
  - assert (R1 : all_edges (fun a b => b <> Z.of_nat a) h1).
    { intros a' f' L' hp' x X1 X2 X3. destruct (Nat.lt_ge_cases a' (length (fr h))) as [Ha|Ha].
      - rewrite Hold in X1 by auto. destruct (Hfl _ _ X1) as [Y1 Y2]. assert (L' = 0%nat) as -> by (assert (L' < length (levels f'))%nat by (apply nth_error_Some; congruence); lia). apply (Y2 _ X2); auto.
      - unfold h1 in X1; cbn [fr] in X1. rewrite nth_error_app2 in X1 by auto. destruct (a' - length (fr h))%nat as [|[|]]; [injection X1 as <-|discriminate|discriminate].
        cbn [new_friends levels] in X2. apply nth_error_In, (repeat_spec 1) in X2. subst hp'. destruct X3. }
    assert (R2 : all_edges (fun a b => b <> Z.of_nat a) h2).
    { eapply (@link_edges _ q n 0 l h1 (new_friends 0) h2); eauto; [unfold n, zlen; lia|intros x Hx; apply (Pl x Hx)|]. intros x Hx. destruct (Pl x Hx) as [_ Kx]. unfold K in Kx. lia. }
    assert (R3 : all_edges (fun a b => b <> Z.of_nat a) h') by (eapply (@trim_edges _ 0 l h2 h'); eauto; rewrite HM2; auto).
    intros x Hx. eapply R3; eauto.
Qed.
Lemma graph_flat d efc m h ps ls : 1 <= efc -> 0 <= m -> graph d efc m h ps ls -> (forall l, In l ls -> l = 0%nat) -> flat_small h.
Proof.
  intros He Hm. induction 1 as [p h E|h ps ls q l id h' H IH E]; intros Hl.
  - unfold new_hnsw in E. destruct ((d =? 0)%nat || negb (length p =? d)%nat); [discriminate|]. injection E as <-. intros [|[|a]] f Ef; cbn in Ef; try discriminate. injection Ef as <-. split; auto.
    intros hp El. cbn in El. injection El as <-. split; [exact Hm|intros x []].
  - assert (l = 0%nat) as -> by (apply Hl, in_or_app; right; left; auto). destruct (graph_inv He Hm H) as (HI & Hp & Hd & Hef & HM). eapply flat_insert; eauto; try lia. apply IH. intros l' Hl'. apply Hl, in_or_app. auto.
Qed.
(** If every level drawn was 0, all friend lists have at most M items. *)
Theorem C60_friends_within_M_partial d efc m h ps ls a l its : graph d efc m h ps ls -> 1 <= efc -> 0 <= m -> (forall l, In l ls -> l = 0%nat) ->
  friends_at h a l = Some its -> zlen its <= m.
Proof.
  intros Hg He Hm Hl Hf. pose proof (graph_flat He Hm Hg Hl) as Hfl. destruct (graph_inv He Hm Hg) as (_ & _ & _ & _ & HM). unfold friends_at in Hf. destruct (nth_error (fr h) a) as [f|] eqn:Ef; [|discriminate].
  destruct (nth_error (levels f) l) as [hp|] eqn:El; [|discriminate]. injection Hf as <-. destruct (Hfl _ _ Ef) as [A B]. assert (l = 0%nat) as -> by (assert (l < length (levels f))%nat by (apply nth_error_Some; congruence); lia).
  destruct (B _ El) as [X _]. rewrite HM in X. exact X.
Qed.
(** If every level drawn was 0, no point is its own friend. *)
Theorem C64_no_self_friend_partial d efc m h ps ls a l its : graph d efc m h ps ls -> 1 <= efc -> 0 <= m -> (forall l, In l ls -> l = 0%nat) ->
  friends_at h a l = Some its -> ~ In (Z.of_nat a) (map fst its).
Proof.
  intros Hg He Hm Hl Hf Hin. pose proof (graph_flat He Hm Hg Hl) as Hfl. unfold friends_at in Hf. destruct (nth_error (fr h) a) as [f|] eqn:Ef; [|discriminate].
  destruct (nth_error (levels f) l) as [hp|] eqn:El; [|discriminate]. injection Hf as <-. destruct (Hfl _ _ Ef) as [A B]. assert (l = 0%nat) as -> by (assert (l < length (levels f))%nat by (apply nth_error_Some; congruence); lia).
  apply in_map_iff in Hin. destruct Hin as (x & E & Hx). destruct (B _ El) as [_ X]. apply (X x Hx). auto.
Qed.
End Claims.

(** ** Witnesses, with integer coordinates *)
Definition zgraph := graph 0 Z.sub Z.add Z.mul (fun x => x).
Lemma z_sq_sym : forall a b, Z.mul (Z.sub a b) (Z.sub a b) = Z.mul (Z.sub b a) (Z.sub b a).
Proof. intros. ring. Qed.
Definition zinsert (h : hnsw Z) (q : Z) (l : nat) : hnsw Z := match insert_vector 0 Z.sub Z.add Z.mul (fun x => x) h [q] l with Ok (_, h) => h | _ => h end.
Definition zstart (efc m p : Z) : hnsw Z := HN 1 0 [[p]] [new_friends 0] efc m.
(** three points on a line, the second and third on levels 0 and 1, with M = 2 *)
Definition two : hnsw Z := zinsert (zstart 10 2 0) 1 1.
Definition three : hnsw Z := zinsert two 2 1.
Lemma zgraph_step d efc m h ps ls q l id : zgraph d efc m h ps ls -> insert_vector 0 Z.sub Z.add Z.mul (fun x => x) h [q] l = Ok (id, zinsert h q l) ->
  zgraph d efc m (zinsert h q l) (ps ++ [[q]]) (ls ++ [l]).
Proof. intros G E. exact (@g_insert _ _ _ _ _ _ _ _ _ _ _ _ _ _ _ _ G E). Qed.
Lemma zgraph_0 efc m p : zgraph 1 efc m (zstart efc m p) [[p]] []. Proof. apply g_new. reflexivity. Qed.
Lemma three_graph : zgraph 1 10 2 three [[0]; [1]; [2]] [1; 1]%nat.
Proof.
  assert (G1 : zgraph 1 10 2 two [[0]; [1]] [1]%nat) by (apply (@zgraph_step 1 10 2 (zstart 10 2 0) [[0]] [] 1 1%nat 1); [apply zgraph_0|vm_compute; reflexivity]).
  apply (@zgraph_step 1 10 2 two [[0]; [1]] [1%nat] 2 1%nat 2); [exact G1|vm_compute; reflexivity].
Qed.
(** four points, the second and fourth on levels 0 and 1, with M = 2 *)
Definition four : hnsw Z := zinsert (zinsert two 2 0) 3 1.
Lemma four_graph : zgraph 1 10 2 four [[0]; [1]; [2]; [3]] [1; 0; 1]%nat.
Proof.
  assert (G1 : zgraph 1 10 2 two [[0]; [1]] [1]%nat) by (apply (@zgraph_step 1 10 2 (zstart 10 2 0) [[0]] [] 1 1%nat 1); [apply zgraph_0|vm_compute; reflexivity]).
  assert (G2 : zgraph 1 10 2 (zinsert two 2 0) [[0]; [1]; [2]] [1; 0]%nat) by (apply (@zgraph_step 1 10 2 two [[0]; [1]] [1%nat] 2 0%nat 2); [exact G1|vm_compute; reflexivity]).
  apply (@zgraph_step 1 10 2 (zinsert two 2 0) [[0]; [1]; [2]] [1; 0]%nat 3 1%nat 3); [exact G2|vm_compute; reflexivity].
Qed.
(** C60 fails: with M = 2 a point has three friends on level 0 *)
Theorem C60_friends_within_M_refuted : exists h ps ls a its, zgraph 1 10 2 h ps ls /\ friends_at h a 0 = Some its /\ zlen its = 3.
Proof. exists four, [[0]; [1]; [2]; [3]], [1; 0; 1]%nat, 1%nat, (match friends_at four 1 0 with Some l => l | None => [] end). split; [exact four_graph|]. split; vm_compute; reflexivity. Qed.
(** C64 fails: point 2 is its own friend on level 0 *)
Theorem C64_no_self_friend_refuted : exists h ps ls its, zgraph 1 10 2 h ps ls /\ friends_at h 2 0 = Some its /\ In 2 (map fst its).
Proof. exists three, [[0]; [1]; [2]], [1; 1]%nat, (match friends_at three 2 0 with Some l => l | None => [] end). split; [exact three_graph|]. split; vm_compute; auto. Qed.
Example C61_example : option_map (fun r => r) (match knn_search 0 Z.sub Z.add Z.mul (fun x => x) three [0] 2 with Ok nn => Some (drain 2 nn) | _ => None end) = Some [(0, 0); (1, 1)].
Proof. vm_compute. reflexivity. Qed.
