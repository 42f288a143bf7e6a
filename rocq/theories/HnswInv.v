(** Invariants of the vector index graph (see Hnsw.v). *)
From Coq Require Import Permutation.
From Verif Require Import Base Cells Heap PHeap Hnsw.
Local Open Scope Z_scope.

(** * Heaps whose items satisfy a predicate that fixes the distance of an id *)
Definition functional (P : item -> Prop) : Prop := forall id d d', P (id, d) -> P (id, d') -> d = d'.
Definition good (P : item -> Prop) (hp : heap) : Prop := heap_ok hp /\ forall x, In x (items hp) -> P x.
Lemma good_new P : good P new_heap.
Proof. split; [apply new_heap_ok|intros x []]. Qed.
Lemma good_weaken (P Q : item -> Prop) hp : (forall x, In x (items hp) -> P x -> Q x) -> good P hp -> good Q hp.
Proof. intros H [A B]. split; auto. Qed.
Lemma hinsert_good P hp id d : functional P -> good P hp -> P (id, d) ->
  good P (hinsert hp id d) /\ In (id, d) (items (hinsert hp id d)) /\
  (hlen (hinsert hp id d) = hlen hp \/ hlen (hinsert hp id d) = S (hlen hp))%nat.
Proof.
  intros Hf [Hok HP] Hx. destruct (in_dec Z.eq_dec id (map fst (items hp))) as [Hin|Hnin].
  - apply in_map_iff in Hin. destruct Hin as ([i d0] & E & Hin). cbn in E. subst i. assert (d0 = d) by (eapply Hf; eauto). subst d0.
    assert (Hok' : heap_ok (hinsert hp id d)) by (eapply again_ordered; eauto). destruct (again_contents _ _ d (proj1 Hok) Hin) as [_ P'].
    assert (Q : Permutation (items hp) ((id, d) :: without id (items hp))).
    { pose proof Hin as Hs. apply in_split in Hs. destruct Hs as (a & b & E). assert (Q : Permutation (items hp) ((id, d) :: a ++ b)) by (rewrite E; apply Permutation_sym, Permutation_middle).
      eapply Permutation_trans; [exact Q|]. constructor. apply Permutation_sym. apply (@without_perm (id, d)); auto. apply wf_nodup, Hok. }
    assert (R : Permutation (items (hinsert hp id d)) (items hp)) by (eapply Permutation_trans; [exact P'|apply Permutation_sym; auto]).
    split; [split; auto; intros x Hxx; apply HP; eapply Permutation_in; eauto|]. split; [eapply Permutation_in; [apply Permutation_sym; exact R|auto]|].
    left. apply (Permutation_length R).
  - destruct (push_ok _ d Hok Hnin) as [A B]. split; [split; auto|].
    + intros x Hxx. eapply Permutation_in in Hxx; [|exact B]. destruct Hxx as [<-|Hxx]; auto.
    + split; [eapply Permutation_in; [apply Permutation_sym; exact B|left; auto]|]. right. apply (Permutation_length B).
Qed.
Lemma pop_min_good P hp : good P hp ->
  match pop_min hp with
  | None => hlen hp = 0%nat
  | Some (x, hp') => P x /\ In x (items hp) /\ good P hp' /\ hlen hp = S (hlen hp') /\ (forall y, In y (items hp) -> snd x <= snd y) /\ Permutation (items hp) (x :: items hp')
  end.
Proof.
  intros [Hok HP]. destruct (Nat.eq_dec (hlen hp) 0) as [E|N].
  - unfold pop_min. rewrite E. reflexivity.
  - destruct (pop_min_ok Hok ltac:(lia)) as (h2 & E & Ok2 & P2). rewrite E.
    assert (Hin : In (hitem hp 0) (items hp)) by (apply in_items; exists 0%nat; split; auto; lia).
    split; [auto|]. split; auto. split; [split; auto; intros x Hx; apply HP; eapply Permutation_in; [apply Permutation_sym; exact P2|right; auto]|].
    split; [apply (Permutation_length P2)|]. split; [|exact P2]. intros y Hy. apply in_items in Hy. destruct Hy as (k & Hk & <-). apply (@ordered_min (hd hp) (hlen hp)); auto. apply Hok.
Qed.
Lemma pop_max_good P hp : good P hp ->
  match pop_max hp with
  | None => hlen hp = 0%nat
  | Some (x, hp') => P x /\ good P hp' /\ hlen hp = S (hlen hp') /\ (forall y, In y (items hp') -> snd y <= snd x) /\ Permutation (items hp) (x :: items hp')
  end.
Proof.
  intros [Hok HP]. destruct (Nat.eq_dec (hlen hp) 0) as [E|N].
  - unfold pop_max. rewrite E. reflexivity.
  - destruct (pop_max_ok Hok ltac:(lia)) as (h2 & E & Ok2 & P2). rewrite E.
    assert (Hin : In (hitem hp (max_pos hp)) (items hp)) by (eapply Permutation_in; [apply Permutation_sym; exact P2|left; auto]).
    split; [auto|]. split; [split; auto; intros x Hx; apply HP; eapply Permutation_in; [apply Permutation_sym; exact P2|right; auto]|].
    split; [apply (Permutation_length P2)|]. split; [|exact P2]. intros y Hy.
    assert (Hy' : In y (items hp)) by (eapply Permutation_in; [apply Permutation_sym; exact P2|right; auto]). apply in_items in Hy'. destruct Hy' as (k & Hk & <-). apply max_pos_ok; auto. apply Hok.
Qed.
Lemma peek_max_some hp : (0 < hlen hp)%nat -> exists x, peek_max hp = Some x.
Proof. intros H. unfold peek_max. destruct (Nat.eqb_spec (hlen hp) 0); [lia|eauto]. Qed.
Lemma peek_min_good P hp : good P hp -> (0 < hlen hp)%nat -> exists x, peek_min hp = Some x /\ P x.
Proof. intros [_ HP] H. unfold peek_min. destruct (Nat.eqb_spec (hlen hp) 0); [lia|]. eexists; split; eauto. apply HP. apply in_items. exists 0%nat. auto. Qed.
Lemma trim_good P m n : forall hp, 0 <= m -> (hlen hp <= n)%nat -> good P hp ->
  exists hp', trim n m hp = Ok hp' /\ good P hp' /\ (Z.of_nat (hlen hp') <= m) /\ (hlen hp' <= hlen hp)%nat /\
    (exists out, Permutation (items hp) (out ++ items hp') /\ forall x y, In x (items hp') -> In y out -> snd x <= snd y) /\ (Z.of_nat (hlen hp) <= m -> hp' = hp) /\ (m <= Z.of_nat (hlen hp) -> Z.of_nat (hlen hp') = m).
Proof.
  induction n as [|n IH]; intros hp Hm Hn Hg; cbn [trim].
  - exists hp. split; auto. split; auto. split; [lia|]. split; auto. split; [|split; [auto|lia]]. exists []. split; auto. intros x y _ [].
  - destruct (Z.ltb_spec m (Z.of_nat (hlen hp))).
    + pose proof (pop_max_good Hg) as Hp. destruct (pop_max hp) as [[x hp1]|]; [|lia]. destruct Hp as (_ & G1 & L1 & Hmax & P1).
      destruct (IH hp1 Hm ltac:(lia) G1) as (hp2 & E & G2 & L2 & L3 & (out & P2 & Hout) & _ & Hm2). exists hp2. split; auto. split; auto. split; auto. split; [lia|]. split; [|split; lia].
      exists (x :: out). split; [eapply Permutation_trans; [exact P1|]; constructor; auto|]. intros a b Ha [<-|Hb]; auto. apply Hmax. eapply Permutation_in; [apply Permutation_sym; exact P2|]. apply in_or_app; auto.
    + exists hp. split; auto. split; auto. split; [lia|]. split; auto. split; [|split; [auto|lia]]. exists []. split; auto. intros x y _ [].
Qed.

Section Inv.
Variables (F : Type) (fzero : F) (fsub fadd fmul : F -> F -> F) (rank : F -> Z).
Hypothesis sq_sym : forall a b, fmul (fsub a b) (fsub a b) = fmul (fsub b a) (fsub b a).
Notation euclid := (euclid fzero fsub fadd fmul rank).
Notation hnsw := (hnsw F).
Notation point := (point F).

Lemma euclid_sum_ok : forall p q s, length p = length q -> exists d, euclid_sum fsub fadd fmul s p q = Ok d /\ euclid_sum fsub fadd fmul s q p = Ok d.
Proof.
  induction p as [|a p IH]; intros [|b q] s H; try discriminate; cbn [euclid_sum]; [eauto|]. rewrite (sq_sym b a). apply IH. cbn in H. lia.
Qed.
Lemma euclid_ok (p q : point) : length p = length q -> exists d, euclid p q = Ok d /\ euclid q p = Ok d.
Proof. intros H. destruct (euclid_sum_ok p q fzero H) as (d & A & B). unfold Hnsw.euclid. rewrite A, B. cbn. eauto. Qed.

(** (b, d) may be a friend of a on level L: b has that level and d is the distance *)
Definition edge (h : hnsw) (a : nat) (L : nat) (x : item) : Prop :=
  0 <= fst x /\ exists f p pa, nth_error (fr h) (Z.to_nat (fst x)) = Some f /\ (L < length (levels f))%nat /\
    nth_error (points h) (Z.to_nat (fst x)) = Some p /\ nth_error (points h) a = Some pa /\ euclid p pa = Ok (snd x).
(** (b, d) may be a search result for q on level L *)
Definition valid (h : hnsw) (q : point) (L : nat) (x : item) : Prop :=
  0 <= fst x /\ exists f p, nth_error (fr h) (Z.to_nat (fst x)) = Some f /\ (L < length (levels f))%nat /\
    nth_error (points h) (Z.to_nat (fst x)) = Some p /\ euclid p q = Ok (snd x).
Lemma valid_fun h q L : functional (valid h q L).
Proof. intros id d d' (_ & f & p & _ & _ & P & E) (_ & f' & p' & _ & _ & P' & E'). cbn [fst snd] in *. congruence. Qed.
Lemma edge_fun h a L : functional (edge h a L).
Proof. intros id d d' (_ & f & p & pa & _ & _ & P & A & E) (_ & f' & p' & pa' & _ & _ & P' & A' & E'). cbn [fst snd] in *. congruence. Qed.
Lemma valid_le h q L L' x : (L' <= L)%nat -> valid h q L x -> valid h q L' x.
Proof. intros H (A & f & p & B & C & D). split; auto. exists f, p. split; auto. split; auto. lia. Qed.
Lemma edge_le h a L L' x : (L' <= L)%nat -> edge h a L x -> edge h a L' x.
Proof. intros H (A & f & p & pa & B & C & D). split; auto. exists f, p, pa. split; auto. split; auto. lia. Qed.
Record inv (h : hnsw) : Prop := {
  i_len : length (fr h) = length (points h);
  i_entry : 0 <= entry h < zlen (points h);
  i_dim : Forall (fun p => length p = dim h) (points h);
  i_lev : forall a f, nth_error (fr h) a = Some f -> levels f <> [];
  i_fr : forall a f L hp, nth_error (fr h) a = Some f -> nth_error (levels f) L = Some hp -> good (edge h a L) hp }.
Lemma inv_point h i : inv h -> 0 <= i < zlen (points h) -> exists p f, nth_error (points h) (Z.to_nat i) = Some p /\ length p = dim h /\ nth_error (fr h) (Z.to_nat i) = Some f.
Proof.
  intros H Hi. unfold zlen in Hi. destruct (nth_error (points h) (Z.to_nat i)) as [p|] eqn:Ep; [|apply nth_error_None in Ep; lia].
  destruct (nth_error (fr h) (Z.to_nat i)) as [f|] eqn:Ef; [|apply nth_error_None in Ef; rewrite (i_len H) in Ef; lia].
  exists p, f. split; auto. split; auto. pose proof (i_dim H) as D. rewrite Forall_forall in D. apply D. eapply nth_error_In; eauto.
Qed.

(** * searchLevel *)
Definition unseen (l : list bool) : nat := length (filter negb l).
Lemma unseen_lset l k : nth_error l k = Some false -> (unseen l = S (unseen (lset l k true)) /\ length (lset l k true) = length l)%nat.
Proof.
  intros H. assert (Hk : (k < length l)%nat) by (apply nth_error_Some; congruence). split; [|apply length_lset; auto].
  unfold unseen. rewrite (lset_split _ _ H) at 1. unfold lset. rewrite !filter_app, !app_length. cbn [filter negb length]. lia.
Qed.
(** K: a set of ids the search cannot leave *)
Definition closed (K : Z -> Prop) (h : hnsw) (L : nat) : Prop := forall a f hp x, K a -> nth_error (fr h) (Z.to_nat a) = Some f -> nth_error (levels f) L = Some hp -> In x (items hp) -> K (fst x).
Definition validK (K : Z -> Prop) (h : hnsw) (q : point) (L : nat) (x : item) : Prop := valid h q L x /\ K (fst x).
Lemma validK_fun K h q L : functional (validK K h q L).
Proof. intros id d d' [A _] [B _]. eapply valid_fun; eauto. Qed.
Record search_ok (K : Z -> Prop) (h : hnsw) (q : point) (num : Z) (L : nat) (s : search) : Prop := {
  so_seen : length (seen s) = (length (fr h) + 1)%nat;
  so_cand : good (validK K h q L) (cand s);
  so_found : good (validK K h q L) (found s);
  so_len : 1 <= Z.of_nat (hlen (found s)) <= num }.
Lemma search_friends_ok K h q num L : inv h -> length q = dim h -> forall its s,
  search_ok K h q num L s -> (forall x, In x its -> exists d, validK K h q L (fst x, d)) ->
  exists s', search_friends fzero fsub fadd fmul rank h q num its s = Ok s' /\ search_ok K h q num L s' /\
    (unseen (seen s') + hlen (cand s') <= unseen (seen s) + hlen (cand s))%nat.
Proof.
  intros HI Hq. induction its as [|[fid fd] its IH]; intros s Hs Hits; cbn [search_friends]; [eauto|].
  assert (Hits' : forall x, In x its -> exists d, validK K h q L (fst x, d)) by (intros; apply Hits; right; auto).
  destruct (Hits (fid, fd)) as (d & Hv); [left; auto|]. cbn [fst] in Hv. pose proof Hv as [(H0 & f & p & Ef & HL & Ep & Ed) HK]. cbn [fst snd] in *.
  assert (Hlt : (Z.to_nat fid < length (seen s))%nat) by (rewrite (so_seen Hs); assert (Z.to_nat fid < length (fr h))%nat by (apply nth_error_Some; congruence); lia).
  destruct (nth_error (seen s) (Z.to_nat fid)) as [[|]|] eqn:Es; [apply IH; auto| |apply nth_error_None in Es; lia].
  destruct (unseen_lset _ _ Es) as [U1 U2]. pose proof (so_len Hs) as Hlen. destruct (@peek_max_some (found s)) as (fm & Em); [lia|]. rewrite Em.
  unfold point_of. rewrite Ep. cbn [rbind]. rewrite Ed. cbn [rbind].
  destruct ((d <? snd fm) || (Z.of_nat (hlen (found s)) <? num)).
  2:{ destruct (IH (SR (lset (seen s) (Z.to_nat fid) true) (cand s) (found s))) as (s' & E & Hs' & Hle).
    - destruct Hs; constructor; cbn [seen cand found]; auto. congruence.
    - auto.
    - exists s'. split; auto. split; auto. cbn [seen cand] in Hle. lia. }
  destruct (@hinsert_good _ _ _ _ (@validK_fun K h q L) (so_cand Hs) Hv) as (C1 & _ & C2). destruct (@hinsert_good _ _ _ _ (@validK_fun K h q L) (so_found Hs) Hv) as (D1 & _ & D2).
  destruct (Z.ltb_spec num (Z.of_nat (hlen (hinsert (found s) fid d)))) as [Hgt|Hgt].
  - pose proof (pop_max_good D1) as Hp. destruct (pop_max (hinsert (found s) fid d)) as [[y fo]|]; [|lia]. destruct Hp as (_ & G & GL & _).
    destruct (IH (SR (lset (seen s) (Z.to_nat fid) true) (hinsert (cand s) fid d) fo)) as (s' & E & Hs' & Hle); auto.
    + destruct Hs; constructor; cbn [seen cand found]; auto; [congruence|lia].
    + exists s'. split; auto. split; auto. cbn [seen cand] in Hle. lia.
  - destruct (IH (SR (lset (seen s) (Z.to_nat fid) true) (hinsert (cand s) fid d) (hinsert (found s) fid d))) as (s' & E & Hs' & Hle); auto.
    + destruct Hs; constructor; cbn [seen cand found]; auto; [congruence|lia].
    + exists s'. split; auto. split; auto. cbn [seen cand] in Hle. lia.
Qed.
Lemma edge_valid h q a L x : inv h -> length q = dim h -> edge h a L x -> exists d, valid h q L (fst x, d).
Proof.
  intros HI Hq (A & f & p & pa & B & C & D & E & G). assert (Hp : length p = dim h) by (pose proof (i_dim HI) as X; rewrite Forall_forall in X; apply X; eapply nth_error_In; eauto).
  destruct (@euclid_ok p q) as (d & Ed & _); [congruence|]. exists d. split; auto. exists f, p. cbn [fst snd]. auto.
Qed.
Lemma search_loop_ok K h q num L : closed K h L -> inv h -> length q = dim h -> forall fuel s, search_ok K h q num L s -> (unseen (seen s) + hlen (cand s) < fuel)%nat ->
  exists nn, search_loop fzero fsub fadd fmul rank fuel h q num L s = Ok nn /\ good (validK K h q L) nn /\ 1 <= Z.of_nat (hlen nn) <= num.
Proof.
  intros Hcl HI Hq. induction fuel as [|fuel IH]; intros s Hs Hf; [lia|]. cbn [search_loop].
  pose proof (pop_min_good (so_cand Hs)) as Hp. destruct (pop_min (cand s)) as [[x c']|]; [|exists (found s); split; auto; split; [apply (so_found Hs)|apply (so_len Hs)]].
  destruct Hp as (Hx & _ & Gc & Lc & _). pose proof (so_len Hs) as Hlen. destruct (@peek_max_some (found s)) as (fm & Em); [lia|]. rewrite Em.
  destruct (snd fm <? snd x); [exists (found s); split; auto; split; [apply (so_found Hs)|auto]|].
  destruct Hx as [(H0 & f & p & Ef & HL & Ep & Ed) HK]. unfold friends_of. rewrite Ef. cbn [rbind]. unfold get_friends, has_level. destruct (Nat.ltb_spec L (length (levels f))); [|lia]. cbn [negb rbind].
  destruct (nth_error (levels f) L) as [hp|] eqn:El; [|apply nth_error_None in El; lia]. rewrite (nth_error_nth _ _ _ El).
  pose proof (i_fr HI _ _ Ef El) as Ghp.
  destruct (@search_friends_ok K h q num L HI Hq (items hp) (SR (seen s) c' (found s))) as (s' & E & Hs' & Hle).
  - destruct Hs; constructor; auto.
  - intros y Hy. destruct (@edge_valid h q (Z.to_nat (fst x)) L y HI Hq) as (d & Hd); [apply Ghp; auto|]. exists d. split; auto. cbn [fst]. eapply Hcl; eauto.
  - rewrite E. cbn [rbind]. apply IH; auto. cbn [seen cand] in Hle. lia.
Qed.
Lemma search_level_K K h q e num L : closed K h L -> inv h -> length q = dim h -> 1 <= num -> validK K h q L e ->
  exists nn, search_level fzero fsub fadd fmul rank h q e num L = Ok nn /\ good (validK K h q L) nn /\ 1 <= Z.of_nat (hlen nn) <= num.
Proof.
  intros Hcl HI Hq Hn He. unfold search_level.
  assert (G : good (validK K h q L) (hinsert new_heap (fst e) (snd e)) /\ hlen (hinsert new_heap (fst e) (snd e)) = 1%nat).
  { destruct e as [i d]. destruct (@hinsert_good _ _ _ _ (@validK_fun K h q L) (good_new _) He) as (A & B & C). split; auto. }
  destruct G as [G GL]. apply (@search_loop_ok K); auto.
  - constructor; cbn [seen cand found]; auto; [apply repeat_length|lia].
  - cbn [seen cand]. rewrite GL. unfold unseen. assert (X : forall n, length (filter negb (repeat false n)) = n) by (induction n as [|n IHn]; cbn; auto).
    rewrite X, (i_len HI). lia.
Qed.

Lemma search_level_ok h q e num L : inv h -> length q = dim h -> 1 <= num -> valid h q L e ->
  exists nn, search_level fzero fsub fadd fmul rank h q e num L = Ok nn /\ good (valid h q L) nn /\ 1 <= Z.of_nat (hlen nn) <= num.
Proof.
  intros HI Hq Hn He. destruct (@search_level_K (fun _ => True) h q e num L) as (nn & E & G & HL); auto; [intros a f hp x; auto|split; auto|].
  exists nn. split; auto. split; auto. eapply good_weaken; [|exact G]. intros x _ [X _]; auto.
Qed.

(** * The descent *)
Lemma closer_loop_ok h q : inv h -> length q = dim h -> forall k ep L, (k <= L)%nat -> valid h q L ep ->
  exists ep', closer_loop fzero fsub fadd fmul rank k h q ep L = Ok ep' /\ valid h q (L - k) ep'.
Proof.
  intros HI Hq. induction k as [|k IH]; intros ep L Hk Hv; cbn [closer_loop]; [exists ep; split; auto; rewrite Nat.sub_0_r; auto|].
  destruct (@search_level_ok h q ep 1 L) as (nn & E & G & HL); auto; [lia|]. rewrite E. cbn [as_panic rbind].
  destruct (Nat.eqb_spec (hlen nn) 0); [lia|]. pose proof (pop_min_good G) as Hp. destruct (pop_min nn) as [[x c']|]; [|lia]. destruct Hp as (Hx & _).
  destruct (IH x (L - 1)%nat) as (ep' & E' & V'); [lia|eapply valid_le; [|exact Hx]; lia|]. exists ep'. split; auto. replace (L - S k)%nat with (L - 1 - k)%nat by lia. auto.
Qed.
Lemma find_closer_ok h q qTop f : inv h -> length q = dim h -> nth_error (fr h) (Z.to_nat (entry h)) = Some f ->
  exists ep, find_closer fzero fsub fadd fmul rank h q qTop = Ok ep /\ valid h q (Nat.min (top_level f) qTop) ep.
Proof.
  intros HI Hq Ef. unfold find_closer, friends_of, point_of. rewrite Ef. cbn [rbind]. pose proof (i_entry HI) as He. destruct (inv_point HI He) as (p & f' & Ep & Hp & Ef'). assert (f' = f) by congruence. subst f'.
  rewrite Ep. cbn [rbind]. destruct (@euclid_ok p q) as (d & Ed & _); [congruence|]. rewrite Ed. cbn [rbind].
  assert (Hlev : (0 < length (levels f))%nat) by (pose proof (i_lev HI _ Ef); destruct (levels f); [congruence|cbn; lia]).
  assert (Hv : valid h q (top_level f) (entry h, d)) by (split; [cbn; lia|]; exists f, p; cbn [fst snd]; unfold top_level; repeat split; auto; lia).
  destruct (@closer_loop_ok h q HI Hq (top_level f - (qTop + 1)) (entry h, d) (top_level f)) as (ep & E & V); [lia|auto|]. exists ep. split; auto. eapply valid_le; [|exact V]. lia.
Qed.

(** * Linking *)
Definition same_shape (h h' : hnsw) : Prop := dim h' = dim h /\ entry h' = entry h /\ points h' = points h /\ ef h' = ef h /\ bigM h' = bigM h /\
  map (fun f => length (levels f)) (fr h') = map (fun f => length (levels f)) (fr h).
Lemma shape_refl h : same_shape h h. Proof. repeat split. Qed.
Lemma shape_trans a b c : same_shape a b -> same_shape b c -> same_shape a c.
Proof. intros (A1 & A2 & A3 & A4 & A5 & A6) (B1 & B2 & B3 & B4 & B5 & B6). repeat split; congruence. Qed.
Lemma shape_nth h h' i f : same_shape h h' -> nth_error (fr h) i = Some f -> exists f', nth_error (fr h') i = Some f' /\ length (levels f') = length (levels f).
Proof.
  intros (_ & _ & _ & _ & _ & E) H. assert (X : nth_error (map (fun f => length (levels f)) (fr h)) i = Some (length (levels f))) by (apply map_nth_error with (f := fun f => length (levels f)); auto).
  rewrite <- E, nth_error_map in X. destruct (nth_error (fr h') i) as [f'|]; [|discriminate]. injection X as X. eauto.
Qed.
Lemma shape_valid h h' q L x : same_shape h h' -> valid h q L x -> valid h' q L x.
Proof.
  intros S (A & f & p & B & C & D & E). destruct (shape_nth _ S B) as (f' & B' & L'). destruct S as (_ & _ & S3 & _). split; auto. exists f', p. rewrite S3. repeat split; auto. lia.
Qed.
Lemma shape_edge h h' a L x : same_shape h h' -> edge h a L x -> edge h' a L x.
Proof.
  intros S (A & f & p & pa & B & C & D & E & G). destruct (shape_nth _ S B) as (f' & B' & L'). destruct S as (_ & _ & S3 & _). split; auto. exists f', p, pa. rewrite S3. repeat split; auto. lia.
Qed.
Lemma set_friends_shape h i f f' : nth_error (fr h) (Z.to_nat i) = Some f -> length (levels f') = length (levels f) -> same_shape h (set_friends h i f').
Proof.
  intros Ef EL. assert (Hlt : (Z.to_nat i < length (fr h))%nat) by (apply nth_error_Some; congruence). repeat split. unfold set_friends. cbn [fr].
  rewrite (lset_split _ _ Ef) at 2. unfold lset. rewrite !map_app. cbn [map]. rewrite EL. reflexivity.
Qed.
Lemma set_friends_inv h i f f' : inv h -> nth_error (fr h) (Z.to_nat i) = Some f -> length (levels f') = length (levels f) ->
  (forall L hp, nth_error (levels f') L = Some hp -> good (edge h (Z.to_nat i) L) hp) -> inv (set_friends h i f').
Proof.
  intros HI Ef EL Hf'. pose proof (@set_friends_shape _ _ _ _ Ef EL) as Hs. assert (Hlt : (Z.to_nat i < length (fr h))%nat) by (apply nth_error_Some; congruence).
  destruct HI as [I1 I2 I3 I4 I5]. constructor.
  - unfold set_friends; cbn [fr points]. rewrite length_lset; auto.
  - exact I2.
  - exact I3.
  - intros a g Hg. unfold set_friends in Hg; cbn [fr] in Hg. rewrite nth_lset in Hg by auto. destruct (Nat.eq_dec a (Z.to_nat i)) as [->|]; [|eapply I4; eauto]. injection Hg as <-.
    specialize (I4 _ _ Ef). destruct (levels f'), (levels f); cbn in EL; congruence.
  - intros a g L hp Hg Hl. unfold set_friends in Hg; cbn [fr] in Hg. rewrite nth_lset in Hg by auto. apply (@good_weaken (edge h a L)); [intros x _; apply shape_edge; auto|].
    destruct (Nat.eq_dec a (Z.to_nat i)) as [->|]; [|eapply I5; eauto]. injection Hg as <-. auto.
Qed.
Lemma nth_upto n : forall l id d L, nth_error (insert_upto n l id d) L = if (L <? n)%nat then option_map (fun hp => hinsert hp id d) (nth_error l L) else nth_error l L.
Proof.
  induction n as [|n IH]; intros [|a l] id d [|L]; cbn [insert_upto nth_error option_map]; try reflexivity.
  - destruct (Nat.ltb (S L) (S n)); reflexivity.
  - rewrite IH. reflexivity.
Qed.
Lemma length_upto n : forall l id d, length (insert_upto n l id d) = length l.
Proof. induction n as [|n IH]; intros [|a l] id d; cbn; auto. Qed.
Lemma insert_friend_ok h i f L x : inv h -> nth_error (fr h) (Z.to_nat i) = Some f -> (L < length (levels f))%nat -> edge h (Z.to_nat i) L x ->
  exists f', insert_friend f L (fst x) (snd x) = Ok f' /\ inv (set_friends h i f') /\ same_shape h (set_friends h i f') /\
    levels f' = insert_upto (S L) (levels f) (fst x) (snd x) /\ max_levels f' = set_v (max_levels f) (fst x) (Some L).
Proof.
  intros HI Ef HL Hx. unfold insert_friend, has_level. destruct (Nat.ltb_spec L (length (levels f))); [|lia]. cbn [negb]. eexists. split; [reflexivity|]. cbn [levels max_levels].
  split; [|split; [eapply set_friends_shape; eauto; apply length_upto|auto]].
  eapply set_friends_inv; eauto; [apply length_upto|]. cbn [levels]. intros L' hp Hn. rewrite nth_upto in Hn. destruct (Nat.ltb_spec L' (S L)).
  - destruct (nth_error (levels f) L') as [hp0|] eqn:E0; [|discriminate]. injection Hn as <-. destruct x as [id d]. cbn [fst snd].
    apply hinsert_good; [apply edge_fun|apply (i_fr HI _ _ Ef E0)|eapply edge_le; [|exact Hx]; lia].
  - apply (i_fr HI _ _ Ef Hn).
Qed.
Lemma set_friends_same (h : hnsw) i f' : (Z.to_nat i < length (fr h))%nat -> nth_error (fr (set_friends h i f')) (Z.to_nat i) = Some f'.
Proof. intros H. unfold set_friends. cbn [fr]. rewrite nth_lset by auto. destruct (Nat.eq_dec _ _); congruence. Qed.
Lemma set_friends_other (h : hnsw) i f' a : (Z.to_nat i < length (fr h))%nat -> a <> Z.to_nat i -> nth_error (fr (set_friends h i f')) a = nth_error (fr h) a.
Proof. intros H Hne. unfold set_friends. cbn [fr]. rewrite nth_lset by auto. destruct (Nat.eq_dec _ _); congruence. Qed.
Lemma insert_friend_len h i f L x f' : inv h -> nth_error (fr h) (Z.to_nat i) = Some f -> (L < length (levels f))%nat -> edge h (Z.to_nat i) L x ->
  insert_friend f L (fst x) (snd x) = Ok f' -> forall L' hp hp', nth_error (levels f) L' = Some hp -> nth_error (levels f') L' = Some hp' -> (hlen hp' <= S (hlen hp))%nat.
Proof.
  intros HI Ef HL Hx E L' hp hp' E1 E2. unfold insert_friend, has_level in E. destruct (Nat.ltb_spec L (length (levels f))); [|lia]. cbn [negb] in E. assert (Ef' : f' = FR (insert_upto (S L) (levels f) (fst x) (snd x)) (set_v (max_levels f) (fst x) (Some L))) by congruence. subst f'. cbn [levels] in E2.
  rewrite nth_upto in E2. destruct (Nat.ltb_spec L' (S L)); rewrite E1 in E2; injection E2 as <-; [|lia].
  destruct x as [id d]. cbn [fst snd]. destruct (@hinsert_good _ hp id d (@edge_fun h (Z.to_nat i) L') (i_fr HI _ _ Ef E1)) as (_ & _ & X); [eapply edge_le; [|exact Hx]; lia|lia].
Qed.
Definition untouched (h h' : hnsw) (a : nat) : Prop := nth_error (fr h') a = nth_error (fr h) a.
Definition grown (k : nat) (f f' : friends) : Prop := forall L hp hp', nth_error (levels f) L = Some hp -> nth_error (levels f') L = Some hp' -> (hlen hp' <= k + hlen hp)%nat.
Lemma link_ok q qId L : forall ns h fq, inv h -> 0 <= qId -> nth_error (points h) (Z.to_nat qId) = Some q -> nth_error (fr h) (Z.to_nat qId) = Some fq -> (L < length (levels fq))%nat ->
  (forall x, In x ns -> valid h q L x) ->
  exists h', link fzero fsub fadd fmul rank h q qId L ns = Ok h' /\ inv h' /\ same_shape h h' /\
    (forall a, a <> Z.to_nat qId -> (forall x, In x ns -> a <> Z.to_nat (fst x)) -> untouched h h' a) /\
    ((forall x, In x ns -> fst x <> qId) -> forall fq', nth_error (fr h') (Z.to_nat qId) = Some fq' -> grown (length ns) fq fq').
Proof.
  induction ns as [|[n nd] ns IH]; intros h fq HI H0 Hq Hfq HL Hns; cbn [link].
  { exists h; split; auto; split; auto; split; [apply shape_refl|]. split; [intros; reflexivity|]. intros _ fq' E. assert (fq' = fq) by congruence. subst. intros L' hp hp' E1 E2. cbn. assert (hp' = hp) by congruence. subst; lia. }
  assert (Hv : valid h q L (n, nd)) by (apply Hns; left; auto). pose proof Hv as (N0 & fn & p & Efn & HLn & Ep & Ed). cbn [fst snd] in *.
  unfold point_of, friends_of. rewrite Ep. cbn [rbind]. rewrite Ed. cbn [rbind]. rewrite Efn. cbn [rbind].
  assert (Lp : length p = length q).
  { pose proof (i_dim HI) as X. rewrite Forall_forall in X. rewrite (X p), (X q); auto; eapply nth_error_In; eauto. }
  destruct (@euclid_ok p q Lp) as (d' & Ed1 & Ed2). assert (d' = nd) by congruence. subst d'.
  assert (E1 : edge h (Z.to_nat n) L (qId, nd)) by (split; [auto|]; exists fq, q, p; cbn [fst snd]; auto).
  destruct (insert_friend_ok _ HI Efn HLn E1) as (fn' & Ei1 & HI1 & S1 & _). cbn [fst snd] in Ei1. rewrite Ei1. cbn [rbind].
  set (h1 := set_friends h n fn') in *. destruct (shape_nth _ S1 Hfq) as (fq1 & Efq1 & Lfq1). rewrite Efq1. cbn [rbind].
  assert (E2 : edge h1 (Z.to_nat qId) L (n, nd)).
  { apply (shape_edge S1). split; [auto|]. exists fn, p, q. cbn [fst snd]. auto. }
  assert (HLq1 : (L < length (levels fq1))%nat) by lia.
  destruct (insert_friend_ok _ HI1 Efq1 HLq1 E2) as (fq' & Ei2 & HI2 & S2 & _). pose proof (insert_friend_len _ HI1 Efq1 HLq1 E2 Ei2) as Hgr. cbn [fst snd] in Ei2. rewrite Ei2. cbn [rbind]. set (h2 := set_friends h1 qId fq') in *.
  pose proof (shape_trans S1 S2) as S12. destruct (shape_nth _ S12 Hfq) as (fq2 & Efq2 & Lfq2).
  assert (Hn : (Z.to_nat n < length (fr h))%nat) by (apply nth_error_Some; congruence).
  assert (Hqn : (Z.to_nat qId < length (fr h1))%nat) by (apply nth_error_Some; congruence).
  destruct (IH h2 fq2) as (h' & E & HI' & S' & U' & G'); auto; [lia| |].
  - intros x Hx. apply (shape_valid S12). apply Hns. right; auto.
  - exists h'. split; auto. split; auto. split; [eapply shape_trans; eauto|]. split.
    + intros a A1 A2. unfold untouched in *. rewrite U'; auto; [|intros x Hx; apply A2; right; auto]. unfold h2. rewrite set_friends_other by auto. unfold h1. apply set_friends_other; auto. apply (A2 (n, nd)). left; auto.
    + intros Hne fqe Eqe. assert (Nn : n <> qId) by (apply (Hne (n, nd)); left; auto).
      assert (Hx1 : fq1 = fq) by (unfold h1 in Efq1; rewrite set_friends_other in Efq1 by (auto; lia); congruence). subst fq1.
      assert (Hx2 : fq2 = fq') by (unfold h2 in Efq2; rewrite set_friends_same in Efq2 by auto; congruence). subst fq2.
      assert (Gr : grown (length ns) fq' fqe) by (apply G'; auto; intros x Hx; apply Hne; right; auto).
      intros L' hp hp' X1 X2. destruct (nth_error (levels fq') L') as [hpm|] eqn:Xm.
      * specialize (Hgr _ _ _ X1 Xm). specialize (Gr _ _ _ Xm X2). cbn [length]. lia.
      * exfalso. apply nth_error_None in Xm. assert (L' < length (levels fq))%nat by (apply nth_error_Some; congruence). lia.
Qed.
Lemma trim_all_ok q L : forall ns h, inv h -> 0 <= bigM h -> (forall x, In x ns -> valid h q L x) -> exists h', trim_all h L ns = Ok h' /\ inv h' /\ same_shape h h' /\
  (forall a, (forall x, In x ns -> a <> Z.to_nat (fst x)) -> untouched h h' a) /\
  (forall a f hp, nth_error (fr h') a = Some f -> nth_error (levels f) L = Some hp -> (exists x, In x ns /\ a = Z.to_nat (fst x)) -> Z.of_nat (hlen hp) <= bigM h).
Proof.
  induction ns as [|[n nd] ns IH]; intros h HI HM Hns; cbn [trim_all].
  { exists h; split; auto; split; auto; split; [apply shape_refl|]. split; [intros; reflexivity|]. intros a f hp _ _ (x & [] & _). }
  assert (Hv : valid h q L (n, nd)) by (apply Hns; left; auto). destruct Hv as (N0 & fn & p & Efn & HLn & Ep & Ed). cbn [fst snd] in *.
  unfold friends_of. rewrite Efn. cbn [rbind]. unfold get_friends, has_level. destruct (Nat.ltb_spec L (length (levels fn))); [|lia]. cbn [negb rbind].
  destruct (nth_error (levels fn) L) as [hp|] eqn:El; [|apply nth_error_None in El; lia]. rewrite (nth_error_nth _ _ _ El).
  destruct (@trim_good (edge h (Z.to_nat n) L) (bigM h) (S (hlen hp)) hp HM ltac:(lia) (i_fr HI _ _ Efn El)) as (hp' & -> & G' & Lm & _). cbn [rbind].
  set (f' := FR (lset (levels fn) L hp') (max_levels fn)). assert (EL : length (levels f') = length (levels fn)) by (apply length_lset; auto).
  pose proof (@set_friends_shape _ _ _ _ Efn EL) as S1.
  assert (Hn : (Z.to_nat n < length (fr h))%nat) by (apply nth_error_Some; congruence).
  assert (HI1 : inv (set_friends h n f')).
  { eapply set_friends_inv; eauto. intros L' hq Hq. unfold f' in Hq; cbn [levels] in Hq. rewrite nth_lset in Hq by auto. destruct (Nat.eq_dec L' L) as [->|]; [injection Hq as <-; auto|apply (i_fr HI _ _ Efn Hq)]. }
  destruct (IH (set_friends h n f') HI1) as (h' & E & HI' & S' & U' & B'); [auto| |].
  - intros x Hx. apply (shape_valid S1). apply Hns. right; auto.
  - exists h'. split; auto. split; auto. split; [eapply shape_trans; eauto|]. split.
    + intros a A. unfold untouched in *. rewrite U' by (intros x Hx; apply A; right; auto). apply set_friends_other; auto. apply (A (n, nd)). left; auto.
    + intros a f hq X1 X2 (x & Hx & ->). change (bigM h) with (bigM (set_friends h n f')).
      destruct (in_dec Nat.eq_dec (Z.to_nat (fst x)) (map (fun y => Z.to_nat (fst y)) ns)) as [Hi|Hi].
      * apply in_map_iff in Hi. destruct Hi as (y & Ey & Hy). eapply B'; eauto.
      * destruct Hx as [<-|Hx]; [|exfalso; apply Hi; apply in_map_iff; eauto]. cbn [fst] in *.
        rewrite U' in X1. 2:{ intros y Hy Ey. apply Hi. apply in_map_iff. eauto. }
        rewrite set_friends_same in X1 by auto. injection X1 as <-. unfold f' in X2. cbn [levels] in X2. rewrite nth_lset in X2 by auto. destruct (Nat.eq_dec L L); [|congruence]. injection X2 as <-. auto.
Qed.
Lemma pop_n_good P n : forall hp, (n <= hlen hp)%nat -> good P hp -> exists l hp', pop_n n hp = Ok (l, hp') /\ (forall x, In x l -> P x) /\ good P hp' /\ (hlen hp = n + hlen hp')%nat /\ length l = n.
Proof.
  induction n as [|n IH]; intros hp Hn Hg; cbn [pop_n]; [exists [], hp; split; [auto|]; split; [intros x []|]; auto|].
  pose proof (pop_min_good Hg) as Hp. destruct (pop_min hp) as [[x hp1]|]; [|lia]. destruct Hp as (Px & _ & G1 & L1 & _).
  destruct (IH hp1 ltac:(lia) G1) as (l & hp' & -> & Pl & G' & L' & Ll). cbn [rbind fst snd]. exists (x :: l), hp'. split; [auto|]. split; [intros y [<-|Hy]; auto|]. split; [auto|]. split; [lia|cbn; lia].
Qed.
Lemma select_ok (h : hnsw) nn P : 0 <= bigM h -> good P nn -> (0 < hlen nn)%nat ->
  exists l nn', select_neighbors h nn = Ok (l, nn') /\ (forall x, In x l -> P x) /\ good P nn' /\ (0 < hlen nn')%nat /\ (zlen l <= bigM h) /\ (0 < bigM h -> l <> []).
Proof.
  intros HM Hg H0. unfold select_neighbors. destruct (Z.leb_spec (Z.of_nat (hlen nn)) (bigM h)).
  - exists (items nn), nn. split; auto. split; [apply Hg|]. split; auto. split; auto. split; [unfold zlen, hlen in *; lia|]. intros _ E. unfold hlen in H0. rewrite E in H0. cbn in H0. lia.
  - destruct (Z.ltb_spec (bigM h) 0); [lia|]. destruct (@pop_n_good P (Z.to_nat (bigM h)) nn ltac:(lia) Hg) as (l & nn' & E & Pl & G' & L' & Ll).
    exists l, nn'. split; auto. split; auto. split; auto. split; [lia|]. split; [unfold zlen; lia|]. intros Hp ->. cbn in Ll. lia.
Qed.
Lemma insert_levels_ok q qId : forall k h ep fq, inv h -> length q = dim h -> 1 <= ef h -> 0 <= bigM h -> 0 <= qId -> nth_error (points h) (Z.to_nat qId) = Some q ->
  nth_error (fr h) (Z.to_nat qId) = Some fq -> (k <= length (levels fq))%nat -> (k = 0%nat \/ valid h q (k - 1) ep) ->
  exists h', insert_levels fzero fsub fadd fmul rank k h q qId ep = Ok h' /\ inv h' /\ same_shape h h'.
Proof.
  induction k as [|L IH]; intros h ep fq HI Hq Hef HM H0 Ep Hfq Hk Hep; cbn [insert_levels]; [exists h; split; auto; split; auto; apply shape_refl|].
  destruct Hep as [Hep|Hep]; [lia|]. replace (S L - 1)%nat with L in Hep by lia.
  destruct (search_level_ok HI Hq Hef Hep) as (nn & -> & Gn & Ln). cbn [rbind].
  destruct (select_ok h HM Gn ltac:(lia)) as (l & nn' & -> & Pl & Gn' & Ln' & _). cbn [rbind fst snd].
  destruct (@link_ok q qId L l h fq) as (h1 & -> & HI1 & S1 & _); auto. cbn [rbind].
  assert (HM1 : bigM h1 = bigM h) by apply S1.
  destruct (@trim_all_ok q L l h1 HI1) as (h2 & -> & HI2 & S2 & _); [lia|intros x Hx; apply (shape_valid S1); auto|]. cbn [rbind].
  pose proof (shape_trans S1 S2) as S12. pose proof (pop_min_good Gn') as Hp. destruct (pop_min nn') as [[x hp1]|]; [|lia]. destruct Hp as (Px & _).
  destruct (shape_nth _ S12 Hfq) as (fq2 & Efq2 & Lfq2). pose proof S12 as (E1 & E2 & E3 & E4 & E5 & _).
  destruct (IH h2 x fq2) as (h' & E & HI' & S'); auto; try congruence; try lia.
  - right. apply (shape_valid S12). eapply valid_le; [|exact Px]. lia.
  - exists h'. split; auto. split; auto. eapply shape_trans; eauto.
Qed.
Lemma add_node_inv h q qTop : inv h -> length q = dim h -> inv (HN (dim h) (entry h) (points h ++ [q]) (fr h ++ [new_friends qTop]) (ef h) (bigM h)).
Proof.
  intros [I1 I2 I3 I4 I5] Hq. constructor; cbn [dim entry points fr ef bigM].
  - rewrite !app_length. cbn. lia.
  - unfold zlen in *. rewrite app_length. cbn. lia.
  - apply Forall_app. split; auto.
  - intros a f Ef. destruct (Nat.lt_ge_cases a (length (fr h))) as [Hl|Hl]; [rewrite nth_error_app1 in Ef by auto; eauto|].
    rewrite nth_error_app2 in Ef by auto. destruct (a - length (fr h))%nat as [|[|]]; [|discriminate|discriminate]. injection Ef as <-. discriminate.
  - intros a f L hp Ef El. destruct (Nat.lt_ge_cases a (length (fr h))) as [Hl|Hl].
    + rewrite nth_error_app1 in Ef by auto. apply (@good_weaken (edge h a L)); [|eauto]. intros x _ (A & g & p & pa & B & C & D & E & G). split; auto. exists g, p, pa. cbn [fr points].
      rewrite !nth_error_app1; auto; apply nth_error_Some; congruence.
    + rewrite nth_error_app2 in Ef by auto. destruct (a - length (fr h))%nat as [|[|]]; [|discriminate|discriminate]. injection Ef as <-. cbn [new_friends levels] in El.
      assert (hp = new_heap) as ->. { apply nth_error_In in El. apply (repeat_spec (S qTop)) in El. auto. } apply good_new.
Qed.
(** InsertVector on a graph that satisfies the invariant *)
Lemma insert_vector_ok h q qTop : inv h -> length q = dim h -> 1 <= ef h -> 0 <= bigM h ->
  exists h', insert_vector fzero fsub fadd fmul rank h q qTop = Ok (zlen (points h), h') /\ inv h' /\ points h' = points h ++ [q] /\ dim h' = dim h /\ ef h' = ef h /\ bigM h' = bigM h.
Proof.
  intros HI Hq Hef HM. unfold insert_vector. rewrite (proj2 (Nat.eqb_eq _ _) Hq). cbn [negb]. pose proof (i_entry HI) as He. destruct (inv_point HI He) as (pe & fe & Epe & Hpe & Efe).
  unfold friends_of at 1. rewrite Efe. cbn [rbind]. cbv zeta. match goal with |- context [find_closer _ _ _ _ _ ?x q qTop] => set (h1 := x) end.
  assert (HI1 : inv h1) by exact (@add_node_inv h q qTop HI Hq).
  assert (Efe1 : nth_error (fr h1) (Z.to_nat (entry h1)) = Some fe) by (unfold h1; cbn [fr entry]; rewrite nth_error_app1; auto; apply nth_error_Some; congruence).
  destruct (@find_closer_ok h1 q qTop fe HI1 Hq Efe1) as (ep & -> & Hv). cbn [rbind].
  assert (Nq : Z.to_nat (zlen (points h)) = length (points h)) by (unfold zlen; lia).
  destruct (@insert_levels_ok q (zlen (points h)) (S (Nat.min (top_level fe) qTop)) h1 ep (new_friends qTop)) as (h' & -> & HI' & S'); auto.
  - unfold zlen; lia.
  - unfold h1. cbn [points]. rewrite Nq, nth_error_app2, Nat.sub_diag by lia. reflexivity.
  - unfold h1. cbn [fr]. rewrite Nq, <- (i_len HI), nth_error_app2, Nat.sub_diag by lia. reflexivity.
  - cbn [new_friends levels]. rewrite repeat_length. lia.
  - right. replace (S (Nat.min (top_level fe) qTop) - 1)%nat with (Nat.min (top_level fe) qTop) by lia. auto.
  - cbn [rbind]. destruct S' as (E1 & E2 & E3 & E4 & E5 & E6). unfold h1 in E1, E2, E3, E4, E5. cbn [dim entry points ef bigM] in E1, E2, E3, E4, E5.
    eexists. split; [reflexivity|]. destruct (top_level fe <? qTop)%nat; auto.
    split; [|cbn [dim points ef bigM]; auto]. destruct HI' as [J1 J2 J3 J4 J5]. constructor; cbn [dim entry points fr]; auto.
    rewrite E3. unfold zlen. rewrite app_length. cbn. lia.
Qed.
Lemma new_hnsw_inv d efc m p h : new_hnsw d efc m p = Ok h -> inv h /\ points h = [p] /\ dim h = d /\ ef h = efc /\ bigM h = m /\ length p = d.
Proof.
  unfold new_hnsw. destruct (Nat.eqb_spec d 0); [discriminate|]. destruct (Nat.eqb_spec (length p) d); [|discriminate]. cbn. intros E. injection E as <-.
  split; [|auto]. constructor; cbn [fr points entry dim]; auto.
  - unfold zlen; cbn; lia.
  - intros [|a] f E; cbn in E; [injection E as <-; discriminate|destruct a; discriminate].
  - intros [|a] f L hp E El; cbn in E; [injection E as <-|destruct a; discriminate]. destruct L as [|L]; cbn in El; [injection El as <-; apply good_new|destruct L; discriminate].
Qed.
Lemma knn_down_ok h q : inv h -> length q = dim h -> forall k ep, valid h q k ep -> exists ep', knn_down fzero fsub fadd fmul rank k h q ep = Ok ep' /\ valid h q 0 ep'.
Proof.
  intros HI Hq. induction k as [|k IH]; intros ep Hv; cbn [knn_down]; [eauto|].
  destruct (@search_level_ok h q ep 1 (S k)) as (nn & E & G & HL); auto; [lia|]. rewrite E. cbn [rbind].
  destruct (peek_min_good G ltac:(lia)) as (x & -> & Px). apply IH. eapply valid_le; [|exact Px]. lia.
Qed.
Lemma knn_ok h q k : inv h -> length q = dim h -> 1 <= ef h -> 0 <= k -> exists nn, knn_search fzero fsub fadd fmul rank h q k = Ok nn /\ good (valid h q 0) nn /\ Z.of_nat (hlen nn) <= k /\ (1 <= k -> (0 < hlen nn)%nat).
Proof.
  intros HI Hq Hef Hk. unfold knn_search, point_of, friends_of. pose proof (i_entry HI) as He. destruct (inv_point HI He) as (p & f & Ep & Hp & Ef). rewrite Ep, Ef. cbn [rbind].
  destruct (@euclid_ok q p) as (d & Ed & Ed'); [congruence|]. rewrite Ed. cbn [rbind].
  assert (Hlev : (0 < length (levels f))%nat) by (pose proof (i_lev HI _ Ef); destruct (levels f); [congruence|cbn; lia]).
  destruct (@knn_down_ok h q HI Hq (top_level f) (entry h, d)) as (ep & -> & Hv).
  { split; [cbn; lia|]. exists f, p. cbn [fst snd]. unfold top_level. repeat split; auto; lia. }
  cbn [rbind]. destruct (search_level_ok HI Hq Hef Hv) as (nn & -> & G & HL). cbn [rbind].
  destruct (@trim_good (valid h q 0) k (S (hlen nn)) nn Hk ltac:(lia) G) as (hp' & -> & G' & L1 & L2 & _ & L3 & L4). exists hp'. split; auto. split; auto. split; auto.
  intros H1. destruct (Z.le_gt_cases (Z.of_nat (hlen nn)) k) as [Hle|Hgt]; [rewrite (L3 Hle); lia|]. specialize (L4 ltac:(lia)). lia.
Qed.
End Inv.
