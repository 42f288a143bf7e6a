(** The double-ended distance heap of the vector index (pkg/hnsw/heap.go).

    Distances are [Z]: the float32 values that are not NaN are totally
    preordered by <, and the heap only ever compares them, so they are replaced
    by their rank (-0 and +0 have the same rank). Slice indices are [nat]. *)
From Coq Require Import Permutation.
From Verif Require Import Base Cells.
Local Open Scope nat_scope.

(** Item{id, dist}: pkg/hnsw/heap.go:9-12 *)
Definition item := (Z * Z)%type.
(** DistHeap{items, visited}: pkg/hnsw/heap.go:16-19; the Go map is a function *)
Record heap := HP { items : list item; visited : Z -> option nat }.
(** d.visited[k] = x: pkg/hnsw/heap.go:16-19 *)
Definition set_v (v : Z -> option nat) (k : Z) (x : option nat) : Z -> option nat := fun j => if Z.eqb j k then x else v j.
(** level(i), isMinLevel(i): pkg/hnsw/heap.go:21-28; floor(log2(i+1)) *)
Definition level (i : nat) : nat := Nat.log2 (i + 1).
(** isMinLevel(i): pkg/hnsw/heap.go:26-28 *)
Definition is_min (i : nat) : bool := Nat.even (level i).
(** lchild, rchild, parent, hasParent, hasGrandparent, grandparent: pkg/hnsw/heap.go:30-52 *)
Definition lchild (i : nat) : nat := i * 2 + 1.
(** pkg/hnsw/heap.go:34-36 *)
Definition rchild (i : nat) : nat := i * 2 + 2.
(** pkg/hnsw/heap.go:38-40 *)
Definition parent (i : nat) : nat := (i - 1) / 2.
(** pkg/hnsw/heap.go:42-44 *)
Definition has_parent (i : nat) : bool := 0 <? i.
(** pkg/hnsw/heap.go:46-48 *)
Definition has_grandparent (i : nat) : bool := 2 <? i.
(** pkg/hnsw/heap.go:50-52 *)
Definition grandparent (i : nat) : nat := parent (parent i).
(** d.items[i] *)
Definition hitem (h : heap) (i : nat) : item := nth i (items h) (0, 0)%Z.
(** Less(i, j): pkg/hnsw/heap.go:226 *)
Definition hless (h : heap) (i j : nat) : bool := Z.ltb (snd (hitem h i)) (snd (hitem h j)).
(** Swap(i, j): pkg/hnsw/heap.go:227-230 *)
Definition hswap (h : heap) (i j : nat) : heap :=
  HP (lset (lset (items h) i (hitem h j)) j (hitem h i))
     (set_v (set_v (visited h) (fst (hitem h i)) (Some j)) (fst (hitem h j)) (Some i)).
(** the choice of m in a round of down(i, n): pkg/hnsw/heap.go:58-78; g runs over
    lchild(l)..rchild(r) as long as it is < n *)
Definition down_pick (mn : bool) (h : heap) (i n : nat) : nat :=
  let l := lchild i in
  let m := if Bool.eqb (hless h l i) mn then l else i in
  let r := rchild i in
  let m := if (r <? n) && Bool.eqb (hless h r m) mn then r else m in
  fold_left (fun m g => if Bool.eqb (hless h g m) mn then g else m) (filter (fun g => g <? n) (seq (lchild l) (rchild r + 1 - lchild l))) m.
(** down(i, n): pkg/hnsw/heap.go:54-98. [mn] is the variable min, which is computed
    before the loop; the result is the heap and the last i. Each round moves i
    at least to 4*i+3, so [n] rounds are enough (see [down_ok]: the proof
    covers the case that the fuel is used up). *)
Fixpoint down_loop (fuel : nat) (mn : bool) (h : heap) (i n : nat) : heap * nat :=
  match fuel with
  | 0 => (h, i)
  | S fuel =>
      let l := lchild i in
      let r := rchild i in
      if n <=? l then (h, i) else
      let m := down_pick mn h i n in
      if m =? i then (h, i) else
      let h := hswap h i m in
      if (m =? l) || (m =? r) then (h, i) else
      let p := parent m in
      let h := if Bool.eqb (hless h p m) mn then hswap h m p else h in
      down_loop fuel mn h m n
  end.
(** down(i, n): pkg/hnsw/heap.go:54-98 *)
Definition down (h : heap) (i n : nat) : heap * bool :=
  let '(h, i') := down_loop n (is_min i) h i n in (h, i <? i').
(** up(i): pkg/hnsw/heap.go:100-121; [up_loop] is its for loop, with fuel i *)
Fixpoint up_loop (fuel : nat) (mn : bool) (h : heap) (i : nat) : heap :=
  match fuel with
  | 0 => h
  | S fuel =>
      if has_grandparent i then
        let g := grandparent i in
        if negb (Bool.eqb (hless h i g) mn) then h else up_loop fuel mn (hswap h i g) g
      else h
  end.
(** up(i): pkg/hnsw/heap.go:100-121 *)
Definition up (h : heap) (i : nat) : heap :=
  let mn := is_min i in
  if has_parent i && Bool.eqb (hless h (parent i) i) mn
  then up_loop i (negb mn) (hswap h i (parent i)) (parent i)
  else up_loop i mn h i.
(** NewDistHeap(), Len(), IsEmpty(): pkg/hnsw/heap.go:123-129, 224-225 *)
Definition new_heap : heap := HP [] (fun _ => None).
(** Len(): pkg/hnsw/heap.go:225 *)
Definition hlen (h : heap) : nat := length (items h).
(** Push(x), Pop(): pkg/hnsw/heap.go:231-241 *)
Definition hpush (h : heap) (x : item) : heap := HP (items h ++ [x]) (visited h).
(** Pop(): pkg/hnsw/heap.go:234-241 *)
Definition hpop (h : heap) : item * heap :=
  let n := hlen h in
  let x := hitem h (n - 1) in
  (x, HP (firstn (n - 1) (items h)) (set_v (visited h) (fst x) None)).
(** PeekMinItem(): pkg/hnsw/heap.go:143-149; None is EmptyHeapError *)
Definition peek_min (h : heap) : option item := if hlen h =? 0 then None else Some (hitem h 0).
(** the position of the largest item: pkg/hnsw/heap.go:155-168 and 186-198 *)
Definition max_pos (h : heap) : nat :=
  let n := hlen h in
  let i := 0 in
  let i := if (lchild 0 <? n) && negb (hless h (lchild 0) i) then lchild 0 else i in
  if (rchild 0 <? n) && negb (hless h (rchild 0) i) then rchild 0 else i.
(** PeekMaxItem(): pkg/hnsw/heap.go:150-170 *)
Definition peek_max (h : heap) : option item := if hlen h =? 0 then None else Some (hitem h (max_pos h)).
(** PopMinItem(): pkg/hnsw/heap.go:171-180 *)
Definition pop_min (h : heap) : option (item * heap) :=
  if hlen h =? 0 then None else
  let n := hlen h - 1 in
  let h := hswap h 0 n in
  let '(h, _) := down h 0 n in
  Some (hpop h).
(** PopMaxItem(): pkg/hnsw/heap.go:181-203 *)
Definition pop_max (h : heap) : option (item * heap) :=
  if hlen h =? 0 then None else
  let n := hlen h in
  let i := max_pos h in
  let h := hswap h i (n - 1) in
  let '(h, _) := down h i (n - 1) in
  Some (hpop h).
(** Fix(i): pkg/hnsw/heap.go:218-222 *)
Definition fix_ (h : heap) (i : nat) : heap :=
  let '(h, moved) := down h i (hlen h) in if moved then h else up h i.
(** Insert(id, dist): pkg/hnsw/heap.go:204-216 *)
Definition hinsert (h : heap) (id dist : Z) : heap :=
  match visited h id with
  | None =>
      let h := hpush h (id, dist) in
      let h := HP (items h) (set_v (visited h) id (Some (hlen h - 1))) in
      up h (hlen h - 1)
  | Some index =>
      let h := HP (lset (items h) index (fst (hitem h index), dist)) (visited h) in
      fix_ h index
  end.
(** Clone(): pkg/hnsw/heap.go:131-141. The clone has its own slice and map;
    the items it shares are never written through it in /repo. *)
Definition clone (h : heap) : heap := h.

(** * Order *)
(** [ok mn x y]: x may stand above y on a min (max) level *)
Definition ok (mn : bool) (x y : Z) : Prop := if mn then (x <= y)%Z else (y <= x)%Z.
Lemma ok_refl mn x : ok mn x x. Proof. destruct mn; cbn; lia. Qed.
Lemma ok_trans mn x y z : ok mn x y -> ok mn y z -> ok mn x z. Proof. destruct mn; cbn; lia. Qed.
Lemma ok_neg mn x y : ok (negb mn) x y <-> ok mn y x. Proof. destruct mn; cbn; lia. Qed.
Lemma better_true mn x y : Bool.eqb (Z.ltb x y) mn = true -> ok mn x y.
Proof. intros H. apply eqb_prop in H. destruct mn; cbn; lia. Qed.
Lemma better_false mn x y : Bool.eqb (Z.ltb x y) mn = false -> ok mn y x.
Proof. intros H. apply eqb_false_iff in H. destruct mn; cbn; destruct (Z.ltb_spec x y); try congruence; lia. Qed.

(** * The shape of the tree *)
Inductive anc : nat -> nat -> Prop :=
| anc_p k : 0 < k -> anc (parent k) k
| anc_s j k : 0 < k -> anc j (parent k) -> anc j k.
Lemma parent_lt k : 0 < k -> parent k < k. Proof. unfold parent. intros. pose proof (Nat.div_le_upper_bound (k - 1) 2 (k - 1)). lia. Qed.
Lemma anc_lt j k : anc j k -> j < k.
Proof. induction 1 as [k H|j k H Ha IH]; pose proof (parent_lt H); lia. Qed.
Lemma anc_inv j k : anc j k -> 0 < k /\ (j = parent k \/ anc j (parent k)).
Proof. destruct 1; auto. Qed.
Lemma anc_trans a b c : anc a b -> anc b c -> anc a c.
Proof. intros H1 H2. induction H2 as [k H|j k H Ha IH]; apply anc_s; auto. Qed.
Lemma half a : a = 2 * (a / 2) \/ a = 2 * (a / 2) + 1.
Proof. pose proof (Nat.div_mod a 2). pose proof (Nat.mod_upper_bound a 2). lia. Qed.
Lemma parent_child k : 0 < k -> k = lchild (parent k) \/ k = rchild (parent k).
Proof. intros H. unfold lchild, rchild, parent. pose proof (half (k - 1)). lia. Qed.
Lemma parent_lchild i : parent (lchild i) = i.
Proof. unfold parent, lchild. replace (i * 2 + 1 - 1) with (i * 2) by lia. apply Nat.div_mul. lia. Qed.
Lemma parent_rchild i : parent (rchild i) = i.
Proof. unfold parent, rchild. replace (i * 2 + 2 - 1) with (1 + i * 2) by lia. rewrite Nat.div_add by lia. reflexivity. Qed.
Lemma is_min_parent k : 0 < k -> is_min (parent k) = negb (is_min k).
Proof.
  intros H. unfold is_min, level, parent. assert (E : Nat.log2 (k + 1) = S (Nat.log2 ((k - 1) / 2 + 1))).
  { pose proof (half (k - 1)) as [A|A].
    - replace (k + 1) with (2 * ((k - 1) / 2 + 1)) by lia. apply Nat.log2_double. lia.
    - replace (k + 1) with (2 * ((k - 1) / 2 + 1) + 1) by lia. apply Nat.log2_succ_double. lia. }
  rewrite E, Nat.even_succ, <- Nat.negb_even. rewrite negb_involutive. reflexivity.
Qed.
(** below i: a child, a grandchild, or below a grandchild *)
Definition child (i c : nat) : Prop := 0 < c /\ parent c = i.
Lemma below i k : anc i k -> child i k \/ exists g, 0 < g /\ child i (parent g) /\ (g = k \/ anc g k).
Proof.
  induction 1 as [k H|j k H Ha IH]; [left; split; auto|]. right. destruct IH as [IH|(g & G1 & G2 & [G3|G3])].
  - exists k. auto.
  - exists g. split; auto. split; auto. right. subst. apply anc_p; auto.
  - exists g. split; auto. split; auto. right. apply anc_s; auto.
Qed.
Lemma child_anc i c : child i c -> anc i c. Proof. intros [H <-]. apply anc_p; auto. Qed.

Definition ordered (d : nat -> Z) (n : nat) : Prop := forall j k, anc j k -> k < n -> ok (is_min j) (d j) (d k).
(** all pairs but those below i *)
Definition ord_but (d : nat -> Z) (n i : nat) : Prop := forall j k, anc j k -> k < n -> j <> i -> ok (is_min j) (d j) (d k).
(** m is the best of i, its children and its grandchildren *)
Definition best (d : nat -> Z) (n i m : nat) : Prop :=
  ok (is_min i) (d m) (d i) /\ (forall c, child i c -> c < n -> ok (is_min i) (d m) (d c)) /\
  (forall g, 0 < g -> child i (parent g) -> g < n -> ok (is_min i) (d m) (d g)).
Definition sw (d : nat -> Z) (i j k : nat) : Z := if k =? j then d i else if k =? i then d j else d k.

Lemma best_below d n i m k : ord_but d n i -> best d n i m -> anc i k -> k < n -> ok (is_min i) (d m) (d k).
Proof.
  intros H (B0 & B1 & B2) Ha Hk. destruct (below Ha) as [C|(g & G1 & G2 & [->|G3])]; auto.
  pose proof (anc_lt G3). apply ok_trans with (d g); [apply B2; auto; lia|].
  destruct G2 as [P1 P2]. assert (E : is_min g = is_min i).
  { subst i. rewrite (is_min_parent P1), (is_min_parent G1), negb_involutive. reflexivity. }
  rewrite <- E. apply H; auto. intros ->. pose proof (anc_lt Ha). pose proof (parent_lt P1). pose proof (parent_lt G1). lia.
Qed.
Lemma ord_stop d n i : ord_but d n i -> best d n i i -> ordered d n.
Proof. intros H B j k Ha Hk. destruct (Nat.eq_dec j i) as [->|Hne]; [eapply best_below; eauto|apply H; auto]. Qed.
Lemma ord_child d n i m : ord_but d n i -> best d n i m -> child i m -> m < n -> ordered (sw d i m) n.
Proof.
  intros H B Hc Hm j k Ha Hk. pose proof (child_anc Hc) as Him. pose proof (anc_lt Him). pose proof (anc_lt Ha). destruct Hc as [M1 M2]. unfold sw.
  pose proof (is_min_parent M1) as EM. rewrite M2 in EM. assert (B0 : ok (is_min i) (d m) (d i)) by exact (proj1 B).
  destruct (Nat.eqb_spec j m) as [->|Nj].
  - destruct (Nat.eqb_spec k m); [lia|]. destruct (Nat.eqb_spec k i); [lia|].
    apply ok_trans with (d m); [|apply H; auto; lia]. rewrite <- (negb_involutive (is_min m)), <- EM, ok_neg. exact B0.
  - destruct (Nat.eqb_spec j i) as [->|Nji].
    + destruct (Nat.eqb_spec k m) as [->|]; [exact B0|]. destruct (Nat.eqb_spec k i); [lia|]. eapply best_below; eauto.
    + destruct (Nat.eqb_spec k m) as [->|Nk].
      * destruct (anc_inv Ha) as [_ [->|Ha']]; [congruence|]. rewrite M2 in Ha'. apply H; auto. lia.
      * destruct (Nat.eqb_spec k i) as [->|]; [|apply H; auto]. apply H; auto. eapply anc_trans; eauto.
Qed.
Lemma ord_grand d n i m d2 : ord_but d n i -> best d n i m -> 0 < m -> child i (parent m) -> m < n ->
  (forall k, k <> i -> k <> m -> k <> parent m -> d2 k = d k) -> d2 i = d m ->
  (d2 m = d (parent m) /\ d2 (parent m) = d i /\ ok (is_min i) (d (parent m)) (d i) \/ d2 m = d i /\ d2 (parent m) = d (parent m) /\ ok (is_min i) (d i) (d (parent m))) ->
  ord_but d2 n m.
Proof.
  intros H B M1 Hc Hm Hoth Hi Hv j k Ha Hk Hj. set (p := parent m) in *.
  pose proof (child_anc Hc) as Hip. pose proof (parent_lt M1) as Hpm. fold p in Hpm. assert (Apm : anc p m) by (apply anc_p; auto). pose proof (anc_trans Hip Apm) as Him.
  destruct Hc as [P1 P2]. pose proof (is_min_parent P1) as EP. rewrite P2 in EP. pose proof (anc_lt Hip). pose proof (anc_lt Ha).
  assert (B0 : ok (is_min i) (d m) (d i)) by exact (proj1 B). assert (BP : ok (is_min i) (d m) (d p)) by (apply (best_below H B Hip); lia).
  destruct (Nat.eq_dec j i) as [->|Nji].
  { rewrite Hi. destruct (Nat.eq_dec k m) as [->|Nkm]; [destruct Hv as [(-> & _)|(-> & _)]; auto|].
    destruct (Nat.eq_dec k p) as [->|Nkp]; [destruct Hv as [(_ & -> & _)|(_ & -> & _)]; auto|].
    rewrite Hoth by (auto; lia). apply (best_below H B Ha Hk). }
  destruct (Nat.eq_dec j p) as [->|Njp].
  { assert (OP : ok (is_min p) (d2 p) (d p)).
    { rewrite <- (negb_involutive (is_min p)), <- EP, ok_neg. destruct Hv as [(_ & -> & X)|(_ & -> & X)]; [exact X|apply ok_refl]. }
    destruct (Nat.eq_dec k m) as [->|Nkm].
    - rewrite <- (negb_involutive (is_min p)), <- EP, ok_neg. destruct Hv as [(-> & -> & X)|(-> & -> & X)]; exact X.
    - rewrite (Hoth k) by (auto; lia). apply ok_trans with (d p); auto. }
  rewrite (Hoth j) by auto.
  destruct (Nat.eq_dec k i) as [->|Nki]; [rewrite Hi; apply H; auto; eapply anc_trans; eauto|].
  destruct (Nat.eq_dec k p) as [->|Nkp].
  { destruct (anc_inv Ha) as [_ [->|Ha']]; [congruence|]. rewrite P2 in Ha'.
    destruct Hv as [(_ & -> & _)|(_ & -> & _)]; apply H; auto; lia. }
  destruct (Nat.eq_dec k m) as [->|Nkm].
  { destruct (anc_inv Ha) as [_ [->|Ha']]; [fold p in Njp; congruence|]. fold p in Ha'. destruct (anc_inv Ha') as [_ [->|Ha'']]; [congruence|]. rewrite P2 in Ha''.
    destruct Hv as [(-> & _ & _)|(-> & _ & _)]; apply H; auto; lia. }
  rewrite Hoth by auto. apply H; auto.
Qed.

(** * Distances in the heap *)
Definition hd (h : heap) (i : nat) : Z := snd (hitem h i).
Lemma hitem_lset l k x v i : k < length l -> hitem (HP (lset l k x) v) i = if i =? k then x else nth i l (0, 0)%Z.
Proof.
  intros H. unfold hitem. cbn [items]. rewrite <- (nth_default_eq _ (lset l k x)), <- (nth_default_eq _ l). unfold nth_default. rewrite nth_lset by auto.
  destruct (Nat.eq_dec i k), (Nat.eqb_spec i k); congruence.
Qed.
Lemma hitem_swap h i j k : i < hlen h -> j < hlen h -> hitem (hswap h i j) k = if k =? j then hitem h i else if k =? i then hitem h j else hitem h k.
Proof.
  intros Hi Hj. unfold hlen in *. unfold hswap. rewrite hitem_lset by (rewrite length_lset; auto). destruct (k =? j); auto.
  change (nth k (lset (items h) i (hitem h j)) (0, 0)%Z) with (hitem (HP (lset (items h) i (hitem h j)) (visited h)) k). rewrite hitem_lset by auto. reflexivity.
Qed.
Lemma hd_swap h i j k : i < hlen h -> j < hlen h -> hd (hswap h i j) k = sw (hd h) i j k.
Proof. intros. unfold hd, sw. rewrite hitem_swap by auto. destruct (k =? j), (k =? i); auto. Qed.
Lemma hlen_swap h i j : i < hlen h -> j < hlen h -> hlen (hswap h i j) = hlen h.
Proof. intros. unfold hlen, hswap in *. cbn [items]. rewrite !length_lset; auto. rewrite length_lset; auto. Qed.

(** * Contents *)
(** the map visited tells where each id is *)
Definition wf (h : heap) : Prop := forall id k, visited h id = Some k <-> k < hlen h /\ fst (hitem h k) = id.
Lemma wf_unique h j k : wf h -> j < hlen h -> k < hlen h -> fst (hitem h j) = fst (hitem h k) -> j = k.
Proof.
  intros H Hj Hk E. assert (A : visited h (fst (hitem h k)) = Some j) by (apply H; auto). assert (B : visited h (fst (hitem h k)) = Some k) by (apply H; auto). congruence.
Qed.
Lemma in_items h x : In x (items h) <-> exists k, k < hlen h /\ hitem h k = x.
Proof.
  split.
  - intros H. apply (In_nth _ _ (0, 0)%Z) in H. destruct H as (k & Hk & E). exists k. auto.
  - intros (k & Hk & <-). apply nth_In. auto.
Qed.
Lemma wf_nodup h : wf h -> NoDup (map fst (items h)).
Proof.
  intros H. apply (NoDup_nth _ 0%Z). intros i j Hi Hj E. rewrite map_length in Hi, Hj.
  change 0%Z with (fst (0, 0)%Z) in E. rewrite !map_nth in E. eapply wf_unique; eauto.
Qed.
(** [same n h h']: h' holds the same items, those at n and after at the same place *)
Definition same (n : nat) (h h' : heap) : Prop :=
  wf h' /\ hlen h' = hlen h /\ (forall x, In x (items h') <-> In x (items h)) /\ forall k, n <= k -> hitem h' k = hitem h k.
Lemma same_refl n h : wf h -> same n h h. Proof. intros; split; [|split; [|split]]; auto; tauto. Qed.
Lemma same_trans n a b c : same n a b -> same n b c -> same n a c.
Proof.
  intros (A1 & A2 & A3 & A4) (B1 & B2 & B3 & B4). split; [auto|]. split; [congruence|]. split; [intros x; rewrite B3; apply A3|].
  intros k Hk. rewrite B4, A4; auto.
Qed.
Lemma same_swap n h i j : wf h -> i < n -> j < n -> n <= hlen h -> same n h (hswap h i j).
Proof.
  intros H Hi Hj Hn. assert (Li : i < hlen h) by lia. assert (Lj : j < hlen h) by lia. pose proof (hlen_swap _ Li Lj) as L.
  split; [|split; [auto|split]].
  - intros id k. rewrite L, hitem_swap by auto. unfold hswap at 1. cbn [visited]. unfold set_v.
    destruct (Nat.eqb_spec k j) as [->|Nkj]; [|destruct (Nat.eqb_spec k i) as [->|Nki]].
    + destruct (Z.eqb_spec id (fst (hitem h j))) as [->|N1].
      * split; [intros E; injection E as ->; auto|]. intros [_ E]. f_equal. eapply wf_unique; eauto.
      * destruct (Z.eqb_spec id (fst (hitem h i))) as [->|N2]; [tauto|]. split; [intros E; apply H in E; destruct E as [_ E]; congruence|intros [_ E]; congruence].
    + destruct (Z.eqb_spec id (fst (hitem h j))) as [->|N1]; [tauto|]. split; [|intros [_ E]; congruence].
      destruct (Z.eqb_spec id (fst (hitem h i))) as [->|N2]; [intros E; injection E as ->; congruence|]. intros E. apply H in E. destruct E as [_ E]. congruence.
    + destruct (Z.eqb_spec id (fst (hitem h j))) as [->|N1].
      * split; [intros E; injection E as ->; congruence|]. intros [Hk E]. exfalso. apply Nkj. eapply wf_unique; eauto.
      * destruct (Z.eqb_spec id (fst (hitem h i))) as [->|N2]; [|apply H].
        split; [intros E; injection E as ->; congruence|]. intros [Hk E]. exfalso. apply Nki. eapply wf_unique; eauto.
  - intros x. rewrite !in_items, L. split; intros (k & Hk & E).
    + rewrite hitem_swap in E by auto. destruct (k =? j); [exists i; auto|]. destruct (k =? i); [exists j; auto|exists k; auto].
    + destruct (Nat.eq_dec k j) as [->|Nj]; [|destruct (Nat.eq_dec k i) as [->|Ni]].
      * destruct (Nat.eq_dec i j) as [->|Nij]; [exists j|exists i]; (split; auto); rewrite hitem_swap by auto.
        -- rewrite Nat.eqb_refl; auto.
        -- destruct (Nat.eqb_spec i j); [congruence|]. rewrite Nat.eqb_refl. auto.
      * exists j. split; auto. rewrite hitem_swap by auto. rewrite Nat.eqb_refl. auto.
      * exists k. split; auto. rewrite hitem_swap by auto. destruct (Nat.eqb_spec k j); [congruence|]. destruct (Nat.eqb_spec k i); [congruence|]. auto.
  - intros k Hk. rewrite hitem_swap by auto. destruct (Nat.eqb_spec k j); [lia|]. destruct (Nat.eqb_spec k i); [lia|]. auto.
Qed.

(** * down *)
Lemma fold_best (f : nat -> Z) mn l : forall m0, let m := fold_left (fun m g => if Bool.eqb (Z.ltb (f g) (f m)) mn then g else m) l m0 in
  In m (m0 :: l) /\ ok mn (f m) (f m0) /\ forall g, In g l -> ok mn (f m) (f g).
Proof.
  induction l as [|a l IH]; intros m0; cbn [fold_left].
  - split; [left; auto|]. split; [apply ok_refl|]. intros g [].
  - destruct (Bool.eqb (Z.ltb (f a) (f m0)) mn) eqn:E.
    + destruct (IH a) as (A1 & A2 & A3). apply better_true in E. split; [|split].
      * cbn [In] in *. tauto.
      * eapply ok_trans; eauto.
      * intros g [<-|Hg]; auto.
    + destruct (IH m0) as (A1 & A2 & A3). apply better_false in E. split; [|split]; auto.
      * cbn [In] in *. tauto.
      * intros g [<-|Hg]; auto. eapply ok_trans; eauto.
Qed.
Lemma pick_in h mn i n : lchild i < n -> let m := down_pick mn h i n in
  m = i \/ m < n /\ child i m /\ (m = lchild i \/ m = rchild i) \/ m < n /\ 0 < m /\ child i (parent m) /\ m <> lchild i /\ m <> rchild i.
Proof.
  intros Hl. cbn zeta. unfold down_pick. set (m1 := if Bool.eqb (hless h (lchild i) i) mn then lchild i else i).
  set (m2 := if (rchild i <? n) && Bool.eqb (hless h (rchild i) m1) mn then rchild i else m1).
  assert (M1 : m1 = i \/ m1 = lchild i) by (unfold m1; destruct (Bool.eqb _ mn); auto).
  assert (M2 : m2 = m1 \/ m2 = rchild i /\ rchild i < n).
  { unfold m2. destruct (Nat.ltb_spec (rchild i) n); cbn [andb]; auto. destruct (Bool.eqb (hless h (rchild i) m1) mn); auto. }
  clearbody m2. clearbody m1.
  destruct (fold_best (hd h) mn (filter (fun g => g <? n) (seq (lchild (lchild i)) (rchild (rchild i) + 1 - lchild (lchild i)))) m2) as (A & _ & _).
  unfold hless. fold (hd h). unfold hd in A. set (m := fold_left _ _ _) in *. destruct A as [A|A].
  - rewrite <- A. destruct M2 as [->|[-> Hr]]; [destruct M1 as [->| ->]; auto|]; right; left; (split; auto; split; auto); [split; [unfold lchild; lia|apply parent_lchild]|split; [unfold rchild; lia|apply parent_rchild]].
  - apply filter_In in A. destruct A as [A1 A2]. apply in_seq in A1. apply Nat.ltb_lt in A2. right. right. split; auto.
    assert (P : 0 < m) by (unfold lchild in *; lia). split; auto. unfold lchild, rchild in *. split; [|lia].
    assert (C : parent m = lchild i \/ parent m = rchild i).
    { unfold lchild, rchild. pose proof (parent_child P) as [Q|Q]; unfold lchild, rchild in Q; lia. }
    destruct C as [->| ->]; (split; [unfold lchild, rchild; lia|]); [apply parent_lchild|apply parent_rchild].
Qed.
Lemma pick_best h mn i n : lchild i < n -> is_min i = mn -> best (hd h) n i (down_pick mn h i n).
Proof.
  intros Hl Hmn. unfold down_pick. set (m1 := if Bool.eqb (hless h (lchild i) i) mn then lchild i else i).
  set (m2 := if (rchild i <? n) && Bool.eqb (hless h (rchild i) m1) mn then rchild i else m1).
  destruct (fold_best (hd h) mn (filter (fun g => g <? n) (seq (lchild (lchild i)) (rchild (rchild i) + 1 - lchild (lchild i)))) m2) as (_ & A & B).
  unfold hless. fold (hd h). unfold hd in A, B at 1. set (m := fold_left _ _ _) in *.
  assert (M1 : ok mn (hd h m1) (hd h i) /\ ok mn (hd h m1) (hd h (lchild i))).
  { unfold m1. destruct (Bool.eqb (hless h (lchild i) i) mn) eqn:E; [apply better_true in E; split; auto using ok_refl|]. apply better_false in E. split; auto using ok_refl. }
  assert (M2 : ok mn (hd h m2) (hd h m1) /\ (rchild i < n -> ok mn (hd h m2) (hd h (rchild i)))).
  { unfold m2. destruct (Nat.ltb_spec (rchild i) n) as [Hr|Hr]; cbn [andb]; [|split; [apply ok_refl|lia]].
    destruct (Bool.eqb (hless h (rchild i) m1) mn) eqn:E; [apply better_true in E; split; auto using ok_refl|]. apply better_false in E. split; auto using ok_refl. }
  destruct M1 as [M11 M12], M2 as [M21 M22]. fold (hd h m) in A. fold (hd h m2) in A. unfold best. rewrite Hmn. split; [|split].
  - eapply ok_trans; [exact A|]. eapply ok_trans; eauto.
  - intros c [C1 C2] Hc. destruct (parent_child C1) as [E|E]; rewrite C2 in E; subst c.
    + eapply ok_trans; [exact A|]. eapply ok_trans; eauto.
    + eapply ok_trans; [exact A|]. auto.
  - intros g G1 [G2 G3] Hg. apply B. apply filter_In. split; [|apply Nat.ltb_lt; auto]. apply in_seq.
    destruct (parent_child G1) as [E|E], (parent_child G2) as [F|F]; rewrite G3 in F; unfold lchild, rchild in *; lia.
Qed.

Lemma down_loop_same fuel mn n : forall h i, wf h -> n <= hlen h -> i < n -> let '(h', i') := down_loop fuel mn h i n in same n h h' /\ i <= i'.
Proof.
  induction fuel as [|fuel IH]; intros h i Hw Hn Hi; cbn [down_loop]; [split; [apply same_refl; auto|lia]|].
  destruct (Nat.leb_spec n (lchild i)) as [|Hl]; [split; [apply same_refl; auto|lia]|].
  destruct (pick_in h mn _ Hl) as [E|[(M1 & M2 & M3)|(M1 & M2 & M3 & M4)]]; set (m := down_pick mn h i n) in *.
  - rewrite E, Nat.eqb_refl. split; [apply same_refl; auto|lia].
  - assert (m <> i) by (destruct M3 as [->| ->]; unfold lchild, rchild; lia). destruct (Nat.eqb_spec m i); [congruence|].
    replace ((m =? lchild i) || (m =? rchild i)) with true by (destruct M3 as [->| ->]; rewrite Nat.eqb_refl, ?orb_true_r; auto).
    split; [apply same_swap; auto|lia].
  - pose proof (parent_lt M2) as Hpm. pose proof (anc_lt (child_anc M3)) as Hip.
    destruct (Nat.eqb_spec m i); [lia|]. destruct (Nat.eqb_spec m (lchild i)); [tauto|]. destruct (Nat.eqb_spec m (rchild i)); [tauto|]. cbn [orb].
    assert (S1 : same n h (hswap h i m)) by (apply same_swap; auto). pose proof S1 as (W1 & L1 & _).
    set (h2 := if Bool.eqb (hless (hswap h i m) (parent m) m) mn then hswap (hswap h i m) m (parent m) else hswap h i m).
    assert (S2 : same n (hswap h i m) h2) by (unfold h2; destruct (Bool.eqb _ mn); [apply same_swap; auto; lia|apply same_refl; auto]).
    pose proof S2 as (W2 & L2 & _). specialize (IH h2 m W2). destruct (down_loop fuel mn h2 m n) as [h' i']. destruct IH as [S3 Hle]; [lia|lia|].
    split; [|lia]. eapply same_trans; [exact S1|]. eapply same_trans; [exact S2|exact S3].
Qed.
Lemma down_loop_ok fuel mn n : forall h i, n <= hlen h -> n <= fuel + i -> is_min i = mn -> ord_but (hd h) n i -> ordered (hd (fst (down_loop fuel mn h i n))) n.
Proof.
  induction fuel as [|fuel IH]; intros h i Hn Hf Hmn Ho; cbn [down_loop].
  - cbn [fst]. intros j k Ha Hk. apply Ho; auto. intros ->. pose proof (anc_lt Ha). lia.
  - destruct (Nat.leb_spec n (lchild i)) as [Hl|Hl].
    { cbn [fst]. intros j k Ha Hk. apply Ho; auto. intros ->. destruct (below Ha) as [[C1 C2]|(g & G1 & [G2 G3] & G4)].
      - destruct (parent_child C1) as [E|E]; rewrite C2 in E; unfold lchild, rchild in *; lia.
      - pose proof (parent_lt G1). assert (g <= k) by (destruct G4 as [->|G4]; [lia|apply anc_lt in G4; lia]).
        destruct (parent_child G2) as [E|E]; rewrite G3 in E; unfold lchild, rchild in *; lia. }
    pose proof (pick_best h _ Hl Hmn) as HB. destruct (pick_in h mn _ Hl) as [E|[(M1 & M2 & M3)|(M1 & M2 & M3 & M4)]]; set (m := down_pick mn h i n) in *.
    + rewrite E, Nat.eqb_refl. cbn [fst]. rewrite E in HB. eapply ord_stop; eauto.
    + assert (m <> i) by (destruct M3 as [->| ->]; unfold lchild, rchild; lia). destruct (Nat.eqb_spec m i); [congruence|].
      replace ((m =? lchild i) || (m =? rchild i)) with true by (destruct M3 as [->| ->]; rewrite Nat.eqb_refl, ?orb_true_r; auto). cbn [fst].
      pose proof (anc_lt (child_anc M2)). intros j k Ha Hk. rewrite !hd_swap by lia. eapply ord_child; eauto.
    + pose proof (parent_lt M2) as Hpm. pose proof (anc_lt (child_anc M3)) as Hip.
      destruct (Nat.eqb_spec m i); [lia|]. destruct (Nat.eqb_spec m (lchild i)); [tauto|]. destruct (Nat.eqb_spec m (rchild i)); [tauto|]. cbn [orb].
      assert (L1 : hlen (hswap h i m) = hlen h) by (apply hlen_swap; lia).
      set (h2 := if Bool.eqb (hless (hswap h i m) (parent m) m) mn then hswap (hswap h i m) m (parent m) else hswap h i m).
      assert (L2 : hlen h2 = hlen h) by (unfold h2; destruct (Bool.eqb _ mn); auto; rewrite hlen_swap; lia).
      assert (Em : is_min m = mn).
      { destruct M3 as [P1 P2]. pose proof (is_min_parent P1) as E1. pose proof (is_min_parent M2) as E2. rewrite P2 in E1. rewrite <- Hmn, E1, E2, negb_involutive. reflexivity. }
      apply IH; auto; [lia|lia|].
      assert (Dm : hd (hswap h i m) m = hd h i) by (rewrite hd_swap by lia; unfold sw; rewrite Nat.eqb_refl; auto).
      assert (Dp : hd (hswap h i m) (parent m) = hd h (parent m)) by (rewrite hd_swap by lia; unfold sw; destruct (Nat.eqb_spec (parent m) m); [lia|]; destruct (Nat.eqb_spec (parent m) i); [lia|auto]).
      assert (Di : hd (hswap h i m) i = hd h m) by (rewrite hd_swap by lia; unfold sw; destruct (Nat.eqb_spec i m); [lia|]; rewrite Nat.eqb_refl; auto).
      assert (Dk : forall k, k <> i -> k <> m -> hd (hswap h i m) k = hd h k).
      { intros k K1 K2. rewrite hd_swap by lia. unfold sw. destruct (Nat.eqb_spec k m); [lia|]. destruct (Nat.eqb_spec k i); [lia|auto]. }
      apply (@ord_grand (hd h) n i m (hd h2)); auto; unfold h2.
      * intros k K1 K2 K3. destruct (Bool.eqb _ mn); auto. rewrite hd_swap by lia. unfold sw. destruct (Nat.eqb_spec k (parent m)); [lia|]. destruct (Nat.eqb_spec k m); [lia|auto].
      * destruct (Bool.eqb _ mn); auto. rewrite hd_swap by lia. unfold sw. destruct (Nat.eqb_spec i (parent m)); [lia|]. destruct (Nat.eqb_spec i m); [lia|auto].
      * destruct (Bool.eqb (hless (hswap h i m) (parent m) m) mn) eqn:E; unfold hless in E; fold (hd (hswap h i m) (parent m)) (hd (hswap h i m) m) in E; rewrite Dm, Dp in E.
        -- left. apply better_true in E. rewrite Hmn. rewrite !hd_swap by lia. unfold sw. rewrite !Nat.eqb_refl. destruct (Nat.eqb_spec m (parent m)); [lia|]. rewrite Dm, Dp. auto.
        -- right. apply better_false in E. rewrite Hmn. auto.
Qed.

(** * up *)
(** all pairs but those of i with its same-parity ancestors *)
Definition ord_up (d : nat -> Z) (n i : nat) : Prop := forall j k, anc j k -> k < n -> ~ (k = i /\ is_min j = is_min i) -> ok (is_min j) (d j) (d k).
Lemma grand_facts i : 2 < i -> 0 < parent i /\ anc (grandparent i) i /\ anc (grandparent i) (parent i) /\ anc (parent i) i /\ is_min (grandparent i) = is_min i /\ grandparent i < parent i < i.
Proof.
  intros H. unfold grandparent. assert (P : 0 < parent i) by (unfold parent; pose proof (half (i - 1)); lia).
  assert (A1 : anc (parent i) i) by (apply anc_p; lia). assert (A2 : anc (parent (parent i)) (parent i)) by (apply anc_p; auto).
  split; auto. split; [eapply anc_trans; eauto|]. split; auto. split; auto. split.
  - rewrite (is_min_parent P), is_min_parent, negb_involutive by lia. reflexivity.
  - split; apply anc_lt; auto.
Qed.
(** a same-parity ancestor is the grandparent or above it *)
Lemma anc_same j i : anc j i -> is_min j = is_min i -> 2 < i /\ (j = grandparent i \/ anc j (grandparent i)).
Proof.
  intros Ha E. destruct (anc_inv Ha) as [Hi [->|Hp]].
  - exfalso. rewrite is_min_parent in E by auto. destruct (is_min i); discriminate.
  - destruct (anc_inv Hp) as [H0 H1]. split; auto. unfold parent in H0. pose proof (half (i - 1)). destruct (Nat.eq_dec i 1) as [->|]; [cbn in H0; lia|]. destruct (Nat.eq_dec i 2) as [->|]; [cbn in H0; lia|]. lia.
Qed.
Lemma up_loop_same fuel mn n : forall h i, wf h -> n <= hlen h -> i < n -> same n h (up_loop fuel mn h i).
Proof.
  induction fuel as [|fuel IH]; intros h i Hw Hn Hi; cbn [up_loop]; [apply same_refl; auto|].
  unfold has_grandparent. destruct (Nat.ltb_spec 2 i) as [H2|H2]; [|apply same_refl; auto]. destruct (grand_facts H2) as (_ & _ & _ & _ & _ & Hlt).
  destruct (negb _); [apply same_refl; auto|]. assert (S1 : same n h (hswap h i (grandparent i))) by (apply same_swap; auto; lia).
  eapply same_trans; [exact S1|]. destruct S1 as (W & L & _). apply IH; auto; lia.
Qed.
Lemma up_same h i n : wf h -> n <= hlen h -> i < n -> same n h (up h i).
Proof.
  intros Hw Hn Hi. unfold up. destruct (has_parent i && _) eqn:E; [|apply up_loop_same; auto].
  apply andb_prop in E. destruct E as [E _]. apply Nat.ltb_lt in E. pose proof (parent_lt E).
  assert (S1 : same n h (hswap h i (parent i))) by (apply same_swap; auto; lia).
  eapply same_trans; [exact S1|]. destruct S1 as (W & L & _). apply up_loop_same; auto; lia.
Qed.
Lemma up_loop_ok fuel mn n : forall h i, n <= hlen h -> i < n -> i <= fuel -> is_min i = mn -> ord_up (hd h) n i -> ordered (hd (up_loop fuel mn h i)) n.
Proof.
  induction fuel as [|fuel IH]; intros h i Hn Hi Hf Hmn Hu; cbn [up_loop].
  - intros j k Ha Hk. apply Hu; auto. intros [-> _]. pose proof (anc_lt Ha). lia.
  - unfold has_grandparent. destruct (Nat.ltb_spec 2 i) as [H2|H2].
    2:{ intros j k Ha Hk. apply Hu; auto. intros [-> E]. destruct (anc_same Ha E). lia. }
    destruct (grand_facts H2) as (P0 & Agi & Agp & Api & Eg & Hlt). set (g := grandparent i) in *.
    destruct (Bool.eqb (hless h i g) mn) eqn:E; cbn [negb].
    + apply better_true in E. fold (hd h i) (hd h g) in E. apply IH; [rewrite hlen_swap; lia|lia|lia|congruence|].
      intros j k Ha Hk Hex. pose proof (anc_lt Ha). rewrite !hd_swap by lia. unfold sw.
      destruct (Nat.eqb_spec j g) as [->|Njg]; [|destruct (Nat.eqb_spec j i) as [->|Nji]].
      * (* below g *) rewrite Eg, Hmn. destruct (Nat.eqb_spec k g); [lia|]. destruct (Nat.eqb_spec k i) as [->|Nki]; [exact E|].
        apply ok_trans with (hd h g); auto. rewrite <- Hmn, <- Eg. apply Hu; auto. tauto.
      * (* below i *) destruct (Nat.eqb_spec k g); [lia|]. destruct (Nat.eqb_spec k i); [lia|]. rewrite <- Eg. apply Hu; auto; [exact (anc_trans Agi Ha)|tauto].
      * destruct (Nat.eqb_spec k g) as [->|Nkg].
        { (* above g *) assert (Hne : is_min j <> is_min g) by tauto. apply Hu; auto; [exact (anc_trans Ha Agi)|]. rewrite <- Eg. tauto. }
        destruct (Nat.eqb_spec k i) as [->|Nki]; [|apply Hu; auto; tauto].
        destruct (anc_inv Ha) as [_ [->|Ha']].
        -- rewrite is_min_parent by lia. rewrite ok_neg. rewrite <- Eg. apply Hu; auto; [lia|lia].
        -- destruct (anc_inv Ha') as [_ [->|Ha'']]; [exfalso; apply Njg; reflexivity|]. change (parent (parent i)) with g in Ha''. apply Hu; auto; [lia|]. intros [Egi _]. lia.
    + apply better_false in E. fold (hd h i) (hd h g) in E. intros j k Ha Hk.
      destruct (Nat.eq_dec k i) as [->|Nki]; [|apply Hu; auto; tauto]. destruct (bool_dec (is_min j) (is_min i)) as [Ej|Nj]; [|apply Hu; auto; tauto].
      rewrite Ej, Hmn. destruct (anc_same Ha Ej) as [_ [->|Ha']]; [exact E|]. fold g in Ha'. apply ok_trans with (hd h g); auto. rewrite <- Hmn, <- Ej. apply Hu; auto; [lia|]. intros [Egi _]. lia.
Qed.
(** a new item at the end *)
Lemma up_ok h n : 0 < n -> n <= hlen h -> ordered (hd h) (n - 1) -> ordered (hd (up h (n - 1))) n.
Proof.
  intros H0 Hn Ho. set (i := n - 1) in *. unfold up.
  assert (Pre : forall j k, anc j k -> k < n -> k <> i -> ok (is_min j) (hd h j) (hd h k)) by (intros; apply Ho; auto; lia).
  unfold has_parent. destruct (Nat.ltb_spec 0 i) as [Hi|Hi]; cbn [andb].
  2:{ apply up_loop_ok; auto; try lia. intros j k Ha Hk Hex. apply Pre; auto. pose proof (anc_lt Ha). lia. }
  pose proof (parent_lt Hi) as Hp. set (p := parent i) in *. pose proof (is_min_parent Hi) as Ep. fold p in Ep.
  destruct (Bool.eqb (hless h p i) (is_min i)) eqn:E.
  - apply better_true in E. fold (hd h p) (hd h i) in E. apply up_loop_ok; [rewrite hlen_swap; lia|lia|lia|auto|].
    intros j k Ha Hk Hex. pose proof (anc_lt Ha). rewrite !hd_swap by lia. unfold sw.
    destruct (Nat.eqb_spec j p) as [->|Njp]; [|destruct (Nat.eqb_spec j i); [lia|]].
    + destruct (Nat.eqb_spec k p); [lia|]. assert (X : ok (is_min p) (hd h i) (hd h p)) by (rewrite Ep, ok_neg; exact E).
      destruct (Nat.eqb_spec k i) as [->|Nki]; [exact X|]. apply ok_trans with (hd h p); auto.
    + destruct (Nat.eqb_spec k p) as [->|Nkp].
      * assert (Hne : is_min j <> is_min p) by tauto. assert (Ej : is_min j = is_min i) by (rewrite Ep in Hne; destruct (is_min j), (is_min i); cbn in Hne; congruence).
        rewrite Ej. apply ok_trans with (hd h p); auto. rewrite <- Ej. apply Pre; auto; lia.
      * destruct (Nat.eqb_spec k i) as [->|Nki]; [|apply Pre; auto]. destruct (anc_inv Ha) as [_ [->|Ha']]; [fold p in Njp; congruence|]. fold p in Ha'. apply Pre; auto; lia.
  - apply better_false in E. fold (hd h p) (hd h i) in E. apply up_loop_ok; auto; [lia|].
    intros j k Ha Hk Hex. destruct (Nat.eq_dec k i) as [->|Nki]; [|apply Pre; auto].
    assert (Ej : is_min j = is_min p) by (rewrite Ep; destruct (is_min j), (is_min i); cbn in *; tauto).
    assert (X : ok (is_min p) (hd h p) (hd h i)) by (rewrite Ep, ok_neg; exact E).
    destruct (anc_inv Ha) as [_ [->|Ha']]; [exact X|]. fold p in Ha'. rewrite Ej. apply ok_trans with (hd h p); auto. rewrite <- Ej. apply Pre; auto; lia.
Qed.
(** on an ordered heap up only moves equal distances *)
Lemma up_loop_id fuel mn n : forall h i, n <= hlen h -> i < n -> is_min i = mn -> ordered (hd h) n -> forall k, hd (up_loop fuel mn h i) k = hd h k.
Proof.
  induction fuel as [|fuel IH]; intros h i Hn Hi Hmn Ho k; cbn [up_loop]; auto.
  unfold has_grandparent. destruct (Nat.ltb_spec 2 i) as [H2|H2]; auto. destruct (grand_facts H2) as (_ & Agi & _ & _ & Eg & Hlt). set (g := grandparent i) in *.
  destruct (Bool.eqb (hless h i g) mn) eqn:E; cbn [negb]; auto. fold (hd h i) (hd h g) in E.
  assert (X : hd h i = hd h g).
  { pose proof (Ho _ _ Agi Hi) as Hok. rewrite Eg, Hmn in Hok. unfold hless in E. fold (hd h i) (hd h g) in E. apply eqb_prop in E. unfold ok in Hok. destruct mn; lia. }
  assert (Y : forall k, hd (hswap h i g) k = hd h k).
  { intros q. rewrite hd_swap by lia. unfold sw. destruct (Nat.eqb_spec q g) as [->|]; auto. destruct (Nat.eqb_spec q i) as [->|]; auto. }
  rewrite IH; [apply Y|rewrite hlen_swap; lia|lia|congruence|]. intros a b Ha Hb. rewrite !Y. auto.
Qed.
Lemma up_id h i n : n <= hlen h -> i < n -> ordered (hd h) n -> forall k, hd (up h i) k = hd h k.
Proof.
  intros Hn Hi Ho k. unfold up. unfold has_parent. destruct (Nat.ltb_spec 0 i) as [H0|H0]; cbn [andb]; [|eapply up_loop_id; eauto].
  pose proof (parent_lt H0) as Hp. pose proof (is_min_parent H0) as Ep. set (p := parent i) in *.
  destruct (Bool.eqb (hless h p i) (is_min i)) eqn:E; [|eapply up_loop_id; eauto].
  assert (X : hd h i = hd h p).
  { assert (Ap : anc p i) by (apply anc_p; auto). pose proof (Ho _ _ Ap Hi) as Hok. rewrite Ep in Hok. unfold hless in E. fold (hd h i) (hd h p) in E. apply eqb_prop in E. unfold ok in Hok. destruct (is_min i); cbn [negb] in Hok; lia. }
  assert (Y : forall k, hd (hswap h i p) k = hd h k).
  { intros q. rewrite hd_swap by lia. unfold sw. destruct (Nat.eqb_spec q p) as [->|]; auto. destruct (Nat.eqb_spec q i) as [->|]; auto. }
  rewrite up_loop_id with (n := n); [apply Y|rewrite hlen_swap; lia|lia|auto|]. intros a b Ha Hb. rewrite !Y. auto.
Qed.

(** * The operations *)
Definition heap_ok (h : heap) : Prop := wf h /\ ordered (hd h) (hlen h).
Lemma ordered_min d n k : ordered d n -> k < n -> (d 0%nat <= d k)%Z.
Proof.
  intros H. induction k as [k IH] using (well_founded_induction lt_wf). intros Hk. destruct (Nat.eq_dec k 0) as [->|N0]; [lia|].
  assert (A : anc 0 k).
  { clear - N0. induction k as [k IH] using (well_founded_induction lt_wf). assert (P : 0 < k) by lia. pose proof (parent_lt P). destruct (Nat.eq_dec (parent k) 0) as [E|E]; [rewrite <- E; apply anc_p; auto|apply anc_s; auto]. }
  specialize (H _ _ A Hk). exact H.
Qed.
Lemma max_pos_ok h k : ordered (hd h) (hlen h) -> k < hlen h -> max_pos h < hlen h /\ (hd h k <= hd h (max_pos h))%Z.
Proof.
  intros Ho Hk. unfold max_pos. assert (M : forall i, i < hlen h -> (hd h 0%nat <= hd h i)%Z) by (intros; eapply ordered_min; eauto).
  assert (B : k = 0 \/ k = 1 \/ k = 2 \/ anc 1 k \/ anc 2 k).
  { clear. induction k as [k IH] using (well_founded_induction lt_wf). destruct (Nat.eq_dec k 0); auto. destruct (Nat.eq_dec k 1); auto. destruct (Nat.eq_dec k 2); auto.
    assert (P : 0 < k) by lia. pose proof (parent_lt P) as Hlt. specialize (IH _ Hlt).
    assert (Q : 0 < parent k) by (unfold parent; pose proof (half (k - 1)); lia). destruct IH as [E|[E|[E|[E|E]]]]; [lia| | | |].
    - right. right. right. left. rewrite <- E. apply anc_p; auto.
    - right. right. right. right. rewrite <- E. apply anc_p; auto.
    - right. right. right. left. apply anc_s; auto.
    - right. right. right. right. apply anc_s; auto. }
  assert (O1 : anc 1 k -> (hd h k <= hd h 1%nat)%Z) by (intros A; apply (Ho _ _ A Hk)).
  assert (O2 : anc 2 k -> (hd h k <= hd h 2%nat)%Z) by (intros A; apply (Ho _ _ A Hk)).
  assert (L1 : anc 1 k -> 1 < k) by apply anc_lt. assert (L2 : anc 2 k -> 2 < k) by apply anc_lt.
  unfold hless. fold (hd h). change (lchild 0) with 1. change (rchild 0) with 2. pose proof (M k Hk) as Mk.
  fold (hd h 1) (hd h 0) (hd h 2).
  destruct (Nat.ltb_spec 1 (hlen h)) as [H1|H1]; cbn [andb].
  - pose proof (M 1 H1). destruct (Z.ltb_spec (hd h 1) (hd h 0)); cbn [negb]; [lia|]. fold (hd h 1).
    destruct (Nat.ltb_spec 2 (hlen h)) as [H2|H2]; cbn [andb].
    + pose proof (M 2 H2). destruct (Z.ltb_spec (hd h 2) (hd h 1)); cbn [negb]; (split; [lia|]); destruct B as [->|[->|[->|[B|B]]]]; try lia.
    + split; [lia|]. assert (k = 0 \/ k = 1) as [->| ->] by lia; lia.
  - destruct (Nat.ltb_spec 2 (hlen h)); [lia|]. cbn [andb]. split; [lia|]. assert (k = 0) as -> by lia. lia.
Qed.
Lemma hd_ext_ordered d d' n : (forall k, k < n -> d k = d' k) -> ordered d n -> ordered d' n.
Proof. intros E H j k Ha Hk. pose proof (anc_lt Ha). rewrite <- !E by lia. auto. Qed.
Lemma perm_of_in h h' : wf h -> wf h' -> (forall x, In x (items h') <-> In x (items h)) -> Permutation (items h') (items h).
Proof. intros H H' E. apply NoDup_Permutation; auto; eapply NoDup_map_inv; apply wf_nodup; eauto. Qed.
(** dropping the last item *)
Lemma firstn_hitem h v k : k < hlen h - 1 -> hitem (HP (firstn (hlen h - 1) (items h)) v) k = hitem h k.
Proof. intros H. unfold hitem. cbn [items]. rewrite <- (firstn_skipn (hlen h - 1) (items h)) at 2. rewrite app_nth1; auto. rewrite firstn_length. unfold hlen in *. lia. Qed.
Lemma hpop_ok h : wf h -> 0 < hlen h -> ordered (hd h) (hlen h - 1) ->
  heap_ok (snd (hpop h)) /\ hlen (snd (hpop h)) = hlen h - 1 /\ Permutation (items h) (fst (hpop h) :: items (snd (hpop h))) /\ fst (hpop h) = hitem h (hlen h - 1).
Proof.
  intros Hw H0 Ho. unfold hpop. cbn [fst snd]. set (x := hitem h (hlen h - 1)).
  assert (L : hlen (HP (firstn (hlen h - 1) (items h)) (set_v (visited h) (fst x) None)) = hlen h - 1) by (unfold hlen; cbn [items]; rewrite firstn_length; lia).
  split; [split|split; [auto|split; auto]].
  - intros id k. rewrite L. cbn [visited]. unfold set_v. split.
    + destruct (Z.eqb_spec id (fst x)); [discriminate|]. intros E. apply Hw in E. destruct E as [E1 E2]. assert (k <> hlen h - 1) by (intros ->; unfold x in *; congruence). split; [lia|]. rewrite firstn_hitem by lia. auto.
    + intros [Hk E]. rewrite firstn_hitem in E by lia. destruct (Z.eqb_spec id (fst x)) as [->|N].
      * exfalso. assert (k = hlen h - 1); [|lia]. eapply wf_unique; eauto; lia.
      * apply Hw. split; auto; lia.
  - rewrite L. eapply hd_ext_ordered; [|exact Ho]. intros k Hk. unfold hd. rewrite firstn_hitem by auto. auto.
  - cbn [items]. rewrite <- (firstn_skipn (hlen h - 1) (items h)) at 1. assert (E : skipn (hlen h - 1) (items h) = [x]).
    { unfold x, hitem, hlen in *. destruct (items h) as [|a l] eqn:El using rev_ind; [cbn in H0; lia|]. clear IHl.
      rewrite app_length. cbn [length]. replace (length l + 1 - 1) with (length l) by lia. rewrite skipn_app, skipn_all, Nat.sub_diag. cbn. rewrite app_nth2, Nat.sub_diag by lia. reflexivity. }
    rewrite E. apply Permutation_app_comm with (l' := [x]).
Qed.
Lemma ord_but_swap_last h i n : n = hlen h - 1 -> 0 < hlen h -> i <= n -> ordered (hd h) (hlen h) -> (forall j, anc j i -> forall k, k < hlen h -> ok (is_min j) (hd h j) (hd h k)) -> ord_but (hd (hswap h i n)) n i.
Proof.
  intros En H0 Hi Ho Hanc j k Ha Hk Hj. pose proof (anc_lt Ha). rewrite !hd_swap by lia. unfold sw.
  destruct (Nat.eqb_spec j n); [lia|]. destruct (Nat.eqb_spec j i); [lia|]. destruct (Nat.eqb_spec k n); [lia|].
  destruct (Nat.eqb_spec k i) as [->|]; [apply Hanc; auto; lia|]. apply Ho; auto. lia.
Qed.
Lemma pop_at h i : heap_ok h -> i < hlen h -> (forall j, anc j i -> forall k, k < hlen h -> ok (is_min j) (hd h j) (hd h k)) ->
  exists h', (let '(h1, _) := down (hswap h i (hlen h - 1)) i (hlen h - 1) in Some (hpop h1)) = Some (hitem h i, h') /\
    heap_ok h' /\ Permutation (items h) (hitem h i :: items h').
Proof.
  intros [Hw Ho] Hi Hanc. set (n := hlen h - 1). assert (S0 : same (hlen h) h (hswap h i n)) by (apply same_swap; auto; lia). destruct S0 as (W0 & L0 & I0 & _).
  assert (Hlast : hitem (hswap h i n) n = hitem h i) by (rewrite hitem_swap by lia; rewrite Nat.eqb_refl; auto).
  unfold down. destruct (Nat.eq_dec i n) as [Ein|Nin].
  - (* the last item itself *)
    assert (Hd : down_loop n (is_min i) (hswap h i n) i n = (hswap h i n, i)).
    { destruct n as [|n']; [reflexivity|]. cbn [down_loop]. destruct (Nat.leb_spec (S n') (lchild i)); auto. unfold lchild in *. lia. }
    rewrite Hd. assert (On : ordered (hd (hswap h i n)) (hlen (hswap h i n) - 1)).
    { rewrite L0. fold n. intros j k Ha Hk. pose proof (anc_lt Ha). rewrite !hd_swap by lia. unfold sw. destruct (Nat.eqb_spec j n); [lia|]. destruct (Nat.eqb_spec j i); [lia|]. destruct (Nat.eqb_spec k n); [lia|]. destruct (Nat.eqb_spec k i); [lia|]. apply Ho; auto; lia. }
    destruct (hpop_ok W0 ltac:(lia) On) as (A & B & C & D). rewrite L0 in D. fold n in D. rewrite Hlast in D.
    exists (snd (hpop (hswap h i n))). split; [rewrite <- D; f_equal; apply surjective_pairing|]. split; auto. rewrite <- D. rewrite <- C. apply Permutation_sym. apply perm_of_in; auto.
  - pose proof (@down_loop_same n (is_min i) n (hswap h i n) i W0) as Hs. pose proof (@down_loop_ok n (is_min i) n (hswap h i n) i) as Hok.
    destruct (down_loop n (is_min i) (hswap h i n) i n) as [h1 i1]. cbn [fst] in Hok. destruct Hs as [(W1 & L1 & I1 & K1) _]; [lia|lia|].
    assert (On : ordered (hd h1) (hlen h1 - 1)).
    { rewrite L1, L0. fold n. apply Hok; auto; [lia|lia|]. apply ord_but_swap_last; auto; lia. }
    destruct (hpop_ok W1 ltac:(lia) On) as (A & B & C & D). rewrite L1, L0 in D. fold n in D. rewrite K1, Hlast in D by lia.
    exists (snd (hpop h1)). split; [rewrite <- D; f_equal; apply surjective_pairing|]. split; auto. rewrite <- D, <- C. apply Permutation_sym. apply perm_of_in; auto. intros x. rewrite I1. apply I0.
Qed.
Lemma pop_min_ok h : heap_ok h -> 0 < hlen h -> exists h', pop_min h = Some (hitem h 0, h') /\ heap_ok h' /\ Permutation (items h) (hitem h 0 :: items h').
Proof.
  intros H H0. unfold pop_min. destruct (Nat.eqb_spec (hlen h) 0); [lia|]. apply pop_at; auto. intros j Ha. apply anc_lt in Ha. lia.
Qed.
Lemma pop_max_ok h : heap_ok h -> 0 < hlen h -> exists h', pop_max h = Some (hitem h (max_pos h), h') /\ heap_ok h' /\ Permutation (items h) (hitem h (max_pos h) :: items h').
Proof.
  intros H H0. unfold pop_max. destruct (Nat.eqb_spec (hlen h) 0); [lia|]. destruct H as [Hw Ho]. pose proof (max_pos_ok Ho H0) as [Hm _]. apply pop_at; [split; auto|auto|].
  assert (C : max_pos h = 0 \/ max_pos h = 1 \/ max_pos h = 2).
  { unfold max_pos. destruct (_ && _); [auto|]. destruct (_ && _); auto. }
  intros j Ha k Hk. assert (j = 0) as ->.
  { destruct (anc_inv Ha) as [P [E|E]]; destruct C as [C|[C|C]]; rewrite C in *; try lia; try (cbn in E; lia); apply anc_lt in E; cbn in E; lia. }
  cbn. apply ordered_min with (n := hlen h); auto.
Qed.
Lemma push_ok h id dist : heap_ok h -> ~ In id (map fst (items h)) -> heap_ok (hinsert h id dist) /\ Permutation (items (hinsert h id dist)) ((id, dist) :: items h).
Proof.
  intros [Hw Ho] Hid. unfold hinsert. destruct (visited h id) as [k|] eqn:Ev.
  { exfalso. apply Hw in Ev. destruct Ev as [E1 E2]. apply Hid. rewrite <- E2. apply in_map. apply nth_In. auto. }
  unfold hpush. cbn [items visited]. set (h1 := HP (items h ++ [(id, dist)]) (set_v (visited h) id (Some (hlen (HP (items h ++ [(id, dist)]) (visited h)) - 1)))).
  assert (L1 : hlen h1 = S (hlen h)) by (unfold h1, hlen; cbn [items]; rewrite app_length; cbn; lia).
  assert (I1 : forall k, k < hlen h -> hitem h1 k = hitem h k) by (intros k Hk; unfold hitem, h1; cbn [items]; apply app_nth1; auto).
  assert (I2 : hitem h1 (hlen h) = (id, dist)) by (unfold hitem, h1; cbn [items]; unfold hlen; rewrite app_nth2, Nat.sub_diag by lia; auto).
  assert (W1 : wf h1).
  { intros i k. rewrite L1. unfold h1 at 1. cbn [visited]. unfold set_v, hlen at 1. cbn [items]. rewrite app_length. cbn [length]. replace (length (items h) + 1 - 1) with (hlen h) by (unfold hlen; lia). split.
    - destruct (Z.eqb_spec i id) as [->|N]; [intros E; injection E as <-; rewrite I2; auto|]. intros E. apply Hw in E. destruct E as [E1 E2]. rewrite I1 by auto. split; auto; lia.
    - intros [Hk E]. destruct (Nat.eq_dec k (hlen h)) as [->|Nk].
      + rewrite I2 in E. cbn in E. subst i. rewrite Z.eqb_refl. auto.
      + rewrite I1 in E by lia. destruct (Z.eqb_spec i id) as [->|N]; [|apply Hw; split; auto; lia]. exfalso. apply Hid. rewrite <- E. apply in_map. apply nth_In. unfold hlen in *. lia. }
  assert (S1 : same (hlen h1) h1 (up h1 (hlen h1 - 1))) by (apply up_same; auto; lia). destruct S1 as (W2 & L2 & E2 & _).
  assert (Ho1 : ordered (hd h1) (hlen h1 - 1)).
  { rewrite L1. replace (S (hlen h) - 1) with (hlen h) by lia. eapply hd_ext_ordered; [|exact Ho]. intros k Hk. unfold hd. rewrite I1 by auto. auto. }
  change (heap_ok (up h1 (hlen h1 - 1)) /\ Permutation (items (up h1 (hlen h1 - 1))) ((id, dist) :: items h)).
  split; [split; auto; rewrite L2; apply up_ok; auto; lia|].
  eapply Permutation_trans; [apply perm_of_in; [exact W1|exact W2|exact E2]|]. unfold h1. cbn [items]. apply Permutation_app_comm.
Qed.
(** changing the distance of an item *)
Definition set_dist (h : heap) (i : nat) (dist : Z) : heap := HP (lset (items h) i (fst (hitem h i), dist)) (visited h).
Lemma set_dist_wf h i dist : wf h -> i < hlen h -> wf (set_dist h i dist) /\ hlen (set_dist h i dist) = hlen h /\ forall k, hitem (set_dist h i dist) k = if k =? i then (fst (hitem h i), dist) else hitem h k.
Proof.
  intros Hw Hi. assert (L : hlen (set_dist h i dist) = hlen h) by (unfold hlen, set_dist; cbn [items]; apply length_lset; auto).
  assert (I : forall k, hitem (set_dist h i dist) k = if k =? i then (fst (hitem h i), dist) else hitem h k) by (intros k; unfold set_dist; rewrite hitem_lset by auto; auto).
  split; [|auto]. intros id k. rewrite L, I. cbn [set_dist visited]. rewrite (Hw id k). destruct (Nat.eqb_spec k i) as [->|]; cbn [fst]; tauto.
Qed.
Lemma fix_same h i n : wf h -> n = hlen h -> i < n -> same n h (fix_ h i).
Proof.
  intros Hw -> Hi. unfold fix_, down. pose proof (@down_loop_same (hlen h) (is_min i) (hlen h) h i Hw (le_n _) Hi) as Hs.
  destruct (down_loop _ _ _ _ _) as [h1 i1]. destruct Hs as [Hs _]. destruct (i <? i1); auto. eapply same_trans; [exact Hs|]. destruct Hs as (W & L & _). apply up_same; auto; lia.
Qed.
Lemma fix_ok h i : wf h -> i < hlen h -> ord_but (hd h) (hlen h) i -> ordered (hd (fix_ h i)) (hlen h).
Proof.
  intros Hw Hi Ho. unfold fix_, down. pose proof (@down_loop_same (hlen h) (is_min i) (hlen h) h i Hw (le_n _) Hi) as Hs.
  pose proof (@down_loop_ok (hlen h) (is_min i) (hlen h) h i (le_n _) ltac:(lia) eq_refl Ho) as Hok.
  destruct (down_loop _ _ _ _ _) as [h1 i1]. cbn [fst] in Hok. destruct Hs as [(W & L & _) _]. destruct (i <? i1); auto.
  eapply hd_ext_ordered; [|exact Hok]. intros k _. symmetry. apply up_id with (n := hlen h); auto; lia.
Qed.
