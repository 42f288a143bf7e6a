(** Keys of an index and their order: pkg/pointer/*.go, src/bptree/bptree.ts. *)
From Verif Require Import Base.
From Coq Require Export Sorted.

(** ** Model *)

(** MemoryPointer: pkg/pointer/pointer.go:6-9 *)
Record mptr := MP { mp_off : Z; mp_len : Z }.
(** ReferencedValue: pkg/pointer/referenced_value.go:9-20 *)
Record rv := RV { rv_dp : mptr; rv_val : bytes }.

(** bytes.Compare (Go standard library) *)
Fixpoint bytes_cmp (a b : bytes) : Z :=
  match a, b with
  | [], [] => 0
  | [], _ :: _ => -1
  | _ :: _, [] => 1
  | x :: a', y :: b' => if x <? y then -1 else if y <? x then 1 else bytes_cmp a' b'
  end.

(** CompareReferencedValues: pkg/pointer/referenced_value.go:35-48 *)
Definition rv_cmp (a b : rv) : Z :=
  let c := bytes_cmp (rv_val a) (rv_val b) in
  if negb (c =? 0) then c
  else if mp_off (rv_dp a) <? mp_off (rv_dp b) then -1
  else if mp_off (rv_dp b) <? mp_off (rv_dp a) then 1
  else if mp_len (rv_dp a) <? mp_len (rv_dp b) then -1
  else if mp_len (rv_dp b) <? mp_len (rv_dp a) then 1
  else 0.

(** ReferencedValue.compareBytes: src/bptree/bptree.ts:216-234; the loop runs
    over the first min(a.length, b.length) bytes, then lengths are compared *)
Fixpoint ts_first_diff (a b : bytes) : option Z :=
  match a, b with
  | x :: a', y :: b' =>
      if negb (x =? y) then Some (if x <? y then -1 else 1) else ts_first_diff a' b'
  | _, _ => None
  end.
(** ReferencedValue.compareBytes: src/bptree/bptree.ts:216-235 *)
Definition ts_compare_bytes (a b : bytes) : Z :=
  match ts_first_diff a b with
  | Some c => c
  | None => if zlen a <? zlen b then -1 else if zlen b <? zlen a then 1 else 0
  end.
(** compareReferencedValues: src/bptree/bptree.ts:237-259 *)
Definition ts_rv_cmp (a b : rv) : Z :=
  let c := ts_compare_bytes (rv_val a) (rv_val b) in
  if negb (c =? 0) then c
  else if mp_off (rv_dp b) <? mp_off (rv_dp a) then 1
  else if mp_off (rv_dp a) <? mp_off (rv_dp b) then -1
  else if mp_len (rv_dp b) <? mp_len (rv_dp a) then 1
  else if mp_len (rv_dp a) <? mp_len (rv_dp b) then -1
  else 0.

(** slices.BinarySearchFunc (Go standard library), used in
    pkg/bptree/bptree.go:227,288. Fuel: the interval shrinks every round.
    [x[h]] is always in range; the [None] case is unreachable. *)
Fixpoint bs_loop {A} (cmp : A -> A -> Z) (fuel : nat) (xs : list A) (k : A) (i j : nat) : nat :=
  match fuel with
  | O => i
  | S fuel' =>
      if (i <? j)%nat then
        let h := Nat.div (i + j) 2 in
        match nth_error xs h with
        | Some x => if cmp x k <? 0 then bs_loop cmp fuel' xs k (S h) j
                    else bs_loop cmp fuel' xs k i h
        | None => i
        end
      else i
  end.
Definition bsearch_by {A} (cmp : A -> A -> Z) (xs : list A) (k : A) : nat * bool :=
  let i := bs_loop cmp (length xs) xs k 0 (length xs) in
  (i, match nth_error xs i with Some x => cmp x k =? 0 | None => false end).
(** slices.BinarySearchFunc(keys, key, CompareReferencedValues): pkg/bptree/bptree.go:225-250 *)
Definition bsearch (xs : list rv) (k : rv) : nat * bool := bsearch_by rv_cmp xs k.
(** binarySearchReferencedValues: src/bptree/bptree.ts:261-281 (the same loop
    with the TypeScript comparison) *)
Definition ts_bsearch (xs : list rv) (k : rv) : nat * bool := bsearch_by ts_rv_cmp xs k.

(** ** Specification vocabulary *)
Definition rlt (a b : rv) : Prop := rv_cmp a b < 0.
Definition rle (a b : rv) : Prop := rv_cmp a b <= 0.
Definition sorted (l : list rv) : Prop := StronglySorted rlt l.
(** number of keys of [l] below [k] *)
Definition lb (l : list rv) (k : rv) : nat := length (filter (fun x => rv_cmp x k <? 0) l).

(** ** Proofs *)
Lemma bytes_cmp_vals a b : bytes_cmp a b = -1 \/ bytes_cmp a b = 0 \/ bytes_cmp a b = 1.
Proof.
  revert b; induction a as [|x a IH]; intros [|y b]; cbn [bytes_cmp]; auto.
  destruct (Z.ltb_spec x y); auto. destruct (Z.ltb_spec y x); auto.
Qed.
Lemma bytes_cmp_eq a b : bytes_cmp a b = 0 <-> a = b.
Proof.
  revert b; induction a as [|x a IH]; intros [|y b]; cbn [bytes_cmp]; split; try discriminate; auto; try congruence.
  - destruct (Z.ltb_spec x y); [discriminate|]. destruct (Z.ltb_spec y x); [discriminate|].
    intros H1. apply IH in H1. subst. f_equal. lia.
  - intros E; injection E as -> ->. rewrite Z.ltb_irrefl. apply IH; reflexivity.
Qed.
Lemma bytes_cmp_refl a : bytes_cmp a a = 0.
Proof. apply bytes_cmp_eq; reflexivity. Qed.
Lemma bytes_cmp_anti a b : bytes_cmp b a = - bytes_cmp a b.
Proof.
  revert b; induction a as [|x a IH]; intros [|y b]; cbn [bytes_cmp]; auto.
  destruct (Z.ltb_spec x y); destruct (Z.ltb_spec y x); auto; lia.
Qed.
Lemma bytes_cmp_trans a b c : bytes_cmp a b < 0 -> bytes_cmp b c < 0 -> bytes_cmp a c < 0.
Proof.
  revert b c; induction a as [|x a IH]; intros [|y b] [|z c]; cbn [bytes_cmp]; try lia.
  destruct (Z.ltb_spec x y), (Z.ltb_spec y x), (Z.ltb_spec y z), (Z.ltb_spec z y),
    (Z.ltb_spec x z), (Z.ltb_spec z x); try lia. apply IH.
Qed.

Lemma rv_cmp_vals a b : rv_cmp a b = -1 \/ rv_cmp a b = 0 \/ rv_cmp a b = 1.
Proof.
  unfold rv_cmp. destruct (bytes_cmp_vals (rv_val a) (rv_val b)) as [-> | [-> | ->]]; cbn [Z.eqb negb]; auto.
  destruct (Z.ltb _ _); auto. destruct (Z.ltb _ _); auto. destruct (Z.ltb _ _); auto. destruct (Z.ltb _ _); auto.
Qed.
Lemma rv_cmp_eq a b : rv_cmp a b = 0 <-> a = b.
Proof.
  unfold rv_cmp. destruct a as [[ao al] av], b as [[bo bl] bv]; cbn [rv_val rv_dp mp_off mp_len].
  split.
  - destruct (Z.eqb_spec (bytes_cmp av bv) 0) as [E|E]; cbn [negb]; [|lia].
    apply bytes_cmp_eq in E. subst bv.
    destruct (Z.ltb_spec ao bo); [lia|]. destruct (Z.ltb_spec bo ao); [lia|].
    destruct (Z.ltb_spec al bl); [lia|]. destruct (Z.ltb_spec bl al); [lia|].
    intros _. repeat f_equal; lia.
  - intros E; injection E as -> -> ->. rewrite bytes_cmp_refl. cbn [Z.eqb negb].
    rewrite !Z.ltb_irrefl. reflexivity.
Qed.
Lemma rv_cmp_refl a : rv_cmp a a = 0.
Proof. apply rv_cmp_eq; reflexivity. Qed.
Lemma rv_cmp_anti a b : rv_cmp b a = - rv_cmp a b.
Proof.
  unfold rv_cmp. rewrite (bytes_cmp_anti (rv_val a) (rv_val b)).
  destruct (bytes_cmp_vals (rv_val a) (rv_val b)) as [-> | [-> | ->]]; cbn [Z.eqb Z.opp negb]; auto.
  destruct (Z.ltb_spec (mp_off (rv_dp a)) (mp_off (rv_dp b))), (Z.ltb_spec (mp_off (rv_dp b)) (mp_off (rv_dp a))); auto; try lia.
  destruct (Z.ltb_spec (mp_len (rv_dp a)) (mp_len (rv_dp b))), (Z.ltb_spec (mp_len (rv_dp b)) (mp_len (rv_dp a))); auto; lia.
Qed.
Lemma rlt_trans a b c : rlt a b -> rlt b c -> rlt a c.
Proof.
  unfold rlt, rv_cmp. destruct a as [[ao al] av], b as [[bo bl] bv], c as [[co cl] cv]; cbn [rv_val rv_dp mp_off mp_len].
  destruct (Z.eqb_spec (bytes_cmp av bv) 0) as [E1|E1]; destruct (Z.eqb_spec (bytes_cmp bv cv) 0) as [E2|E2]; cbn [negb].
  - apply bytes_cmp_eq in E1, E2. subst. rewrite bytes_cmp_refl; cbn [Z.eqb negb].
    destruct (Z.ltb_spec ao bo), (Z.ltb_spec bo ao), (Z.ltb_spec bo co), (Z.ltb_spec co bo), (Z.ltb_spec ao co), (Z.ltb_spec co ao); try lia.
    destruct (Z.ltb_spec al bl), (Z.ltb_spec bl al), (Z.ltb_spec bl cl), (Z.ltb_spec cl bl), (Z.ltb_spec al cl), (Z.ltb_spec cl al); lia.
  - apply bytes_cmp_eq in E1. subst. intros _ H. destruct (Z.eqb_spec (bytes_cmp bv cv) 0); cbn [negb]; lia.
  - apply bytes_cmp_eq in E2. subst. intros H _. destruct (Z.eqb_spec (bytes_cmp av cv) 0); cbn [negb]; lia.
  - intros H1 H2. pose proof (bytes_cmp_trans _ _ _ H1 H2). destruct (Z.eqb_spec (bytes_cmp av cv) 0); cbn [negb]; lia.
Qed.
Lemma rlt_irrefl a : ~ rlt a a.
Proof. unfold rlt; rewrite rv_cmp_refl; lia. Qed.
Lemma rle_iff a b : rle a b <-> rlt a b \/ a = b.
Proof. unfold rle, rlt. rewrite <- rv_cmp_eq. lia. Qed.
Lemma rle_refl a : rle a a.
Proof. apply rle_iff; auto. Qed.
Lemma rle_trans a b c : rle a b -> rle b c -> rle a c.
Proof. rewrite !rle_iff. intros [H1| ->] [H2| ->]; auto. left; eapply rlt_trans; eauto. Qed.
Lemma rlt_rle a b : rlt a b -> rle a b.
Proof. rewrite rle_iff; auto. Qed.
Lemma rlt_rle_trans a b c : rlt a b -> rle b c -> rlt a c.
Proof. rewrite rle_iff. intros H1 [H2| ->]; auto. eapply rlt_trans; eauto. Qed.
Lemma rle_rlt_trans a b c : rle a b -> rlt b c -> rlt a c.
Proof. rewrite rle_iff. intros [H1| ->] H2; auto. eapply rlt_trans; eauto. Qed.
Lemma rle_not_rlt a b : rle a b <-> ~ rlt b a.
Proof. unfold rle, rlt. rewrite (rv_cmp_anti a b). lia. Qed.
Lemma rlt_not_rle a b : rlt a b <-> ~ rle b a.
Proof. unfold rle, rlt. rewrite (rv_cmp_anti a b). lia. Qed.
Lemma rlt_total a b : rlt a b \/ a = b \/ rlt b a.
Proof. unfold rlt. rewrite <- rv_cmp_eq, (rv_cmp_anti a b). lia. Qed.
Lemma rv_eq_dec (a b : rv) : {a = b} + {a <> b}.
Proof. destruct (Z.eq_dec (rv_cmp a b) 0) as [E|E]; [left; apply rv_cmp_eq; auto | right; intros H; apply E, rv_cmp_eq; auto]. Qed.

Lemma ts_compare_bytes_eq a b : ts_compare_bytes a b = bytes_cmp a b.
Proof.
  unfold ts_compare_bytes. revert b; induction a as [|x a IH]; intros [|y b]; cbn [ts_first_diff bytes_cmp].
  - reflexivity.
  - rewrite zlen_cons. change (zlen (@nil Z)) with 0. pose proof (zlen_nonneg b).
    destruct (Z.ltb_spec 0 (1 + zlen b)); [reflexivity|lia].
  - rewrite zlen_cons. change (zlen (@nil Z)) with 0. pose proof (zlen_nonneg a).
    destruct (Z.ltb_spec (1 + zlen a) 0); [lia|]. destruct (Z.ltb_spec 0 (1 + zlen a)); [reflexivity|lia].
  - destruct (Z.eqb_spec x y) as [->|E]; cbn [negb].
    + rewrite Z.ltb_irrefl. rewrite <- IH. rewrite !zlen_cons.
      destruct (ts_first_diff a b); auto.
      destruct (Z.ltb_spec (1 + zlen a) (1 + zlen b)), (Z.ltb_spec (zlen a) (zlen b)); auto; try lia.
      destruct (Z.ltb_spec (1 + zlen b) (1 + zlen a)), (Z.ltb_spec (zlen b) (zlen a)); auto; lia.
    + destruct (Z.ltb_spec x y); auto. destruct (Z.ltb_spec y x); auto. lia.
Qed.
Lemma ts_rv_cmp_eq a b : ts_rv_cmp a b = rv_cmp a b.
Proof.
  unfold ts_rv_cmp, rv_cmp. rewrite ts_compare_bytes_eq.
  destruct (negb (bytes_cmp (rv_val a) (rv_val b) =? 0)); auto.
  destruct (Z.ltb_spec (mp_off (rv_dp a)) (mp_off (rv_dp b))), (Z.ltb_spec (mp_off (rv_dp b)) (mp_off (rv_dp a))); auto; try lia.
  destruct (Z.ltb_spec (mp_len (rv_dp a)) (mp_len (rv_dp b))), (Z.ltb_spec (mp_len (rv_dp b)) (mp_len (rv_dp a))); auto; lia.
Qed.

(** ** Sorted lists and lower bounds *)
Lemma sorted_app l1 l2 : sorted (l1 ++ l2) <->
  sorted l1 /\ sorted l2 /\ (forall a b, In a l1 -> In b l2 -> rlt a b).
Proof.
  unfold sorted. induction l1 as [|x l1 IH]; cbn [app].
  - split; [intros H; repeat split; auto; [constructor | intros a b []] | intros (_ & H & _); auto].
  - split.
    + intros H. inversion H as [|? ? Hs Hf]; subst. apply IH in Hs. destruct Hs as (H1 & H2 & H3).
      rewrite Forall_app in Hf. destruct Hf as [Hf1 Hf2]. rewrite Forall_forall in Hf2.
      repeat split; auto; [constructor; auto|].
      intros a b [<-|Ha] Hb; auto.
    + intros (H1 & H2 & H3). inversion H1 as [|? ? Hs Hf]; subst.
      constructor.
      * apply IH. repeat split; auto. intros; apply H3; auto; right; auto.
      * apply Forall_app; split; auto. apply Forall_forall; intros; apply H3; auto; left; auto.
Qed.
Lemma sorted_cons x l : sorted (x :: l) <-> sorted l /\ (forall b, In b l -> rlt x b).
Proof.
  unfold sorted. split.
  - intros H; inversion H as [|? ? Hs Hf]; subst. rewrite Forall_forall in Hf. auto.
  - intros [H1 H2]; constructor; auto. apply Forall_forall; auto.
Qed.
Lemma sorted_nil : sorted [].
Proof. constructor. Qed.
Lemma sorted_one x : sorted [x].
Proof. repeat constructor. Qed.
Lemma sorted_NoDup l : sorted l -> NoDup l.
Proof.
  induction l as [|x l IH]; intros H; constructor; apply sorted_cons in H; destruct H as [H1 H2]; auto.
  intros Hi. apply (@rlt_irrefl x). auto.
Qed.

Lemma lb_all l k : (forall x, In x l -> rlt x k) -> lb l k = length l.
Proof.
  unfold lb, rlt. induction l as [|x l IH]; intros H; [reflexivity|]. cbn [filter length].
  pose proof (H x (or_introl eq_refl)). destruct (Z.ltb_spec (rv_cmp x k) 0); [|lia].
  cbn [length]. f_equal. apply IH. intros; apply H; right; auto.
Qed.
Lemma lb_none l k : (forall x, In x l -> rle k x) -> lb l k = 0%nat.
Proof.
  unfold lb. induction l as [|x l IH]; intros H; [reflexivity|]. cbn [filter].
  pose proof (H x (or_introl eq_refl)) as Hx. apply rle_not_rlt in Hx. unfold rlt in Hx.
  destruct (Z.ltb_spec (rv_cmp x k) 0); [lia|]. apply IH. intros; apply H; right; auto.
Qed.
Lemma lb_app l1 l2 k : lb (l1 ++ l2) k = (lb l1 k + lb l2 k)%nat.
Proof. unfold lb. rewrite filter_app, app_length. reflexivity. Qed.
Lemma lb_le l k : (lb l k <= length l)%nat.
Proof. unfold lb. induction l as [|x l IH]; cbn [filter length]; [lia|]. destruct (_ <? 0); cbn [length]; lia. Qed.

(** in a sorted list the keys below [k] are exactly the first [lb l k] ones *)
Lemma lb_split l k : sorted l ->
  (forall x, In x (firstn (lb l k) l) -> rlt x k) /\ (forall x, In x (skipn (lb l k) l) -> rle k x).
Proof.
  induction l as [|x l IH]; intros H; [split; intros ? []|].
  apply sorted_cons in H. destruct H as [Hs Hx]. unfold lb; cbn [filter].
  destruct (Z.ltb_spec (rv_cmp x k) 0) as [E|E]; cbn [length].
  - fold (lb l k). destruct (IH Hs) as [H1 H2]. cbn [firstn skipn]. split; auto.
    intros y [<-|Hy]; auto.
  - assert (Hge : rle k x) by (apply rle_not_rlt; unfold rlt; lia).
    assert (E0 : lb l k = 0%nat).
    { apply lb_none. intros y Hy. eapply rle_trans; [exact Hge|]. apply rlt_rle, Hx; auto. }
    unfold lb in E0. rewrite E0. cbn [firstn skipn]. split; [intros ? []|].
    intros y [<-|Hy]; auto. eapply rle_trans; [exact Hge|]. apply rlt_rle, Hx; auto.
Qed.
Lemma lb_nth l k i x : sorted l -> nth_error l i = Some x -> (rlt x k <-> (i < lb l k)%nat).
Proof.
  intros Hs Hi. destruct (lb_split k Hs) as [H1 H2]. split.
  - intros Hx. destruct (Nat.lt_ge_cases i (lb l k)) as [|Hge]; auto. exfalso.
    assert (In x (skipn (lb l k) l)).
    { apply (nth_error_In _ (i - lb l k)). rewrite nth_error_skipn'. replace (lb l k + (i - lb l k))%nat with i by lia. auto. }
    apply H2 in H. apply rle_not_rlt in H. auto.
  - intros Hlt. apply H1. apply (nth_error_In _ i). rewrite nth_error_firstn'.
    destruct (Nat.ltb_spec i (lb l k)); [auto|lia].
Qed.

Lemma bs_loop_spec l k fuel i j : sorted l -> (i <= lb l k <= j)%nat -> (j <= length l)%nat ->
  (j - i <= fuel)%nat -> bs_loop rv_cmp fuel l k i j = lb l k.
Proof.
  intros Hs. revert i j. induction fuel as [|fuel IH]; intros i j Hij Hj Hf; cbn [bs_loop]; [lia|].
  destruct (Nat.ltb_spec i j) as [Hlt|]; [|lia].
  assert (Hh : (i <= (i + j) / 2 < j)%nat).
  { split; [apply Nat.div_le_lower_bound; lia | apply Nat.div_lt_upper_bound; lia]. }
  destruct (nth_error l ((i + j) / 2)) as [x|] eqn:E.
  - pose proof (lb_nth k _ Hs E) as Hn. unfold rlt in Hn.
    destruct (Z.ltb_spec (rv_cmp x k) 0).
    + apply IH; lia.
    + apply IH; lia.
  - apply nth_error_None in E. lia.
Qed.
Lemma bsearch_fst l k : sorted l -> fst (bsearch l k) = lb l k.
Proof. intros. unfold bsearch, bsearch_by; cbn [fst]. pose proof (lb_le l k). apply bs_loop_spec; auto; lia. Qed.
Lemma bsearch_snd l k : sorted l -> snd (bsearch l k) = true <-> In k l.
Proof.
  intros Hs. pose proof (bsearch_fst k Hs) as E. unfold bsearch, bsearch_by in *. cbn [fst snd] in *. rewrite E.
  split.
  - destruct (nth_error l (lb l k)) as [x|] eqn:En; [|discriminate].
    intros Hx. apply Z.eqb_eq, rv_cmp_eq in Hx. subst. eapply nth_error_In; eauto.
  - intros Hi. apply In_nth_error in Hi. destruct Hi as [n Hn].
    pose proof (lb_nth k _ Hs Hn) as H1.
    assert (~ rlt k k) by apply rlt_irrefl.
    assert (Hnl : ~ (n < lb l k)%nat) by tauto.
    assert (Hge : (lb l k <= n)%nat) by lia.
    destruct (Nat.eq_dec n (lb l k)) as [<-|Hne]; [rewrite Hn, rv_cmp_refl; reflexivity|].
    exfalso. destruct (nth_error l (lb l k)) as [y|] eqn:Ey.
    2:{ apply nth_error_None in Ey. assert (n < length l)%nat by (apply nth_error_Some; congruence). lia. }
    pose proof (lb_nth k _ Hs Ey) as H2. assert (Hny : ~ rlt y k) by (rewrite H2; lia).
    apply Hny.
    assert (Hlt : (lb l k < n)%nat) by lia. clear - Hs Hn Ey Hlt.
    remember (lb l k) as m. clear Heqm. revert m n Hn Ey Hlt. induction l as [|z l IH]; intros m n Hn Ey Hlt.
    + destruct n; discriminate.
    + apply sorted_cons in Hs. destruct Hs as [Hs Hz]. destruct n as [|n]; [lia|]. destruct m as [|m]; cbn [nth_error] in *.
      * injection Ey as <-. apply Hz. eapply nth_error_In; eauto.
      * eapply IH; eauto. lia.
Qed.
Lemma bsearch_spec l k : sorted l -> bsearch l k = (lb l k, if in_dec rv_eq_dec k l then true else false).
Proof.
  intros Hs. rewrite (surjective_pairing (bsearch l k)), (bsearch_fst k Hs). f_equal.
  pose proof (bsearch_snd k Hs). destruct (in_dec rv_eq_dec k l); [apply H; auto|].
  destruct (snd (bsearch l k)); auto. exfalso; apply n, H; auto.
Qed.
Lemma bs_loop_ext {A} (c1 c2 : A -> A -> Z) : (forall a b, c1 a b = c2 a b) ->
  forall fuel xs k i j, bs_loop c1 fuel xs k i j = bs_loop c2 fuel xs k i j.
Proof.
  intros H. induction fuel as [|fuel IH]; intros xs k i j; cbn [bs_loop]; auto.
  destruct (_ <? _)%nat; auto. destruct (nth_error _ _); auto. rewrite H.
  destruct (_ <? 0); auto.
Qed.
Lemma ts_bsearch_eq l k : ts_bsearch l k = bsearch l k.
Proof.
  unfold ts_bsearch, bsearch, bsearch_by. rewrite (bs_loop_ext _ _ ts_rv_cmp_eq).
  f_equal. destruct (nth_error _ _); auto. rewrite ts_rv_cmp_eq. reflexivity.
Qed.
