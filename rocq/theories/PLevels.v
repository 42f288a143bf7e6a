(** C93: the levels InsertVector draws. *)
From Coq Require Import Reals Lra.
From Verif Require Import Base Cells Heap PHeap Hnsw HnswInv PHnsw.
Local Open Scope Z_scope.

(** ** Model *)
(** rand.Float64() is a draw k out of 0, ..., 2^53-1, divided by 2^53 (math/rand) *)
Definition uniform (k : Z) : R := (IZR k / IZR (2^53))%R.
(** SpawnLevel(): pkg/hnsw/hnsw.go:64-66, with levelMultiplier = 1/math.Log(float64(M)) of
    NewHnsw, hnsw.go:60. [None] stands for +Inf, which int() turns into the least or the
    greatest int. Simplified: the logarithms, the quotient and the product are those of real
    numbers, without rounding. For M = 1 the multiplier is 1/0 = +Inf; for M = 0 it is
    1/-Inf = -0, so that every product is -0, or NaN for the draw 0. *)
Definition spawn_level (m k : Z) : option Z :=
  if k =? 0 then None
  else if m =? 1 then None
  else if m =? 0 then Some 0
  else Some (Int_part (- ln (uniform k) * (1 / ln (IZR m)))).
Section Draw.
Variables (F : Type) (fzero : F) (fsub fadd fmul : F -> F -> F) (rank : F -> Z).
(** InsertVector(q) with its draw: pkg/hnsw/hnsw.go:187-256. The least int is refused by
    the panic of 197-199; for the greatest, NewFriends (friends.go:18-29) makes a slice of
    negative length, which panics. *)
Definition insert_drawn (h : hnsw F) (q : point F) (k : Z) : res (Z * hnsw F) :=
  if negb (length q =? dim h)%nat then Err (EMsg "invalid vector dimensionality") else
  match spawn_level (bigM h) k with
  | Some l => if l <? 0 then Panic else insert_vector fzero fsub fadd fmul rank h q (Z.to_nat l)
  | None => Panic
  end.
End Draw.

(** ** Specification *)
Definition draw (k : Z) : Prop := 0 <= k < 2^53.
(** the level is l: the draw k/2^53 lies in (M^-(l+1), M^-l] *)
Definition level_of_draw (m k l : Z) : Prop := 0 <= l /\ m^l * k <= 2^53 < m^(l+1) * k.
(** how many of the draws 1, ..., n satisfy a test *)
Fixpoint count (p : Z -> bool) (n : nat) : Z := match n with O => 0 | S n => count p n + (if p (Z.of_nat (S n)) then 1 else 0) end.

(** ** Proofs *)
Lemma lnM_pos m : 2 <= m -> (0 < ln (IZR m))%R.
Proof. intros H. rewrite <- ln_1. apply ln_increasing; [lra|]. apply IZR_lt. lia. Qed.
Lemma spawn_ge m k j : 2 <= m -> 1 <= k -> (IZR (Z.of_nat j) <= - ln (uniform k) * (1 / ln (IZR m)))%R <-> m ^ Z.of_nat j * k <= 2^53.
Proof.
  intros Hm Hk. pose proof (lnM_pos Hm) as HM. assert (Kp : (0 < IZR k)%R) by (apply IZR_lt; lia). assert (Tp : (0 < IZR (2^53))%R) by (apply IZR_lt; lia).
  assert (Mp : (0 < IZR m)%R) by (apply IZR_lt; lia). assert (Pp : (0 < IZR m ^ j)%R) by (apply pow_lt; auto).
  assert (Eu : (- ln (uniform k) = ln (IZR (2^53)) - ln (IZR k))%R).
  { unfold uniform, Rdiv. rewrite ln_mult by (auto; apply Rinv_0_lt_compat; auto). rewrite ln_Rinv by auto. lra. }
  assert (Es : (ln (IZR (m ^ Z.of_nat j * k)) = IZR (Z.of_nat j) * ln (IZR m) + ln (IZR k))%R).
  { rewrite mult_IZR, <- pow_IZR. rewrite ln_mult by auto. rewrite ln_pow by auto. rewrite INR_IZR_INZ. reflexivity. }
  assert (Hp : (0 < IZR (m ^ Z.of_nat j * k))%R) by (rewrite mult_IZR, <- pow_IZR; apply Rmult_lt_0_compat; auto).
  rewrite Eu. set (A := ln (IZR (2^53))) in *. set (B := ln (IZR k)) in *. set (C := ln (IZR m)) in *.
  assert (Eq : (IZR (Z.of_nat j) <= (A - B) * (1 / C) <-> IZR (Z.of_nat j) * C + B <= A)%R).
  { assert (E1 : ((A - B) * (1 / C) * C = A - B)%R) by (field; lra). split; intros H.
    - apply (Rmult_le_compat_r C) in H; [|lra]. lra.
    - apply (Rmult_le_reg_r C); [lra|]. lra. }
  rewrite Eq, <- Es. split; intros H.
  - apply le_IZR. destruct (Rle_or_lt (IZR (m ^ Z.of_nat j * k)) (IZR (2^53))) as [|X]; auto. apply ln_increasing in X; auto. unfold A in H. lra.
  - apply IZR_le in H. destruct H as [H|H]; [left; apply ln_increasing; auto|right; unfold A; congruence].
Qed.
Lemma int_part_ge r j : j <= Int_part r <-> (IZR j <= r)%R.
Proof.
  destruct (base_Int_part r) as [H1 H2]. split; intros H.
  - apply IZR_le in H. lra.
  - assert (X : (IZR j < IZR (Int_part r + 1))%R) by (rewrite plus_IZR; lra). apply lt_IZR in X. lia.
Qed.
(** the level is the one that geometric draws have *)
Lemma spawn_level_ge m k : 2 <= m -> 1 <= k < 2^53 -> exists l, spawn_level m k = Some l /\ 0 <= l /\ forall j, 0 <= j -> (j <= l <-> m^j * k <= 2^53).
Proof.
  intros Hm Hk. unfold spawn_level. destruct (Z.eqb_spec k 0); [lia|]. destruct (Z.eqb_spec m 1); [lia|]. destruct (Z.eqb_spec m 0); [lia|].
  eexists. split; [reflexivity|]. assert (X : forall j, 0 <= j -> (j <= Int_part (- ln (uniform k) * (1 / ln (IZR m))) <-> m^j * k <= 2^53)).
  { intros j Hj. rewrite int_part_ge. rewrite <- (Z2Nat.id j Hj). apply spawn_ge; lia. }
  split; [|exact X]. apply X; [lia|]. rewrite Z.pow_0_r. lia.
Qed.

(** C93: with M of at least 2, every draw but 0 gives the level l of the interval
    (M^-(l+1), M^-l] it lies in, ... *)
Theorem C93_levels_partial m k : 2 <= m -> draw k -> k <> 0 -> exists l, spawn_level m k = Some l /\ level_of_draw m k l /\ forall l', level_of_draw m k l' -> l' = l.
Proof.
  intros Hm [Hk1 Hk2] Hk. destruct (@spawn_level_ge m k Hm ltac:(lia)) as (l & E & Hl & H). exists l. split; auto.
  assert (H1 : m^l * k <= 2^53) by (apply H; lia). assert (H2 : 2^53 < m^(l+1) * k) by (apply Z.nle_gt; intros X; apply H in X; lia).
  split; [split; auto|]. intros l' (Hl' & A & B). apply H in A; auto. apply Z.nle_gt in B. assert (~ l' + 1 <= l); [|lia]. intros X. apply B, H; lia.
Qed.
(** ... of at most 53, which fits the byte Flush writes, ... *)
Theorem C93_levels_below_54_partial m k l : 2 <= m -> draw k -> spawn_level m k = Some l -> 0 <= l <= 53.
Proof.
  intros Hm [Hk1 Hk2] E. destruct (Z.eq_dec k 0) as [->|Hk]; [discriminate|]. destruct (@spawn_level_ge m k Hm ltac:(lia)) as (l' & E' & Hl & H). assert (l' = l) as -> by congruence.
  split; auto. apply Z.nlt_ge. intros X. assert (Y : m^54 * k <= 2^53) by (apply H; lia).
  assert (2^54 <= m^54) by (apply Z.pow_le_mono_l; lia). assert (m^54 * 1 <= m^54 * k) by (apply Z.mul_le_mono_nonneg_l; lia). lia.
Qed.
(** ... and of the nonzero draws, 2^53/M^j rounded down reach level j: a share of M^-j *)
Theorem C93_geometric_partial m j : 2 <= m -> 1 <= j ->
  count (fun k => match spawn_level m k with Some l => j <=? l | None => false end) (Z.to_nat (2^53 - 1)) = 2^53 / m^j.
Proof.
  intros Hm Hj. assert (G : forall n, Z.of_nat n <= 2^53 - 1 -> count (fun k => match spawn_level m k with Some l => j <=? l | None => false end) n = Z.min (Z.of_nat n) (2^53 / m^j)).
  { assert (Hp : 0 < m^j) by (apply Z.pow_pos_nonneg; lia). pose proof (Z.div_pos (2^53) (m^j) ltac:(lia) Hp).
    induction n as [|n IH]; intros Hn; [cbn [count]; lia|]. cbn [count]. rewrite IH by lia. clear IH.
    destruct (@spawn_level_ge m (Z.of_nat (S n)) Hm ltac:(lia)) as (l & E & Hl & H1). rewrite E. specialize (H1 j ltac:(lia)).
    assert (D : m^j * Z.of_nat (S n) <= 2^53 <-> Z.of_nat (S n) <= 2^53 / m^j).
    { split; intros X; [apply Z.div_le_lower_bound; auto|]. pose proof (Z.mul_div_le (2^53) (m^j) Hp). assert (m^j * Z.of_nat (S n) <= m^j * (2^53 / m^j)) by (apply Z.mul_le_mono_nonneg_l; lia). lia. }
    rewrite D in H1. destruct (Z.leb_spec j l) as [X|X].
    - apply H1 in X. lia.
    - assert (~ Z.of_nat (S n) <= 2^53 / m^j) by (intros Y; apply H1 in Y; lia). lia. }
  rewrite G by lia. rewrite Z2Nat.id by lia. apply Z.min_r. assert (Hp : 2^1 <= m^j) by (transitivity (m^1); [rewrite !Z.pow_1_r; lia|apply Z.pow_le_mono_r; lia]).
  assert (2^53 / m^j <= 2^53 / 2^1) by (apply Z.div_le_compat_l; lia). change (2^53 / 2^1) with (2^52) in *. lia.
Qed.
(** the draw 0 = one in 2^53 has no level, and with M = 1 no draw has: InsertVector panics *)
Theorem C93_insert_panics_refuted : forall (F : Type) (fzero : F) (fsub fadd fmul : F -> F -> F) (rank : F -> Z) (h : hnsw F) q k,
  length q = dim h -> k = 0 \/ bigM h = 1 -> insert_drawn fzero fsub fadd fmul rank h q k = Panic.
Proof.
  intros F z s a mu r h q k Hq H. unfold insert_drawn. rewrite Hq, Nat.eqb_refl. cbn [negb]. unfold spawn_level. destruct (Z.eqb_spec k 0); [reflexivity|].
  destruct H as [H|H]; [contradiction|]. rewrite H. reflexivity.
Qed.
(** and with M = 0 every point stays on level 0 *)
Theorem C93_M_0_refuted k : k <> 0 -> spawn_level 0 k = Some 0.
Proof. intros H. unfold spawn_level. destruct (Z.eqb_spec k 0); [contradiction|reflexivity]. Qed.

Section Inserts.
Variables (F : Type) (fzero : F) (fsub fadd fmul : F -> F -> F) (rank : F -> Z).
Hypothesis sq_sym : forall a b, fmul (fsub a b) (fsub a b) = fmul (fsub b a) (fsub b a).
(** Any history of insertions with nonzero draws succeeds, and every point is put on the
    level of its draw *)
Theorem C93_insert_partial d efc m h ps ls q k : graph fzero fsub fadd fmul rank d efc m h ps ls -> 1 <= efc -> 2 <= m -> length q = d -> draw k -> k <> 0 ->
  exists l h', level_of_draw m k l /\ insert_drawn fzero fsub fadd fmul rank h q k = Ok (zlen ps, h') /\
    graph fzero fsub fadd fmul rank d efc m h' (ps ++ [q]) (ls ++ [Z.to_nat l]).
Proof.
  intros Hg He Hm Hq Hk Hk0. assert (Hm0 : 0 <= m) by lia. destruct (graph_inv sq_sym He Hm0 Hg) as (HI & Hp & Hd & Hef & HM).
  destruct (C93_levels_partial Hm Hk Hk0) as (l & E & Hl & _). exists l.
  destruct (@C61_insert_vector F fzero fsub fadd fmul rank sq_sym d efc m h ps ls q (Z.to_nat l) Hg He Hm0 Hq) as (h' & E' & _). exists h'. split; auto. split.
  - unfold insert_drawn. rewrite Hq, Hd, Nat.eqb_refl. cbn [negb]. rewrite HM, E. destruct Hl as [Hl _]. destruct (Z.ltb_spec l 0); [lia|]. exact E'.
  - exact (@g_insert _ _ _ _ _ _ _ _ _ _ _ _ _ _ _ _ Hg E').
Qed.
End Inserts.

(** three draws out of sixteen, M = 4: 12/16 is on level 0, 4/16 and 3/16 on level 1, 1/16 on level 2 *)
Example C93_example : let u x := x * 2^49 in
  map (fun x => spawn_level 4 (u x)) [12; 4; 3; 1] = [Some 0; Some 1; Some 1; Some 2].
Proof.
  assert (H : forall x l, draw (x * 2^49) -> x <> 0 -> level_of_draw 4 (x * 2^49) l -> spawn_level 4 (x * 2^49) = Some l).
  { intros x l Hd Hx Hl. destruct (@C93_levels_partial 4 (x * 2^49) ltac:(lia) Hd ltac:(lia)) as (l' & E & _ & U). rewrite E. f_equal. symmetry. apply U. exact Hl. }
  cbv zeta. cbn [map]. rewrite (H 12 0), (H 4 1), (H 3 1), (H 1 2); unfold draw, level_of_draw; try lia; auto.
Qed.
(** the counterexamples of C60 and C64 are reached by draws: levels 0 and 1 are drawn with M = 2 *)
Example C93_levels_of_C60_C64 : spawn_level 2 (2^52) = Some 1 /\ spawn_level 2 (2^53 - 1) = Some 0.
Proof.
  assert (H : forall k l, draw k -> k <> 0 -> level_of_draw 2 k l -> spawn_level 2 k = Some l).
  { intros k l Hd Hx Hl. destruct (@C93_levels_partial 2 k ltac:(lia) Hd Hx) as (l' & E & _ & U). rewrite E. f_equal. symmetry. apply U. exact Hl. }
  split; apply H; unfold draw, level_of_draw; lia.
Qed.
