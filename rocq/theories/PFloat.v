(** C67: numbers in queries are compared as numbers. *)
From Coq Require Import Permutation.
From Verif Require Import Base RefValue Node LinkedPage BPTree PTree Meta Store IndexFile IFileInv PIndex Query QTree TsFile PQuery.

(** ** Specification *)
(** IEEE 754 binary64, as math.Float64bits and DataView.setFloat64 lay it out: one bit of sign,
    eleven of exponent, 52 of mantissa. *)
Definition sign_bit (b : Z) : bool := 2^63 <=? b.
Definition exponent (b : Z) : Z := b mod 2^63 / 2^52.
Definition mantissa (b : Z) : Z := b mod 2^52.
Definition is_nan (b : Z) : bool := (exponent b =? 2047) && negb (mantissa b =? 0).
(** the value of a float, in units of 2^-1074, in which all are integers; an infinity counts as 2^1024 *)
Definition magnitude (b : Z) : Z := if exponent b =? 0 then mantissa b else (2^52 + mantissa b) * 2^(exponent b - 1).
Definition number_of (b : Z) : Z := if sign_bit b then - magnitude b else magnitude b.
Definition float_bits (b : Z) : Prop := 0 <= b < 2^64.
(** comparison of numbers *)
Definition num_sat (op : qop) (v x : Z) : bool :=
  match op with QLt => x <? v | QLe => x <=? v | QEq => x =? v | QGe => v <=? x | QGt => v <? x end.

(** 1.0 = 2^1074 units, -2.5, the least positive float *)
Example number_of_1 : number_of 4607182418800017408 = 2^1074 /\ number_of 13836183955189006336 = -5 * 2^1073 /\ number_of 1 = 1 /\ number_of 0 = 0.
Proof. repeat split; vm_compute; reflexivity. Qed.

(** ** Proofs *)
Lemma unle_app a b : unle (a ++ b) = unle a + 256 ^ zlen a * unle b.
Proof.
  induction a as [|x a IH]; [change (zlen (@nil Z)) with 0; cbn [app unle]; lia|]. cbn [app unle]. rewrite IH, zlen_cons, Z.pow_add_r by (try apply zlen_nonneg; lia). lia.
Qed.
Lemma unbe_cons x a : unbe (x :: a) = unbe a + 256 ^ zlen a * x.
Proof. unfold unbe. cbn [rev]. rewrite unle_app. unfold zlen. rewrite rev_length. cbn [unle]. lia. Qed.
Lemma unbe_range a : is_bytes a -> 0 <= unbe a < 256 ^ zlen a.
Proof. intros H. unfold unbe. replace (zlen a) with (zlen (rev a)) by (unfold zlen; rewrite rev_length; reflexivity). apply unle_range. apply Forall_rev; exact H. Qed.
Lemma cmp_unbe a : forall b, length a = length b -> is_bytes a -> is_bytes b -> bytes_cmp a b = match unbe a ?= unbe b with Lt => -1 | Eq => 0 | Gt => 1 end.
Proof.
  induction a as [|x a IH]; intros [|y b] Hl Ha Hb; try discriminate; [reflexivity|]. cbn [bytes_cmp]. injection Hl as Hl. inversion Ha; subst. inversion Hb; subst.
  rewrite !unbe_cons. assert (El : zlen a = zlen b) by (unfold zlen; congruence).
  pose proof (unbe_range H2) as Ra. pose proof (unbe_range H4) as Rb. rewrite El in *.
  set (p := 256 ^ zlen b) in *. destruct (Z.ltb_spec x y) as [Hlt|Hge].
  - assert (p * (x + 1) <= p * y) by (apply Z.mul_le_mono_nonneg_l; lia). destruct (Z.compare_spec (unbe a + p * x) (unbe b + p * y)); lia.
  - destruct (Z.ltb_spec y x) as [Hlt|Hge'].
    + assert (p * (y + 1) <= p * x) by (apply Z.mul_le_mono_nonneg_l; lia). destruct (Z.compare_spec (unbe a + p * x) (unbe b + p * y)); lia.
    + assert (x = y) by lia. subst y. rewrite IH by auto. destruct (Z.compare_spec (unbe a) (unbe b)), (Z.compare_spec (unbe a + p * x) (unbe b + p * x)); lia.
Qed.
Lemma be_bytes n v : is_bytes (be n v).
Proof. apply Forall_rev. revert v. induction n as [|n IH]; intros v; cbn [le]; constructor; auto. apply Z.mod_pos_bound. lia. Qed.
Lemma cmp_be a b : float_bits a -> float_bits b -> bytes_cmp (be 8 a) (be 8 b) = match a ?= b with Lt => -1 | Eq => 0 | Gt => 1 end.
Proof.
  intros Ha Hb. rewrite cmp_unbe by (try apply be_bytes; unfold be; rewrite !rev_length; reflexivity).
  rewrite !unbe_be by (exact Ha || exact Hb). reflexivity.
Qed.
Lemma mag_parts b : float_bits b -> 0 <= mantissa b < 2^52 /\ 0 <= exponent b < 2^11 /\ b mod 2^63 = exponent b * 2^52 + mantissa b.
Proof.
  intros H. unfold mantissa, exponent, float_bits in *. assert (0 <= b mod 2^63 < 2^63) by (apply Z.mod_pos_bound; lia).
  assert (E : b mod 2^52 = (b mod 2^63) mod 2^52).
  { change (2^63) with (2^52 * 2^11). rewrite Z.rem_mul_r by lia. rewrite (Z.mul_comm (2^52)), Z_mod_plus_full. symmetry. apply Z.mod_mod. lia. }
  rewrite E. set (y := b mod 2^63) in *. pose proof (Z.div_mod y (2^52) ltac:(lia)). pose proof (Z.mod_pos_bound y (2^52) ltac:(lia)).
  split; [auto|]. split; [split; [apply Z.div_pos; lia|apply Z.div_lt_upper_bound; lia]|lia].
Qed.
Lemma mag_nonneg b : float_bits b -> 0 <= magnitude b.
Proof.
  intros H. destruct (mag_parts H) as (H1 & H2 & _). unfold magnitude. destruct (Z.eqb_spec (exponent b) 0); [lia|].
  apply Z.mul_nonneg_nonneg; [lia|]. apply Z.pow_nonneg. lia.
Qed.
Lemma mag_lt a b : float_bits a -> float_bits b -> a mod 2^63 < b mod 2^63 -> magnitude a < magnitude b.
Proof.
  intros Ha Hb Hlt. destruct (mag_parts Ha) as (A1 & A2 & A3). destruct (mag_parts Hb) as (B1 & B2 & B3). rewrite A3, B3 in Hlt.
  unfold magnitude. set (ea := exponent a) in *. set (eb := exponent b) in *. set (ma := mantissa a) in *. set (mb := mantissa b) in *.
  assert (Hc : ea < eb \/ ea = eb /\ ma < mb) by lia. destruct Hc as [Hc|[Hc Hm]].
  - destruct (Z.eqb_spec eb 0); [lia|]. assert (Hp : 1 <= 2 ^ (eb - 1)) by (pose proof (Z.pow_pos_nonneg 2 (eb - 1)); lia).
    destruct (Z.eqb_spec ea 0).
    + assert (2^52 * 1 <= (2^52 + mb) * 2^(eb-1)) by (apply Z.mul_le_mono_nonneg; lia). lia.
    + assert (H2 : 2 ^ ea <= 2 ^ (eb - 1)) by (apply Z.pow_le_mono_r; lia).
      assert (Hp' : 0 < 2 ^ (ea - 1)) by (apply Z.pow_pos_nonneg; lia).
      assert (E2 : 2 ^ ea = 2 * 2 ^ (ea - 1)) by (rewrite <- Z.pow_succ_r by lia; f_equal; lia).
      assert (S1 : (2^52 + ma) * 2^(ea-1) < 2^53 * 2^(ea-1)) by (apply Z.mul_lt_mono_pos_r; lia).
      assert (S2 : 2^52 * 2^ea <= (2^52 + mb) * 2^(eb-1)) by (apply Z.mul_le_mono_nonneg; lia). lia.
  - rewrite Hc. destruct (Z.eqb_spec eb 0); [lia|]. apply Z.mul_lt_mono_pos_r; [apply Z.pow_pos_nonneg|]; lia.
Qed.
Lemma bits_pos b : float_bits b -> sign_bit b = false -> b mod 2^63 = b.
Proof. intros [H1 H2] Hs. unfold sign_bit in Hs. apply Z.leb_gt in Hs. apply Z.mod_small; lia. Qed.
Lemma bits_neg b : float_bits b -> sign_bit b = true -> b mod 2^63 = b - 2^63.
Proof. intros [H1 H2] Hs. unfold sign_bit in Hs. apply Z.leb_le in Hs. rewrite <- (Z_mod_plus_full b (-1) (2^63)). rewrite Z.mod_small; lia. Qed.

(** For floats that are not negative, the order of the stored bytes is the order of the numbers. *)
Theorem C67_nonnegative_partial a b : float_bits a -> float_bits b -> sign_bit a = false -> sign_bit b = false ->
  forall op dp p, satisfies op (be 8 b) (RV dp (be 8 a), p) = num_sat op (number_of b) (number_of a).
Proof.
  intros Ha Hb Sa Sb op dp p. unfold satisfies, num_sat, number_of. cbn [fst rv_val]. rewrite cmp_be, Sa, Sb by auto.
  pose proof (bits_pos Ha Sa) as Ea. pose proof (bits_pos Hb Sb) as Eb.
  destruct (Z.compare_spec a b) as [E|E|E].
  - subst b. destruct op; symmetry; try (apply Z.ltb_ge; lia); try (apply Z.leb_le; lia); apply Z.eqb_refl.
  - assert (magnitude a < magnitude b) by (apply mag_lt; auto; lia). destruct op; symmetry; try (apply Z.ltb_lt; lia); try (apply Z.leb_le; lia); try (apply Z.eqb_neq; lia); try (apply Z.leb_gt; lia); apply Z.ltb_ge; lia.
  - assert (magnitude b < magnitude a) by (apply mag_lt; auto; lia). destruct op; symmetry; try (apply Z.ltb_lt; lia); try (apply Z.leb_le; lia); try (apply Z.eqb_neq; lia); try (apply Z.leb_gt; lia); apply Z.ltb_ge; lia.
Qed.
(** A negative float counts as greater than every float that is not negative, and the greater of two
    negative floats counts as the lesser. *)
Theorem C67_negative_refuted a b : float_bits a -> float_bits b -> sign_bit a = true ->
  (sign_bit b = false -> number_of a <= number_of b /\ forall dp p, satisfies QGt (be 8 b) (RV dp (be 8 a), p) = true /\ satisfies QLt (be 8 b) (RV dp (be 8 a), p) = false) /\
  (sign_bit b = true -> forall dp p, satisfies QLt (be 8 b) (RV dp (be 8 a), p) = true -> number_of b < number_of a).
Proof.
  intros Ha Hb Sa. split; intros Sb.
  - split.
    + unfold number_of. rewrite Sa, Sb. pose proof (mag_nonneg Ha). pose proof (mag_nonneg Hb). lia.
    + intros dp p. unfold satisfies. cbn [fst rv_val]. rewrite cmp_be by auto. unfold sign_bit in *. apply Z.leb_le in Sa. apply Z.leb_gt in Sb.
      destruct (Z.compare_spec a b); first [lia|split; reflexivity].
  - intros dp p. unfold satisfies. cbn [fst rv_val]. rewrite cmp_be by auto. destruct (Z.compare_spec a b) as [E|E|E]; try discriminate. intros _.
    unfold number_of. rewrite Sa, Sb. assert (magnitude a < magnitude b) by (apply mag_lt; auto; rewrite (bits_neg Ha Sa), (bits_neg Hb Sb); lia). lia.
Qed.
(** The two zeros are equal numbers, but neither is found by a query for the other. *)
Theorem C67_zeros_refuted : number_of 0 = number_of (2^63) /\ forall dp p, satisfies QEq (be 8 0) (RV dp (be 8 (2^63)), p) = false.
Proof. split; [reflexivity|]. intros dp p. reflexivity. Qed.

(** In a query: if no number in the index and not the one asked for is negative, the answer of
    a descending < or <= consists of the records whose numbers satisfy the comparison. *)
Definition bits_of (e : rv * mptr) : Z := unbe (rv_val (fst e)).
Theorem C67_query_partial wd parse D fm l s ix b fuel op limit n : widths_ok wd -> ifile wd parse D fm l s -> readable wd D fm l s ix ->
  ix_type ix = FTFloat64 -> float_bits b -> sign_bit b = false -> (fuel_of s <= fuel)%nat ->
  Forall (fun e => exists x, rv_val (fst e) = be 8 x /\ float_bits x /\ sign_bit x = false) (ix_es ix) -> op = QLt \/ op = QLe ->
  exists found, Permutation found (filter (fun e => num_sat op (number_of b) (number_of (bits_of e))) (ix_es ix)) /\ ordered Desc found /\
    ts_query parse fuel (file s) D (ask ix op Desc (WNum (be 8 b)) limit) n = Ok (map (record_of D) (firstn n found)).
Proof.
  intros Hwd Hif Hr Ht Hb Sb Hf Hes Hop.
  assert (Hv : value_type (WNum (be 8 b)) = Some (ix_type ix)) by (rewrite Ht; reflexivity).
  destruct (C48_descending_lt_le_partial Hwd Hif Hr (WNum (be 8 b)) Hv Hf limit n Hop) as (found & P & O & E).
  exists found. split; auto. etransitivity; [exact P|]. erewrite filter_ext_in; [reflexivity|]. intros [[dp val] p] He. rewrite Forall_forall in Hes.
  destruct (Hes _ He) as (x & Ex & Hx & Sx). cbn [fst rv_val] in Ex. subst val. cbn [value_key]. unfold bits_of. cbn [fst rv_val]. rewrite unbe_be by exact Hx.
  apply C67_nonnegative_partial; auto.
Qed.
(** An index whose numbers are all negative: a query for those below a number that is not negative
    returns nothing, though all are. *)
Theorem C67_query_refuted wd parse D fm l s ix b fuel limit n : widths_ok wd -> ifile wd parse D fm l s -> readable wd D fm l s ix ->
  ix_type ix = FTFloat64 -> float_bits b -> sign_bit b = false -> 0 < number_of b -> (fuel_of s <= fuel)%nat ->
  Forall (fun e => exists x, rv_val (fst e) = be 8 x /\ float_bits x /\ sign_bit x = true) (ix_es ix) ->
  Forall (fun e => num_sat QLt (number_of b) (number_of (bits_of e)) = true) (ix_es ix) /\
  ts_query parse fuel (file s) D (ask ix QLt Desc (WNum (be 8 b)) limit) n = Ok [].
Proof.
  intros Hwd Hif Hr Ht Hb Sb Hpos Hf Hes.
  assert (Hv : value_type (WNum (be 8 b)) = Some (ix_type ix)) by (rewrite Ht; reflexivity). split.
  - eapply Forall_impl; [|exact Hes]. cbn beta. intros e (x & Ex & Hx & Sx). unfold bits_of. rewrite Ex, unbe_be by exact Hx. unfold num_sat. apply Z.ltb_lt.
    unfold number_of at 1. rewrite Sx. pose proof (mag_nonneg Hx). lia.
  - destruct (C48_descending_lt_le_partial Hwd Hif Hr (WNum (be 8 b)) Hv Hf limit n (or_introl eq_refl)) as (found & P & O & E). rewrite E.
    assert (filter (satisfies QLt (value_key (WNum (be 8 b)))) (ix_es ix) = []) as En.
    { rewrite Forall_forall in Hes. assert (G : forall m, (forall e, In e m -> In e (ix_es ix)) -> filter (satisfies QLt (be 8 b)) m = []).
      { induction m as [|[[dp val] p] m IH]; intros Hm; [reflexivity|]. cbn [filter]. destruct (Hes _ (Hm _ (or_introl eq_refl))) as (x & Ex & Hx & Sx). cbn [fst rv_val] in Ex. subst val.
        rewrite (proj2 (proj2 (proj1 (C67_negative_refuted Hx Hb Sx) Sb) dp p)). apply IH. intros; apply Hm; right; auto. }
      apply G; auto. }
    rewrite En in P. apply Permutation_sym, Permutation_nil in P. subst found. rewrite firstn_nil. reflexivity.
Qed.
