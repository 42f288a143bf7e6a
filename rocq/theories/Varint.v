(** Unsigned varints: pkg/encoding/sizeVarint.go and the parts of Go's
    encoding/binary the indexer uses. *)
From Verif Require Import Base.

(** ** Model *)

(** binary.PutUvarint (Go standard library), called in
    pkg/bptree/node.go:81-101, pkg/appendable/appendable.go:114,158: the bytes
    stored, least significant 7-bit group first.
    [for x >= 0x80 { buf[i] = byte(x)|0x80; x >>= 7; i++ }; buf[i] = byte(x)].
    Ten rounds of fuel: a uint64 never needs more (see [put_uvarint_length]). *)
Fixpoint put_uvarint_loop (fuel : nat) (x : Z) : bytes :=
  match fuel with
  | O => []
  | S fuel' =>
      if 128 <=? x then Z.lor (x mod 256) 128 :: put_uvarint_loop fuel' (Z.shiftr x 7)
      else [x mod 256]
  end.
Definition put_uvarint (x : Z) : bytes := put_uvarint_loop 10 x.

(** binary.Uvarint (Go standard library), called in pkg/bptree/node.go:133-160
    and pkg/appendable/appendable.go:137,173. Returns the value and the number
    of bytes read: 0 if the buffer is too small, negative on 64-bit overflow. *)
Fixpoint uvarint_loop (buf : bytes) (i : Z) (s : Z) (x : Z) : Z * Z :=
  match buf with
  | [] => (0, 0)
  | b :: rest =>
      if i =? 10 then (0, - (i + 1))
      else if b <? 128 then
        if (i =? 9) && (1 <? b) then (0, - (i + 1))
        else (Z.lor x ((Z.shiftl b s) mod 2^64), i + 1)
      else uvarint_loop rest (i + 1) (s + 7)
             (Z.lor x ((Z.shiftl (Z.land b 127) s) mod 2^64))
  end.
Definition uvarint (buf : bytes) : Z * Z := uvarint_loop buf 0 0 0.

(** math/bits.Len64 (Go standard library): minimum number of bits to represent v *)
Definition bits_len64 (v : Z) : Z := if v =? 0 then 0 else Z.log2 v + 1.

(** pkg/encoding/sizeVarint.go:5-7
    [int(9*uint32(bits.Len64(v))+64) / 64] *)
Definition size_varint (v : Z) : Z := ((9 * bits_len64 v) mod 2^32 + 64) / 64.

(** ** Proofs *)
Lemma lor_disj x b s : 0 <= s -> 0 <= x < 2^s -> 0 <= b -> Z.lor x (Z.shiftl b s) = x + b * 2^s.
Proof.
  intros Hs Hx Hb. rewrite Z.shiftl_mul_pow2 by lia.
  assert (L : Z.land x (b * 2^s) = 0).
  { apply Z.bits_inj'; intros n Hn. rewrite Z.land_spec, Z.bits_0.
    destruct (Z.ltb_spec n s).
    - rewrite Z.mul_pow2_bits_low by lia. apply andb_false_r.
    - destruct (Z.eq_dec x 0) as [->|Hx0]; [rewrite Z.bits_0; reflexivity|].
      rewrite (Z.bits_above_log2 x n); [reflexivity|lia|].
      apply Z.lt_le_trans with s; [apply Z.log2_lt_pow2; lia | lia]. }
  pose proof (Z.add_nocarry_lxor x (b * 2^s) L) as E.
  rewrite E. symmetry. apply Z.lxor_lor. exact L.
Qed.

Lemma lor_128 x : Z.lor (x mod 256) 128 = 128 + x mod 128.
Proof.
  assert (H : forall k, (k < 256)%nat -> Z.lor (Z.of_nat k) 128 = 128 + Z.of_nat k mod 128).
  { intros k Hk.
    assert (C : forallb (fun k => Z.lor (Z.of_nat k) 128 =? 128 + Z.of_nat k mod 128) (seq 0 256) = true)
      by (vm_compute; reflexivity).
    rewrite forallb_forall in C. specialize (C k). rewrite in_seq in C.
    apply Z.eqb_eq. apply C. lia. }
  specialize (H (Z.to_nat (x mod 256))).
  assert (0 <= x mod 256 < 256) by (apply Z.mod_pos_bound; lia).
  rewrite Z2Nat.id in H by lia. rewrite H by lia.
  f_equal. change 256 with (128 * 2). rewrite Z.rem_mul_r by lia.
  rewrite (Z.mul_comm 128), Z.mod_add by lia. apply Z.mod_mod; lia.
Qed.

Lemma land_127 b : 0 <= b -> Z.land b 127 = b mod 128.
Proof. intros. change 127 with (Z.ones 7). rewrite Z.land_ones by lia. reflexivity. Qed.

Lemma pow7S (n : nat) : 2 ^ (7 * Z.of_nat (S n)) = 128 * 2 ^ (7 * Z.of_nat n).
Proof. replace (7 * Z.of_nat (S n)) with (7 + 7 * Z.of_nat n) by lia. rewrite Z.pow_add_r by lia. reflexivity. Qed.

Lemma put_loop_step fuel x : 128 <= x ->
  put_uvarint_loop (S fuel) x = (128 + x mod 128) :: put_uvarint_loop fuel (x / 128).
Proof.
  intros H. cbn [put_uvarint_loop]. destruct (Z.leb_spec 128 x); [|lia].
  rewrite lor_128, Z.shiftr_div_pow2 by lia. reflexivity.
Qed.
Lemma put_loop_last fuel x : 0 <= x < 128 -> put_uvarint_loop (S fuel) x = [x].
Proof.
  intros H. cbn [put_uvarint_loop]. destruct (Z.leb_spec 128 x); [lia|].
  rewrite Z.mod_small by lia. reflexivity.
Qed.

Lemma put_loop_bytes fuel x : 0 <= x -> is_bytes (put_uvarint_loop fuel x).
Proof.
  revert x; induction fuel as [|fuel IH]; intros x Hx; [constructor|].
  destruct (Z.le_gt_cases 128 x).
  - rewrite put_loop_step by lia. constructor.
    + pose proof (Z.mod_pos_bound x 128). unfold is_byte; lia.
    + apply IH. apply Z.div_pos; lia.
  - rewrite put_loop_last by lia. repeat constructor; lia.
Qed.

(** number of 7-bit groups *)
Lemma put_loop_len fuel x k : 0 <= x < 2 ^ (7 * Z.of_nat k) -> (1 <= k <= fuel)%nat ->
  (k = 1%nat \/ 2 ^ (7 * Z.of_nat (k - 1)) <= x) ->
  length (put_uvarint_loop fuel x) = k.
Proof.
  revert x k; induction fuel as [|fuel IH]; intros x k Hx Hk Hlo; [lia|].
  destruct k as [|k]; [lia|]. rewrite pow7S in Hx.
  destruct (Z.le_gt_cases 128 x) as [H1|H1].
  - rewrite put_loop_step by lia. cbn [length]. f_equal.
    destruct k as [|k]; [cbn in Hx; lia|].
    apply IH.
    + split; [apply Z.div_pos; lia | apply Z.div_lt_upper_bound; lia].
    + lia.
    + destruct k as [|k]; [left; reflexivity | right].
      destruct Hlo as [Hlo|Hlo]; [lia|].
      replace (S (S (S k)) - 1)%nat with (S (S k)) in Hlo by lia.
      replace (S (S k) - 1)%nat with (S k) by lia.
      rewrite pow7S in Hlo.
      apply Z.div_le_lower_bound; lia.
  - rewrite put_loop_last by lia. cbn [length].
    destruct k as [|k]; [reflexivity|].
    destruct Hlo as [Hlo|Hlo]; [lia|].
    replace (S (S k) - 1)%nat with (S k) in Hlo by lia. rewrite pow7S in Hlo.
    pose proof (Z.pow_pos_nonneg 2 (7 * Z.of_nat k)). lia.
Qed.

Lemma groups x : 0 <= x < 2^64 ->
  exists k, (1 <= k <= 10)%nat /\ x < 2 ^ (7 * Z.of_nat k) /\
            (k = 1%nat \/ 2 ^ (7 * Z.of_nat (k - 1)) <= x).
Proof.
  intros H.
  assert (G : forall n, x < 2 ^ (7 * Z.of_nat (S n)) ->
     exists k, (1 <= k <= S n)%nat /\ x < 2 ^ (7 * Z.of_nat k) /\
            (k = 1%nat \/ 2 ^ (7 * Z.of_nat (k - 1)) <= x)).
  { induction n as [|n IH]; intros Hn.
    - exists 1%nat. repeat split; auto; lia.
    - destruct (Z.lt_ge_cases x (2 ^ (7 * Z.of_nat (S n)))) as [Hl|Hl].
      + destruct (IH Hl) as (k & Hk & H1 & H2). exists k. repeat split; auto; lia.
      + exists (S (S n)). repeat split; auto; try lia. }
  apply (G 9%nat). cbn. lia.
Qed.

Lemma put_uvarint_length x : 0 <= x < 2^64 -> 1 <= zlen (put_uvarint x) <= 10.
Proof.
  intros H. destruct (groups H) as (k & Hk & H1 & H2).
  unfold zlen, put_uvarint. rewrite (@put_loop_len 10 x k) by (auto; lia). lia.
Qed.

Lemma size_varint_exact x : 0 <= x < 2^64 -> size_varint x = zlen (put_uvarint x).
Proof.
  intros H. destruct (groups H) as (k & Hk & H1 & H2).
  unfold zlen, put_uvarint. rewrite (@put_loop_len 10 x k) by (auto; lia).
  unfold size_varint, bits_len64. destruct (Z.eqb_spec x 0) as [->|Hx0].
  - destruct H2 as [->|H2]; [reflexivity|].
    pose proof (Z.pow_pos_nonneg 2 (7 * Z.of_nat (k-1))). lia.
  - assert (Hlog : Z.log2 x < 7 * Z.of_nat k) by (apply Z.log2_lt_pow2; lia).
    assert (Hlog2 : 7 * Z.of_nat (k - 1) <= Z.log2 x).
    { destruct H2 as [->|H2]; [apply Z.log2_nonneg | apply Z.log2_le_pow2; lia]. }
    pose proof (Z.log2_nonneg x).
    rewrite Z.mod_small by lia.
    lia.
Qed.

Lemma uvarint_step b rest i s x : 0 <= i < 9 -> 128 <= b < 256 -> 0 <= s <= 56 -> 0 <= x < 2^s ->
  uvarint_loop (b :: rest) i s x = uvarint_loop rest (i + 1) (s + 7) (x + (b - 128) * 2^s).
Proof.
  intros Hi Hb Hs Hx. cbn [uvarint_loop].
  destruct (Z.eqb_spec i 10); [lia|]. destruct (Z.ltb_spec b 128); [lia|].
  rewrite land_127 by lia. replace (b mod 128) with (b - 128) by lia.
  f_equal. rewrite Z.mod_small.
  - apply lor_disj; lia.
  - rewrite Z.shiftl_mul_pow2 by lia.
    assert (2^s <= 2^56) by (apply Z.pow_le_mono_r; lia).
    pose proof (Z.pow_pos_nonneg 2 s). nia.
Qed.

Lemma uvarint_loop_put fuel y tail i s x :
  0 <= i -> s = 7 * i -> i + Z.of_nat fuel = 10 ->
  0 <= x < 2^s -> 0 <= y -> x + y * 2^s < 2^64 -> (1 <= fuel)%nat ->
  y < 2 ^ (7 * Z.of_nat fuel) ->
  uvarint_loop (put_uvarint_loop fuel y ++ tail) i s x =
  (x + y * 2^s, i + zlen (put_uvarint_loop fuel y)).
Proof.
  revert y i s x; induction fuel as [|fuel IH]; intros y i s x Hi Hs Hf Hx Hy H64 Hf1 Hyf; [lia|].
  pose proof (Z.pow_pos_nonneg 2 s ltac:(lia) ltac:(lia)) as Hp.
  destruct (Z.le_gt_cases 128 y) as [H1|H1].
  - rewrite put_loop_step by lia. cbn [app].
    destruct fuel as [|fuel'].
    { cbn in Hyf. lia. }
    pose proof (Z.div_mod y 128 ltac:(lia)) as Hdm.
    pose proof (Z.mod_pos_bound y 128 ltac:(lia)) as Hmb.
    assert (Hp7 : 2 ^ (s + 7) = 2^s * 128) by (rewrite Z.pow_add_r by lia; reflexivity).
    rewrite uvarint_step by lia.
    replace (128 + y mod 128 - 128) with (y mod 128) by lia.
    rewrite IH; try lia.
    + f_equal; [rewrite Hp7; nia | rewrite zlen_cons; lia].
    + rewrite Hp7. nia.
    + apply Z.div_lt_upper_bound; [lia|]. rewrite pow7S in Hyf. lia.
  - rewrite put_loop_last by lia. cbn [app uvarint_loop].
    destruct (Z.eqb_spec i 10); [lia|]. destruct (Z.ltb_spec y 128); [|lia].
    assert (Hs64 : y * 2^s < 2^64) by nia.
    destruct ((i =? 9) && (1 <? y)) eqn:E.
    { apply andb_true_iff in E. destruct E as [E1 E2].
      apply Z.eqb_eq in E1. apply Z.ltb_lt in E2. subst i. subst s.
      change (2 ^ (7*9)) with (2^63) in *. lia. }
    rewrite Z.mod_small by (rewrite Z.shiftl_mul_pow2 by lia; nia).
    rewrite lor_disj by lia. f_equal.
Qed.

Lemma uvarint_put x tail : 0 <= x < 2^64 ->
  uvarint (put_uvarint x ++ tail) = (x, zlen (put_uvarint x)).
Proof.
  intros H. unfold uvarint, put_uvarint.
  rewrite uvarint_loop_put; try lia; try (cbn; lia).
  f_equal; lia.
Qed.

Lemma put_uvarint_bytes x : 0 <= x -> is_bytes (put_uvarint x).
Proof. apply put_loop_bytes. Qed.

Lemma size_varint_bounds x : 0 <= x < 2^64 -> 1 <= size_varint x <= 10.
Proof. intros; rewrite size_varint_exact by lia. apply put_uvarint_length; lia. Qed.
Lemma size_varint_le x k : 0 <= x < 2 ^ (7 * Z.of_nat k) -> (1 <= k <= 9)%nat ->
  size_varint x <= Z.of_nat k.
Proof.
  intros H Hk.
  assert (Hx : 0 <= x < 2^64).
  { split; [lia|]. apply Z.lt_le_trans with (2 ^ (7 * Z.of_nat k)); [lia|].
    apply Z.pow_le_mono_r; lia. }
  unfold size_varint, bits_len64. destruct (Z.eqb_spec x 0) as [->|Hx0]; [cbn; lia|].
  assert (Hlog : Z.log2 x < 7 * Z.of_nat k) by (apply Z.log2_lt_pow2; lia).
  pose proof (Z.log2_nonneg x). rewrite Z.mod_small by lia. lia.
Qed.
(** decoding never reads past the encoded bytes even if [fst] is used alone *)
Lemma uvarint_nil : uvarint [] = (0, 0).
Proof. reflexivity. Qed.
