(** Facts about the conversion [f32_of_uint] that UnmarshalBinary applies to the
    bits of every coordinate. Nothing in this file models code. *)
From Verif Require Import Base Varint Store PageFile RefValue Node LinkedPage BPTree VTree.

(** the rounded significand *)
Definition mant (u e : Z) : Z :=
  if e <=? 23 then u * 2^(23 - e)
  else
    let q := u / 2^(e - 23) in
    let r := u mod 2^(e - 23) in
    let half := 2^(e - 24) in
    if r <? half then q else if half <? r then q + 1
    else if Z.even q then q else q + 1.
Lemma f32_mant u : u <> 0 -> f32_of_uint u = (126 + Z.log2 u) * 2^23 + mant u (Z.log2 u).
Proof. intros H. unfold f32_of_uint. destruct (Z.eqb_spec u 0); [contradiction|]. cbv zeta. fold (mant u (Z.log2 u)). lia. Qed.

Lemma pow_halves e : 24 <= e -> 2^(e-23) = 2 * 2^(e-24) /\ 0 < 2^(e-24) /\ 2^e = 2^23 * 2^(e-23).
Proof.
  intros H. split; [|split].
  - rewrite <- Z.pow_succ_r by lia. f_equal; lia.
  - apply Z.pow_pos_nonneg; lia.
  - rewrite <- Z.pow_add_r by lia. f_equal; lia.
Qed.
Lemma mant_bounds u e : 0 <= e -> 2^e <= u < 2^(e+1) -> 2^23 <= mant u e <= 2^24.
Proof.
  intros He [H1 H2]. unfold mant. destruct (Z.leb_spec e 23) as [L|L].
  - assert (P : 0 < 2^(23-e)) by (apply Z.pow_pos_nonneg; lia).
    assert (E1 : 2^e * 2^(23-e) = 2^23) by (rewrite <- Z.pow_add_r by lia; f_equal; lia).
    assert (E2 : 2^(e+1) * 2^(23-e) = 2^24) by (rewrite <- Z.pow_add_r by lia; f_equal; lia).
    rewrite <- E1, <- E2. split; apply Z.mul_le_mono_nonneg_r; lia.
  - destruct (@pow_halves e ltac:(lia)) as (P1 & P2 & P3).
    assert (E2 : 2^(e+1) = 2^24 * 2^(e-23)) by (rewrite <- Z.pow_add_r by lia; f_equal; lia).
    set (D := 2^(e-23)) in *. set (h := 2^(e-24)) in *. cbv zeta.
    assert (Q1 : 2^23 <= u / D) by (apply Z.div_le_lower_bound; lia).
    assert (Q2 : u / D < 2^24) by (apply Z.div_lt_upper_bound; lia).
    destruct (u mod D <? h); [lia|]. destruct (h <? u mod D); [lia|]. destruct (Z.even (u / D)); lia.
Qed.
Lemma mant_mono u v e : 0 <= e -> 0 <= u <= v -> mant u e <= mant v e.
Proof.
  intros He Huv. unfold mant. destruct (Z.leb_spec e 23) as [L|L].
  - apply Z.mul_le_mono_nonneg_r; [apply Z.pow_nonneg; lia|lia].
  - destruct (@pow_halves e ltac:(lia)) as (P1 & P2 & P3).
    set (D := 2^(e-23)) in *. set (h := 2^(e-24)) in *. cbv zeta.
    pose proof (@Z.div_mod u D ltac:(lia)) as Eu. pose proof (@Z.div_mod v D ltac:(lia)) as Ev.
    pose proof (@Z.mod_pos_bound u D ltac:(lia)). pose proof (@Z.mod_pos_bound v D ltac:(lia)).
    assert (Q : u / D <= v / D) by (apply Z.div_le_mono; lia).
    set (q := u / D) in *. set (q' := v / D) in *. set (r := u mod D) in *. set (r' := v mod D) in *.
    assert (B1 : (if r <? h then q else if h <? r then q + 1 else if Z.even q then q else q + 1) <= q + 1).
    { destruct (r <? h); [lia|]. destruct (h <? r); [lia|]. destruct (Z.even q); lia. }
    assert (B2 : q' <= (if r' <? h then q' else if h <? r' then q' + 1 else if Z.even q' then q' else q' + 1)).
    { destruct (r' <? h); [lia|]. destruct (h <? r'); [lia|]. destruct (Z.even q'); lia. }
    destruct (Z.eq_dec q q') as [E|E]; [|lia].
    assert (R : r <= r') by (rewrite <- E in Ev; lia). rewrite <- E in *. clear - R.
    destruct (Z.ltb_spec r h); destruct (Z.ltb_spec r' h); try lia;
    destruct (Z.ltb_spec h r); destruct (Z.ltb_spec h r'); try lia; destruct (Z.even q); lia.
Qed.
Lemma log2_b u : 0 < u -> 2^(Z.log2 u) <= u < 2^(Z.log2 u + 1).
Proof. intros H. pose proof (Z.log2_spec u H). replace (Z.log2 u + 1) with (Z.succ (Z.log2 u)) by lia. auto. Qed.
Lemma f32_bounds u : 0 < u ->
  (127 + Z.log2 u) * 2^23 <= f32_of_uint u <= (128 + Z.log2 u) * 2^23.
Proof.
  intros H. rewrite f32_mant by lia. pose proof (@mant_bounds u (Z.log2 u) (Z.log2_nonneg u) (log2_b H)). lia.
Qed.
Lemma f32_range u : 0 <= u < 2^32 -> 0 <= f32_of_uint u < 2^32.
Proof.
  intros H. destruct (Z.eq_dec u 0) as [->|N]; [cbn; lia|].
  pose proof (@f32_bounds u ltac:(lia)) as [B1 B2].
  assert (L : Z.log2 u <= 31). { pose proof (Z.log2_lt_pow2 u 32 ltac:(lia)). lia. }
  pose proof (Z.log2_nonneg u). lia.
Qed.
Lemma f32_mono u v : 0 <= u <= v -> f32_of_uint u <= f32_of_uint v.
Proof.
  intros H. destruct (Z.eq_dec u 0) as [->|N].
  - change (f32_of_uint 0) with 0. destruct (Z.eq_dec v 0) as [->|N]; [cbn; lia|].
    pose proof (@f32_bounds v ltac:(lia)). pose proof (Z.log2_nonneg v). lia.
  - assert (L : Z.log2 u <= Z.log2 v) by (apply Z.log2_le_mono; lia).
    destruct (Z.eq_dec (Z.log2 u) (Z.log2 v)) as [E|E].
    + rewrite !f32_mant by lia. rewrite E. pose proof (@mant_mono u v (Z.log2 v) (Z.log2_nonneg v) H). lia.
    + pose proof (@f32_bounds u ltac:(lia)). pose proof (@f32_bounds v ltac:(lia)). lia.
Qed.
(** the only coordinates that survive one conversion *)
Lemma f32_fixed u : 0 <= u < 2^32 -> (f32_of_uint u = u <-> u = 0 \/ u = 1318926965).
Proof.
  intros H. split.
  2:{ intros [->| ->]; vm_compute; reflexivity. }
  intros E. destruct (Z.eq_dec u 0) as [Z0|N]; [auto|right].
  pose proof (@f32_bounds u ltac:(lia)) as [B1 B2]. pose proof (@log2_b u ltac:(lia)) as [L1 L2].
  assert (L : Z.log2 u <= 31). { pose proof (Z.log2_lt_pow2 u 32 ltac:(lia)). lia. }
  pose proof (Z.log2_nonneg u) as L0.
  rewrite E in B1, B2.
  assert (C : Z.log2 u = 30 \/ Z.log2 u = 31 \/ Z.log2 u = 29 \/ Z.log2 u <= 28) by lia.
  destruct C as [C|[C|[C|C]]].
  - rewrite f32_mant, C in E by lia. unfold mant in E. cbn [Z.leb Z.compare Pos.compare Pos.compare_cont] in E.
    change (2^(30-23)) with 128 in E. change (2^(30-24)) with 64 in E. cbv zeta in E.
    pose proof (@Z.div_mod u 128 ltac:(lia)) as Eu. pose proof (@Z.mod_pos_bound u 128 ltac:(lia)).
    set (q := u / 128) in *. set (r := u mod 128) in *.
    destruct (Z.ltb_spec r 64); [lia|]. destruct (Z.ltb_spec 64 r); [lia|]. destruct (Z.even q); lia.
  - rewrite C in *. lia.
  - rewrite C in *. lia.
  - assert (P : 2^(Z.log2 u + 1) <= 2^29) by (apply Z.pow_le_mono_r; lia). lia.
Qed.

(** the conversion applied [k] times *)
Definition rounds (k : nat) (v : vec) : vec := map (Nat.iter k f32_of_uint) v.
Lemma rounds_S k v : map f32_of_uint (rounds k v) = rounds (S k) v.
Proof. unfold rounds. rewrite map_map. reflexivity. Qed.
Lemma rounds_0 v : rounds 0 v = v.
Proof. unfold rounds. apply map_id. Qed.
Lemma iter_range k u : 0 <= u < 2^32 -> 0 <= Nat.iter k f32_of_uint u < 2^32.
Proof. intros H. induction k as [|k IH]; [exact H|]. cbn [Nat.iter nat_rect]. apply f32_range; auto. Qed.
(** a monotone map has no cycles: what survives many conversions survives one *)
Lemma iter_fixed k u : 0 <= u < 2^32 -> (Nat.iter (S k) f32_of_uint u = u <-> f32_of_uint u = u).
Proof.
  intros H. split.
  - intros E. destruct (Z.lt_trichotomy (f32_of_uint u) u) as [L|[L|L]]; auto; exfalso.
    + assert (forall j, Nat.iter (S j) f32_of_uint u <= f32_of_uint u).
      { induction j as [|j IH]; [cbn; lia|]. change (f32_of_uint (Nat.iter (S j) f32_of_uint u) <= f32_of_uint u).
        apply f32_mono. pose proof (@iter_range (S j) u H). lia. }
      specialize (H0 k). lia.
    + assert (forall j, f32_of_uint u <= Nat.iter (S j) f32_of_uint u).
      { induction j as [|j IH]; [cbn; lia|]. change (f32_of_uint u <= f32_of_uint (Nat.iter (S j) f32_of_uint u)).
        apply f32_mono. lia. }
      specialize (H0 k). lia.
  - intros E. induction k as [|k IH]; [exact E|]. change (f32_of_uint (Nat.iter (S k) f32_of_uint u) = u). rewrite IH. exact E.
Qed.
Lemma rounds_fixed k v : Forall (fun u => 0 <= u < 2^32) v ->
  (rounds (S k) v = v <-> Forall (fun u => u = 0 \/ u = 1318926965) v).
Proof.
  induction 1 as [|u v Hu Hv IH]; [split; auto; constructor|].
  unfold rounds in *. split.
  - cbn [map]. intros E. assert (E1 : Nat.iter (S k) f32_of_uint u = u) by congruence.
    constructor; [apply f32_fixed; auto; eapply iter_fixed; eauto|]. apply IH. congruence.
  - intros F. inversion F; subst. cbn [map]. f_equal; [apply iter_fixed; auto; apply f32_fixed; auto|apply IH; auto].
Qed.
Lemma zlen_rounds k v : zlen (rounds k v) = zlen v.
Proof. unfold rounds, zlen. rewrite map_length. reflexivity. Qed.
