(** C01-C10, C63: encodings and the order of keys. *)
From Verif Require Import Base Varint RefValue Node Meta TsCodec.

(** [exists_ok]: for a goal [exists b, m = Ok b /\ _] compute [m] *)
Ltac exists_ok :=
  match goal with |- exists b, ?m = Ok b /\ _ =>
    let r := eval vm_compute in m in match r with Ok ?v => exists v end end.

Ltac all_small :=
  repeat match goal with |- Forall _ _ => constructor | |- _ /\ _ => split end; cbn [rv_dp rv_val mp_off mp_len]; first [reflexivity | lia].

(** ** C01, C02: varints *)
(** Specification. [leb b v]: the bytes [b] are the base-128 digits of [v], least
    significant first, every byte but the last one marked with 128, and no
    superfluous last digit. *)
Inductive leb : bytes -> Z -> Prop :=
| leb_last v : 0 <= v < 128 -> leb [v] v
| leb_more lo hi rest : 0 <= lo < 128 -> 0 < hi -> leb rest hi -> leb ((128 + lo) :: rest) (lo + 128 * hi).

Theorem C01_varint_size_is_exact v : 0 <= v < 2^64 -> size_varint v = zlen (put_uvarint v).
Proof. apply size_varint_exact. Qed.

Lemma put_loop_leb fuel x : 0 <= x < 2 ^ (7 * Z.of_nat fuel) -> (1 <= fuel)%nat -> leb (put_uvarint_loop fuel x) x.
Proof.
  revert x; induction fuel as [|fuel IH]; intros x Hx Hf; [lia|].
  destruct (Z.le_gt_cases 128 x).
  - rewrite put_loop_step by lia. rewrite pow7S in Hx.
    replace x with (x mod 128 + 128 * (x / 128)) at 3 by lia.
    constructor.
    + apply Z.mod_pos_bound; lia.
    + apply Z.div_str_pos; lia.
    + apply IH; [split; [apply Z.div_pos; lia | apply Z.div_lt_upper_bound; lia]|].
      destruct fuel; [cbn in Hx; lia | lia].
  - rewrite put_loop_last by lia. constructor; lia.
Qed.
Theorem C02_varint_round_trip v tail : 0 <= v < 2^64 ->
  leb (put_uvarint v) v /\
  uvarint (put_uvarint v ++ tail) = (v, zlen (put_uvarint v)) /\
  1 <= zlen (put_uvarint v) <= 10 /\ is_bytes (put_uvarint v).
Proof.
  intros H. split; [apply put_loop_leb; [cbn; lia|lia]|]. split; [apply uvarint_put; auto|].
  split; [apply put_uvarint_length; auto | apply put_uvarint_bytes; lia].
Qed.
(** no encoding is a prefix of another one *)
Theorem C02_varint_self_delimiting u v t t' : 0 <= u < 2^64 -> 0 <= v < 2^64 ->
  put_uvarint u ++ t = put_uvarint v ++ t' -> u = v /\ t = t'.
Proof.
  intros Hu Hv E. pose proof (uvarint_put t Hu) as E1. rewrite E, uvarint_put in E1 by auto.
  injection E1 as -> _. split; auto. eapply app_inv_head; eauto.
Qed.
Example C01_example : size_varint 300 = 2 /\ put_uvarint 300 = [172; 2] /\ size_varint (2^64 - 1) = 10.
Proof. vm_compute; auto. Qed.

(** ** C03: FileMeta *)
Theorem C03_file_meta_round_trip m tail : file_meta_ok m -> fm_format m = 0 \/ fm_format m = 1 ->
  exists b, file_meta_marshal m = Ok b /\ file_meta_unmarshal (b ++ tail) = Ok m.
Proof.
  intros Hok Hf. destruct (@file_meta_roundtrip m tail Hok ltac:(lia)) as (b & E1 & E2 & _). eauto.
Qed.
Theorem C03_short_buffers_are_rejected buf : zlen buf < 10 -> exists e, file_meta_unmarshal buf = Err e.
Proof. apply file_meta_short. Qed.
Theorem C03_unknown_formats_are_rejected b0 b1 rest : 8 <= zlen rest -> b1 <> 0 -> b1 <> 1 ->
  exists e, file_meta_unmarshal (b0 :: b1 :: rest) = Err e.
Proof. intros H H0 H1. apply file_meta_format; [rewrite !zlen_cons; lia | cbn [nth]; tauto]. Qed.
(** every buffer is either rejected or decoded: no panic *)
Theorem C03_total buf : (exists m, file_meta_unmarshal buf = Ok m) \/ (exists e, file_meta_unmarshal buf = Err e).
Proof.
  unfold file_meta_unmarshal. destruct (zlen buf <? 10); eauto. destruct (_ || _); eauto.
  destruct (uvarint (skipn 10 buf)); eauto.
Qed.
Example C03_example : file_meta_unmarshal [1; 0; 44; 1; 0; 0; 0; 0; 0; 0; 172; 2; 0; 0] = Ok (FM 1 0 300 300).
Proof. vm_compute; reflexivity. Qed.

(** ** C04: IndexMeta. Names longer than 65529 bytes do not survive. *)
Theorem C04_index_meta_round_trip_partial m tail : index_meta_ok m -> zlen (im_name m) <= 65529 ->
  exists b, index_meta_marshal m = Ok b /\ index_meta_unmarshal (b ++ tail) = Ok m.
Proof.
  intros Hok Hn. destruct (@index_meta_roundtrip m tail Hok ltac:(lia)) as (b & E1 & E2 & _). eauto.
Qed.
Theorem C04_refuted_long_names m : index_meta_ok m -> 65530 <= zlen (im_name m) < 65536 ->
  exists b, index_meta_marshal m = Ok b /\ index_meta_unmarshal b = Panic.
Proof.
  intros (H1 & H2 & H3) Hn. eexists. split; [apply index_meta_marshal_eq; auto|].
  set (nm := im_name m) in *. set (v := put_uvarint (im_total m)).
  pose proof (zlen_nonneg v) as N1.
  unfold index_meta_unmarshal.
  set (b := le 2 (im_type m)). set (b2 := le 2 (im_width m)). set (b3 := le 2 (zlen nm)).
  assert (Lb : zlen b = 2) by apply zlen_le. assert (Lb2 : zlen b2 = 2) by apply zlen_le. assert (Lb3 : zlen b3 = 2) by apply zlen_le.
  assert (L : zlen (b ++ b2 ++ b3 ++ nm ++ v) = 6 + zlen nm + zlen v) by (rewrite !zlen_app; lia).
  rewrite !L.
  destruct (Z.ltb_spec (6 + zlen nm + zlen v) 4); [lia|]. destruct (Z.ltb_spec (6 + zlen nm + zlen v) 6); [lia|].
  assert (E4 : slice (b ++ b2 ++ b3 ++ nm ++ v) 4 2 = b3).
  { rewrite (app_assoc b b2). apply slice_app_mid; [rewrite zlen_app; lia | auto]. }
  rewrite E4. unfold b3. rewrite unle_le by (change (256 ^ Z.of_nat 2) with (2^16); lia).
  destruct (Z.ltb_spec (6 + zlen nm + zlen v) (4 + zlen nm)); [lia|].
  replace ((6 + zlen nm) mod 2^16) with (6 + zlen nm - 2^16) by (rewrite <- (Z.mod_add (6 + zlen nm) (-1)) by lia; rewrite Z.mod_small; lia).
  destruct (Z.ltb_spec (6 + zlen nm - 2^16) 6); [reflexivity|lia].
Qed.
Example C04_example : exists b, index_meta_marshal (IM [110; 97; 109; 101] FTString 0 300) = Ok b /\
  index_meta_unmarshal (b ++ [0; 0]) = Ok (IM [110; 97; 109; 101] FTString 0 300).
Proof. exists_ok; split; vm_compute; reflexivity. Qed.
(** short buffers panic instead of being refused *)
Theorem C04_short_buffer_panics : index_meta_unmarshal [0; 0; 0; 0; 0] = Panic.
Proof. reflexivity. Qed.

(** ** C05: the TypeScript decoder *)
Theorem C05_client_varints_partial v tail : 0 <= v < 2^31 ->
  ts_uvarint (put_uvarint v ++ tail) = (v, zlen (put_uvarint v)).
Proof. apply ts_uvarint_put. Qed.
(** the byte count is right for every value *)
Theorem C05_client_varint_count v tail : 0 <= v < 2^64 ->
  snd (ts_uvarint (put_uvarint v ++ tail)) = zlen (put_uvarint v).
Proof. intros H. rewrite ts_uvarint_count, uvarint_put by auto. reflexivity. Qed.
(** from 2^31 on, no value is decoded correctly *)
Theorem C05_refuted_from_2_31 v tail : 2^31 <= v ->
  fst (ts_uvarint (put_uvarint v ++ tail)) <> v.
Proof. intros H E. pose proof (ts_uvarint_loop_range (put_uvarint v ++ tail) 0 0 0). unfold ts_uvarint in E. lia. Qed.
Example C05_example : ts_uvarint (put_uvarint 1000000 ++ [7]) = (1000000, 3) /\
  fst (ts_uvarint (put_uvarint (2^32 + 5))) = 5.
Proof. vm_compute; auto. Qed.

(** ** C06: the TypeScript metadata readers *)
Theorem C06_client_file_meta_partial m b tail : file_meta_ok m -> fm_format m = 0 \/ fm_format m = 1 ->
  fm_entries m < 2^31 -> file_meta_marshal m = Ok b -> ts_read_file_meta (b ++ tail) = Ok m.
Proof. intros H1 H2 H3 H4. apply ts_file_meta_roundtrip; auto; lia. Qed.
Theorem C06_client_index_meta_partial m b tail : index_meta_ok m -> zlen (im_name m) < 2^16 ->
  im_total m < 2^31 -> index_meta_marshal m = Ok b -> ts_read_index_meta (b ++ tail) = Ok m.
Proof. apply ts_index_meta_roundtrip. Qed.
Theorem C06_refuted_large_counts : exists m b, file_meta_ok m /\ fm_format m = 0 /\ file_meta_marshal m = Ok b /\
  ts_read_file_meta b <> Ok m.
Proof.
  exists (FM 1 0 0 (2^31)), [1; 0; 0; 0; 0; 0; 0; 0; 0; 0; 128; 128; 128; 128; 8]. split; [unfold file_meta_ok; cbn [fm_version fm_format fm_read_offset fm_entries]; lia|].
  split; [reflexivity|]. split; [vm_compute; reflexivity|]. vm_compute. discriminate.
Qed.
Example C06_example : exists b, file_meta_marshal (FM 1 1 300 300) = Ok b /\ ts_read_file_meta b = Ok (FM 1 1 300 300).
Proof. exists_ok; split; vm_compute; reflexivity. Qed.

(** ** C07: the order of keys *)
(** Specification: lexicographic order of byte strings ... *)
Definition bytes_before (a b : bytes) : Prop :=
  (exists p x y a' b', a = p ++ x :: a' /\ b = p ++ y :: b' /\ x < y) \/
  (exists y b', b = a ++ y :: b').
(** ... then data offset, then data length *)
Definition key_before (a b : rv) : Prop :=
  bytes_before (rv_val a) (rv_val b) \/
  (rv_val a = rv_val b /\ mp_off (rv_dp a) < mp_off (rv_dp b)) \/
  (rv_val a = rv_val b /\ mp_off (rv_dp a) = mp_off (rv_dp b) /\ mp_len (rv_dp a) < mp_len (rv_dp b)).

Lemma bytes_before_cons x a y b : bytes_before (x :: a) (y :: b) <-> x < y \/ (x = y /\ bytes_before a b).
Proof.
  split.
  - intros [(p & u & v & a' & b' & Ea & Eb & Hlt)|(v & b' & E)].
    + destruct p as [|z p]; cbn [app] in *; injection Ea as -> ->; injection Eb as -> ->; [left; auto|].
      right. split; auto. left. exists p, u, v, a', b'. auto.
    + cbn [app] in E. injection E as -> ->. right. split; auto. right. eauto.
  - intros [H|[-> [(p & u & v & a' & b' & -> & -> & Hlt)|(v & b' & ->)]]].
    + left. exists [], x, y, a, b. auto.
    + left. exists (y :: p), u, v, a', b'. auto.
    + right. exists v, b'. auto.
Qed.
Lemma bytes_before_iff a b : bytes_before a b <-> bytes_cmp a b = -1.
Proof.
  revert b; induction a as [|x a IH]; intros [|y b]; cbn [bytes_cmp].
  - split; [|discriminate]. intros [(p & u & v & a' & b' & E & _)|(v & b' & E)]; [destruct p; discriminate|discriminate].
  - split; [reflexivity|]. intros _. right. exists y, b. reflexivity.
  - split; [|discriminate]. intros [(p & u & v & a' & b' & _ & E & _)|(v & b' & E)]; [destruct p; discriminate|discriminate].
  - rewrite bytes_before_cons. destruct (Z.ltb_spec x y); [split; auto|]. destruct (Z.ltb_spec y x).
    + split; [lia|discriminate].
    + assert (x = y) by lia. subst. rewrite <- IH. split; [intros [?|[_ ?]]; [lia|auto] | auto].
Qed.
Lemma key_before_iff a b : key_before a b <-> rv_cmp a b = -1.
Proof.
  unfold key_before, rv_cmp. rewrite bytes_before_iff, <- bytes_cmp_eq.
  destruct (bytes_cmp_vals (rv_val a) (rv_val b)) as [-> | [-> | ->]]; cbn [Z.eqb negb].
  - split; auto.
  - destruct (Z.ltb_spec (mp_off (rv_dp a)) (mp_off (rv_dp b))); [split; auto|].
    destruct (Z.ltb_spec (mp_off (rv_dp b)) (mp_off (rv_dp a))); [split; [lia|discriminate]|].
    destruct (Z.ltb_spec (mp_len (rv_dp a)) (mp_len (rv_dp b))); [split; auto; lia|].
    destruct (Z.ltb_spec (mp_len (rv_dp b)) (mp_len (rv_dp a))); (split; [lia|discriminate]).
  - split; [lia|discriminate].
Qed.
Lemma key_before_rlt a b : key_before a b <-> rlt a b.
Proof. rewrite key_before_iff. unfold rlt. destruct (rv_cmp_vals a b) as [-> | [-> | ->]]; lia. Qed.

(** the comparison computes the order *)
Theorem C07_comparison_is_lexicographic a b :
  (rv_cmp a b = -1 <-> key_before a b) /\ (rv_cmp a b = 0 <-> a = b) /\ (rv_cmp a b = 1 <-> key_before b a).
Proof.
  split; [symmetry; apply key_before_iff|]. split; [apply rv_cmp_eq|].
  rewrite key_before_iff, (rv_cmp_anti a b). lia.
Qed.
(** which is a strict total order *)
Theorem C07_total_order :
  (forall a, ~ key_before a a) /\ (forall a b c, key_before a b -> key_before b c -> key_before a c) /\
  (forall a b, key_before a b \/ a = b \/ key_before b a).
Proof.
  split; [|split].
  - intros a. rewrite key_before_rlt. apply rlt_irrefl.
  - intros a b c. rewrite !key_before_rlt. apply rlt_trans.
  - intros a b. rewrite !key_before_rlt. apply rlt_total.
Qed.
Theorem C07_client_orders_identically a b : ts_rv_cmp a b = rv_cmp a b.
Proof. apply ts_rv_cmp_eq. Qed.
Example C07_example : rv_cmp (RV (MP 9 1) [1; 2]) (RV (MP 0 1) [1; 2; 0]) = -1 /\
  key_before (RV (MP 9 1) [1; 2]) (RV (MP 0 1) [1; 2; 0]) /\
  rv_cmp (RV (MP 9 1) [2]) (RV (MP 9 0) [2]) = 1.
Proof. split; [reflexivity|]. split; [|reflexivity]. left. right. exists 0, []. reflexivity. Qed.

(** ** C08: binary search *)
(** [i] keys are smaller than [k], all of them at the front *)
Definition lower_bound (l : list rv) (k : rv) (i : nat) : Prop :=
  (i <= length l)%nat /\ Forall (fun x => key_before x k) (firstn i l) /\
  Forall (fun x => ~ key_before x k) (skipn i l).
Theorem C08_binary_search l k : StronglySorted key_before l ->
  lower_bound l k (fst (bsearch l k)) /\ (snd (bsearch l k) = true <-> In k l).
Proof.
  intros H.
  assert (Hs : sorted l).
  { clear - H. unfold sorted. induction H as [|a l Hl IH Hf]; constructor; auto.
    eapply Forall_impl; [|exact Hf]. intros. apply key_before_rlt; auto. }
  split; [|apply bsearch_snd; auto]. rewrite (bsearch_fst k Hs).
  destruct (lb_split k Hs) as [H1 H2]. split; [apply lb_le|]. split; apply Forall_forall; intros x Hx.
  - apply key_before_rlt; auto.
  - rewrite key_before_rlt, <- rle_not_rlt. auto.
Qed.
Theorem C08_client_search_agrees l k : ts_bsearch l k = bsearch l k.
Proof. apply ts_bsearch_eq. Qed.
Example C08_example : bsearch [RV (MP 0 1) [1]; RV (MP 4 1) [3]; RV (MP 2 1) [7]] (RV (MP 9 9) [3]) = (2%nat, false)
  /\ bsearch [RV (MP 0 1) [1]; RV (MP 4 1) [3]; RV (MP 2 1) [7]] (RV (MP 4 1) [3]) = (1%nat, true).
Proof. vm_compute; auto. Qed.

(** ** C09: numeric keys *)
(** The key of a number: binary.BigEndian.PutUint64(buf, math.Float64bits(v)) in
    pkg/handlers/jsonl.go:114-116,224-226 and pkg/handlers/csv.go:133-136.
    [bits] is math.Float64bits(v), the IEEE-754 bit pattern. *)
Definition float_key (bits : Z) : bytes := be 8 bits.
(** Specification: the number a binary64 pattern denotes, in units of 2^-1074
    (an integer; the infinities come out as +-2^2098). Sign bit 63, exponent
    bits 52-62, mantissa bits 0-51. *)
Definition fmag (bits : Z) : Z :=
  let e := bits mod 2^63 / 2^52 in
  let m := bits mod 2^52 in
  if e =? 0 then m else (2^52 + m) * 2^(e - 1).
Definition fneg (bits : Z) : bool := 2^63 <=? bits.
Definition fnum (bits : Z) : Z := if fneg bits then - fmag bits else fmag bits.
Definition is_number (bits : Z) : Prop := 0 <= bits < 2^64 /\ bits mod 2^63 <= 2047 * 2^52.

Lemma be_S n v : be (S n) v = be n (v / 256) ++ [v mod 256].
Proof. unfold be. cbn [le rev]. reflexivity. Qed.
Lemma bytes_cmp_snoc a b x y : length a = length b ->
  bytes_cmp (a ++ [x]) (b ++ [y]) = if bytes_cmp a b =? 0 then (if x <? y then -1 else if y <? x then 1 else 0) else bytes_cmp a b.
Proof.
  revert b; induction a as [|u a IH]; intros [|w b] H; try discriminate; cbn [app bytes_cmp]; auto.
  destruct (u <? w); auto. destruct (w <? u); auto.
Qed.
Lemma bytes_cmp_be n a b : 0 <= a < 256 ^ Z.of_nat n -> 0 <= b < 256 ^ Z.of_nat n ->
  bytes_cmp (be n a) (be n b) = if a <? b then -1 else if b <? a then 1 else 0.
Proof.
  revert a b; induction n as [|n IH]; intros a b Ha Hb.
  - cbn in Ha, Hb. assert (a = 0) by lia. assert (b = 0) by lia. subst. reflexivity.
  - rewrite Nat2Z.inj_succ, Z.pow_succ_r in Ha, Hb by lia.
    assert (Ha' : 0 <= a / 256 < 256 ^ Z.of_nat n) by (split; [apply Z.div_pos; lia | apply Z.div_lt_upper_bound; lia]).
    assert (Hb' : 0 <= b / 256 < 256 ^ Z.of_nat n) by (split; [apply Z.div_pos; lia | apply Z.div_lt_upper_bound; lia]).
    rewrite !be_S, bytes_cmp_snoc.
    2:{ apply Nat2Z.inj. fold (zlen (be n (a/256))) (zlen (be n (b/256))). rewrite !zlen_be. reflexivity. }
    rewrite IH by auto. clear IH Ha Hb Ha' Hb'.
    destruct (Z.ltb_spec (a/256) (b/256)); destruct (Z.ltb_spec (b/256) (a/256)); cbn [Z.eqb];
    destruct (Z.ltb_spec (a mod 256) (b mod 256)); destruct (Z.ltb_spec (b mod 256) (a mod 256));
    destruct (Z.ltb_spec a b); destruct (Z.ltb_spec b a); lia.
Qed.
Lemma fmag_mono a b : 0 <= a -> a < b < 2^63 -> fmag a < fmag b.
Proof.
  intros Ha Hb. unfold fmag. rewrite !(Z.mod_small _ (2^63)) by lia.
  set (ea := a / 2^52). set (ma := a mod 2^52). set (eb := b / 2^52). set (mb := b mod 2^52).
  assert (Ea : a = 2^52 * ea + ma) by (apply Z.div_mod; lia).
  assert (Eb : b = 2^52 * eb + mb) by (apply Z.div_mod; lia).
  assert (Hma : 0 <= ma < 2^52) by (apply Z.mod_pos_bound; lia).
  assert (Hmb : 0 <= mb < 2^52) by (apply Z.mod_pos_bound; lia).
  assert (Hea : 0 <= ea) by (apply Z.div_pos; lia).
  clearbody ea ma eb mb.
  destruct (Z.lt_total ea eb) as [Hlt|[Heq|Hgt]]; [| |lia].
  - assert (Hup : (if ea =? 0 then ma else (2^52 + ma) * 2^(ea-1)) < 2^52 * 2^ea).
    { destruct (Z.eqb_spec ea 0) as [->|Hne]; [lia|].
      assert (Ep : 2^ea = 2 * 2^(ea-1)) by (rewrite <- Z.pow_succ_r by lia; f_equal; lia).
      pose proof (Z.pow_pos_nonneg 2 (ea-1) ltac:(lia) ltac:(lia)).
      rewrite Ep. replace (2^52 * (2 * 2^(ea-1))) with ((2^52 * 2) * 2^(ea-1)) by ring.
      apply Z.mul_lt_mono_pos_r; lia. }
    assert (Hdn : 2^52 * 2^(eb-1) <= (if eb =? 0 then mb else (2^52 + mb) * 2^(eb-1))).
    { destruct (Z.eqb_spec eb 0) as [->|Hne]; [lia|].
      pose proof (Z.pow_pos_nonneg 2 (eb-1) ltac:(lia) ltac:(lia)).
      apply Z.mul_le_mono_nonneg_r; lia. }
    assert (2^ea <= 2^(eb-1)) by (apply Z.pow_le_mono_r; lia).
    lia.
  - subst eb. destruct (Z.eqb_spec ea 0) as [->|Hne]; [lia|].
    pose proof (Z.pow_pos_nonneg 2 (ea-1) ltac:(lia) ltac:(lia)).
    apply Z.mul_lt_mono_pos_r; lia.
Qed.
Lemma fmag_nonneg a : 0 <= fmag a.
Proof.
  unfold fmag. pose proof (Z.mod_pos_bound a (2^52) ltac:(lia)).
  assert (0 <= a mod 2^63 / 2^52) by (apply Z.div_pos; [apply Z.mod_pos_bound; lia | lia]).
  destruct (Z.eqb_spec (a mod 2^63 / 2^52) 0); [lia|].
  apply Z.mul_nonneg_nonneg; [lia | apply Z.pow_nonneg; lia].
Qed.
Lemma fmag_mod a : fmag (a mod 2^63) = fmag a.
Proof.
  unfold fmag. rewrite Z.mod_mod by lia.
  replace ((a mod 2^63) mod 2^52) with (a mod 2^52); [reflexivity|].
  change (2^63) with (2^52 * 2^11). rewrite Z.rem_mul_r by lia.
  rewrite Z.mul_comm, Z.mod_add by lia. rewrite Z.mod_mod by lia. reflexivity.
Qed.

(** numbers that are not negative are ordered by their keys *)
Theorem C09_keys_sort_like_numbers_partial a b : is_number a -> is_number b ->
  fneg a = false -> fneg b = false ->
  (bytes_cmp (float_key a) (float_key b) < 0 <-> fnum a < fnum b) /\
  (bytes_cmp (float_key a) (float_key b) = 0 <-> fnum a = fnum b).
Proof.
  intros [Ha _] [Hb _] Na Nb. unfold float_key. rewrite bytes_cmp_be by (change (256 ^ Z.of_nat 8) with (2^64); lia).
  unfold fnum. rewrite Na, Nb. unfold fneg in *. apply Z.leb_gt in Na, Nb.
  destruct (Z.ltb_spec a b) as [H|H]; [pose proof (@fmag_mono a b ltac:(lia) ltac:(lia)); lia|].
  destruct (Z.ltb_spec b a) as [H'|H']; [pose proof (@fmag_mono b a ltac:(lia) ltac:(lia)); lia|].
  assert (a = b) by lia. subst. lia.
Qed.
(** negative numbers are not: their keys come after all others and in reverse *)
Theorem C09_refuted_negative_numbers a b : is_number a -> is_number b -> fneg a = true ->
  (fneg b = false -> bytes_cmp (float_key b) (float_key a) < 0) /\
  (fneg b = true -> fnum a < fnum b -> bytes_cmp (float_key b) (float_key a) < 0).
Proof.
  intros [Ha _] [Hb _] Na. unfold float_key. rewrite bytes_cmp_be by (change (256 ^ Z.of_nat 8) with (2^64); lia).
  split.
  - intros Nb. unfold fneg in *. apply Z.leb_le in Na. apply Z.leb_gt in Nb. destruct (Z.ltb_spec b a); lia.
  - intros Nb. unfold fnum. rewrite Na, Nb. unfold fneg in *. apply Z.leb_le in Na, Nb. intros H.
    destruct (Z.ltb_spec b a) as [H1|H1]; [lia|]. exfalso.
    destruct (Z.eq_dec a b) as [->|Hne]; [lia|].
    assert (fmag (a mod 2^63) < fmag (b mod 2^63)).
    { assert (Em : forall x, 2^63 <= x < 2^64 -> x mod 2^63 = x - 2^63).
      { intros x Hx. rewrite <- (Z.mod_add x (-1)) by lia. rewrite Z.mod_small; lia. }
      rewrite !Em by lia. apply fmag_mono; lia. }
    rewrite !fmag_mod in *. lia.
Qed.
(** -1.0 < 1.0, but the key of -1.0 is the larger one *)
Example C09_example : is_number 0xBFF0000000000000 /\ is_number 0x3FF0000000000000 /\
  fnum 0xBFF0000000000000 = - 2^1074 /\ fnum 0x3FF0000000000000 = 2^1074 /\
  bytes_cmp (float_key 0x3FF0000000000000) (float_key 0xBFF0000000000000) = -1 /\
  (* 0.1 and 1.0 are in order *)
  bytes_cmp (float_key 0x3FB999999999999A) (float_key 0x3FF0000000000000) = -1.
Proof. unfold is_number. repeat split; vm_compute; congruence. Qed.

(** ** C10: B+ tree nodes *)
Theorem C10_node_round_trip c n : codec_ok c -> node_ok c n ->
  exists b, marshal (cwidth c) n = Ok b /\ zlen b = node_size (cwidth c) n /\
    forall tail, unmarshal c (b ++ tail) = Ok n.
Proof.
  intros Hc Hn. exists (enc_node (cwidth c) n). split; [apply marshal_ok; auto|].
  split; [apply enc_node_size; auto|]. intros tail. apply unmarshal_enc; auto.
Qed.
(** two different nodes never share an encoding *)
Theorem C10_encoding_injective c n n' b : codec_ok c -> node_ok c n -> node_ok c n' ->
  marshal (cwidth c) n = Ok b -> marshal (cwidth c) n' = Ok b -> n = n'.
Proof.
  intros Hc Hn Hn' E E'. destruct (C10_node_round_trip Hc Hn) as (b1 & E1 & _ & R1).
  destruct (C10_node_round_trip Hc Hn') as (b2 & E2 & _ & R2).
  rewrite E in E1. injection E1 as <-. rewrite E' in E2. injection E2 as <-.
  specialize (R1 []). specialize (R2 []). congruence.
Qed.
Definition ex_codec := mkCodec 3 [] (fun b => Some b).
Definition ex_leaf := mkNode [RV (MP 10 4) [1; 2]; RV (MP 500 4) [1; 3]] [MP 0 300; MP 300 20] [].
Definition ex_inner := mkNode [RV (MP 10 4) [1; 2]] [] [8192; 12288].
Lemma ex_codec_ok : codec_ok ex_codec.
Proof. unfold codec_ok, ex_codec; cbn [cwidth cdata]. change (zlen (@nil Z)) with 0. lia. Qed.
Lemma ex_leaf_ok : node_ok ex_codec ex_leaf.
Proof.
  unfold node_ok, shape_ok, ex_leaf, key_ok, mptr_ok, ex_codec; cbn [keys lptrs iptrs cwidth Z.eqb].
  split; [split; [discriminate | left; auto]|]. split; [reflexivity|].
  all_small.
Qed.
Lemma ex_inner_ok : node_ok ex_codec ex_inner.
Proof.
  unfold node_ok, shape_ok, ex_inner, key_ok, mptr_ok, ex_codec; cbn [keys lptrs iptrs cwidth Z.eqb].
  split; [split; [discriminate | right; auto]|]. split; [reflexivity|].
  all_small.
Qed.
Example C10_example : node_ok ex_codec ex_leaf /\ node_ok ex_codec ex_inner /\
  exists b, marshal 3 ex_leaf = Ok b /\ zlen b = 19 /\ unmarshal ex_codec (b ++ [9; 9]) = Ok ex_leaf.
Proof. split; [apply ex_leaf_ok|]. split; [apply ex_inner_ok|]. exists_ok. repeat split; vm_compute; reflexivity. Qed.

(** ** C63: the TypeScript client reads the nodes the indexer wrote, as long as
    every offset and length in them is below 2^31 *)
Theorem C63_client_reads_nodes_partial c n b tail : codec_ok c -> node_ok c n -> node_small n ->
  marshal (cwidth c) n = Ok b -> ts_unmarshal c (b ++ tail) = Ok n.
Proof.
  intros Hc Hn Hs E. rewrite (marshal_ok Hn) in E. injection E as <-. apply ts_unmarshal_enc; auto.
Qed.
(** beyond 2 GiB of data it does not *)
Theorem C63_refuted_large_offsets : exists c n b, codec_ok c /\ node_ok c n /\ marshal (cwidth c) n = Ok b /\
  ts_unmarshal c b <> Ok n /\ unmarshal c b = Ok n.
Proof.
  set (n := mkNode [RV (MP (2^31) 4) [1; 2]] [MP (2^31) 300] []).
  exists ex_codec, n, [255; 255; 255; 255; 128; 128; 128; 128; 8; 4; 1; 2; 128; 128; 128; 128; 8; 172; 2]. split; [apply ex_codec_ok|].
  split; [|split; [vm_compute; reflexivity|]].
  - unfold n, node_ok, shape_ok, key_ok, mptr_ok, ex_codec; cbn [keys lptrs iptrs cwidth Z.eqb].
    split; [split; [discriminate | left; auto]|]. split; [reflexivity|].
    all_small.
  - split; [vm_compute; discriminate | vm_compute; reflexivity].
Qed.
Example C63_example : node_small ex_leaf /\ exists b, marshal 3 ex_leaf = Ok b /\ ts_unmarshal ex_codec b = Ok ex_leaf.
Proof.
  split; [unfold node_small, mptr_small, ex_leaf; cbn [keys lptrs iptrs]; all_small|].
  exists_ok; split; vm_compute; reflexivity.
Qed.
