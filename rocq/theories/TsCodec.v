(** Decoding in the browser client: src/util/uvarint.ts, src/file/meta.ts,
    src/bptree/node.ts. *)
From Verif Require Import Base Varint RefValue Node Meta.

(** ** JavaScript integer operators *)
(** ToInt32 (ECMAScript) *)
Definition i32 (x : Z) : Z := let y := x mod 2^32 in if y <? 2^31 then y else y - 2^32.
(** [a << b]: the count is taken mod 32 *)
Definition js_shl (a b : Z) : Z := i32 (i32 a * 2 ^ (b mod 32)).
(** [a | b], [a & b] *)
Definition js_or (a b : Z) : Z := Z.lor (i32 a) (i32 b).
Definition js_and (a b : Z) : Z := Z.land (i32 a) (i32 b).
(** [a >> b] *)
Definition js_shr (a b : Z) : Z := Z.shiftr (i32 a) (b mod 32).

(** ArrayBuffer.prototype.slice(begin) and slice(begin, end): negative positions
    count from the end, everything is clamped *)
Definition js_pos (n i : Z) : Z := if i <? 0 then Z.max 0 (n + i) else Z.min i n.
Definition js_slice_from (b : bytes) (i : Z) : bytes := skipn (Z.to_nat (js_pos (zlen b) i)) b.
Definition js_slice (b : bytes) (i j : Z) : bytes :=
  let i := js_pos (zlen b) i in let j := js_pos (zlen b) j in
  if j <? i then [] else slice b i (j - i).

(** ** Model *)

(** decodeUvarint: src/util/uvarint.ts:23-50 *)
Fixpoint ts_uvarint_loop (buf : bytes) (i s x : Z) : Z * Z :=
  match buf with
  | [] => (0, 0)
  | b :: rest =>
      if i =? 10 then (0, - (i + 1))
      else if b <? 128 then
        if (i =? 9) && (1 <? b) then (0, - (i + 1))
        else (js_or x (js_shl b s), i + 1)
      else ts_uvarint_loop rest (i + 1) (s + 7) (js_or x (js_shl (js_and b 127) s))
  end.
(** decodeUvarint: src/util/uvarint.ts:23-50 *)
Definition ts_uvarint (buf : bytes) : Z * Z := ts_uvarint_loop buf 0 0 0.

(** encodeUvarint: src/util/uvarint.ts:8-21; [n] is a number, compared as is but
    shifted as a 32-bit integer. Writes past the 10 byte buffer are ignored by
    a typed array; the final slice clamps. *)
Fixpoint ts_put_loop (fuel : nat) (n : Z) : bytes :=
  match fuel with
  | O => []
  | S fuel' => if 128 <=? n then js_or (js_and n 255) 128 :: ts_put_loop fuel' (js_shr n 7)
               else [js_and n 255]
  end.
(** encodeUvarint: src/util/uvarint.ts:8-21 *)
Definition ts_put_uvarint (n : Z) : bytes := ts_put_loop 10 n.

(** readFileMeta: src/file/meta.ts:15-41 (note the check [byteLength <= 10]) *)
Definition ts_read_file_meta (buf : bytes) : res file_meta :=
  if zlen buf <=? 10 then Err (EMsg "incorrect byte length!")
  else
    let version := nth 0 buf 0 in
    let format := nth 1 buf 0 in
    if (format =? 0) || (format =? 1) then
      let '(e, _) := ts_uvarint (js_slice_from buf 10) in
      Ok (FM version format (unle (slice buf 2 8)) e)
    else Err (EMsg "unexpected file format").

(** readIndexMeta: src/file/meta.ts:55-82. The name is returned as the bytes given
    to TextDecoder. *)
Definition ts_read_index_meta (buf : bytes) : res index_meta :=
  if zlen buf <? 6 then Err (EMsg "invalid metadata size")
  else
    let ft := unle (slice buf 0 2) in
    let width := unle (slice buf 2 2) in
    let nl := unle (slice buf 4 2) in
    if zlen buf <? 6 + nl then Err (EMsg "invalid metadata size")
    else
      let '(tl, _) := ts_uvarint (js_slice_from buf (6 + nl)) in
      Ok (IM (js_slice buf 6 (6 + nl)) ft width tl).

(** BPTreeNode.unmarshalBinary: src/bptree/node.ts:95-200. The key loop
    (131-166): data pointers, and the value bytes for a fixed width.
    For a variable width the ranges [start, end] (inclusive) are resolved after
    the loop (168-177): [ts_fetch]; the resolver is taken to return the bytes of
    the data file, and parseValue (197-237) is [cparse]. *)
Fixpoint ts_read_keys (w : Z) (n : nat) (buf : bytes) (m : Z) : list (mptr * bytes) * Z :=
  match n with
  | O => ([], m)
  | S n' =>
      let '(o, on) := ts_uvarint (js_slice_from buf m) in
      let '(l, ln) := ts_uvarint (js_slice_from buf (m + on)) in
      let m := m + (on + ln) in
      let v := if w =? 0 then [] else js_slice buf m (m + w - 1) in
      let '(ks, m') := ts_read_keys w n' buf (m + zlen v) in
      ((MP o l, v) :: ks, m')
  end.
(** the keys that are read from the data file: src/bptree/node.ts:202-241 *)
Fixpoint ts_fetch (c : codec) (ks : list (mptr * bytes)) : res (list rv) :=
  match ks with
  | [] => Ok []
  | (dp, v) :: ks' =>
      v <-- (if cwidth c =? 0 then
               let hi := mp_off dp + mp_len dp - 1 in
               match cparse c (slice (cdata c) (mp_off dp) (hi - mp_off dp + 1)) with
               | Some v => Ok v | None => Err (EMsg "parse") end
             else Ok v) ;;;
      r <-- ts_fetch c ks' ;;;
      Ok (RV dp v :: r)
  end.
(** src/bptree/node.ts:180-191 *)
Fixpoint ts_read_lptrs (n : nat) (buf : bytes) (m : Z) : list mptr * Z :=
  match n with
  | O => ([], m)
  | S n' =>
      let '(o, on) := ts_uvarint (js_slice_from buf m) in
      let '(l, ln) := ts_uvarint (js_slice_from buf (m + on)) in
      let '(ps, m') := ts_read_lptrs n' buf (m + (ln + on)) in
      (MP o l :: ps, m')
  end.
(** src/bptree/node.ts:193-199 *)
Fixpoint ts_read_iptrs (n : nat) (buf : bytes) (m : Z) : list Z * Z :=
  match n with
  | O => ([], m)
  | S n' =>
      let '(o, on) := ts_uvarint (js_slice_from buf m) in
      let '(ps, m') := ts_read_iptrs n' buf (m + on) in
      (o :: ps, m')
  end.
(** BPTreeNode.unmarshalBinary, fromMemoryPointer: src/bptree/node.ts:95-273 *)
Definition ts_unmarshal (c : codec) (buf : bytes) : res node :=
  if zlen buf <? 4 then Err (EMsg "RangeError")
  else
    let size := unle (firstn 4 buf) in
    let size := if 2147483647 <? size then size - 4294967296 else size in
    if size =? 0 then Err (EMsg "empty node")
    else
      let cnt := Z.to_nat (Z.abs size) in
      let leaf := size <? 0 in
      let '(dps, m) := ts_read_keys (cwidth c) cnt buf 4 in
      ks <-- ts_fetch c dps ;;;
      if leaf then let '(ps, _) := ts_read_lptrs cnt buf m in Ok (mkNode ks ps [])
      else let '(os, _) := ts_read_iptrs (S cnt) buf m in Ok (mkNode ks [] os).

(** ** Proofs *)
Lemma i32_small x : - 2^31 <= x < 2^31 -> i32 x = x.
Proof.
  intros H. unfold i32. destruct (Z.le_gt_cases 0 x).
  - rewrite Z.mod_small by lia. destruct (Z.ltb_spec x (2^31)); lia.
  - replace (x mod 2^32) with (x + 2^32).
    + destruct (Z.ltb_spec (x + 2^32) (2^31)); lia.
    + rewrite <- (Z.mod_add x 1) by lia. rewrite Z.mod_small; lia.
Qed.
Lemma i32_range x : - 2^31 <= i32 x < 2^31.
Proof. unfold i32. pose proof (Z.mod_pos_bound x (2^32) ltac:(lia)). destruct (Z.ltb_spec (x mod 2^32) (2^31)); lia. Qed.
(** the bitwise or of two int32 values is an int32 value *)
Lemma lor_range a b : - 2^31 <= a < 2^31 -> - 2^31 <= b < 2^31 -> - 2^31 <= Z.lor a b < 2^31.
Proof.
  assert (P : forall x, - 2^31 <= x < 2^31 <-> Z.shiftr x 31 = 0 \/ Z.shiftr x 31 = -1).
  { intros x. rewrite Z.shiftr_div_pow2 by lia. change (2^31) with 2147483648. lia. }
  rewrite !P. intros Ha Hb. rewrite Z.shiftr_lor.
  destruct Ha as [-> | ->], Hb as [-> | ->]; cbn; auto.
Qed.
Lemma js_or_range a b : - 2^31 <= js_or a b < 2^31.
Proof. apply lor_range; apply i32_range. Qed.
Lemma ts_uvarint_loop_range buf i s x : - 2^31 <= fst (ts_uvarint_loop buf i s x) < 2^31.
Proof.
  revert i s x; induction buf as [|b rest IH]; intros i s x; cbn [ts_uvarint_loop fst]; [lia|].
  destruct (i =? 10); [cbn; lia|]. destruct (b <? 128); [|apply IH].
  destruct (_ && _); cbn [fst]; [lia|]. apply js_or_range.
Qed.
(** the number of bytes read does not depend on the arithmetic *)
Lemma ts_uvarint_loop_count buf i s x s' x' : snd (ts_uvarint_loop buf i s x) = snd (uvarint_loop buf i s' x').
Proof.
  revert i s x s' x'; induction buf as [|b rest IH]; intros i s x s' x'; cbn [ts_uvarint_loop uvarint_loop snd]; auto.
  destruct (i =? 10); auto. destruct (b <? 128); [|apply IH]. destruct (_ && _); reflexivity.
Qed.
Lemma ts_uvarint_count buf : snd (ts_uvarint buf) = snd (uvarint buf).
Proof. apply ts_uvarint_loop_count. Qed.
Lemma js_or_disj x b s : 0 <= s < 32 -> 0 <= x < 2^s -> 0 <= b < 128 -> x + b * 2^s < 2^31 ->
  js_or x (js_shl b s) = x + b * 2^s.
Proof.
  intros Hs Hx Hb H. unfold js_or, js_shl. rewrite (Z.mod_small s) by lia.
  pose proof (Z.pow_pos_nonneg 2 s ltac:(lia) ltac:(lia)).
  assert (0 <= b * 2^s) by (apply Z.mul_nonneg_nonneg; lia).
  rewrite (i32_small (x:=b)) by lia. rewrite (i32_small (x := b * 2^s)) by lia.
  rewrite (i32_small (x:=b * 2^s)) by lia. rewrite (i32_small (x:=x)) by lia.
  rewrite <- Z.shiftl_mul_pow2 by lia. rewrite lor_disj by lia. rewrite Z.shiftl_mul_pow2 by lia. lia.
Qed.

Lemma ts_loop_put fuel y tail i s x :
  0 <= i -> s = 7 * i -> i + Z.of_nat fuel = 10 ->
  0 <= x < 2^s -> 0 <= y -> x + y * 2^s < 2^31 -> (1 <= fuel)%nat -> (y = 0 -> s = 0) ->
  y < 2 ^ (7 * Z.of_nat fuel) ->
  fst (ts_uvarint_loop (put_uvarint_loop fuel y ++ tail) i s x) = x + y * 2^s.
Proof.
  revert y i s x; induction fuel as [|fuel IH]; intros y i s x Hi Hs Hf Hx Hy H31 Hf1 Hy0 Hyf; [lia|].
  pose proof (Z.pow_pos_nonneg 2 s ltac:(lia) ltac:(lia)) as Hp.
  assert (Hs31 : s < 31).
  { destruct (Z.eq_dec y 0) as [E|E]; [specialize (Hy0 E); lia|].
    apply (Z.pow_lt_mono_r_iff 2); [lia|lia|].
    assert (1 * 2^s <= y * 2^s) by (apply Z.mul_le_mono_nonneg_r; lia). lia. }
  destruct (Z.le_gt_cases 128 y) as [H1|H1].
  - rewrite put_loop_step by lia. cbn [app ts_uvarint_loop].
    destruct fuel as [|fuel']; [cbn in Hyf; lia|].
    pose proof (Z.div_mod y 128 ltac:(lia)) as Hdm.
    pose proof (Z.mod_pos_bound y 128 ltac:(lia)) as Hmb.
    assert (Hp7 : 2 ^ (s + 7) = 2^s * 128) by (rewrite Z.pow_add_r by lia; reflexivity).
    destruct (Z.eqb_spec i 10); [lia|]. destruct (Z.ltb_spec (128 + y mod 128) 128); [lia|].
    assert (Ea : js_and (128 + y mod 128) 127 = y mod 128).
    { unfold js_and. rewrite !i32_small by lia. rewrite land_127 by lia. lia. }
    rewrite Ea.
    assert (Hle : (y mod 128) * 2^s <= y * 2^s) by (apply Z.mul_le_mono_nonneg_r; lia).
    rewrite js_or_disj by lia.
    assert (Hyd : y * 2^s = (128 * (y/128)) * 2^s + (y mod 128) * 2^s) by (rewrite <- Z.mul_add_distr_r; f_equal; lia).
    assert (Hlt : (y mod 128) * 2^s <= 127 * 2^s) by (apply Z.mul_le_mono_nonneg_r; lia).
    assert (Hg : (y/128) * (2^s * 128) = (128 * (y/128)) * 2^s) by ring.
    assert (Hnn : 0 <= y mod 128 * 2^s) by (apply Z.mul_nonneg_nonneg; lia).
    assert (Hyf' : y / 128 < 2 ^ (7 * Z.of_nat (S fuel'))).
    { apply Z.div_lt_upper_bound; [lia|]. rewrite pow7S in Hyf. lia. }
    rewrite IH; rewrite ?Hp7, ?Hg; try lia.
  - rewrite put_loop_last by lia. cbn [app ts_uvarint_loop].
    destruct (Z.eqb_spec i 10); [lia|]. destruct (Z.ltb_spec y 128); [|lia].
    destruct (Z.eqb_spec i 9); [lia|]. cbn [andb fst].
    rewrite js_or_disj by lia. reflexivity.
Qed.

Lemma ts_uvarint_put x tail : 0 <= x < 2^31 ->
  ts_uvarint (put_uvarint x ++ tail) = (x, zlen (put_uvarint x)).
Proof.
  intros H. rewrite (surjective_pairing (ts_uvarint _)), ts_uvarint_count, uvarint_put by lia.
  cbn [snd]. f_equal. unfold ts_uvarint, put_uvarint.
  rewrite ts_loop_put; try lia; try (cbn; lia).
Qed.

(** js slices within bounds *)
Lemma js_slice_from_app a b i : i = zlen a -> js_slice_from (a ++ b) i = b.
Proof.
  intros ->. unfold js_slice_from, js_pos. pose proof (zlen_nonneg a). pose proof (zlen_nonneg b).
  destruct (Z.ltb_spec (zlen a) 0); [lia|]. rewrite zlen_app. rewrite Z.min_l by lia.
  apply skipn_app_exact. unfold zlen; lia.
Qed.
Lemma js_slice_mid a b c i j : i = zlen a -> j = i + zlen b -> js_slice (a ++ b ++ c) i j = b.
Proof.
  intros -> ->. pose proof (zlen_nonneg a). pose proof (zlen_nonneg b). pose proof (zlen_nonneg c).
  unfold js_slice, js_pos. destruct (Z.ltb_spec (zlen a) 0); [lia|].
  destruct (Z.ltb_spec (zlen a + zlen b) 0); [lia|]. rewrite !zlen_app, !Z.min_l by lia.
  destruct (Z.ltb_spec (zlen a + zlen b) (zlen a)); [lia|]. apply slice_app_mid; lia.
Qed.

Lemma Ok_inj {A} (x y : A) : Ok x = Ok y -> x = y.
Proof. congruence. Qed.

Lemma ts_file_meta_roundtrip m b tail : file_meta_ok m -> fm_format m <= 1 -> fm_entries m < 2^31 ->
  file_meta_marshal m = Ok b -> ts_read_file_meta (b ++ tail) = Ok m.
Proof.
  intros Hok Hf He Hb. destruct (file_meta_roundtrip tail Hok Hf) as (b' & E1 & E2 & E3).
  rewrite E1 in Hb; injection Hb as ->.
  destruct Hok as (H1 & H2 & H3 & H4).
  assert (Hl := put_uvarint_length H4). pose proof (zlen_nonneg tail).
  rewrite file_meta_marshal_eq in E1 by auto. injection E1 as E1.
  unfold file_meta_unmarshal in E2. unfold ts_read_file_meta.
  assert (L : zlen (b ++ tail) = 10 + zlen (put_uvarint (fm_entries m)) + zlen tail) by (rewrite zlen_app; lia).
  destruct (Z.ltb_spec (zlen (b ++ tail)) 10); [lia|].
  destruct (Z.leb_spec (zlen (b ++ tail)) 10); [lia|].
  destruct (_ || _); [|discriminate].
  replace (js_slice_from (b ++ tail) 10) with (skipn 10 (b ++ tail)).
  2:{ unfold js_slice_from, js_pos. cbn [Z.ltb Z.compare]. rewrite Z.min_l by lia. reflexivity. }
  assert (Es : skipn 10 (b ++ tail) = put_uvarint (fm_entries m) ++ tail).
  { rewrite <- E1. reflexivity. }
  rewrite Es in *. rewrite uvarint_put in E2 by auto. rewrite ts_uvarint_put by lia. exact E2.
Qed.

Lemma ts_index_meta_roundtrip m b tail : index_meta_ok m -> zlen (im_name m) < 2^16 -> im_total m < 2^31 ->
  index_meta_marshal m = Ok b -> ts_read_index_meta (b ++ tail) = Ok m.
Proof.
  intros (H1 & H2 & H3) Hn He Hb. rewrite index_meta_marshal_eq in Hb by auto. apply Ok_inj in Hb. subst b.
  set (nm := im_name m) in *. set (v := put_uvarint (im_total m)).
  pose proof (zlen_nonneg nm) as N0. pose proof (zlen_nonneg v) as N1. pose proof (zlen_nonneg tail) as N2.
  unfold ts_read_index_meta.
  set (b := le 2 (im_type m)). set (b2 := le 2 (im_width m)). set (b3 := le 2 (zlen nm)).
  assert (Lb : zlen b = 2) by apply zlen_le. assert (Lb2 : zlen b2 = 2) by apply zlen_le. assert (Lb3 : zlen b3 = 2) by apply zlen_le.
  assert (L : zlen ((b ++ b2 ++ b3 ++ nm ++ v) ++ tail) = 6 + zlen nm + zlen v + zlen tail) by (rewrite !zlen_app; lia).
  rewrite !L.
  destruct (Z.ltb_spec (6 + zlen nm + zlen v + zlen tail) 6); [lia|].
  assert (E0 : slice ((b ++ b2 ++ b3 ++ nm ++ v) ++ tail) 0 2 = b).
  { rewrite <- app_assoc. rewrite <- Lb. apply slice_app_exact. }
  assert (E2 : slice ((b ++ b2 ++ b3 ++ nm ++ v) ++ tail) 2 2 = b2).
  { rewrite <- !app_assoc. apply slice_app_mid; auto. }
  assert (E4 : slice ((b ++ b2 ++ b3 ++ nm ++ v) ++ tail) 4 2 = b3).
  { replace ((b ++ b2 ++ b3 ++ nm ++ v) ++ tail) with ((b ++ b2) ++ b3 ++ (nm ++ v ++ tail)) by (rewrite <- !app_assoc; reflexivity).
    apply slice_app_mid; [rewrite zlen_app; lia | auto]. }
  rewrite E0, E2, E4. unfold b, b2, b3. rewrite !unle_le by (change (256 ^ Z.of_nat 2) with (2^16); lia).
  destruct (Z.ltb_spec (6 + zlen nm + zlen v + zlen tail) (6 + zlen nm)); [lia|].
  fold b b2 b3.
  replace ((b ++ b2 ++ b3 ++ nm ++ v) ++ tail) with ((b ++ b2 ++ b3) ++ nm ++ (v ++ tail)) by (rewrite <- !app_assoc; reflexivity).
  rewrite js_slice_mid; [| rewrite !zlen_app; lia | lia].
  rewrite app_assoc. rewrite js_slice_from_app by (rewrite !zlen_app; lia).
  unfold v. rewrite ts_uvarint_put by lia. destruct m; reflexivity.
Qed.

(** ** Nodes *)
Definition mptr_small (p : mptr) : Prop := 0 <= mp_off p < 2^31 /\ 0 <= mp_len p < 2^31.
Definition node_small (n : node) : Prop :=
  Forall (fun k => mptr_small (rv_dp k)) (keys n) /\ Forall mptr_small (lptrs n) /\
  Forall (fun o => 0 <= o < 2^31) (iptrs n).

Lemma ts_read_keys_ok c ks : codec_ok c -> Forall (key_ok c) ks -> Forall (fun k => mptr_small (rv_dp k)) ks ->
  forall pre tail m, m = zlen pre ->
  ts_read_keys (cwidth c) (length ks) (pre ++ concat (map (enc_key (cwidth c)) ks) ++ tail) m =
  (map (fun k => (rv_dp k, if cwidth c =? 0 then [] else rv_val k)) ks, m + zlen (concat (map (enc_key (cwidth c)) ks))).
Proof.
  intros Hc. induction ks as [|k ks IH]; intros Hk Hs pre tail m Hm.
  { cbn [length map concat app ts_read_keys]. change (zlen (@nil Z)) with 0. f_equal. lia. }
  inversion Hk as [|? ? Hk1 Hk2]; subst. inversion Hs as [|? ? Hs1 Hs2]; subst.
  cbn [length ts_read_keys map concat]. destruct k as [[o l] v]. cbn [rv_dp rv_val] in *.
  destruct Hs1 as [Ho Hl]; cbn [mp_off mp_len] in *. destruct Hk1 as [_ Hv]. cbn [rv_dp rv_val mp_off mp_len] in Hv.
  set (rest := concat (map (enc_key (cwidth c)) ks)).
  set (e := enc_key (cwidth c) (RV (MP o l) v)).
  set (vv := if negb (cwidth c =? 0) then v else []).
  set (eo := put_uvarint o). set (el := put_uvarint l).
  assert (He : e = eo ++ el ++ vv) by reflexivity. clearbody e. subst e.
  set (buf := pre ++ ((eo ++ el ++ vv) ++ rest) ++ tail).
  assert (B1 : buf = pre ++ eo ++ (el ++ vv ++ rest ++ tail)) by (unfold buf; rewrite <- !app_assoc; reflexivity).
  assert (B2 : buf = (pre ++ eo) ++ el ++ (vv ++ rest ++ tail)) by (unfold buf; rewrite <- !app_assoc; reflexivity).
  assert (B3 : buf = (pre ++ eo ++ el) ++ vv ++ (rest ++ tail)) by (unfold buf; rewrite <- !app_assoc; reflexivity).
  assert (B4 : buf = (pre ++ eo ++ el ++ vv) ++ rest ++ tail) by (unfold buf; rewrite <- !app_assoc; reflexivity).
  clearbody buf.
  rewrite B1 at 1. rewrite js_slice_from_app by reflexivity. unfold eo at 1. rewrite ts_uvarint_put by lia. fold eo.
  rewrite B2 at 1. rewrite js_slice_from_app by (rewrite zlen_app; lia). unfold el at 1. rewrite ts_uvarint_put by lia. fold el.
  cbv zeta.
  assert (Ev : (if cwidth c =? 0 then [] else js_slice buf (zlen pre + (zlen eo + zlen el)) (zlen pre + (zlen eo + zlen el) + cwidth c - 1)) = vv).
  { unfold vv. destruct (Z.eqb_spec (cwidth c) 0); cbn [negb]; [reflexivity|].
    rewrite B3. unfold vv. destruct (Z.eqb_spec (cwidth c) 0); [contradiction|]. cbn [negb].
    apply js_slice_mid; [rewrite !zlen_app; lia | lia]. }
  rewrite Ev. rewrite B4. unfold rest. rewrite IH; auto.
  2:{ rewrite !zlen_app. lia. }
  f_equal.
  - f_equal. f_equal. unfold vv. destruct (cwidth c =? 0); reflexivity.
  - rewrite !zlen_app. lia.
Qed.
Lemma ts_fetch_ok c ks : Forall (key_ok c) ks ->
  ts_fetch c (map (fun k => (rv_dp k, if cwidth c =? 0 then [] else rv_val k)) ks) = Ok ks.
Proof.
  induction 1 as [|k ks Hk _ IH]; [reflexivity|]. cbn [map ts_fetch].
  destruct Hk as [_ Hv]. destruct k as [dp v]; cbn [rv_dp rv_val] in *. destruct (cwidth c =? 0).
  - destruct Hv as [_ Hp]. replace (mp_off dp + mp_len dp - 1 - mp_off dp + 1) with (mp_len dp) by lia.
    rewrite Hp. cbn [rbind]. rewrite IH. reflexivity.
  - cbn [rbind]. rewrite IH. reflexivity.
Qed.
Lemma ts_read_lptrs_ok ps : Forall mptr_small ps -> forall pre tail m, m = zlen pre ->
  ts_read_lptrs (length ps) (pre ++ concat (map enc_lptr ps) ++ tail) m = (ps, m + zlen (concat (map enc_lptr ps))).
Proof.
  induction ps as [|[o l] ps IH]; intros Hs pre tail m Hm.
  { cbn [length map concat app ts_read_lptrs]. change (zlen (@nil Z)) with 0. f_equal. lia. }
  inversion Hs as [|? ? [Ho Hl] Hs2]; subst. cbn [mp_off mp_len] in *.
  cbn [length ts_read_lptrs map concat]. 
  set (rest := concat (map enc_lptr ps)). set (e := enc_lptr (MP o l)). set (eo := put_uvarint o). set (el := put_uvarint l).
  assert (He : e = eo ++ el) by reflexivity. clearbody e. subst e.
  set (buf := pre ++ ((eo ++ el) ++ rest) ++ tail).
  assert (B1 : buf = pre ++ eo ++ (el ++ rest ++ tail)) by (unfold buf; rewrite <- !app_assoc; reflexivity).
  assert (B2 : buf = (pre ++ eo) ++ el ++ (rest ++ tail)) by (unfold buf; rewrite <- !app_assoc; reflexivity).
  assert (B4 : buf = (pre ++ eo ++ el) ++ rest ++ tail) by (unfold buf; rewrite <- !app_assoc; reflexivity).
  clearbody buf.
  rewrite B1 at 1. rewrite js_slice_from_app by reflexivity. unfold eo at 1. rewrite ts_uvarint_put by lia. fold eo.
  rewrite B2 at 1. rewrite js_slice_from_app by (rewrite zlen_app; lia). unfold el at 1. rewrite ts_uvarint_put by lia. fold el.
  rewrite B4. unfold rest. rewrite IH; auto; [|rewrite !zlen_app; lia]. f_equal. rewrite !zlen_app; lia.
Qed.
Lemma ts_read_iptrs_ok ps : Forall (fun o => 0 <= o < 2^31) ps -> forall pre tail m, m = zlen pre ->
  ts_read_iptrs (length ps) (pre ++ concat (map put_uvarint ps) ++ tail) m = (ps, m + zlen (concat (map put_uvarint ps))).
Proof.
  induction ps as [|o ps IH]; intros Hs pre tail m Hm.
  { cbn [length map concat app ts_read_iptrs]. change (zlen (@nil Z)) with 0. f_equal. lia. }
  inversion Hs as [|? ? Ho Hs2]; subst.
  cbn [length ts_read_iptrs map concat].
  set (rest := concat (map put_uvarint ps)). set (eo := put_uvarint o).
  set (buf := pre ++ (eo ++ rest) ++ tail).
  assert (B1 : buf = pre ++ eo ++ (rest ++ tail)) by (unfold buf; rewrite <- !app_assoc; reflexivity).
  assert (B4 : buf = (pre ++ eo) ++ rest ++ tail) by (unfold buf; rewrite <- !app_assoc; reflexivity).
  clearbody buf.
  rewrite B1 at 1. rewrite js_slice_from_app by reflexivity. unfold eo at 1. rewrite ts_uvarint_put by lia. fold eo.
  rewrite B4. unfold rest. rewrite IH; auto; [|rewrite !zlen_app; lia]. f_equal. rewrite !zlen_app; lia.
Qed.

Theorem ts_unmarshal_enc c n tail : codec_ok c -> node_ok c n -> node_small n ->
  ts_unmarshal c (enc_node (cwidth c) n ++ tail) = Ok n.
Proof.
  intros Hc ((Hne & Hsh) & Hn & Hk & Hl & Hi) (S1 & S2 & S3).
  destruct n as [ks ps os]. cbn [keys lptrs iptrs] in *.
  unfold ts_unmarshal, enc_node. cbn [keys lptrs iptrs].
  assert (Hpos : 0 < zlen ks).
  { destruct ks; [congruence|]. rewrite zlen_cons. pose proof (zlen_nonneg ks). lia. }
  set (ek := concat (map (enc_key (cwidth c)) ks)). set (ep := concat (map enc_lptr ps)). set (eo := concat (map put_uvarint os)).
  set (sz := if is_leaf _ then _ else _).
  assert (Hsz : sz = - zlen ks /\ ps <> [] /\ os = [] /\ length ps = length ks \/ sz = zlen ks /\ ps = [] /\ length os = S (length ks)).
  { unfold sz, is_leaf. cbn [lptrs]. destruct Hsh as [[Ho Hlen]|[Hp Hlen]].
    - left. assert (ps <> []) by (destruct ps; [destruct ks; [congruence|discriminate]|congruence]).
      destruct ps; [congruence|]. auto.
    - right. subst ps. auto. }
  set (hd := le 4 (sz mod 2^32)).
  assert (Hhd : zlen hd = 4) by (unfold hd; apply zlen_le).
  assert (L0 : zlen ((hd ++ ek ++ ep ++ eo) ++ tail) >= 4).
  { rewrite !zlen_app. pose proof (zlen_nonneg ek). pose proof (zlen_nonneg ep). pose proof (zlen_nonneg eo). pose proof (zlen_nonneg tail). lia. }
  destruct (Z.ltb_spec (zlen ((hd ++ ek ++ ep ++ eo) ++ tail)) 4); [lia|].
  replace (firstn 4 ((hd ++ ek ++ ep ++ eo) ++ tail)) with hd.
  2:{ symmetry. rewrite <- app_assoc. apply firstn_app_exact. unfold hd. rewrite length_le. reflexivity. }
  assert (Hun : unle hd = sz mod 2^32).
  { unfold hd. rewrite unle_le; auto. change (256 ^ Z.of_nat 4) with (2^32). apply Z.mod_pos_bound. lia. }
  rewrite Hun. clear Hun.
  assert (Hs32 : (if 2147483647 <? sz mod 2^32 then sz mod 2^32 - 4294967296 else sz mod 2^32) = sz).
  { change 2147483647 with (2^31 - 1). change 4294967296 with (2^32).
    assert (- 2^31 < sz < 2^31) by lia.
    destruct (Z.le_gt_cases 0 sz).
    - rewrite Z.mod_small by lia. destruct (Z.ltb_spec (2^31 - 1) sz); lia.
    - replace (sz mod 2^32) with (sz + 2^32) by (rewrite <- (Z.mod_add sz 1) by lia; rewrite Z.mod_small; lia).
      destruct (Z.ltb_spec (2^31 - 1) (sz + 2^32)); lia. }
  rewrite Hs32. cbv zeta. destruct (Z.eqb_spec sz 0); [lia|].
  replace (Z.to_nat (Z.abs sz)) with (length ks) by (unfold zlen in *; lia).
  replace ((hd ++ ek ++ ep ++ eo) ++ tail) with (hd ++ ek ++ (ep ++ eo ++ tail)) by (rewrite <- !app_assoc; reflexivity).
  unfold ek at 1. rewrite ts_read_keys_ok by auto. rewrite ts_fetch_ok by auto. cbn [rbind].
  fold ek.
  replace (hd ++ ek ++ ep ++ eo ++ tail) with ((hd ++ ek) ++ ep ++ (eo ++ tail)) by (rewrite <- !app_assoc; reflexivity).
  destruct Hsz as [(Es & Hps & -> & Hlen)|(Es & -> & Hlen)].
  - destruct (Z.ltb_spec sz 0); [|lia]. rewrite <- Hlen. unfold ep. rewrite ts_read_lptrs_ok; auto. rewrite zlen_app; lia.
  - destruct (Z.ltb_spec sz 0); [lia|]. rewrite <- Hlen. unfold ep, eo. cbn [map concat app].
    rewrite ts_read_iptrs_ok; auto. rewrite zlen_app; lia.
Qed.
