(** B+ tree nodes and their page encoding: pkg/bptree/node.go. *)
From Verif Require Import Base Varint RefValue.

(** ** Model *)

(** BPTreeNode: pkg/bptree/node.go:15-26 (Data, DataParser and Width are in [codec]) *)
Record node := mkNode { keys : list rv; lptrs : list mptr; iptrs : list Z }.

(** The fields Data, DataParser, Width of BPTree and BPTreeNode
    (pkg/bptree/bptree.go:18-21, pkg/bptree/node.go:16-25).
    [cparse] is DataParser.Parse; [None] means that it panics; a nil slice is
    the empty value, as every use of a key goes through bytes.Compare. *)
Record codec := mkCodec { cwidth : Z; cdata : bytes; cparse : bytes -> option bytes }.

(** Leaf(): pkg/bptree/node.go:28-30 *)
Definition is_leaf (n : node) : bool := match lptrs n with [] => false | _ => true end.
(** Pointer(i): pkg/bptree/node.go:32-37; [None] is an index panic *)
Definition node_pointer (n : node) (i : Z) : option mptr :=
  if is_leaf n then znth (lptrs n) i
  else match znth (iptrs n) i with Some o => Some (MP o 0) | None => None end.
(** NumPointers(): pkg/bptree/node.go:39-41 *)
Definition num_pointers (n : node) : Z := zlen (iptrs n) + zlen (lptrs n).

(** Size(): pkg/bptree/node.go:43-64 *)
Definition key_size (w : Z) (k : rv) : Z :=
  size_varint (mp_len (rv_dp k)) + size_varint (mp_off (rv_dp k)) +
  (if negb (w =? 0) then zlen (rv_val k) else 0).
(** the size of a leaf pointer: pkg/bptree/node.go:43-64 *)
Definition lptr_size (p : mptr) : Z := size_varint (mp_off p) + size_varint (mp_len p).
(** the size of an internal pointer: pkg/bptree/node.go:43-64 *)
Definition iptr_size (p : Z) : Z := zlen (put_uvarint p).
Definition zsum (l : list Z) : Z := fold_right Z.add 0 l.
(** Size(): pkg/bptree/node.go:43-64 *)
Definition node_size (w : Z) (n : node) : Z :=
  4 + zsum (map (key_size w) (keys n)) + zsum (map lptr_size (lptrs n)) + zsum (map iptr_size (iptrs n)).

(** the bytes written for a key, a leaf pointer, a child pointer:
    pkg/bptree/node.go:80-91, 92-97, 98-101 *)
Definition enc_key (w : Z) (k : rv) : bytes :=
  put_uvarint (mp_off (rv_dp k)) ++ put_uvarint (mp_len (rv_dp k)) ++
  (if negb (w =? 0) then rv_val k else []).
(** a leaf pointer: pkg/bptree/node.go:66-106 *)
Definition enc_lptr (p : mptr) : bytes := put_uvarint (mp_off p) ++ put_uvarint (mp_len p).
(** MarshalBinary(): pkg/bptree/node.go:66-106 *)
Definition enc_node (w : Z) (n : node) : bytes :=
  le 4 ((if is_leaf n then - zlen (keys n) else zlen (keys n)) mod 2^32) ++
  concat (map (enc_key w) (keys n)) ++
  concat (map enc_lptr (lptrs n)) ++
  concat (map put_uvarint (iptrs n)).

(** MarshalBinary(): pkg/bptree/node.go:66-106. The buffer has Size() bytes;
    writing more panics (slice bounds), writing fewer panics ("size mismatch"). *)
Definition marshal (w : Z) (n : node) : res bytes :=
  match keys n with
  | [] => Panic
  | _ => if zlen (enc_node w n) =? node_size w n then Ok (enc_node w n) else Panic
  end.

(** [binary.Uvarint(buf[m:])]; slicing out of range panics *)
(** binary.Uvarint(buf[m:]): pkg/bptree/node.go:117-190; slicing out of range panics *)
Definition get_uvarint (buf : bytes) (m : Z) : res (Z * Z) :=
  if (m <? 0) || (zlen buf <? m) then Panic else Ok (uvarint (skipn (Z.to_nat m) buf)).

(** the key loop of UnmarshalBinary: pkg/bptree/node.go:131-149.
    cap(Data) is taken to be len(Data). *)
Fixpoint read_keys (c : codec) (n : nat) (buf : bytes) (m : Z) : res (list rv * Z) :=
  match n with
  | O => Ok ([], m)
  | S n' =>
      a <-- get_uvarint buf m ;;;
      let '(o, on) := a in
      b <-- get_uvarint buf (m + on) ;;;
      let '(l0, ln) := b in
      let l := l0 mod 2^32 in
      let m := m + (on + ln) in
      v <-- (if cwidth c =? 0 then
               let hi := (o + l) mod 2^64 in
               if (o <=? hi) && (hi <=? zlen (cdata c)) then
                 match cparse c (slice (cdata c) o (hi - o)) with Some v => Ok (v, m) | None => Panic end
               else Panic
             else
               let w := (cwidth c - 1) mod 2^16 in
               if (m <? 0) || (zlen buf <? m + w) then Panic
               else Ok (slice buf m w, m + w)) ;;;
      let '(val, m) := v in
      rest <-- read_keys c n' buf m ;;;
      let '(ks, m) := rest in
      Ok (RV (MP o l) val :: ks, m)
  end.
(** pkg/bptree/node.go:150-158 *)
Fixpoint read_lptrs (n : nat) (buf : bytes) (m : Z) : res (list mptr * Z) :=
  match n with
  | O => Ok ([], m)
  | S n' =>
      a <-- get_uvarint buf m ;;;
      let '(o, on) := a in
      b <-- get_uvarint buf (m + on) ;;;
      let '(l, ln) := b in
      rest <-- read_lptrs n' buf (m + (on + ln)) ;;;
      let '(ps, m) := rest in
      Ok (MP o (l mod 2^32) :: ps, m)
  end.
(** pkg/bptree/node.go:159-163 *)
Fixpoint read_iptrs (n : nat) (buf : bytes) (m : Z) : res (list Z * Z) :=
  match n with
  | O => Ok ([], m)
  | S n' =>
      a <-- get_uvarint buf m ;;;
      let '(o, on) := a in
      rest <-- read_iptrs n' buf (m + on) ;;;
      let '(ps, m) := rest in
      Ok (o :: ps, m)
  end.

(** int32(x) of a uint32 *)
Definition s32 (x : Z) : Z := if x <? 2^31 then x else x - 2^32.

(** UnmarshalBinary(buf): pkg/bptree/node.go:117-165.
    [make] with a count of 2^31 (size = -2^31) panics; other huge counts only
    cost memory, which is not modelled. *)
Definition unmarshal (c : codec) (buf : bytes) : res node :=
  if zlen buf <? 4 then Panic
  else
    let size := s32 (unle (firstn 4 buf)) in
    if (size =? 0) || (size =? - 2^31) then Panic
    else
      let cnt := Z.to_nat (Z.abs size) in
      let leaf := size <? 0 in
      r <-- read_keys c cnt buf 4 ;;;
      let '(ks, m) := r in
      if leaf then
        r <-- read_lptrs cnt buf m ;;;
        let '(ps, _) := r in Ok (mkNode ks ps [])
      else
        r <-- read_iptrs (S cnt) buf m ;;;
        let '(os, _) := r in Ok (mkNode ks [] os).

(** ** Well-formed keys and nodes *)
Definition mptr_ok (p : mptr) : Prop := 0 <= mp_off p < 2^64 /\ 0 <= mp_len p < 2^32.
Definition key_ok (c : codec) (k : rv) : Prop :=
  mptr_ok (rv_dp k) /\
  (if cwidth c =? 0 then
     mp_off (rv_dp k) + mp_len (rv_dp k) <= zlen (cdata c) /\
     cparse c (slice (cdata c) (mp_off (rv_dp k)) (mp_len (rv_dp k))) = Some (rv_val k)
   else zlen (rv_val k) = cwidth c - 1).
Definition codec_ok (c : codec) : Prop := 0 <= cwidth c < 2^16 /\ zlen (cdata c) < 2^64.
(** the shape every node of a tree has *)
Definition shape_ok (n : node) : Prop :=
  keys n <> [] /\
  ((iptrs n = [] /\ length (lptrs n) = length (keys n)) \/
   (lptrs n = [] /\ length (iptrs n) = S (length (keys n)))).
Definition node_ok (c : codec) (n : node) : Prop :=
  shape_ok n /\ zlen (keys n) < 2^31 /\
  Forall (key_ok c) (keys n) /\ Forall mptr_ok (lptrs n) /\
  Forall (fun o => 0 <= o < 2^64) (iptrs n).

(** ** Proofs *)
Lemma zsum_app a b : zsum (a ++ b) = zsum a + zsum b.
Proof. unfold zsum. induction a as [|x a IH]; cbn [app fold_right]; lia. Qed.
Lemma zlen_concat (l : list bytes) : zlen (concat l) = zsum (map zlen l).
Proof. induction l as [|x l IH]; [reflexivity|]. cbn [concat map zsum fold_right]. rewrite zlen_app, IH. reflexivity. Qed.

Lemma zlen_enc_key c k : key_ok c k -> zlen (enc_key (cwidth c) k) = key_size (cwidth c) k.
Proof.
  intros [[Ho Hl] _]. unfold enc_key, key_size. rewrite !zlen_app.
  rewrite !size_varint_exact by lia.
  destruct (negb (cwidth c =? 0)); [lia | change (zlen (@nil Z)) with 0; lia].
Qed.
Lemma zlen_enc_lptr p : mptr_ok p -> zlen (enc_lptr p) = lptr_size p.
Proof. intros [Ho Hl]. unfold enc_lptr, lptr_size. rewrite zlen_app, !size_varint_exact by lia. lia. Qed.

Lemma zsum_map_ext {A} (f g : A -> Z) l : Forall (fun x => f x = g x) l -> zsum (map f l) = zsum (map g l).
Proof. induction 1 as [|x l H _ IH]; [reflexivity|]. cbn [map zsum fold_right]. unfold zsum in *. lia. Qed.

Lemma enc_node_size c n : node_ok c n -> zlen (enc_node (cwidth c) n) = node_size (cwidth c) n.
Proof.
  intros (Hs & Hn & Hk & Hl & Hi). unfold enc_node, node_size.
  rewrite !zlen_app, zlen_le, !zlen_concat, !map_map.
  rewrite (@zsum_map_ext _ (fun x => zlen (enc_key (cwidth c) x)) (key_size (cwidth c))).
  2:{ eapply Forall_impl; [|exact Hk]. intros; apply zlen_enc_key; auto. }
  rewrite (@zsum_map_ext _ (fun x => zlen (enc_lptr x)) lptr_size).
  2:{ eapply Forall_impl; [|exact Hl]. intros; apply zlen_enc_lptr; auto. }
  unfold iptr_size. lia.
Qed.
Lemma marshal_ok c n : node_ok c n -> marshal (cwidth c) n = Ok (enc_node (cwidth c) n).
Proof.
  intros H. unfold marshal. rewrite (enc_node_size H), Z.eqb_refl.
  destruct H as ((Hk & _) & _). destruct (keys n); [congruence|reflexivity].
Qed.

Lemma get_uvarint_at pre v tail m : 0 <= v < 2^64 -> m = zlen pre ->
  get_uvarint (pre ++ put_uvarint v ++ tail) m = Ok (v, zlen (put_uvarint v)).
Proof.
  intros Hv ->. unfold get_uvarint. pose proof (zlen_nonneg pre).
  rewrite zlen_app. pose proof (zlen_nonneg (put_uvarint v ++ tail)).
  destruct (Z.ltb_spec (zlen pre) 0); [lia|].
  destruct (Z.ltb_spec (zlen pre + zlen (put_uvarint v ++ tail)) (zlen pre)); [lia|].
  cbn [orb]. rewrite skipn_app_exact by (unfold zlen; lia).
  rewrite uvarint_put by lia. reflexivity.
Qed.

Lemma app_assoc4 {A} (a b c d : list A) : a ++ (b ++ c) ++ d = (a ++ b) ++ c ++ d.
Proof. rewrite <- !app_assoc. reflexivity. Qed.

Lemma read_keys_ok c ks : codec_ok c -> Forall (key_ok c) ks -> forall pre tail m, m = zlen pre ->
  read_keys c (length ks) (pre ++ concat (map (enc_key (cwidth c)) ks) ++ tail) m =
  Ok (ks, m + zlen (concat (map (enc_key (cwidth c)) ks))).
Proof.
  intros [Hw Hd] Hks. induction Hks as [|k ks Hk Hks IH]; intros pre tail m ->.
  - cbn [length read_keys map concat]. change (zlen (@nil Z)) with 0. rewrite Z.add_0_r. reflexivity.
  - destruct k as [[o l] v]. destruct Hk as [[Ho Hl] Hv]. cbn [rv_dp rv_val mp_off mp_len] in *.
    cbn [length read_keys map concat].
    set (rest := concat (map (enc_key (cwidth c)) ks)).
    set (vb := if negb (cwidth c =? 0) then v else []).
    match goal with |- context [get_uvarint ?b (zlen pre)] => set (buf := b) end.
    assert (B1 : buf = pre ++ put_uvarint o ++ (put_uvarint l ++ vb ++ rest ++ tail)).
    { unfold buf; unfold enc_key; cbn [rv_dp rv_val mp_off mp_len]; rewrite <- !app_assoc. reflexivity. }
    assert (B2 : buf = (pre ++ put_uvarint o) ++ put_uvarint l ++ (vb ++ rest ++ tail)).
    { unfold buf; unfold enc_key; cbn [rv_dp rv_val mp_off mp_len]; rewrite <- !app_assoc. reflexivity. }
    assert (B3 : buf = (pre ++ put_uvarint o ++ put_uvarint l) ++ vb ++ (rest ++ tail)).
    { unfold buf; unfold enc_key; cbn [rv_dp rv_val mp_off mp_len]; rewrite <- !app_assoc. reflexivity. }
    assert (B4 : buf = (pre ++ put_uvarint o ++ put_uvarint l ++ vb) ++ rest ++ tail).
    { unfold buf; unfold enc_key; cbn [rv_dp rv_val mp_off mp_len]; rewrite <- !app_assoc. reflexivity. }
    clearbody buf. rewrite B1 at 1. rewrite get_uvarint_at by (auto; lia). cbn [rbind].
    rewrite B2 at 1. rewrite get_uvarint_at by (rewrite ?zlen_app; lia). cbn [rbind].
    rewrite (Z.mod_small l) by lia.
    set (m1 := zlen pre + (zlen (put_uvarint o) + zlen (put_uvarint l))).
    assert (Hval : (if cwidth c =? 0
       then
        if (o <=? (o + l) mod 2 ^ 64) && ((o + l) mod 2 ^ 64 <=? zlen (cdata c))
        then match cparse c (slice (cdata c) o ((o + l) mod 2 ^ 64 - o)) with Some v => Ok (v, m1) | None => Panic end
        else Panic
       else
        if (m1 <? 0) || (zlen buf <? m1 + (cwidth c - 1) mod 2 ^ 16)
        then Panic
        else Ok (slice buf m1 ((cwidth c - 1) mod 2 ^ 16), m1 + (cwidth c - 1) mod 2 ^ 16))
       = Ok (v, m1 + zlen vb)).
    { unfold vb. destruct (Z.eqb_spec (cwidth c) 0) as [E|E]; cbn [negb].
      - destruct Hv as [Hr Hp]. rewrite (Z.mod_small (o + l)) by lia.
        destruct (Z.leb_spec o (o + l)); [|lia]. destruct (Z.leb_spec (o + l) (zlen (cdata c))); [|lia].
        cbn [andb]. replace (o + l - o) with l by lia. rewrite Hp.
        change (zlen (@nil Z)) with 0. f_equal. f_equal. lia.
      - rewrite Z.mod_small by lia. rewrite <- Hv.
        assert (Hm1 : m1 = zlen (pre ++ put_uvarint o ++ put_uvarint l)) by (rewrite !zlen_app; unfold m1; lia).
        pose proof (zlen_nonneg (pre ++ put_uvarint o ++ put_uvarint l)).
        assert (Hvb : vb = v) by (unfold vb; destruct (Z.eqb_spec (cwidth c) 0); [lia|reflexivity]).
        destruct (Z.ltb_spec m1 0); [lia|].
        destruct (Z.ltb_spec (zlen buf) (m1 + zlen v)).
        { exfalso. rewrite B3, Hvb in *. rewrite zlen_app in H1. rewrite (zlen_app v) in H1.
          pose proof (zlen_nonneg (rest ++ tail)). lia. }
        cbn [orb]. rewrite B3, Hvb. rewrite slice_app_mid by auto. reflexivity. }
    rewrite Hval. cbn [rbind].
    assert (ZE : zlen (enc_key (cwidth c) (RV (MP o l) v)) = zlen (put_uvarint o) + (zlen (put_uvarint l) + zlen vb)).
    { unfold enc_key; cbn [rv_dp rv_val mp_off mp_len]; fold vb; rewrite !zlen_app; reflexivity. }
    rewrite B4 at 1. unfold rest at 1. rewrite IH by (rewrite !zlen_app; unfold m1; lia).
    cbn [rbind]. f_equal. f_equal. fold rest. rewrite zlen_app, ZE. unfold m1. lia.
Qed.

Lemma read_lptrs_ok ps : Forall mptr_ok ps -> forall pre tail m, m = zlen pre ->
  read_lptrs (length ps) (pre ++ concat (map enc_lptr ps) ++ tail) m =
  Ok (ps, m + zlen (concat (map enc_lptr ps))).
Proof.
  intros Hps. induction Hps as [|p ps Hp Hps IH]; intros pre tail m ->.
  - cbn [length read_lptrs map concat]. change (zlen (@nil Z)) with 0. rewrite Z.add_0_r. reflexivity.
  - destruct p as [o l]. destruct Hp as [Ho Hl]. cbn [mp_off mp_len] in *.
    cbn [length read_lptrs map concat]. set (rest := concat (map enc_lptr ps)).
    match goal with |- context [get_uvarint ?b (zlen pre)] => set (buf := b) end.
    assert (B1 : buf = pre ++ put_uvarint o ++ (put_uvarint l ++ rest ++ tail)).
    { unfold buf; unfold enc_lptr; cbn [mp_off mp_len]; rewrite <- !app_assoc. reflexivity. }
    assert (B2 : buf = (pre ++ put_uvarint o) ++ put_uvarint l ++ (rest ++ tail)).
    { unfold buf; unfold enc_lptr; cbn [mp_off mp_len]; rewrite <- !app_assoc. reflexivity. }
    assert (B4 : buf = (pre ++ put_uvarint o ++ put_uvarint l) ++ rest ++ tail).
    { unfold buf; unfold enc_lptr; cbn [mp_off mp_len]; rewrite <- !app_assoc. reflexivity. }
    clearbody buf. rewrite B1 at 1. rewrite get_uvarint_at by (auto; lia). cbn [rbind].
    rewrite B2 at 1. rewrite get_uvarint_at by (rewrite ?zlen_app; lia). cbn [rbind].
    rewrite B4 at 1. unfold rest at 1. rewrite IH by (rewrite !zlen_app; lia).
    cbn [rbind]. rewrite (Z.mod_small l) by lia. f_equal. f_equal. unfold enc_lptr at 2. cbn [mp_off mp_len]. fold rest. rewrite !zlen_app. lia.
Qed.
Lemma read_iptrs_ok ps : Forall (fun o => 0 <= o < 2^64) ps -> forall pre tail m, m = zlen pre ->
  read_iptrs (length ps) (pre ++ concat (map put_uvarint ps) ++ tail) m =
  Ok (ps, m + zlen (concat (map put_uvarint ps))).
Proof.
  intros Hps. induction Hps as [|o ps Ho Hps IH]; intros pre tail m ->.
  - cbn [length read_iptrs map concat]. change (zlen (@nil Z)) with 0. rewrite Z.add_0_r. reflexivity.
  - cbn [length read_iptrs map concat]. set (rest := concat (map put_uvarint ps)).
    match goal with |- context [get_uvarint ?b (zlen pre)] => set (buf := b) end.
    assert (B1 : buf = pre ++ put_uvarint o ++ (rest ++ tail)).
    { unfold buf; rewrite <- !app_assoc. reflexivity. }
    assert (B4 : buf = (pre ++ put_uvarint o) ++ rest ++ tail).
    { unfold buf; rewrite <- !app_assoc. reflexivity. }
    clearbody buf. rewrite B1 at 1. rewrite get_uvarint_at by (auto; lia). cbn [rbind].
    rewrite B4 at 1. unfold rest at 1. rewrite IH by (rewrite !zlen_app; lia).
    cbn [rbind]. f_equal. f_equal. fold rest. rewrite !zlen_app. lia.
Qed.

Theorem unmarshal_enc c n tail : codec_ok c -> node_ok c n ->
  unmarshal c (enc_node (cwidth c) n ++ tail) = Ok n.
Proof.
  intros Hc ((Hne & Hsh) & Hn & Hk & Hl & Hi).
  destruct n as [ks ps os]. cbn [keys lptrs iptrs] in *.
  unfold unmarshal, enc_node. cbn [keys lptrs iptrs].
  assert (Hpos : 0 < zlen ks).
  { destruct ks; [congruence|]. rewrite zlen_cons. pose proof (zlen_nonneg ks). lia. }
  set (hd := le 4 _).
  assert (Hhd : zlen hd = 4) by (unfold hd; apply zlen_le).
  rewrite <- app_assoc. rewrite zlen_app.
  match goal with |- context [zlen ?x <? 4] => idtac | _ => idtac end.
  set (rest := (_ ++ _) ++ tail).
  pose proof (zlen_nonneg rest).
  destruct (Z.ltb_spec (zlen hd + zlen rest) 4); [lia|].
  rewrite (firstn_app_exact hd) by (unfold zlen in Hhd; lia).
  assert (Hleafcase : is_leaf (mkNode ks ps os) = true /\ os = [] /\ length ps = length ks \/
                      is_leaf (mkNode ks ps os) = false /\ ps = [] /\ length os = S (length ks)).
  { destruct Hsh as [[H1 H2]|[H1 H2]].
    - left. unfold is_leaf; cbn [lptrs]. destruct ps; [cbn in H2; unfold zlen in Hpos; lia|auto].
    - right. unfold is_leaf; cbn [lptrs]. subst; auto. }
  destruct Hleafcase as [(Hlf & -> & Hlen)|(Hlf & -> & Hlen)].
  - assert (Hsz : s32 (unle hd) = - zlen ks).
    { unfold hd. rewrite Hlf. rewrite unle_le by (apply Z.mod_pos_bound; lia).
      unfold s32. replace (- zlen ks mod 2 ^ 32) with (2^32 - zlen ks).
      2:{ symmetry. rewrite <- (Z.mod_add _ 1) by lia. rewrite Z.mod_small; lia. }
      destruct (Z.ltb_spec (2^32 - zlen ks) (2^31)); lia. }
    rewrite Hsz.
    destruct (Z.eqb_spec (- zlen ks) 0); [lia|]. destruct (Z.eqb_spec (- zlen ks) (- 2^31)); [lia|].
    cbn [orb]. replace (Z.to_nat (Z.abs (- zlen ks))) with (length ks) by (unfold zlen; lia).
    destruct (Z.ltb_spec (- zlen ks) 0); [|lia].
    unfold rest. rewrite <- !app_assoc. rewrite (read_keys_ok Hc Hk) by auto. cbn [rbind].
    rewrite <- Hlen.
    rewrite (app_assoc hd).
    rewrite read_lptrs_ok by (auto; rewrite zlen_app; lia). cbn [rbind]. reflexivity.
  - assert (Hsz : s32 (unle hd) = zlen ks).
    { unfold hd. rewrite Hlf. rewrite unle_le by (apply Z.mod_pos_bound; lia).
      unfold s32. rewrite Z.mod_small by lia.
      destruct (Z.ltb_spec (zlen ks) (2^31)); lia. }
    rewrite Hsz.
    destruct (Z.eqb_spec (zlen ks) 0); [lia|]. destruct (Z.eqb_spec (zlen ks) (- 2^31)); [lia|].
    cbn [orb]. replace (Z.to_nat (Z.abs (zlen ks))) with (length ks) by (unfold zlen; lia).
    destruct (Z.ltb_spec (zlen ks) 0); [lia|].
    unfold rest. rewrite <- !app_assoc. rewrite (read_keys_ok Hc Hk) by auto. cbn [rbind].
    rewrite <- Hlen. cbn [map concat app].
    rewrite (app_assoc hd).
    rewrite read_iptrs_ok by (auto; rewrite zlen_app; lia). cbn [rbind]. reflexivity.
Qed.
