(** The vector tree keeps its shape: descent and Insert. A vector node is related
    to a B+ tree node with the same keys, so the structural lemmas of BPRepr.v and
    BPInsert.v apply. Nothing in this file models code. *)
From Verif Require Import Base Varint Store PageFile RefValue Node LinkedPage BPTree BPRepr BPIter BPInsert BPLoop BPTop VTree VFloat.
From Coq Require Import Permutation.

(** ** Vector nodes as B+ tree nodes *)
Definition absk (k : vid) : rv := RV (MP 0 0) [vi_val k].
Definition absn (n : vnode) : node :=
  mkNode (map absk (vids n)) (if vleaf n then map vi_dp (vids n) else []) (voffs n).
Definition absr (r : vtrec) : trec := TR (absn (vtnode r)) (vtidx r) (vtptr r).
(** what reading does to a stored node *)
Definition garble (n : vnode) : vnode := VN (vids n) (map (map f32_of_uint) (vvecs n)) (voffs n) (vdim n).
Lemma absn_garble n : absn (garble n) = absn n. Proof. reflexivity. Qed.

Lemma vid_cmp_abs a b : rv_cmp (absk a) (absk b) = vid_cmp a b.
Proof.
  unfold rv_cmp, absk, vid_cmp. cbn [rv_val rv_dp mp_off mp_len bytes_cmp].
  destruct (Z.ltb_spec (vi_val a) (vi_val b)); destruct (Z.ltb_spec (vi_val b) (vi_val a)); try lia; reflexivity.
Qed.
Lemma bs_loop_abs k xs : forall fuel i j, bs_loop rv_cmp fuel (map absk xs) (absk k) i j = bs_loop vid_cmp fuel xs k i j.
Proof.
  induction fuel as [|fuel IH]; intros i j; [reflexivity|]. cbn [bs_loop].
  destruct (i <? j)%nat; [|reflexivity]. cbv zeta. rewrite nth_error_map.
  destruct (nth_error xs ((i + j) / 2)) as [x|]; [|reflexivity]. cbn [option_map]. rewrite vid_cmp_abs, !IH. reflexivity.
Qed.
Lemma vbsearch_abs xs k : vbsearch xs k = bsearch (map absk xs) (absk k).
Proof.
  unfold vbsearch, bsearch, bsearch_by. rewrite map_length, bs_loop_abs, nth_error_map.
  destruct (nth_error xs _) as [x|]; cbn [option_map]; [rewrite vid_cmp_abs|]; reflexivity.
Qed.
Lemma leaf_abs n : vids n <> [] -> is_leaf (absn n) = vleaf n.
Proof. intros H. unfold is_leaf, absn. cbn [lptrs]. destruct (vleaf n); [|reflexivity]. destruct (vids n); [congruence|reflexivity]. Qed.

Definition rmap {A B} (f : A -> B) (r : res A) : res B :=
  match r with Ok a => Ok (f a) | Err e => Err e | Panic => Panic | Crash => Crash | Hang => Hang end.
Definition abs_rd (rd : Z -> res vnode) (p : mptr) : res node := rmap absn (rd (mp_off p)).

Lemma vtraverse_abs rd key : (forall o n, rd o = Ok n -> vids n <> []) -> forall fuel n ptr, vids n <> [] ->
  traverse fuel (abs_rd rd) (absk key) (absn n) ptr = rmap (map absr) (vtraverse fuel rd key n ptr).
Proof.
  intros Hrd. induction fuel as [|fuel IH]; intros n ptr Hn; [reflexivity|].
  cbn [traverse vtraverse]. rewrite vbsearch_abs. change (keys (absn n)) with (map absk (vids n)).
  destruct (bsearch (map absk (vids n)) (absk key)) as [i found].
  rewrite (@leaf_abs n Hn). destruct (vleaf n) eqn:El; [reflexivity|].
  unfold node_pointer. rewrite (@leaf_abs n Hn), El. change (iptrs (absn n)) with (voffs n).
  destruct (znth (voffs n) (Z.of_nat i + (if found then 1 else 0))) as [co|]; [|reflexivity].
  unfold abs_rd at 1. cbn [mp_off]. destruct (rd co) as [c| | | |] eqn:Ec; cbn [rmap rbind]; try reflexivity.
  rewrite (IH c (MP co 0) (Hrd _ _ Ec)).
  destruct (vtraverse fuel rd key c (MP co 0)); cbn [rmap rbind]; try reflexivity.
  rewrite map_app. reflexivity.
Qed.

(** every record of a path comes from a read *)
Lemma vtraverse_nodes rd key : forall fuel n ptr path, rd (mp_off ptr) = Ok n ->
  vtraverse fuel rd key n ptr = Ok path -> Forall (fun r => rd (mp_off (vtptr r)) = Ok (vtnode r)) path.
Proof.
  induction fuel as [|fuel IH]; intros n ptr path Hn E; cbn [vtraverse] in E; [discriminate|].
  destruct (vbsearch (vids n) key) as [i found]. destruct (vleaf n).
  { inversion E; subst. constructor; auto. }
  destruct (znth (voffs n) _) as [co|]; [|discriminate].
  destruct (rd co) as [c| | | |] eqn:Ec; cbn [rbind] in E; try discriminate.
  destruct (vtraverse fuel rd key c (MP co 0)) as [p| | | |] eqn:Ep; cbn [rbind] in E; try discriminate.
  inversion E; subst. apply Forall_app. split; [apply (IH c (MP co 0)); auto|]. constructor; auto.
Qed.

(** ** The page format *)
Definition vid_ok (k : vid) : Prop := mptr_ok (vi_dp k) /\ 0 <= vi_val k < 2^64.
Definition bits_ok (v : vec) : Prop := Forall (fun u => 0 <= u < 2^32) v.

Section Fixed.
(** the dimension, and what is known about the vector stored with an id *)
Variable d : Z.
Variable P : Z -> vec -> Prop.
Hypothesis Hd : 1 <= d <= 501.
Hypothesis Pround : forall x v, P x v -> P x (map f32_of_uint v).

Definition vec_ok (k : vid) (v : vec) : Prop := zlen v = d /\ bits_ok v /\ P (vi_val k) v.
Definition vnode_ok (n : vnode) : Prop :=
  vids n <> [] /\ zlen (vids n) < 2^31 /\ Forall vid_ok (vids n) /\
  Forall2 vec_ok (vids n) (vvecs n) /\ vdim n = d /\
  Forall (fun o => 0 <= o < 2^64) (voffs n) /\
  (voffs n = [] \/ length (voffs n) = S (length (vids n))).

Lemma f2_len {A B} (R : A -> B -> Prop) l l' : Forall2 R l l' -> length l = length l'.
Proof. induction 1; cbn; auto. Qed.
Lemma zlen_enc_vid k : vid_ok k -> zlen (enc_vid k) = vid_size k.
Proof. intros [[Ho Hl] Hv]. unfold enc_vid, vid_size. rewrite !zlen_app, !size_varint_exact by lia. lia. Qed.
Lemma zlen_enc_vec v : zlen (enc_vec v) = 4 * zlen v.
Proof.
  unfold enc_vec. induction v as [|x v IH]; [reflexivity|]. cbn [map concat]. rewrite zlen_app, IH, zlen_le, zlen_cons. lia.
Qed.
Lemma zsum_vecs (ks : list vid) (vs : list vec) : Forall2 vec_ok ks vs ->
  zsum (map (fun v => zlen (enc_vec v)) vs) = zlen vs * (4 * d).
Proof.
  induction 1 as [|k v ks vs Hv _ IH]; [reflexivity|]. cbn [map]. rewrite zsum_cons, IH, zlen_enc_vec, zlen_cons.
  destruct Hv as (-> & _). lia.
Qed.
Lemma venc_size n : vnode_ok n -> zlen (venc n) = vsize n.
Proof.
  intros (H1 & H2 & H3 & H4 & H5 & H6 & H7). unfold venc, vsize.
  rewrite !zlen_app, zlen_le, !zlen_concat, !map_map.
  rewrite (@zsum_map_ext _ (fun x => zlen (enc_vid x)) vid_size).
  2:{ eapply Forall_impl; [|exact H3]. intros; apply zlen_enc_vid; auto. }
  rewrite (@zsum_map_ext _ (fun x => zlen (put_uvarint x)) size_varint).
  2:{ eapply Forall_impl; [|exact H6]. intros; cbn beta in *. rewrite size_varint_exact by lia. reflexivity. }
  rewrite (zsum_vecs H4), H5. rewrite (size_varint_exact (x:=d)) by lia. lia.
Qed.
Lemma vmarshal_ok n : vnode_ok n -> vmarshal n = Ok (venc n).
Proof.
  intros H. unfold vmarshal. rewrite (venc_size H), Z.eqb_refl.
  destruct H as (H1 & _ & _ & _ & H5 & _). destruct (vids n); [congruence|]. destruct (Z.eqb_spec (vdim n) 0); [lia|reflexivity].
Qed.

Lemma read_vids_ok ks : Forall vid_ok ks -> forall pre tail m, m = zlen pre ->
  read_vids (length ks) (pre ++ concat (map enc_vid ks) ++ tail) m =
  Ok (ks, m + zlen (concat (map enc_vid ks))).
Proof.
  intros Hks. induction Hks as [|k ks Hk Hks IH]; intros pre tail m ->.
  - cbn [length read_vids map concat]. change (zlen (@nil Z)) with 0. rewrite Z.add_0_r. reflexivity.
  - destruct k as [[o l] x]. destruct Hk as [[Ho Hl] Hx]. cbn [vi_dp vi_val mp_off mp_len] in *.
    cbn [length read_vids map concat]. set (rest := concat (map enc_vid ks)).
    match goal with |- context [get_uvarint ?b (zlen pre)] => set (buf := b) end.
    assert (B1 : buf = pre ++ put_uvarint o ++ (put_uvarint l ++ put_uvarint x ++ rest ++ tail)).
    { unfold buf; unfold enc_vid; cbn [vi_dp vi_val mp_off mp_len]; rewrite <- !app_assoc. reflexivity. }
    assert (B2 : buf = (pre ++ put_uvarint o) ++ put_uvarint l ++ (put_uvarint x ++ rest ++ tail)).
    { rewrite B1, <- !app_assoc. reflexivity. }
    assert (B3 : buf = (pre ++ put_uvarint o ++ put_uvarint l) ++ put_uvarint x ++ (rest ++ tail)).
    { rewrite B1, <- !app_assoc. reflexivity. }
    assert (B4 : buf = (pre ++ put_uvarint o ++ put_uvarint l ++ put_uvarint x) ++ rest ++ tail).
    { rewrite B1, <- !app_assoc. reflexivity. }
    assert (ZE : zlen (enc_vid (VID (MP o l) x)) = zlen (put_uvarint o) + (zlen (put_uvarint l) + zlen (put_uvarint x))).
    { unfold enc_vid; cbn [vi_dp vi_val mp_off mp_len]. rewrite !zlen_app. reflexivity. }
    clearbody buf. rewrite B1 at 1. rewrite get_uvarint_at by (auto; lia). cbn [rbind].
    rewrite B2 at 1. rewrite get_uvarint_at by (rewrite ?zlen_app; lia). cbn [rbind].
    rewrite B3 at 1. rewrite get_uvarint_at by (rewrite ?zlen_app; lia). cbn [rbind].
    rewrite B4 at 1. unfold rest at 1. rewrite IH by (rewrite !zlen_app; lia).
    cbn [rbind]. rewrite (Z.mod_small l) by lia. f_equal. f_equal. fold rest. rewrite zlen_app, ZE. lia.
Qed.
Lemma read_vec_ok v : bits_ok v -> forall pre tail m, m = zlen pre ->
  read_vec (length v) (pre ++ enc_vec v ++ tail) m = Ok (map f32_of_uint v, m + 4 * zlen v).
Proof.
  intros Hv. induction Hv as [|u v Hu Hv IH]; intros pre tail m ->.
  - cbn [length read_vec map]. change (zlen (@nil Z)) with 0. f_equal. f_equal. lia.
  - cbn [length read_vec]. unfold enc_vec. cbn [map concat]. fold (enc_vec v).
    set (buf := pre ++ (le 4 u ++ enc_vec v) ++ tail).
    assert (B1 : buf = pre ++ le 4 u ++ (enc_vec v ++ tail)) by (unfold buf; rewrite <- !app_assoc; reflexivity).
    assert (B2 : buf = (pre ++ le 4 u) ++ enc_vec v ++ tail) by (unfold buf; rewrite <- !app_assoc; reflexivity).
    pose proof (zlen_nonneg pre) as Zp.
    assert (Zb : zlen pre + 4 <= zlen buf).
    { rewrite B1, !zlen_app, zlen_le. pose proof (zlen_nonneg (enc_vec v)). pose proof (zlen_nonneg tail). lia. }
    destruct (Z.ltb_spec (zlen pre) 0); [lia|]. destruct (Z.ltb_spec (zlen buf) (zlen pre + 4)); [lia|]. cbn [orb].
    replace (slice buf (zlen pre) 4) with (le 4 u).
    2:{ rewrite B1. symmetry. apply slice_app_mid; auto. }
    rewrite unle_le by (cbn; lia). clearbody buf. rewrite B2.
    rewrite IH by (rewrite zlen_app, zlen_le; lia). cbn [rbind map]. f_equal. f_equal. rewrite zlen_cons. lia.
Qed.
Lemma read_vecs_ok (ks : list vid) vs : Forall2 vec_ok ks vs -> forall pre tail m, m = zlen pre ->
  read_vecs (length ks) (Z.to_nat d) (pre ++ concat (map enc_vec vs) ++ tail) m =
  Ok (map (map f32_of_uint) vs, m + zlen vs * (4 * d)).
Proof.
  induction 1 as [|k v ks vs Hv _ IH]; intros pre tail m ->.
  - cbn [length read_vecs map]. change (zlen (@nil vec)) with 0. f_equal. f_equal. lia.
  - cbn [length read_vecs map concat]. destruct Hv as (Hl & Hb & _).
    rewrite <- app_assoc.
    replace (Z.to_nat d) with (length v) at 1 by (unfold zlen in Hl; lia).
    rewrite read_vec_ok by auto. cbn [rbind].
    rewrite app_assoc. rewrite IH by (rewrite zlen_app, zlen_enc_vec; lia). cbn [rbind].
    f_equal. f_equal. rewrite zlen_cons. lia.
Qed.

Lemma vunmarshal_enc n tail : vnode_ok n -> vunmarshal (venc n ++ tail) = Ok (garble n).
Proof.
  intros (Hne & Hn & Hk & Hv & Hdim & Ho & Hsh). destruct n as [ks vs os d0]. cbn [vids vvecs voffs vdim] in *. subst d0.
  unfold vunmarshal, venc. cbn [vids vvecs voffs vdim].
  assert (Hpos : 0 < zlen ks) by (destruct ks; [congruence|]; rewrite zlen_cons; pose proof (zlen_nonneg ks); lia).
  set (hd := le 4 _). assert (Hhd : zlen hd = 4) by (unfold hd; apply zlen_le).
  rewrite <- !app_assoc. rewrite zlen_app.
  match goal with |- context [zlen hd + zlen ?x] => set (rest := x); pose proof (zlen_nonneg rest) end.
  destruct (Z.ltb_spec (zlen hd + zlen rest) 4); [lia|].
  rewrite (firstn_app_exact hd) by (unfold zlen in Hhd; lia).
  set (sz := s32 (unle hd)).
  assert (Hsz : sz = if vleaf (VN ks vs os d) then - zlen ks else zlen ks).
  { unfold sz, hd. unfold vleaf; cbn [voffs]. destruct os.
    - rewrite unle_le by (apply Z.mod_pos_bound; lia).
      unfold s32. replace (- zlen ks mod 2 ^ 32) with (2^32 - zlen ks).
      2:{ symmetry. rewrite <- (Z.mod_add _ 1) by lia. rewrite Z.mod_small; lia. }
      destruct (Z.ltb_spec (2^32 - zlen ks) (2^31)); lia.
    - rewrite unle_le by (apply Z.mod_pos_bound; lia).
      unfold s32. rewrite Z.mod_small by lia. destruct (Z.ltb_spec (zlen ks) (2^31)); lia. }
  clearbody sz. assert (Habs : Z.abs sz = zlen ks /\ (sz <? 0) = vleaf (VN ks vs os d)).
  { destruct (vleaf (VN ks vs os d)); subst sz; [destruct (Z.ltb_spec (- zlen ks) 0)|destruct (Z.ltb_spec (zlen ks) 0)]; lia. }
  destruct Habs as [Habs Hlt].
  destruct (Z.eqb_spec sz 0); [lia|]. destruct (Z.eqb_spec sz (- 2^31)); [lia|]. cbn [orb].
  rewrite Hlt, Habs. replace (Z.to_nat (zlen ks)) with (length ks) by (unfold zlen; lia).
  unfold rest. rewrite (read_vids_ok Hk) by auto. cbn [rbind].
  set (m1 := 4 + zlen (concat (map enc_vid ks))).
  assert (Ros : (if vleaf (VN ks vs os d) then Ok ([], m1)
     else read_iptrs (S (length ks)) (hd ++ concat (map enc_vid ks) ++ concat (map put_uvarint os) ++ put_uvarint d ++ concat (map enc_vec vs) ++ tail) m1)
     = Ok (os, m1 + zlen (concat (map put_uvarint os)))).
  { unfold vleaf; cbn [voffs]. destruct os as [|o os].
    - cbn [map concat]. change (zlen (@nil Z)) with 0. rewrite Z.add_0_r. reflexivity.
    - destruct Hsh as [X|X]; [discriminate|]. rewrite <- X. rewrite (app_assoc hd).
      rewrite read_iptrs_ok by (auto; rewrite zlen_app; unfold m1; lia). reflexivity. }
  rewrite Ros. cbn [rbind].
  set (A := concat (map enc_vid ks)) in *. set (O := concat (map put_uvarint os)) in *. set (V := concat (map enc_vec vs)).
  assert (B1 : hd ++ A ++ O ++ put_uvarint d ++ V ++ tail = (hd ++ A ++ O) ++ put_uvarint d ++ (V ++ tail)) by (rewrite <- !app_assoc; reflexivity).
  assert (B2 : hd ++ A ++ O ++ put_uvarint d ++ V ++ tail = (hd ++ A ++ O ++ put_uvarint d) ++ V ++ tail) by (rewrite <- !app_assoc; reflexivity).
  rewrite B1 at 1. rewrite get_uvarint_at by (rewrite ?zlen_app; unfold m1; lia). cbn [rbind].
  rewrite B2. unfold V.
  rewrite (read_vecs_ok Hv) by (rewrite ?zlen_app; unfold m1; lia). cbn [rbind]. reflexivity.
Qed.

(** ** Nodes in pages *)
Definition vstored (f : bytes) (off : Z) (n : vnode) : Prop :=
  page_ok f off /\ vnode_ok n /\ exists tail, page f off = venc n ++ tail.
Definition vat (f : bytes) (off : Z) (a : node) : Prop := exists n, vstored f off n /\ a = absn n.

Lemma garble_ok n : vnode_ok n -> vnode_ok (garble n).
Proof.
  intros (H1 & H2 & H3 & H4 & H5 & H6 & H7). unfold garble. repeat (split; [solve [auto]|]). split; [|auto].
  cbn [vids vvecs]. clear -H4 Pround. induction H4 as [|k v ks vs (A & B & C) _ IH]; cbn [map]; constructor; auto.
  split; [unfold zlen in *; rewrite map_length; auto|]. split; auto.
  unfold bits_ok in *. clear -B. induction B; cbn [map]; constructor; auto. apply f32_range; auto.
Qed.
Lemma garble_size n : vsize (garble n) = vsize n.
Proof. unfold vsize, garble. cbn [vids vvecs voffs vdim]. unfold zlen. rewrite map_length. reflexivity. Qed.
Lemma vstored_size f o n : vstored f o n -> vsize n <= pageSize.
Proof.
  intros (Hp & Hn & tail & E). rewrite <- (venc_size Hn).
  pose proof (zlen_page Hp) as L. rewrite E, zlen_app in L. pose proof (zlen_nonneg tail). lia.
Qed.
Lemma vat_frame f f' o a : vat f o a -> page f' o = page f o -> zlen f <= zlen f' -> vat f' o a.
Proof.
  intros (n & (Hp & Hn & tail & E) & ->) E' Hl. exists n. split; [|auto]. split; [eapply page_ok_mono; eauto|]. split; auto.
  exists tail. congruence.
Qed.
Lemma vat_page_ok f o a : vat f o a -> page_ok f o.
Proof. intros (n & (H & _) & _). exact H. Qed.

Lemma vrd_stored s off n : vstored (file s) off n -> vrd s off = Ok (garble n).
Proof.
  intros ((H1 & H2 & H3 & H4) & Hn & tail & E).
  unfold vrd, vread_node. rewrite s64_small by lia.
  rewrite (@bind_ok _ _ _ _ _ _ _ _ (@seek_start_ok s off ltac:(unfold pageSize in *; lia))).
  rewrite (@bind_ok _ _ _ _ _ _ _ _ (@pf_read_ok (set_pos s off) pageSize
     ltac:(cbn; lia) ltac:(unfold pageSize; lia) ltac:(cbn; lia) ltac:(cbn [pos set_pos]; lia))).
  cbn [file pos set_pos lift fst]. unfold pad_page.
  assert (Hz : zlen (slice (file s) off pageSize) = pageSize) by (apply zlen_slice; unfold pageSize in *; lia).
  rewrite Hz, Z.sub_diag, zeros_0, app_nil_r.
  change (slice (file s) off pageSize) with (page (file s) off). rewrite E. apply vunmarshal_enc; auto.
Qed.
Lemma vrd_ok s : rd_ok (abs_rd (vrd s)) (vat (file s)).
Proof. intros o l a (n & Hn & ->). unfold abs_rd. cbn [mp_off]. rewrite (@vrd_stored s o n Hn). reflexivity. Qed.

(** whatever is read has ids *)
Lemma read_vids_len : forall n buf m ks m', read_vids n buf m = Ok (ks, m') -> length ks = n.
Proof.
  induction n as [|n IH]; intros buf m ks m' E; cbn [read_vids] in E; [inversion E; reflexivity|].
  destruct (get_uvarint buf m) as [[o on]| | | |]; cbn [rbind] in E; try discriminate.
  destruct (get_uvarint buf (m + on)) as [[l ln]| | | |]; cbn [rbind] in E; try discriminate.
  destruct (get_uvarint buf (m + (on + ln))) as [[x xn]| | | |]; cbn [rbind] in E; try discriminate.
  destruct (read_vids n buf (m + (on + ln) + xn)) as [[ks' m2]| | | |] eqn:E2; cbn [rbind] in E; try discriminate.
  inversion E; subst. cbn [length]. f_equal. eapply IH; eauto.
Qed.
Lemma vunmarshal_ids buf n : vunmarshal buf = Ok n -> vids n <> [].
Proof.
  unfold vunmarshal. destruct (zlen buf <? 4); [discriminate|]. cbv zeta.
  destruct ((s32 (unle (firstn 4 buf)) =? 0) || (s32 (unle (firstn 4 buf)) =? - 2 ^ 31)) eqn:Ez; [discriminate|].
  apply orb_false_iff in Ez. destruct Ez as [Ez _]. apply Z.eqb_neq in Ez. set (sz := s32 (unle (firstn 4 buf))) in *. clearbody sz.
  destruct (read_vids (Z.to_nat (Z.abs sz)) buf 4) as [[ks m]| | | |] eqn:E1; cbn [rbind]; try discriminate.
  apply read_vids_len in E1.
  match goal with |- context [rbind ?x _] => destruct x as [[os m2]| | | |]; cbn [rbind]; try discriminate end.
  destruct (get_uvarint buf m2) as [[dd dn]| | | |]; cbn [rbind]; try discriminate.
  match goal with |- context [rbind ?x _] => destruct x as [[vs m3]| | | |]; cbn [rbind]; try discriminate end.
  intros E. inversion E; subst. cbn [vids]. intros ->. cbn in E1. lia.
Qed.
Lemma vrd_ids s o n : vrd s o = Ok n -> vids n <> [].
Proof.
  unfold vrd, vread_node, bind, lift, fail, seek_start. intros E.
  repeat match type of E with context [match ?x with _ => _ end] => destruct x eqn:?; cbn [fst] in E; try discriminate end.
  all: cbn [fst] in E; eapply vunmarshal_ids; eauto.
Qed.
Lemma vid_size_bounds k : vid_ok k -> 3 <= vid_size k <= 25.
Proof.
  intros [[Ho Hl] Hv]. unfold vid_size.
  pose proof (@size_varint_bounds (mp_off (vi_dp k)) ltac:(lia)).
  pose proof (@size_varint_bounds (mp_len (vi_dp k)) ltac:(lia)).
  pose proof (@size_varint_bounds (vi_val k) ltac:(lia)).
  assert (size_varint (mp_len (vi_dp k)) <= 5).
  { change 5 with (Z.of_nat 5). apply size_varint_le; [cbn; lia|lia]. }
  lia.
Qed.
Lemma off_size_bounds o : 0 <= o < 2^64 -> 1 <= size_varint o <= 10.
Proof. intros. apply size_varint_bounds; lia. Qed.
Lemma dim_size : 1 <= size_varint d <= 2.
Proof.
  pose proof (@size_varint_bounds d ltac:(lia)).
  assert (size_varint d <= 2). { change 2 with (Z.of_nat 2). apply size_varint_le; [cbn; lia|lia]. }
  lia.
Qed.
Lemma idsum_bounds ks : Forall vid_ok ks -> 3 * zlen ks <= zsum (map vid_size ks) <= 25 * zlen ks.
Proof. intros H. apply zsum_bounds. eapply Forall_impl; [|exact H]. apply vid_size_bounds. Qed.
Lemma offsum_bounds os : Forall (fun o => 0 <= o < 2^64) os -> 1 * zlen os <= zsum (map size_varint os) <= 10 * zlen os.
Proof. intros H. apply zsum_bounds. eapply Forall_impl; [|exact H]. apply off_size_bounds. Qed.

Lemma vleaf_arith B K N q a b : 5 <= B <= 6 -> 4 <= K <= 2004 -> 1 <= q -> 2*q <= N <= 2*q+1 ->
  3*q <= a <= 25*q -> 3*(N-q) <= b <= 25*(N-q) ->
  4096 < B + (a+b) + N*K <= 4131 + K -> B + a + q*K <= 4096 /\ B + b + (N-q)*K <= 4096.
Proof.
  intros HB HK Hq HN Ha Hb Hs.
  assert (H2 : N = 2*q \/ N = 2*q+1) by lia.
  assert (H1 : K*2 <= K*q \/ q = 1) by (destruct (Z.eq_dec q 1); [right; auto|left; apply Z.mul_le_mono_nonneg_l; lia]).
  destruct H1 as [H1| ->].
  - destruct (Z.le_gt_cases 30 K).
    + destruct H2 as [-> | ->]; split; lia.
    + assert (Hq37 : 37 <= q). { destruct (Z.le_gt_cases 37 q); auto. exfalso. assert (K*q <= 29*q) by (apply Z.mul_le_mono_nonneg_r; lia). destruct H2 as [-> | ->]; lia. }
      assert (K*37 <= K*q) by (apply Z.mul_le_mono_nonneg_l; lia). destruct H2 as [-> | ->]; split; lia.
  - destruct H2 as [-> | ->]; split; lia.
Qed.
Lemma vinner_arith B K N q a b x u e : 5 <= B <= 6 -> 4 <= K <= 2004 -> 3 <= N -> 2*q <= N <= 2*q+1 ->
  3*q <= a <= 25*q -> 3*(N-(q+1)) <= b <= 25*(N-(q+1)) -> 3 <= x <= 25 ->
  1*(q+1) <= u <= 10*(q+1) -> 1*(N+1-(q+1)) <= e <= 10*(N+1-(q+1)) ->
  4096 < B + (a+x+b) + (u+e) + N*K <= 4131 + K ->
  B + a + u + q*K <= 4096 /\ B + b + e + (N-(q+1))*K <= 4096.
Proof.
  intros HB HK H3 HN Ha Hb Hx Hu He Hs.
  assert (Hq : 1 <= q) by lia.
  assert (H1 : K*1 <= K*q) by (apply Z.mul_le_mono_nonneg_l; lia).
  assert (H2 : N = 2*q \/ N = 2*q+1) by lia.
  destruct (Z.le_gt_cases 30 K).
  - assert (q = 1 \/ K*2 <= K*q) by (destruct (Z.eq_dec q 1); [left; auto|right; apply Z.mul_le_mono_nonneg_l; lia]).
    destruct H2 as [-> | ->]; split; lia.
  - assert (Hq31 : 31 <= q). { destruct (Z.le_gt_cases 31 q); auto. exfalso. assert (K*q <= 29*q) by (apply Z.mul_le_mono_nonneg_r; lia). destruct H2 as [-> | ->]; lia. }
    assert (K*31 <= K*q) by (apply Z.mul_le_mono_nonneg_l; lia). destruct H2 as [-> | ->]; split; lia.
Qed.

Lemma f2_firstn {A B} (R : A -> B -> Prop) l l' n : Forall2 R l l' -> Forall2 R (firstn n l) (firstn n l').
Proof. intros H. revert n. induction H; intros [|n]; cbn [firstn]; constructor; auto. Qed.
Lemma f2_skipn {A B} (R : A -> B -> Prop) l l' n : Forall2 R l l' -> Forall2 R (skipn n l) (skipn n l').
Proof. intros H. revert n. induction H; intros [|n]; cbn [skipn]; try constructor; auto. Qed.
Lemma f2_nth {A B} (R : A -> B -> Prop) l l' n x : Forall2 R l l' -> nth_error l n = Some x -> exists y, nth_error l' n = Some y /\ R x y.
Proof. intros H. revert n. induction H; intros [|n] E; cbn [nth_error] in *; try discriminate; [inversion E; subst; eauto|auto]. Qed.

Lemma absn_split_left n mid : vids n <> [] -> (1 <= mid)%nat -> absn (vsplit_left n mid) = split_left (absn n) mid.
Proof.
  intros Hn Hm. unfold split_left, vsplit_left. rewrite (@leaf_abs n Hn). unfold absn. cbn [keys lptrs iptrs].
  destruct (vleaf n) eqn:E; cbn [vids voffs].
  - unfold vleaf; cbn [voffs]. rewrite !firstn_map. reflexivity.
  - unfold vleaf in *; cbn [voffs]. destruct (voffs n); [discriminate|]. cbn [firstn]. rewrite firstn_map. reflexivity.
Qed.
Lemma absn_split_right n mid : vids n <> [] -> (vleaf n = false -> (S mid < length (voffs n))%nat) ->
  absn (vsplit_right d n mid) = split_right (absn n) mid.
Proof.
  intros Hn Hm. unfold split_right, vsplit_right. rewrite (@leaf_abs n Hn). unfold absn. cbn [keys lptrs iptrs].
  destruct (vleaf n) eqn:E; cbn [vids voffs].
  - unfold vleaf; cbn [voffs]. rewrite !skipn_map. reflexivity.
  - specialize (Hm eq_refl). unfold vleaf at 1; cbn [voffs].
    destruct (skipn (S mid) (voffs n)) eqn:Es.
    { apply (f_equal (@length _)) in Es. rewrite skipn_length in Es. cbn [length] in Es. lia. }
    rewrite skipn_map. reflexivity.
Qed.
Lemma absn_parent p i k v no mo : vleaf p = false ->
  absn (vparent_insert p i k v no mo) = parent_insert (absn p) i (absk k) no mo.
Proof.
  intros E. unfold vparent_insert, parent_insert, absn. cbn [keys lptrs iptrs vids voffs]. rewrite E.
  replace (vleaf _) with false.
  2:{ unfold vleaf. cbn [voffs]. destruct (firstn i (voffs p)); reflexivity. }
  rewrite map_app. cbn [map]. rewrite firstn_map, skipn_map. reflexivity.
Qed.

Lemma vnode_ok_intro n : vids n <> [] -> Forall vid_ok (vids n) -> Forall2 vec_ok (vids n) (vvecs n) -> vdim n = d ->
  Forall (fun o => 0 <= o < 2^64) (voffs n) -> (voffs n = [] \/ length (voffs n) = S (length (vids n))) ->
  vsize n < 2^31 -> vnode_ok n.
Proof.
  intros H1 H2 H3 H4 H5 H6 H7. repeat (split; auto).
  unfold vsize in H7. pose proof (idsum_bounds H2). pose proof (offsum_bounds H5). pose proof dim_size. rewrite H4 in H7.
  pose proof (zlen_nonneg (voffs n)). pose proof (zlen_nonneg (vvecs n)).
  assert (0 <= zlen (vvecs n) * (4 * d)) by (apply Z.mul_nonneg_nonneg; lia). lia.
Qed.

(** a node that is too big by at most one entry splits into two that fit *)
Lemma vleaf_split n : vnode_ok n -> vleaf n = true -> pageSize < vsize n <= pageSize + 35 + 4 * d ->
  let mid := (length (vids n) / 2)%nat in
  (1 <= mid < length (vids n))%nat /\
  vnode_ok (vsplit_left n mid) /\ vnode_ok (vsplit_right d n mid) /\
  vsize (vsplit_left n mid) <= pageSize /\ vsize (vsplit_right d n mid) <= pageSize.
Proof.
  intros (Hne & Hcnt & Hk & Hv & Hdim & Ho & Hsh) Hlf Hsz mid.
  assert (Ho0 : voffs n = []) by (unfold vleaf in Hlf; destruct (voffs n); [auto|discriminate]).
  pose proof dim_size as DS. pose proof (f2_len Hv) as Hlen.
  assert (HN : (2 <= length (vids n))%nat).
  { destruct (Nat.lt_ge_cases (length (vids n)) 2); auto. exfalso.
    pose proof (idsum_bounds Hk). unfold vsize in Hsz. rewrite Ho0, Hdim in Hsz. cbn [map zsum fold_right] in Hsz.
    assert (zlen (vids n) <= 1) by (unfold zlen; lia).
    assert (zlen (vvecs n) * (4 * d) <= 1 * (4 * d)) by (apply Z.mul_le_mono_nonneg_r; [lia|unfold zlen; lia]).
    unfold pageSize in *. lia. }
  destruct (lb_div2 HN) as [M1 M2]. fold mid in M1, M2.
  assert (Hdiv : (2 * mid <= length (vids n) <= 2 * mid + 1)%nat).
  { unfold mid. pose proof (Nat.div_mod (length (vids n)) 2). pose proof (Nat.mod_upper_bound (length (vids n)) 2). lia. }
  unfold vsplit_left, vsplit_right. rewrite Hlf.
  pose proof (Forall_firstn mid Hk) as HkL. pose proof (Forall_skipn mid Hk) as HkR.
  pose proof (idsum_bounds HkL) as KL. pose proof (idsum_bounds HkR) as KR.
  destruct (@firstn_skipn_len _ (vids n) mid ltac:(lia)) as [Z1 Z2].
  destruct (@firstn_skipn_len _ (vvecs n) mid ltac:(lia)) as [Z3 Z4].
  rewrite Z1 in KL. rewrite Z2 in KR.
  assert (EN : zlen (vvecs n) = zlen (vids n)) by (unfold zlen; lia).
  assert (Bnd : vsize (VN (firstn mid (vids n)) (firstn mid (vvecs n)) [] (vdim n)) <= pageSize /\
                vsize (VN (skipn mid (vids n)) (skipn mid (vvecs n)) [] d) <= pageSize).
  { unfold vsize in *. cbn [vids vvecs voffs vdim]. rewrite Ho0, Hdim in *. cbn [map zsum fold_right] in *. fold (zsum) in *.
    rewrite (zsum_split vid_size (vids n) mid) in Hsz. rewrite Z3, Z4, EN in *.
    set (a := zsum (map vid_size (firstn mid (vids n)))) in *. set (b := zsum (map vid_size (skipn mid (vids n)))) in *.
    unfold pageSize in *.
    destruct (@vleaf_arith (4 + size_varint d) (4 * d) (zlen (vids n)) (Z.of_nat mid) a b) as [A1 A2]; try lia.
    all: unfold zlen in *; lia. }
  destruct Bnd as [BL BR].
  split; [lia|]. split; [|split; [|auto]]; apply vnode_ok_intro; cbn [vids vvecs voffs vdim]; auto; try (unfold pageSize in *; lia).
  - intros E. rewrite E in Z1. change (zlen (@nil vid)) with 0 in Z1. lia.
  - apply f2_firstn; auto.
  - intros E. rewrite E in Z2. change (zlen (@nil vid)) with 0 in Z2. unfold zlen in Z2. lia.
  - apply f2_skipn; auto.
Qed.
Lemma vinner_split n : vnode_ok n -> vleaf n = false -> pageSize < vsize n <= pageSize + 35 + 4 * d ->
  let mid := (length (vids n) / 2)%nat in
  (1 <= mid)%nat /\ (mid + 1 < length (vids n))%nat /\
  vnode_ok (vsplit_left n mid) /\ vnode_ok (vsplit_right d n mid) /\
  vsize (vsplit_left n mid) <= pageSize /\ vsize (vsplit_right d n mid) <= pageSize.
Proof.
  intros (Hne & Hcnt & Hk & Hv & Hdim & Ho & Hsh) Hlf Hsz mid.
  assert (Hol : length (voffs n) = S (length (vids n))).
  { destruct Hsh as [X|X]; auto. unfold vleaf in Hlf. rewrite X in Hlf. discriminate. }
  pose proof dim_size as DS. pose proof (f2_len Hv) as Hlen.
  assert (HN : (3 <= length (vids n))%nat).
  { destruct (Nat.lt_ge_cases (length (vids n)) 3); auto. exfalso.
    pose proof (idsum_bounds Hk). pose proof (offsum_bounds Ho). unfold vsize in Hsz. rewrite Hdim in Hsz.
    assert (zlen (vids n) <= 2) by (unfold zlen; lia). assert (zlen (voffs n) <= 3) by (unfold zlen; lia).
    assert (zlen (vvecs n) * (4 * d) <= 2 * (4 * d)) by (apply Z.mul_le_mono_nonneg_r; [lia|unfold zlen; lia]).
    unfold pageSize in *. lia. }
  assert (Hdiv : (2 * mid <= length (vids n) <= 2 * mid + 1)%nat).
  { unfold mid. pose proof (Nat.div_mod (length (vids n)) 2). pose proof (Nat.mod_upper_bound (length (vids n)) 2). lia. }
  unfold vsplit_left, vsplit_right. rewrite Hlf.
  pose proof (Forall_firstn mid Hk) as HkL. pose proof (Forall_skipn (S mid) Hk) as HkR.
  pose proof (Forall_firstn (S mid) Ho) as HoL. pose proof (Forall_skipn (S mid) Ho) as HoR.
  pose proof (idsum_bounds HkL) as KL. pose proof (idsum_bounds HkR) as KR.
  pose proof (offsum_bounds HoL) as OL. pose proof (offsum_bounds HoR) as OR.
  destruct (@firstn_skipn_len _ (vids n) mid ltac:(lia)) as [Z1 _].
  destruct (@firstn_skipn_len _ (vids n) (S mid) ltac:(lia)) as [_ Z2].
  destruct (@firstn_skipn_len _ (vvecs n) mid ltac:(lia)) as [Z3 _].
  destruct (@firstn_skipn_len _ (vvecs n) (S mid) ltac:(lia)) as [_ Z4].
  destruct (@firstn_skipn_len _ (voffs n) (S mid) ltac:(lia)) as [Z5 Z6].
  rewrite Z1 in KL. rewrite Z2 in KR. rewrite Z5 in OL. rewrite Z6 in OR.
  assert (EN : zlen (vvecs n) = zlen (vids n)) by (unfold zlen; lia).
  assert (EO : zlen (voffs n) = zlen (vids n) + 1) by (unfold zlen; lia).
  assert (Hmidk : exists k, In k (vids n) /\ zsum (map vid_size (vids n)) =
      zsum (map vid_size (firstn mid (vids n))) + vid_size k + zsum (map vid_size (skipn (S mid) (vids n)))).
  { destruct (nth_error (vids n) mid) as [k|] eqn:E; [|apply nth_error_None in E; lia].
    exists k. split; [eapply nth_error_In; eauto|].
    rewrite (zsum_split vid_size (vids n) mid).
    apply nth_error_split in E. destruct E as (u & v & Eu & Lu).
    assert (S1 : skipn mid (vids n) = k :: v).
    { rewrite Eu, <- Lu, skipn_app, skipn_all, Nat.sub_diag. reflexivity. }
    assert (S2 : skipn (S mid) (vids n) = v).
    { rewrite Eu. replace (u ++ k :: v) with ((u ++ [k]) ++ v) by (rewrite <- app_assoc; reflexivity).
      apply skipn_app_exact. rewrite app_length, Lu. cbn [length]. lia. }
    rewrite S1, S2. cbn [map]. rewrite zsum_cons. lia. }
  destruct Hmidk as (k & Ek & Esum).
  assert (KK : 3 <= vid_size k <= 25) by (rewrite Forall_forall in Hk; apply vid_size_bounds; auto).
  assert (Bnd : vsize (VN (firstn mid (vids n)) (firstn mid (vvecs n)) (firstn (S mid) (voffs n)) (vdim n)) <= pageSize /\
                vsize (VN (skipn (S mid) (vids n)) (skipn (S mid) (vvecs n)) (skipn (S mid) (voffs n)) d) <= pageSize).
  { unfold vsize in *. cbn [vids vvecs voffs vdim]. rewrite Hdim, Esum in *.
    rewrite (zsum_split size_varint (voffs n) (S mid)) in Hsz. rewrite Z3, Z4, EN, EO in *.
    set (a := zsum (map vid_size (firstn mid (vids n)))) in *. set (b := zsum (map vid_size (skipn (S mid) (vids n)))) in *.
    set (u := zsum (map size_varint (firstn (S mid) (voffs n)))) in *. set (e := zsum (map size_varint (skipn (S mid) (voffs n)))) in *.
    unfold pageSize in *. replace (Z.of_nat (S mid)) with (Z.of_nat mid + 1) in * by lia.
    destruct (@vinner_arith (4 + size_varint d) (4 * d) (zlen (vids n)) (Z.of_nat mid) a b (vid_size k) u e) as [A1 A2]; try lia.
    all: unfold zlen in *; lia. }
  destruct Bnd as [BL BR].
  split; [lia|]. split; [lia|]. split; [|split; [|auto]]; apply vnode_ok_intro; cbn [vids vvecs voffs vdim]; auto; try (unfold pageSize in *; lia).
  - intros E. rewrite E in Z1. change (zlen (@nil vid)) with 0 in Z1. lia.
  - apply f2_firstn; auto.
  - right. rewrite !firstn_length. lia.
  - intros E. rewrite E in Z2. change (zlen (@nil vid)) with 0 in Z2. unfold zlen in Z2. lia.
  - apply f2_skipn; auto.
  - right. rewrite !skipn_length. lia.
Qed.

Lemma body_vleaf F h lo hi n es pg : vids n <> [] -> body F h lo hi (absn n) es pg -> vleaf n = (match h with O => true | _ => false end).
Proof.
  intros Hn Hb. pose proof (body_leaf_dec Hb) as Hlf. rewrite (@leaf_abs n Hn) in Hlf. exact Hlf.
Qed.
Lemma vsplit_ok F h lo hi n es pg : vnode_ok n -> pageSize < vsize n <= pageSize + 35 + 4 * d -> body F h lo hi (absn n) es pg ->
  let mid := (length (vids n) / 2)%nat in
  exists mk mv esA esB pgA pgB,
    nth_error (vids n) mid = Some mk /\ nth_error (vvecs n) mid = Some mv /\ vid_ok mk /\ vec_ok mk mv /\
    es = esA ++ esB /\ pg = pgA ++ pgB /\
    body F h lo (Some (absk mk)) (absn (vsplit_left n mid)) esA pgA /\ body F h (Some (absk mk)) hi (absn (vsplit_right d n mid)) esB pgB /\
    vnode_ok (vsplit_left n mid) /\ vnode_ok (vsplit_right d n mid) /\
    vsize (vsplit_left n mid) <= pageSize /\ vsize (vsplit_right d n mid) <= pageSize.
Proof.
  intros Hn Hs Hb mid. pose proof Hn as (Hne & _ & Hk & Hv & _ & _ & Hsh). pose proof (@body_vleaf F h lo hi n es pg Hne Hb) as Hlf.
  assert (HK : forall mk, nth_error (map absk (vids n)) mid = Some mk ->
    exists k v, mk = absk k /\ nth_error (vids n) mid = Some k /\ nth_error (vvecs n) mid = Some v /\ vid_ok k /\ vec_ok k v).
  { intros mk E. rewrite nth_error_map in E. destruct (nth_error (vids n) mid) as [k|] eqn:E1; [|discriminate].
    cbn [option_map] in E. inversion E; subst. destruct (@f2_nth _ _ _ _ _ _ _ Hv E1) as (v & E2 & V). exists k, v. split; [reflexivity|]. split; [reflexivity|].
    split; [exact E2|]. split; [|exact V]. rewrite Forall_forall in Hk. apply Hk. eapply nth_error_In; eauto. }
  destruct h as [|h].
  - destruct (vleaf_split Hn Hlf Hs) as (M & N1 & N2 & S1 & S2). fold mid in M, N1, N2, S1, S2.
    destruct (@body_leaf_split F lo hi (absn n) es pg mid Hb) as (mk & esA & esB & E1 & E2 & E3 & B1 & B2).
    { cbn [absn keys]. rewrite map_length. exact M. }
    destruct (HK mk E1) as (k & v & -> & Ek & Ev & K1 & K2).
    exists k, v, esA, esB, [], []. rewrite absn_split_left by (auto; lia). rewrite absn_split_right by (auto; intros X; congruence).
    do 6 (split; [solve [auto]|]). auto 10.
  - destruct (vinner_split Hn Hlf Hs) as (M1 & M2 & N1 & N2 & S1 & S2). fold mid in M1, M2, N1, N2, S1, S2.
    destruct (@body_inner_split F h lo hi (absn n) es pg mid Hb M1) as (mk & esA & esB & pgA & pgB & E1 & E2 & E3 & B1 & B2).
    { cbn [absn keys]. rewrite map_length. exact M2. }
    destruct (HK mk E1) as (k & v & -> & Ek & Ev & K1 & K2).
    exists k, v, esA, esB, pgA, pgB. rewrite absn_split_left by (auto; lia). rewrite absn_split_right.
    2:{ auto. } 2:{ intros _. destruct Hsh as [X|X]; [unfold vleaf in Hlf; rewrite X in Hlf; discriminate|lia]. }
    do 6 (split; [solve [auto]|]). auto 10.
Qed.

Lemma vwrite_node_ok s off n : budget s = None -> page_ok (file s) off -> vnode_ok n -> vsize n <= pageSize ->
  exists p, vwrite_node off n s = (Ok tt, set_pos (set_file s (upd (file s) off (venc n))) p).
Proof.
  intros Hb (H1 & H2 & H3 & H4) Hn Hs. unfold vwrite_node. rewrite s64_small by lia.
  rewrite (@bind_ok _ _ _ _ _ _ _ _ (@seek_start_ok s off ltac:(unfold pageSize in *; lia))).
  rewrite (vmarshal_ok Hn). unfold bind at 1. cbn [lift].
  destruct (@pf_write_ok (set_pos s off) (venc n)) as (k & p & E).
  { cbn; auto. }
  { cbn; unfold pageSize in *; lia. }
  { rewrite (venc_size Hn). cbn [pos set_pos]. lia. }
  rewrite (@bind_ok _ _ _ _ _ _ _ _ E). exists p. reflexivity.
Qed.
Lemma vat_write f o n : page_ok f o -> vnode_ok n -> vsize n <= pageSize -> vat (upd f o (venc n)) o (absn n).
Proof.
  intros (H1 & H2 & H3 & H4) Hn Hs. pose proof (venc_size Hn) as Z. unfold pageSize in *.
  exists n. split; [|auto]. split; [|split; auto].
  - unfold page_ok. rewrite zlen_upd by lia. unfold pageSize. lia.
  - eexists. unfold page. rewrite slice_upd_prefix by (unfold pageSize; lia). reflexivity.
Qed.
Lemma vat_np s fl n : pf_inv s fl -> vnode_ok n -> vsize n <= pageSize ->
  zlen (file s) < 2^62 -> vat (np_file s fl (venc n)) (np_off s fl) (absn n).
Proof.
  intros Hi Hn Hs Hf. pose proof (venc_size Hn) as Z.
  assert (Zb : zlen (venc n) <= pageSize) by lia.
  exists n. split; [|auto]. split; [|split; auto].
  - destruct (np_off_ok Hi) as (O1 & O2 & O3). unfold page_ok. rewrite (zlen_np_file _ Hi Zb).
    destruct fl as [|x fl]; cbn [np_off] in *; unfold pageSize in *; [lia|].
    destruct Hi as [_ _ _ Hok _ _]. inversion Hok as [|? ? Hx _]; subst. destruct Hx as (X1 & X2 & X3 & X4). unfold pageSize in *. lia.
  - eexists. apply np_new_page; auto.
Qed.
Lemma vpages_ok f (pg : list Z) : Forall (fun o => exists m, vat f o m) pg -> Forall (page_ok f) pg.
Proof. apply Forall_impl. intros a (n & H). eapply vat_page_ok; eauto. Qed.

(** a non-empty vector tree at slot [m]; the entries are (id, data pointer) *)
Definition vtree (f : bytes) (m : lp) (es : list entry) (pgs : list Z) : Prop :=
  exists H root rlen, root_at f m = MP root rlen /\ 0 < rlen < 2^32 /\
    repr (vat f) H None None root es pgs.
Definition vins_post (m : lp) (s : st) (fl P : list Z) (es : list entry) (s' : st) : Prop :=
  exists fl' pgs' news,
    pf_inv s' fl' /\ (exists k, fl' = skipn k fl) /\
    vtree (file s') m es pgs' /\
    NoDup (pgs' ++ fl') /\ Permutation (pgs' ++ fl') (P ++ fl ++ news) /\
    Forall (fun p => zlen (file s) <= p) news /\
    untouched (file s) (file s') (P ++ fl) (root_off m) /\
    kind s' = kind s /\ budget s' = None /\
    zlen (file s') = zlen (file s) + pageSize * zlen news /\
    lastPage s' = lastPage s + zlen news.

Lemma vsplit_io s fl off L R Q : pf_inv s fl -> budget s = None -> zlen (file s) < 2^62 ->
  vnode_ok L -> vnode_ok R -> vsize L <= pageSize -> vsize R <= pageSize ->
  Forall (page_ok (file s)) (off :: Q) -> NoDup (off :: Q ++ fl) ->
  exists mo s1 s2 news,
    new_page (venc R) s = (Ok mo, s1) /\ vwrite_node off L s1 = (Ok tt, s2) /\
    pf_inv s2 (tl fl) /\ kind s2 = kind s /\ budget s2 = None /\
    vat (file s2) mo (absn R) /\ vat (file s2) off (absn L) /\
    (forall o n, In o Q -> vat (file s) o n -> vat (file s2) o n) /\
    NoDup (off :: mo :: Q ++ tl fl) /\
    Permutation (mo :: tl fl) (fl ++ news) /\ Forall (fun p => zlen (file s) <= p) news /\
    zlen (file s2) = zlen (file s) + pageSize * zlen news /\ lastPage s2 = lastPage s + zlen news /\
    zlen news <= 1 /\ mo < 2^62 /\ (In mo fl \/ zlen (file s) <= mo) /\ 0 < mo /\
    forall ro, untouched (file s) (file s2) (off :: firstn 1 fl) ro.
Proof.
  intros Hi Hb Hf HL HR SL SR Hok Hnd.
  pose proof (venc_size HL) as ZL. pose proof (venc_size HR) as ZR.
  assert (ZR' : zlen (venc R) <= pageSize) by lia.
  destruct (@new_page_ok s fl (venc R) Hi Hb ZR') as (s1 & E1 & F1 & I1 & K1 & B1 & L1 & P1).
  assert (Hoff : page_ok (file s) off) by (inversion Hok; auto).
  destruct (@np_fresh s fl (off :: Q) Hi Hok Hnd) as [Hfr Hnd2].
  set (mo := np_off s fl) in *.
  assert (Hle1 : zlen (file s) <= zlen (file s1)).
  { rewrite F1, (zlen_np_file _ Hi ZR'). destruct fl; unfold pageSize; lia. }
  assert (Hoff1 : page_ok (file s1) off) by (eapply page_ok_mono; eauto).
  destruct (@vwrite_node_ok s1 off L B1 Hoff1 HL SL) as (p & E2).
  pose proof (vat_np Hi HR SR Hf) as NR. rewrite <- F1 in NR. fold mo in NR.
  pose proof (vat_write Hoff1 HL SL) as NL.
  assert (Hmo : page_ok (file s1) mo) by (eapply vat_page_ok; eauto).
  assert (Hlen2 : zlen (upd (file s1) off (venc L)) = zlen (file s1)).
  { destruct Hoff1 as (Q1 & Q2 & Q3 & Q4). unfold pageSize in *. rewrite zlen_upd by lia. lia. }
  assert (Hpg : forall o, page_ok (file s1) o -> o <> off -> page (upd (file s1) off (venc L)) o = page (file s1) o).
  { intros o (G1 & G2 & G3 & G4) Hne. destruct Hoff1 as (Q1 & Q2 & Q3 & Q4).
    unfold page. apply slice_upd_disj; try lia.
    - unfold pageSize in *; lia.
    - destruct (@aligned_disj o off G2 Q2 Hne); unfold pageSize in *; lia. }
  exists mo, s1, (set_pos (set_file s1 (upd (file s1) off (venc L))) p), (match fl with [] => [mo] | _ => [] end).
  cbn [file set_pos set_file kind budget lastPage].
  split; auto. split; auto. split.
  { apply pf_inv_write; auto; destruct Hoff1 as (Q1 & Q2 & Q3 & Q4); unfold pageSize in *; lia. }
  split; auto. split; auto.
  assert (Hmoff : mo <> off) by (intros E; apply Hfr; left; auto).
  split. { eapply vat_frame; [exact NR| |lia]. apply Hpg; auto. }
  split; auto. split.
  { intros o n Hin Hn. inversion Hnd as [|? ? Hni Hnd']; subst.
    assert (Ho : o <> off) by (intros ->; apply Hni, in_or_app; auto).
    assert (Hom : o <> mo) by (intros ->; apply Hfr; right; auto).
    pose proof (vat_page_ok Hn) as Hp.
    eapply vat_frame; [exact Hn| |lia]. rewrite Hpg; auto; [|eapply page_ok_mono; eauto].
    rewrite F1. unfold page. destruct Hp as (G1 & G2 & G3 & G4). destruct Hmo as (M1 & M2 & M3 & M4).
    apply np_frame; auto; [unfold pageSize in *; lia|]. fold mo.
    destruct (@aligned_disj o mo G2 M2 Hom); lia. }
  split.
  { inversion Hnd2 as [|? ? N1 N2]; subst. cbn [app] in *. inversion N2 as [|? ? N3 N4]; subst.
    constructor; [|constructor; auto].
    - intros [E|E]; auto.
    - intros E; apply N1; right; auto. }
  split.
  { destruct fl as [|x fl]; cbn [tl app].
    - apply Permutation_refl.
    - unfold mo; cbn [np_off]. rewrite app_nil_r. apply Permutation_refl. }
  split.
  { destruct fl; constructor; auto. unfold mo; cbn [np_off]; lia. }
  rewrite Hlen2, F1, L1, (zlen_np_file _ Hi ZR').
  split. { destruct fl; [change (zlen [mo]) with 1|change (zlen (@nil Z)) with 0]; unfold pageSize; lia. }
  split. { destruct fl; [change (zlen [mo]) with 1|change (zlen (@nil Z)) with 0]; lia. }
  split. { destruct fl; [change (zlen [mo]) with 1|change (zlen (@nil Z)) with 0]; lia. }
  split. { destruct fl as [|x fl]; unfold mo; cbn [np_off]; [lia|].
    destruct Hi as [_ _ _ Hk _ _]. inversion Hk as [|? ? Hx _]; subst. destruct Hx as (X1 & X2 & X3 & X4). unfold pageSize in *; lia. }
  split. { destruct fl as [|x fl]; unfold mo; cbn [np_off]; [right; lia|left; left; auto]. }
  split. { destruct Hmo as (M1 & _). exact M1. }
  intros ro. eapply untouched_trans with (f2 := np_file s fl (venc R)) (P1 := firstn 1 fl) (P2 := [off]).
  - apply untouched_np; auto.
  - rewrite F1 in *. apply untouched_upd; try (destruct Hoff1 as (Q1 & Q2 & Q3 & Q4); unfold pageSize in *; lia). left; auto.
  - intros x Hx; right; auto.
  - intros x [<-|[]]. left; left; auto.
Qed.

(** the node fits: it is written in place *)
Lemma vins_fit m s tr fl h lo hi off esL es esR pg pgs H root rlen rest :
  pf_inv s fl -> budget s = None -> slot_ok (file s) m ->
  root_at (file s) m = MP root rlen -> 0 < rlen < 2^32 ->
  ctx (vat (file s)) true h lo hi off rest esL esR pgs H root ->
  mp_off (vtptr tr) = off -> page_ok (file s) off ->
  body (vat (file s)) h lo hi (absn (vtnode tr)) es pg ->
  vnode_ok (vtnode tr) -> vsize (vtnode tr) <= pageSize ->
  NoDup (off :: (pg ++ pgs) ++ fl) -> ~ In (lp_off m) (off :: (pg ++ pgs) ++ fl) ->
  exists s', vwrite_node (mp_off (vtptr tr)) (vtnode tr) s = (Ok tt, s') /\
    vins_post m s fl (off :: pg ++ pgs) (esL ++ es ++ esR) s'.
Proof.
  intros Hi Hb Hslot Hroot Hrlen Hctx Htr Hoff Hbody Hnok Hfit Hnd Hlp.
  rewrite Htr. destruct (@vwrite_node_ok s off (vtnode tr) Hb Hoff Hnok Hfit) as (q & E).
  eexists; split; [exact E|].
  pose proof (vat_write Hoff Hnok Hfit) as NW.
  pose proof (venc_size Hnok) as ZE.
  pose proof Hoff as (O1 & O2 & O3 & O4).
  pose proof (@zlen_upd _ (file s) (venc (vtnode tr)) off ltac:(unfold pageSize in *; lia)) as ZU.
  set (f' := upd (file s) off (venc (vtnode tr))) in *.
  assert (Zf : zlen f' = zlen (file s)) by (unfold pageSize in *; lia).
  assert (U : untouched (file s) f' [off] (root_off m)).
  { apply untouched_upd; [unfold pageSize in *; lia|lia|lia|left; auto]. }
  assert (Hal1 : Forall (fun q => q mod pageSize = 0) [off]) by (constructor; auto).
  assert (Hlo : lp_off m <> off) by (intros E0; apply Hlp; left; auto).
  assert (Fr : forall o n, In o (pg ++ pgs) -> vat (file s) o n -> vat f' o n).
  { intros o n Hin Hn. eapply vat_frame; [exact Hn| |lia].
    eapply untouched_page; [exact U|exact Hslot|eapply vat_page_ok; eauto| |exact Hal1|].
    - intros [<-|[]]. inversion Hnd as [|? ? X _]; subst. apply X, in_or_app; auto.
    - intros ->. apply Hlp. right; apply in_or_app; auto. }
  assert (R : repr (vat f') h lo hi off es (off :: pg)).
  { exists (absn (vtnode tr)), pg. split; [exact NW|split; [|auto]].
    eapply body_frame; [exact Hbody|]. intros; apply Fr; auto. apply in_or_app; auto. }
  assert (Hctx' : ctx (vat f') true h lo hi off rest esL esR pgs H root).
  { eapply ctx_frame; [exact Hctx|]. intros o n Hin Hn. apply Fr; auto. apply in_or_app; auto. }
  destruct (ctx_plug Hctx' R) as (pgs' & Rp & Pm).
  exists fl, pgs', []. cbn [file set_pos set_file kind budget lastPage]. fold f'.
  split; [apply pf_inv_write; auto; unfold pageSize in *; lia|].
  split; [exists 0%nat; auto|].
  split. { exists H, root, rlen. split; [|split; auto]. rewrite <- Hroot.
    eapply untouched_root_at with (P := [off]) (ro := 0); auto.
    - apply untouched_upd; [unfold pageSize in *; lia|lia|lia|left; auto].
    - intros [E0|[]]; auto.
    - right. pose proof (root_off_bounds Hslot). unfold pageSize in *; lia. }
  split; [eapply Permutation_NoDup; [|exact Hnd]; clear - Pm; perm_lia|].
  split; [clear - Pm; perm_lia|].
  split; [constructor|].
  split; [eapply untouched_incl; [exact U|]; intros x [<-|[]]; left; auto|].
  change (zlen (@nil Z)) with 0. repeat split; auto; lia.
Qed.

(** what the split of an overfull node leaves behind, before the parent is updated *)
Lemma vins_split m s tr fl h lo hi off es pg pgs :
  pf_inv s fl -> budget s = None ->
  page_ok (file s) off -> Forall (page_ok (file s)) (pg ++ pgs) ->
  body (vat (file s)) h lo hi (absn (vtnode tr)) es pg ->
  vnode_ok (vtnode tr) -> pageSize < vsize (vtnode tr) <= pageSize + 35 + 4 * d ->
  NoDup (off :: (pg ++ pgs) ++ fl) -> ~ In (lp_off m) (off :: (pg ++ pgs) ++ fl) -> lp_off m < zlen (file s) ->
  zlen (file s) < 2^62 ->
  let n := vtnode tr in let mid := (length (vids n) / 2)%nat in
  exists mk mv mo s1 s2 esA esB pgA pgB news,
    nth_error (vids n) mid = Some mk /\ nth_error (vvecs n) mid = Some mv /\ vid_ok mk /\ vec_ok mk mv /\
    vmarshal (vsplit_right d n mid) = Ok (venc (vsplit_right d n mid)) /\
    new_page (venc (vsplit_right d n mid)) s = (Ok mo, s1) /\
    vwrite_node off (vsplit_left n mid) s1 = (Ok tt, s2) /\
    es = esA ++ esB /\ Permutation (pgA ++ pgB) (off :: mo :: pg) /\
    repr (vat (file s2)) h lo (Some (absk mk)) off esA pgA /\
    repr (vat (file s2)) h (Some (absk mk)) hi mo esB pgB /\
    (forall o n, In o pgs -> vat (file s) o n -> vat (file s2) o n) /\
    pf_inv s2 (tl fl) /\ kind s2 = kind s /\ budget s2 = None /\
    NoDup (off :: mo :: (pg ++ pgs) ++ tl fl) /\ ~ In (lp_off m) (off :: mo :: (pg ++ pgs) ++ tl fl) /\
    Permutation (mo :: tl fl) (fl ++ news) /\ Forall (fun p => zlen (file s) <= p) news /\
    zlen (file s2) = zlen (file s) + pageSize * zlen news /\ lastPage s2 = lastPage s + zlen news /\
    zlen news <= 1 /\ 0 < mo < 2^62 /\
    forall ro, untouched (file s) (file s2) (off :: firstn 1 fl) ro.
Proof.
  intros Hi Hb Hoff Hpg Hbody Hn Hs Hnd Hlp Hlpf Hf n mid.
  destruct (@vsplit_ok _ _ _ _ _ _ _ Hn Hs Hbody) as (mk & mv & esA & esB & pgA & pgB & E1 & E1' & E2 & E2' & E3 & E4 & BA & BB & NL & NR & SL & SR).
  fold n mid in E1, BA, BB, NL, NR, SL, SR.
  destruct (@vsplit_io s fl off (vsplit_left n mid) (vsplit_right d n mid) (pg ++ pgs) Hi Hb Hf NL NR SL SR ltac:(constructor; auto) Hnd)
    as (mo & s1 & s2 & news & W1 & W2 & I2 & K2 & B2 & NRat & NLat & Fr & ND2 & PM & FN & ZL & LP & ZN & MO & MOin & MO0 & UT).
  exists mk, mv, mo, s1, s2, esA, esB, (off :: pgA), (mo :: pgB), news.
  split; auto. split; auto. split; auto. split; auto. split; [apply vmarshal_ok; auto|]. split; auto. split; auto. split; auto.
  split; [subst pg; clear; perm_lia|].
  split. { exists (absn (vsplit_left n mid)), pgA. split; auto. split; auto. eapply body_frame; [exact BA|].
    intros; apply Fr; auto. subst pg. rewrite !in_app_iff; auto. }
  split. { exists (absn (vsplit_right d n mid)), pgB. split; auto. split; auto. eapply body_frame; [exact BB|].
    intros; apply Fr; auto. subst pg. rewrite !in_app_iff; auto. }
  split. { intros; apply Fr; auto. apply in_or_app; auto. }
  split; auto. split; auto. split; auto. split; auto. split.
  { intros [X|[X|X]].
    - apply Hlp; left; auto.
    - destruct MOin as [Y|Y]; [|lia]. apply Hlp. right. apply in_or_app; right. congruence.
    - apply Hlp. right. apply in_app_iff in X. apply in_or_app. destruct X; auto. right. apply in_tl; auto. }
  repeat (split; [solve [auto]|]). auto.
Qed.

(** a node in a new page becomes the root *)
Lemma vnew_root_ok m s fl n Q : pf_inv s fl -> budget s = None -> slot_ok (file s) m ->
  vnode_ok n -> vsize n <= pageSize ->
  Forall (page_ok (file s)) Q -> NoDup (Q ++ fl) -> ~ In (lp_off m) (Q ++ fl) -> zlen (file s) < 2^62 ->
  exists po s3 s4 news,
    new_page (venc n) s = (Ok po, s3) /\
    lp_set_root m (MP (po mod 2^64) (zlen (venc n) mod 2^32)) s3 = (Ok tt, s4) /\
    pf_inv s4 (tl fl) /\ kind s4 = kind s /\ budget s4 = None /\
    vat (file s4) po (absn n) /\ (forall o q, In o Q -> vat (file s) o q -> vat (file s4) o q) /\
    root_at (file s4) m = MP po (vsize n) /\ 0 < vsize n < 2^32 /\
    NoDup (po :: Q ++ tl fl) /\ Permutation (po :: tl fl) (fl ++ news) /\
    Forall (fun p => zlen (file s) <= p) news /\
    zlen (file s4) = zlen (file s) + pageSize * zlen news /\ lastPage s4 = lastPage s + zlen news /\
    untouched (file s) (file s4) (firstn 1 fl) (root_off m).
Proof.
  intros Hi Hb Hslot Hn Hs HQ Hnd Hlp Hf.
  pose proof (venc_size Hn) as ZE.
  assert (ZE' : zlen (venc n) <= pageSize) by lia.
  destruct (@new_page_ok s fl _ Hi Hb ZE') as (s3 & E1 & F1 & I1 & K1 & B1 & L1 & P1).
  destruct (@np_fresh s fl Q Hi HQ Hnd) as [Hfr Hnd2].
  pose proof (vat_np Hi Hn Hs Hf) as NP. rewrite <- F1 in NP.
  set (po := np_off s fl) in *.
  assert (Zle : zlen (file s) <= zlen (file s3)).
  { rewrite F1, (zlen_np_file _ Hi ZE'). destruct fl; unfold pageSize; lia. }
  assert (Hslot3 : slot_ok (file s3) m) by (eapply slot_ok_mono; eauto).
  destruct (@lp_set_root_ok s3 m (MP (po mod 2^64) (zlen (venc n) mod 2^32)) Hslot3 B1) as (p & E2).
  assert (Hpo : 0 < po < 2^62).
  { pose proof (vat_page_ok NP) as (X1 & X2 & X3 & X4). split; auto.
    destruct fl as [|x fl']; unfold po; cbn [np_off]; [lia|].
    destruct Hi as [_ _ _ Hk _ _]. inversion Hk as [|? ? Hx _]; subst. destruct Hx as (Y1 & Y2 & Y3 & Y4). unfold pageSize in *; lia. }
  assert (Hsz : 4 <= vsize n).
  { rewrite <- ZE. unfold venc. rewrite zlen_app, zlen_le.
    match goal with |- context [zlen ?l] => pose proof (zlen_nonneg l) end. lia. }
  assert (Em : MP (po mod 2^64) (zlen (venc n) mod 2^32) = MP po (vsize n)).
  { rewrite ZE. f_equal; apply Z.mod_small; unfold pageSize in *; lia. }
  pose proof (root_off_bounds Hslot3) as (R1 & R2 & R3 & R4 & R5).
  pose proof Hslot3 as ((G1 & G2 & G3 & G4) & G5 & G6).
  assert (Hro : root_off m + 12 <= zlen (file s3)) by (unfold pageSize in *; lia).
  assert (Zu : zlen (upd (file s3) (root_off m) (enc_mptr (MP po (vsize n)))) = zlen (file s3)).
  { rewrite zlen_upd by (unfold pageSize in *; lia). rewrite zlen_enc_mptr. lia. }
  rewrite Em in E2.
  assert (Hpon : po <> lp_off m).
  { intros E. destruct fl as [|x fl']; unfold po in E; cbn [np_off] in E.
    - destruct Hslot as ((Y1 & Y2 & Y3 & Y4) & _). unfold pageSize in *; lia.
    - apply Hlp. rewrite E. apply in_or_app; right; left; auto. }
  assert (Hpg : forall o, page_ok (file s3) o -> o <> lp_off m ->
     page (upd (file s3) (root_off m) (enc_mptr (MP po (vsize n)))) o = page (file s3) o).
  { intros o (Y1 & Y2 & Y3 & Y4) Hne. unfold page. apply slice_upd_disj.
    - unfold pageSize in *; lia.
    - lia.
    - rewrite zlen_enc_mptr. destruct (@aligned_disj o (lp_off m) Y2 G2 Hne); unfold pageSize in *; lia. }
  exists po, s3. eexists. exists (match fl with [] => [po] | _ => [] end).
  split; [exact E1|]. rewrite Em. split; [exact E2|]. cbn [file set_pos set_file kind budget lastPage].
  split. { apply pf_inv_write; auto; rewrite ?zlen_enc_mptr; unfold pageSize in *; lia. }
  split; auto. split; auto.
  split. { eapply vat_frame; [exact NP| |lia]. apply Hpg; auto. eapply vat_page_ok; eauto. }
  split.
  { intros o q Hin Hq. pose proof (vat_page_ok Hq) as Hop.
    assert (Hop3 : page_ok (file s3) o) by (eapply page_ok_mono; eauto).
    eapply vat_frame; [exact Hq| |lia]. rewrite Hpg; auto.
    - rewrite F1. unfold page. destruct Hop as (Y1 & Y2 & Y3 & Y4). apply np_frame; auto; [unfold pageSize in *; lia|].
      fold po. pose proof (vat_page_ok NP) as (X1 & X2 & X3 & X4).
      destruct (@aligned_disj o po Y2 X2); auto. intros ->; auto.
    - intros ->. apply Hlp. apply in_or_app; auto. }
  split. { apply root_at_set; auto; cbn [mp_off mp_len]; unfold pageSize in *; lia. }
  split. { unfold pageSize in *; lia. }
  split; auto. split.
  { destruct fl as [|x fl']; cbn [tl app].
    - apply Permutation_refl.
    - unfold po; cbn [np_off]. rewrite app_nil_r. apply Permutation_refl. }
  split. { destruct fl; constructor; auto. unfold po; cbn [np_off]; lia. }
  rewrite Zu, L1.
  split. { rewrite F1, (zlen_np_file _ Hi ZE'). destruct fl; [change (zlen [po]) with 1|change (zlen (@nil Z)) with 0]; unfold pageSize; lia. }
  split. { destruct fl; [change (zlen [po]) with 1|change (zlen (@nil Z)) with 0]; lia. }
  eapply untouched_trans with (f2 := file s3) (P1 := firstn 1 fl) (P2 := []).
  - rewrite F1. apply untouched_np; auto.
  - apply untouched_root; [unfold pageSize in *; lia|auto|apply zlen_enc_mptr].
  - intros x; auto.
  - intros x [].
Qed.

Lemma vparent_ok p kl kr ol or mk mv off mo : vnode_ok p -> vsize p <= pageSize ->
  map absk (vids p) = kl ++ kr -> voffs p = ol ++ off :: or -> length kl = length ol ->
  vid_ok mk -> vec_ok mk mv -> 0 <= mo < 2^64 ->
  let q := vparent_insert p (Z.to_nat (zlen ol)) mk mv off mo in
  keys (absn q) = kl ++ absk mk :: kr /\ lptrs (absn q) = [] /\ iptrs (absn q) = ol ++ off :: mo :: or /\
  vnode_ok q /\ vsize q <= pageSize + 35 + 4 * d.
Proof.
  intros (H1 & H2 & H3 & H4 & H5 & H6 & H7) Hs Hk Ho Hlen Hmk Hmv Hmo q.
  assert (Hpl : vleaf p = false) by (unfold vleaf; rewrite Ho; destruct ol; reflexivity).
  assert (Hol : length (voffs p) = S (length (vids p))).
  { destruct H7 as [X|X]; auto. rewrite X in Ho. destruct ol; discriminate. }
  set (i := Z.to_nat (zlen ol)) in *. assert (Ei : i = length kl) by (unfold i, zlen; lia).
  assert (Hil : (i <= length (vids p))%nat).
  { apply (f_equal (@length _)) in Hk. rewrite map_length, app_length in Hk. lia. }
  assert (Eq : keys (absn q) = kl ++ absk mk :: kr /\ lptrs (absn q) = [] /\ iptrs (absn q) = ol ++ off :: mo :: or).
  { unfold q. rewrite absn_parent by auto. unfold parent_insert. cbn [keys lptrs iptrs absn].
    rewrite Hk, Ho, Hpl. rewrite Ei. rewrite firstn_app_exact, skipn_app_exact by auto. rewrite Hlen.
    rewrite firstn_app_exact by auto.
    replace (ol ++ off :: or) with ((ol ++ [off]) ++ or) by (rewrite <- app_assoc; reflexivity).
    rewrite skipn_app_exact by (rewrite app_length; cbn [length]; lia). auto. }
  split; [apply Eq|]. split; [apply Eq|]. split; [apply Eq|]. destruct Eq as (_ & _ & E3).
  cbn [absn iptrs] in E3.
  assert (Esz : vsize q = vsize p + vid_size mk + size_varint mo + 4 * d).
  { unfold vsize. rewrite E3, Ho. unfold q, vparent_insert. cbn [vids vvecs vdim].
    rewrite !map_app. cbn [map]. rewrite !zsum_app, !zsum_cons.
    rewrite (zsum_split vid_size (vids p) i), H5. rewrite zlen_app, zlen_cons.
    assert (EV : zlen (firstn i (vvecs p)) + zlen (skipn i (vvecs p)) = zlen (vvecs p)) by (rewrite <- zlen_app, firstn_skipn; reflexivity).
    lia. }
  assert (Hle : vsize q <= pageSize + 35 + 4 * d).
  { pose proof (vid_size_bounds Hmk). pose proof (@off_size_bounds mo ltac:(lia)). lia. }
  split; [|exact Hle]. apply vnode_ok_intro.
  - unfold q, vparent_insert. cbn [vids]. destruct (firstn i (vids p)); discriminate.
  - unfold q, vparent_insert. cbn [vids]. apply Forall_app; split; [apply Forall_firstn; auto|]. constructor; auto. apply Forall_skipn; auto.
  - unfold q, vparent_insert. cbn [vids vvecs]. apply Forall2_app; [apply f2_firstn; auto|]. constructor; auto. apply f2_skipn; auto.
  - exact H5.
  - rewrite E3. rewrite Ho in H6. apply Forall_app in H6. destruct H6 as [A B]. inversion B; subst. apply Forall_app; split; auto.
  - right. rewrite E3. unfold q, vparent_insert. cbn [vids]. rewrite !app_length. cbn [length].
    rewrite Ho, app_length in Hol. cbn [length] in Hol. rewrite firstn_length, skipn_length. lia.
  - unfold pageSize in *; lia.
Qed.

Theorem vins_loop_ok m : forall rest s tr fl h lo hi off esL es esR pg pgs H root rlen,
  pf_inv s fl -> budget s = None -> slot_ok (file s) m ->
  root_at (file s) m = MP root rlen -> 0 < rlen < 2^32 ->
  ctx (vat (file s)) true h lo hi off (map absr rest) esL esR pgs H root ->
  Forall (fun r => vnode_ok (vtnode r) /\ vsize (vtnode r) <= pageSize) rest ->
  mp_off (vtptr tr) = off -> page_ok (file s) off ->
  body (vat (file s)) h lo hi (absn (vtnode tr)) es pg ->
  vnode_ok (vtnode tr) -> vsize (vtnode tr) <= pageSize + 35 + 4 * d ->
  NoDup (off :: (pg ++ pgs) ++ fl) -> ~ In (lp_off m) (off :: (pg ++ pgs) ++ fl) ->
  zlen (file s) + pageSize * (zlen rest + 2) < 2^62 ->
  exists s', vins_loop d m tr rest s = (Ok tt, s') /\
    vins_post m s fl (off :: pg ++ pgs) (esL ++ es ++ esR) s'.
Proof.
  induction rest as [|p rest' IH];
    intros s tr fl h lo hi off esL es esR pg pgs H root rlen Hi Hb Hslot Hroot Hrlen Hctx Hrest Htr Hoff Hbody Hnok Hsz Hnd Hlp Hf.
  all: pose proof (vpages_ok (body_pages Hbody)) as Hpgok; pose proof (vpages_ok (ctx_pages Hctx)) as Hpgsok.
  all: assert (Hallok : Forall (page_ok (file s)) (pg ++ pgs)) by (apply Forall_app; split; auto).
  all: pose proof Hi as Hi0; destruct Hi0 as [_ _ _ Hflok _ _].
  all: assert (Hlpf : lp_off m < zlen (file s)) by (destruct Hslot as ((_ & _ & X & _) & _); unfold pageSize in *; lia).
  all: pose proof (zlen_nonneg fl) as Zfl.
  all: assert (Hd0 : (vdim (vtnode tr) =? 0) = false) by (destruct Hnok as (_ & _ & _ & _ & X & _); rewrite X; apply Z.eqb_neq; lia).
  all: cbn [vins_loop]; rewrite Hd0; destruct (Z.ltb_spec pageSize (vsize (vtnode tr))) as [Hbig|Hfit];
    [|eapply vins_fit; eauto].
  - (* new root *)
    change (zlen (@nil vtrec)) with 0 in Hf.
    destruct (@vins_split m s tr fl h lo hi off es pg pgs) as
      (mk & mv & mo & s1 & s2 & esA & esB & pgA & pgB & news & E1 & E1' & E2 & E2' & E3 & E4 & E5 & E6 & E7 & RA & RB & Fr & I2 & K2 & B2 & ND2 & LP2 & PM & FN & ZL & LPg & ZN & MO & UT);
      auto; try (unfold pageSize in *; lia).
    rewrite E1, E1'. rewrite E3. unfold bind at 1. cbn [lift].
    rewrite (@bind_ok _ _ _ _ _ _ _ _ E4). rewrite Htr. rewrite (@bind_ok _ _ _ _ _ _ _ _ E5).
    destruct MO as [MO1 MO2].
    assert (Emo : mo mod 2^64 = mo) by (apply Z.mod_small; lia).
    rewrite Emo.
    set (pn := VN [mk] [mv] [off; mo] d).
    assert (Hoff62 : 0 < off < 2^62) by (destruct Hoff as (X1 & X2 & X3 & X4); unfold pageSize in *; lia).
    assert (Hpn : vnode_ok pn).
    { unfold pn. split; [discriminate|]. split; [change (zlen (vids (VN [mk] [mv] [off; mo] d))) with 1; lia|].
      split; [constructor; auto|]. split; [constructor; auto|]. split; [reflexivity|].
      split; [constructor; [lia|]; constructor; [lia|constructor]|]. right; reflexivity. }
    assert (Hpns : vsize pn <= pageSize).
    { unfold vsize, pn. cbn [vids vvecs voffs vdim map]. rewrite !zsum_cons. cbn [zsum fold_right].
      pose proof (vid_size_bounds E2). pose proof (@off_size_bounds off ltac:(lia)). pose proof (@off_size_bounds mo ltac:(lia)).
      pose proof dim_size. change (zlen [mv]) with 1. unfold pageSize; lia. }
    rewrite (vmarshal_ok Hpn). unfold bind at 1. cbn [lift].
    assert (Epgs : pgs = [] /\ esL = [] /\ esR = [] /\ lo = None /\ hi = None) by (inversion Hctx; subst; auto).
    destruct Epgs as (-> & -> & -> & -> & ->).
    rewrite app_nil_r in *.
    assert (HQ : Forall (page_ok (file s2)) (pgA ++ pgB)).
    { apply Forall_app; split; eapply vpages_ok; eapply repr_pages; eauto. }
    assert (Hslot2 : slot_ok (file s2) m) by (eapply slot_ok_mono; [|exact Hslot]; pose proof (zlen_nonneg news); unfold pageSize in *; lia).
    destruct (@vnew_root_ok m s2 (tl fl) pn (pgA ++ pgB)) as
      (po & s3 & s4 & news2 & W1 & W2 & I4 & K4 & B4 & N4 & Fr4 & R4 & S4 & ND4 & PM4 & FN4 & Z4 & L4 & U4); auto.
    { eapply Permutation_NoDup; [|exact ND2]. clear -E7. perm_lia. }
    { intros X. apply LP2. eapply Permutation_in; [|exact X]. clear -E7. perm_lia. }
    { unfold pageSize in *. lia. }
    rewrite (@bind_ok _ _ _ _ _ _ _ _ W1). exists s4. split; [exact W2|].
    exists (tl (tl fl)), (po :: pgA ++ pgB), (news ++ news2).
    split; auto.
    split. { exists 2%nat. destruct fl as [|? [|? ?]]; reflexivity. }
    split. { exists (S h), po, (vsize pn). split; auto. split; auto.
      exists (absn pn), (pgA ++ pgB). split; auto. split; auto. rewrite body_S.
      exists off, [mo], (Some (absk mk)), esA, (esB ++ []), pgA, (pgB ++ []).
      split; auto. split; [discriminate|]. split; auto.
      split. { eapply repr_frame; [exact RA|]. intros; apply Fr4; auto. apply in_or_app; auto. }
      split. { cbn [keys absn pn map vids]. econstructor; [|constructor].
        eapply repr_frame; [exact RB|]. intros; apply Fr4; auto. apply in_or_app; auto. }
      rewrite !app_nil_r. subst es. cbn [app]. auto. }
    split. { exact ND4. }
    split. { clear -E7 PM PM4. perm_lia. }
    split. { apply Forall_app; split; auto. eapply Forall_impl; [|exact FN4]. intros; cbn beta in *; pose proof (zlen_nonneg news); unfold pageSize in *; lia. }
    split. { eapply untouched_trans; [apply UT|exact U4| |].
      - intros x [<-|X]; [left; auto|]. right. apply in_or_app; right. eapply in_firstn; eauto.
      - intros x X. left. right. apply in_or_app; right. apply in_tl. eapply in_firstn; eauto. }
    rewrite zlen_app. repeat split; auto; try congruence; unfold pageSize in *; lia.
  - (* update the parent *)
    rewrite zlen_cons in Hf. pose proof (zlen_nonneg rest') as Zr.
    destruct (@vins_split m s tr fl h lo hi off es pg pgs) as
      (mk & mv & mo & s1 & s2 & esA & esB & pgA & pgB & news & E1 & E1' & E2 & E2' & E3 & E4 & E5 & E6 & E7 & RA & RB & Fr & I2 & K2 & B2 & ND2 & LP2 & PM & FN & ZL & LPg & ZN & MO & UT);
      auto; try (unfold pageSize in *; lia).
    rewrite E1, E1'. rewrite E3. unfold bind at 1. cbn [lift].
    rewrite (@bind_ok _ _ _ _ _ _ _ _ E4). rewrite Htr. rewrite (@bind_ok _ _ _ _ _ _ _ _ E5).
    destruct MO as [MO1 MO2].
    assert (Emo : mo mod 2^64 = mo) by (apply Z.mod_small; lia).
    rewrite Emo.
    clear Htr. change (id es = esA ++ esB) in E6.
    cbn [map] in Hctx. inversion Hrest as [|? ? [Hpok Hpsz] Hrest']; subst.
    inversion Hctx as [|h0 lo0 hi0 off0 lo' hi' kl ol kr or esl esr pgl pgr pn poff ptr rest0 esL0 esR0 pgs0 H0 root0 HF Hptr Hplp Hpk Hpne Hpi Hlc Hrc Hctx' Y1 Y2 Y3 Y4 Ep Y6]; subst; clear Hctx.
    change (es = esA ++ esB) in E6.
    destruct p as [pv pidx pptr]. unfold absr in HF, Hplp, Hpk, Hpne, Hpi; cbn [vtnode vtidx vtptr tnode tptr tidx] in *.
    cbn [vtnode vtptr vtidx].
    pose proof (lchain_len Hlc) as Hll.
    destruct (@vparent_ok pv kl kr ol or mk mv off mo Hpok Hpsz Hpk Hpi Hll E2 E2' ltac:(lia))
      as (P1 & P2 & P3 & P4 & P5).
    set (q := vparent_insert pv (Z.to_nat (zlen ol)) mk mv off mo) in *.
    assert (Hslot2 : slot_ok (file s2) m) by (eapply slot_ok_mono; [|exact Hslot]; pose proof (zlen_nonneg news); unfold pageSize in *; lia).
    assert (Hq : body (vat (file s2)) (S h) lo' hi' (absn q) (esl ++ es ++ esr) (pgl ++ pgA ++ (pgB ++ pgr))).
    { replace (esl ++ es ++ esr) with (esl ++ esA ++ (esB ++ esr)) by (subst es; rewrite <- app_assoc; reflexivity).
      eapply body_join with (kl := kl) (kr := absk mk :: kr) (ol := ol) (x := off) (or := mo :: or) (a := lo) (b := Some (absk mk)); auto.
      - rewrite P1. destruct kl; discriminate.
      - eapply lchain_frame; [exact Hlc|]. intros; apply Fr; auto. right. rewrite !in_app_iff. auto.
      - econstructor; [exact RB|]. eapply rchain_frame; [exact Hrc|]. intros; apply Fr; auto. right. rewrite !in_app_iff. auto. }
    assert (Hctx2 : ctx (vat (file s2)) true (S h) lo' hi' poff (map absr rest') esL0 esR0 pgs0 H root).
    { eapply ctx_frame; [exact Hctx'|]. intros; apply Fr; auto. right. rewrite !in_app_iff. auto. }
    assert (Hpoff : page_ok (file s2) poff).
    { eapply vat_page_ok. apply Fr; [left; auto|exact HF]. }
    destruct (IH s2 (VTR q (zlen ol) pptr) (tl fl) (S h) lo' hi' poff esL0 (esl ++ es ++ esr) esR0 (pgl ++ pgA ++ (pgB ++ pgr)) pgs0 H root rlen) as (s' & Es & Hpost); auto.
    { rewrite <- Hroot. pose proof (root_off_bounds Hslot) as (Y1 & Y2 & Y3 & Y4 & Y5).
      eapply untouched_root_at with (P := off :: firstn 1 fl) (ro := 0); auto.
      - intros [X|X]; apply Hlp; [left; auto|]. right. apply in_or_app; right. eapply in_firstn; eauto.
      - constructor; [destruct Hoff as (X1 & X2 & _); auto|]. apply Forall_firstn. eapply pages_aligned; eauto.
      - right. unfold pageSize in *; lia. }
    { eapply Permutation_NoDup; [|exact ND2]. clear -E7. perm_lia. }
    { intros X. apply LP2. eapply Permutation_in; [|exact X]. clear -E7. perm_lia. }
    { unfold pageSize in *. lia. }
    exists s'. split; [exact Es|].
    destruct Hpost as (fl' & pgs' & news2 & X1 & (k & X2) & X3 & X4 & X5 & X6 & X7 & X8 & X9 & X10 & X11).
    exists fl', pgs', (news ++ news2).
    split; auto.
    split. { exists (S k). rewrite X2. apply skipn_tl. }
    split. { replace ((esL0 ++ esl) ++ es ++ esr ++ esR0) with (esL0 ++ (esl ++ es ++ esr) ++ esR0) by (rewrite <- !app_assoc; reflexivity). exact X3. }
    split; auto.
    split. { clear -E7 PM X5. perm_lia. }
    split. { apply Forall_app; split; auto. eapply Forall_impl; [|exact X6]. intros; cbn beta in *; pose proof (zlen_nonneg news); unfold pageSize in *; lia. }
    split. { eapply untouched_trans; [apply UT|exact X7| |].
      - intros x [<-|X]; [left; auto|]. right. apply in_or_app; right. eapply in_firstn; eauto.
      - intros x X.
        assert (X' : In x (off :: mo :: (pg ++ poff :: (pgl ++ pgr) ++ pgs0) ++ tl fl)).
        { eapply Permutation_in; [|exact X]. clear -E7. perm_lia. }
        destruct X' as [<-|[<-|X']]; [left; left; auto| |].
        + assert (Y : In mo (fl ++ news)) by (eapply Permutation_in; [exact PM|left; auto]).
          apply in_app_iff in Y. destruct Y as [Y|Y]; [left; right; apply in_or_app; auto|].
          right. rewrite Forall_forall in FN. apply FN; auto.
        + left. right. apply in_app_iff in X'. apply in_or_app. destruct X'; auto. right. apply in_tl; auto. }
    rewrite zlen_app. repeat split; auto; try congruence; unfold pageSize in *; lia.
Qed.
End Fixed.
