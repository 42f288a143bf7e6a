(** File and index metadata of the indexer: pkg/appendable/appendable.go. *)
From Verif Require Import Base Varint.

(** ** Model *)

(** FileMeta: pkg/appendable/appendable.go:97-107 (Version and Format are bytes,
    lines 34-41; the two counters are uint64) *)
Record file_meta := FM { fm_version : Z; fm_format : Z; fm_read_offset : Z; fm_entries : Z }.

(** FileMeta.MarshalBinary: pkg/appendable/appendable.go:109-116. The buffer has
    10+SizeVarint(Entries) bytes; PutUvarint into a shorter rest panics, into a
    longer one leaves zeros. *)
Definition file_meta_marshal (m : file_meta) : res bytes :=
  let v := put_uvarint (fm_entries m) in
  let room := size_varint (fm_entries m) in
  if room <? zlen v then Panic
  else Ok ([fm_version m mod 256; fm_format m mod 256] ++ le 8 (fm_read_offset m) ++ v ++ zeros (room - zlen v)).

(** FileMeta.UnmarshalBinary: pkg/appendable/appendable.go:118-141 *)
Definition file_meta_unmarshal (buf : bytes) : res file_meta :=
  if zlen buf <? 10 then Err (EMsg "invalid metadata size")
  else
    let version := nth 0 buf 0 in
    let format := nth 1 buf 0 in
    if (format =? 0) || (format =? 1) then
      let '(e, _) := uvarint (skipn 10 buf) in
      Ok (FM version format (unle (slice buf 2 8)) e)
    else Err (EMsg "unrecognized file format").

(** IndexMeta: pkg/appendable/appendable.go:143-150 *)
Record index_meta := IM { im_name : bytes; im_type : Z; im_width : Z; im_total : Z }.

(** IndexMeta.MarshalBinary: pkg/appendable/appendable.go:152-160 *)
Definition index_meta_marshal (m : index_meta) : res bytes :=
  let v := put_uvarint (im_total m) in
  let room := size_varint (im_total m) in
  if room <? zlen v then Panic
  else Ok (le 2 (im_type m) ++ le 2 (im_width m) ++ le 2 (zlen (im_name m)) ++ im_name m ++ v ++ zeros (room - zlen v)).

(** IndexMeta.UnmarshalBinary: pkg/appendable/appendable.go:162-176.
    [6+nameLength] is computed in uint16 and wraps; the checks at lines 163 and
    169 are too weak, so short buffers panic in the slice expressions. *)
Definition index_meta_unmarshal (buf : bytes) : res index_meta :=
  if zlen buf <? 4 then Err (EMsg "invalid metadata size")
  else
    let ft := unle (slice buf 0 2) mod 256 in
    let width := unle (slice buf 2 2) in
    if zlen buf <? 6 then Panic
    else
      let nl := unle (slice buf 4 2) in
      if zlen buf <? 4 + nl then Err (EMsg "invalid metadata size")
      else
        let hi := (6 + nl) mod 2^16 in
        if (hi <? 6) || (zlen buf <? hi) then Panic
        else
          let '(tl, _) := uvarint (skipn (Z.to_nat hi) buf) in
          Ok (IM (slice buf 6 (hi - 6)) ft width tl).

(** DetermineType: pkg/appendable/appendable.go:178-197 on the field type codes of
    pkg/appendable/appendable.go:48-62 *)
Definition FTString := 0.   Definition FTInt64 := 1.   Definition FTUint64 := 2.
Definition FTFloat64 := 3.  Definition FTObject := 4.  Definition FTArray := 5.
Definition FTBoolean := 6.  Definition FTNull := 7.    Definition FTTrigram := 8.
Definition FTBigram := 9.   Definition FTUnigram := 10. Definition FTVector := 11.
(** DetermineType(): pkg/appendable/appendable.go:178-198 *)
Definition determine_type (ft : Z) : Z :=
  if ft =? FTBoolean then 1 + 1
  else if ft =? FTNull then 1 + 0
  else if (ft =? FTFloat64) || (ft =? FTInt64) || (ft =? FTUint64) then 1 + 8
  else if ft =? FTTrigram then 1 + 3
  else if ft =? FTBigram then 1 + 2
  else if ft =? FTUnigram then 1 + 1
  else 0.

(** ** Well-formed values *)
Definition file_meta_ok (m : file_meta) : Prop :=
  0 <= fm_version m < 2^8 /\ 0 <= fm_format m < 2^8 /\
  0 <= fm_read_offset m < 2^64 /\ 0 <= fm_entries m < 2^64.
Definition index_meta_ok (m : index_meta) : Prop :=
  0 <= im_type m < 2^8 /\ 0 <= im_width m < 2^16 /\ 0 <= im_total m < 2^64.

(** ** Proofs *)
Lemma file_meta_marshal_eq m : 0 <= fm_entries m < 2^64 ->
  file_meta_marshal m = Ok ([fm_version m mod 256; fm_format m mod 256] ++ le 8 (fm_read_offset m) ++ put_uvarint (fm_entries m)).
Proof.
  intros H. unfold file_meta_marshal. rewrite size_varint_exact by auto.
  rewrite Z.ltb_irrefl, Z.sub_diag. change (zeros 0) with (@nil Z). rewrite app_nil_r. reflexivity.
Qed.
Lemma index_meta_marshal_eq m : 0 <= im_total m < 2^64 ->
  index_meta_marshal m = Ok (le 2 (im_type m) ++ le 2 (im_width m) ++ le 2 (zlen (im_name m)) ++ im_name m ++ put_uvarint (im_total m)).
Proof.
  intros H. unfold index_meta_marshal. rewrite size_varint_exact by auto.
  rewrite Z.ltb_irrefl, Z.sub_diag. change (zeros 0) with (@nil Z). rewrite app_nil_r. reflexivity.
Qed.

Lemma file_meta_roundtrip m tail : file_meta_ok m -> fm_format m <= 1 ->
  exists b, file_meta_marshal m = Ok b /\ file_meta_unmarshal (b ++ tail) = Ok m /\
            zlen b = 10 + zlen (put_uvarint (fm_entries m)).
Proof.
  intros (H1 & H2 & H3 & H4) Hf. eexists. split; [apply file_meta_marshal_eq; auto|].
  assert (L : zlen ([fm_version m mod 256; fm_format m mod 256] ++ le 8 (fm_read_offset m) ++ put_uvarint (fm_entries m)) = 10 + zlen (put_uvarint (fm_entries m))).
  { rewrite !zlen_app, zlen_le. change (zlen [fm_version m mod 256; fm_format m mod 256]) with 2. lia. }
  split; [|exact L].
  unfold file_meta_unmarshal. rewrite zlen_app, L.
  pose proof (zlen_nonneg (put_uvarint (fm_entries m))). pose proof (zlen_nonneg tail).
  destruct (Z.ltb_spec (10 + zlen (put_uvarint (fm_entries m)) + zlen tail) 10); [lia|].
  cbn [nth app]. rewrite !Z.mod_small by lia.
  assert (Hfm : (fm_format m =? 0) || (fm_format m =? 1) = true).
  { apply orb_true_iff. rewrite !Z.eqb_eq. lia. }
  rewrite Hfm.
  assert (Es : slice (fm_version m :: fm_format m :: (le 8 (fm_read_offset m) ++ put_uvarint (fm_entries m)) ++ tail) 2 8 = le 8 (fm_read_offset m)).
  { rewrite <- app_assoc.
    change (fm_version m :: fm_format m :: le 8 (fm_read_offset m) ++ put_uvarint (fm_entries m) ++ tail)
      with ([fm_version m; fm_format m] ++ le 8 (fm_read_offset m) ++ put_uvarint (fm_entries m) ++ tail).
    apply slice_app_mid; [reflexivity | rewrite zlen_le; reflexivity]. }
  rewrite Es.
  replace (skipn 10 (fm_version m :: fm_format m :: (le 8 (fm_read_offset m) ++ put_uvarint (fm_entries m)) ++ tail))
    with (put_uvarint (fm_entries m) ++ tail).
  2:{ symmetry. rewrite <- app_assoc.
      change (fm_version m :: fm_format m :: le 8 (fm_read_offset m) ++ put_uvarint (fm_entries m) ++ tail)
        with (([fm_version m; fm_format m] ++ le 8 (fm_read_offset m)) ++ put_uvarint (fm_entries m) ++ tail).
      apply skipn_app_exact. rewrite app_length, length_le. reflexivity. }
  rewrite uvarint_put by auto. rewrite unle_le by (change (256 ^ Z.of_nat 8) with (2^64); auto).
  destruct m; reflexivity.
Qed.

Lemma index_meta_roundtrip m tail : index_meta_ok m -> zlen (im_name m) < 2^16 - 6 ->
  exists b, index_meta_marshal m = Ok b /\ index_meta_unmarshal (b ++ tail) = Ok m /\
            zlen b = 6 + zlen (im_name m) + zlen (put_uvarint (im_total m)).
Proof.
  intros (H1 & H2 & H3) Hn. eexists. split; [apply index_meta_marshal_eq; auto|].
  set (nm := im_name m) in *. set (v := put_uvarint (im_total m)).
  pose proof (zlen_nonneg nm) as N0. pose proof (zlen_nonneg v) as N1. pose proof (zlen_nonneg tail) as N2.
  assert (L : zlen (le 2 (im_type m) ++ le 2 (im_width m) ++ le 2 (zlen nm) ++ nm ++ v) = 6 + zlen nm + zlen v).
  { rewrite !zlen_app, !zlen_le. lia. }
  split; [|exact L].
  unfold index_meta_unmarshal. rewrite zlen_app, L.
  destruct (Z.ltb_spec (6 + zlen nm + zlen v + zlen tail) 4); [lia|].
  destruct (Z.ltb_spec (6 + zlen nm + zlen v + zlen tail) 6); [lia|].
  set (b := le 2 (im_type m)). set (b2 := le 2 (im_width m)). set (b3 := le 2 (zlen nm)).
  assert (Lb : zlen b = 2) by apply zlen_le. assert (Lb2 : zlen b2 = 2) by apply zlen_le. assert (Lb3 : zlen b3 = 2) by apply zlen_le.
  assert (E0 : slice ((b ++ b2 ++ b3 ++ nm ++ v) ++ tail) 0 2 = b).
  { rewrite <- app_assoc. rewrite <- Lb. apply slice_app_exact. }
  assert (E2 : slice ((b ++ b2 ++ b3 ++ nm ++ v) ++ tail) 2 2 = b2).
  { rewrite <- !app_assoc. apply slice_app_mid; auto. }
  assert (E4 : slice ((b ++ b2 ++ b3 ++ nm ++ v) ++ tail) 4 2 = b3).
  { replace ((b ++ b2 ++ b3 ++ nm ++ v) ++ tail) with ((b ++ b2) ++ b3 ++ (nm ++ v ++ tail)) by (rewrite <- !app_assoc; reflexivity).
    apply slice_app_mid; [rewrite zlen_app; lia | auto]. }
  rewrite E0, E2, E4. unfold b, b2, b3. rewrite !unle_le by (change (256 ^ Z.of_nat 2) with (2^16); lia).
  destruct (Z.ltb_spec (6 + zlen nm + zlen v + zlen tail) (4 + zlen nm)); [lia|].
  rewrite (Z.mod_small (6 + zlen nm)) by lia.
  destruct (Z.ltb_spec (6 + zlen nm) 6); [lia|].
  destruct (Z.ltb_spec (6 + zlen nm + zlen v + zlen tail) (6 + zlen nm)); [lia|]. cbn [orb].
  fold b b2 b3.
  replace ((b ++ b2 ++ b3 ++ nm ++ v) ++ tail) with ((b ++ b2 ++ b3) ++ nm ++ (v ++ tail)) by (rewrite <- !app_assoc; reflexivity).
  rewrite slice_app_mid; [| rewrite !zlen_app; lia | lia].
  rewrite app_assoc. rewrite skipn_app_exact.
  2:{ unfold zlen in *. rewrite !app_length. lia. }
  unfold v. rewrite uvarint_put by auto.
  rewrite (Z.mod_small (im_type m)) by lia.
  destruct m; reflexivity.
Qed.
Lemma file_meta_short buf : zlen buf < 10 -> exists e, file_meta_unmarshal buf = Err e.
Proof. intros H. unfold file_meta_unmarshal. destruct (Z.ltb_spec (zlen buf) 10); [eauto|lia]. Qed.
Lemma file_meta_format buf : 10 <= zlen buf -> ~ (nth 1 buf 0 = 0 \/ nth 1 buf 0 = 1) ->
  exists e, file_meta_unmarshal buf = Err e.
Proof.
  intros H Hf. unfold file_meta_unmarshal. destruct (Z.ltb_spec (zlen buf) 10); [lia|].
  destruct ((nth 1 buf 0 =? 0) || (nth 1 buf 0 =? 1)) eqn:E; [|eauto].
  apply orb_true_iff in E. rewrite !Z.eqb_eq in E. tauto.
Qed.
