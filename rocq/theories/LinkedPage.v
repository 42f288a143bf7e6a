(** pkg/linkedpage/linkedpage.go: the linked list of index slots. *)
From Verif Require Import Base Store PageFile RefValue.

(** ** Model *)

(** SlotSize(): pkg/pagefile/pagefile.go:207-209 *)
Definition slotSize : Z := 256.
(** numSlots: pkg/linkedpage/linkedpage.go:65 *)
Definition numSlots : Z := 15.
(** LinkedPage: pkg/linkedpage/linkedpage.go:29-36; index 255 marks the list head *)
Record lp := LP { lp_off : Z; lp_idx : Z }.

(** errNotAPage: pkg/linkedpage/linkedpage.go:17 *)
Definition errNotAPage : err := EMsg "this is not a page, did you forget to call .Next() on a tree?".

(** rootMemoryPointerPageOffset: pkg/linkedpage/linkedpage.go:188-190 (uint64 arithmetic) *)
Definition root_off (m : lp) : Z :=
  (lp_off m + 8 + 1 + lp_idx m * (slotSize + 8 + 1)) mod 2^64.

(** decoding of a MemoryPointer by binary.Read, little endian:
    pkg/linkedpage/linkedpage.go:90-91, pkg/pointer/pointer.go:6-9 *)
Definition dec_mptr (b : bytes) : mptr := MP (unle (firstn 8 b)) (unle (firstn 4 (skipn 8 b))).
Definition enc_mptr (p : mptr) : bytes := le 8 (mp_off p) ++ le 4 (mp_len p).

(** Root(): pkg/linkedpage/linkedpage.go:83-92 *)
Definition lp_root (m : lp) : M st mptr :=
  if lp_idx m =? 255 then fail errNotAPage
  else seek_start (s64 (root_off m)) ;;; b <- read_full 12 ;; ret (dec_mptr b).

(** SetRoot(mp): pkg/linkedpage/linkedpage.go:94-102; binary.Write makes one Write call *)
Definition lp_set_root (m : lp) (p : mptr) : M st unit :=
  if lp_idx m =? 255 then fail errNotAPage
  else seek_start (s64 (root_off m)) ;;; pf_write (enc_mptr p) ;;; ret tt.

(** Metadata(): pkg/linkedpage/linkedpage.go:122-136. [1+length] is computed in
    uint8: for length 255 it is 0 and the slice expression panics. *)
Definition lp_metadata (m : lp) : M st bytes :=
  if lp_idx m =? 255 then fail errNotAPage
  else
    seek_start (s64 ((root_off m + 8 + 4) mod 2^64)) ;;;
    r <- pf_read (4 + slotSize) ;;
    match r with
    | (_, Some e) => fail e
    | (d, None) =>
        let buf := d ++ zeros (4 + slotSize - zlen d) in
        let length := match buf with b :: _ => b | [] => 0 end in
        let hi := (1 + length) mod 256 in
        if hi <? 1 then panic else ret (slice buf 1 (hi - 1))
    end.

(** SetMetadata(data): pkg/linkedpage/linkedpage.go:146-162 *)
Definition lp_set_metadata (m : lp) (data : bytes) : M st unit :=
  if lp_idx m =? 255 then fail errNotAPage
  else if (slotSize <? zlen data) || (255 <? zlen data) then fail (EMsg "metadata too large")
  else
    seek_start (s64 ((root_off m + 8 + 4) mod 2^64)) ;;;
    pf_write (zlen data :: data) ;;; ret tt.

(** nextPageOffset(): pkg/linkedpage/linkedpage.go:172-178 *)
Definition lp_next_page_offset (m : lp) : M st Z :=
  seek_start (s64 (lp_off m)) ;;; b <- read_full 8 ;; ret (unle b).
(** count(): pkg/linkedpage/linkedpage.go:180-186 *)
Definition lp_count (m : lp) : M st Z :=
  seek_start (s64 (lp_off m) + 8) ;;; b <- read_full 1 ;; ret (unle b).

(** Next(): pkg/linkedpage/linkedpage.go:192-211; io.EOF is [EEof] *)
Definition lp_next (m : lp) : M st lp :=
  count <- lp_count m ;;
  if (lp_idx m + 1) mod 256 <? count then ret (LP (lp_off m) ((lp_idx m + 1) mod 256))
  else
    nextOffset <- lp_next_page_offset m ;;
    if nextOffset =? 2^64 - 1 then fail EEof else ret (LP nextOffset 0).

(** reset(count): pkg/linkedpage/linkedpage.go:258-270 *)
Definition lp_empty_page (count : Z) : bytes := le 8 (2^64 - 1) ++ [count] ++ zeros (pageSize - 9).
(** reset(count): pkg/linkedpage/linkedpage.go:258-270 *)
Definition lp_reset (m : lp) (count : Z) : M st unit :=
  seek_start (s64 (lp_off m)) ;;; pf_write (lp_empty_page count) ;;; ret tt.

(** AddNext(): pkg/linkedpage/linkedpage.go:213-256 *)
Definition lp_add_next (m : lp) : M st lp :=
  count <- lp_count m ;;
  if (lp_idx m + 1) mod 256 <? count then fail (EMsg "next pointer already exists")
  else if negb (count =? numSlots) then
    seek_start (s64 ((lp_off m + 8) mod 2^64)) ;;;
    pf_write [(count + 1) mod 256] ;;;
    ret (LP (lp_off m) ((lp_idx m + 1) mod 256))
  else
    nextOffset <- lp_next_page_offset m ;;
    if negb (nextOffset =? 2^64 - 1) then fail (EMsg "next pointer already exists")
    else
      offset <- new_page [] ;;
      let next := LP (offset mod 2^64) 0 in
      lp_reset next 1 ;;;
      seek_start (s64 (lp_off m)) ;;;
      pf_write (le 8 (lp_off next)) ;;;
      ret next.

(** Collect(): pkg/linkedpage/linkedpage.go:275-291; the unbounded loop is given
    fuel, running out of it is [Hang] *)
Fixpoint lp_collect_from (fuel : nat) (m : lp) (acc : list lp) : M st (list lp) :=
  match fuel with
  | O => lift Hang
  | S fuel' => fun s =>
      let acc := if negb (lp_idx m =? 255) then acc ++ [m] else acc in
      match lp_next m s with
      | (Ok next, s) => lp_collect_from fuel' next acc s
      | (Err EEof, s) => (Ok acc, s)
      | (Err e, s) => (Err e, s)
      | (Panic, s) => (Panic, s)
      | (Crash, s) => (Crash, s)
      | (Hang, s) => (Hang, s)
      end
  end.
(** Collect(): pkg/linkedpage/linkedpage.go:275-291 *)
Definition lp_collect (fuel : nat) (m : lp) : M st (list lp) := lp_collect_from fuel m [].

(** NewMultiBPTree(t, page): pkg/linkedpage/linkedpage.go:305-326 (its argument
    [page] is ignored, Page(0) is used) *)
Definition new_multi : M st lp :=
  offset <- lift (page_off 0) ;;
  let m := LP offset 255 in
  seek_start offset ;;;
  r <- pf_read pageSize ;;
  match r with
  | (_, None) => ret m
  | (_, Some EEof) => lp_reset m 0 ;;; ret m
  | (_, Some e) => fail e
  end.

(** ** File level view of a slot *)
Definition root_at (f : bytes) (m : lp) : mptr := dec_mptr (slice f (root_off m) 12).
Definition slot_ok (f : bytes) (m : lp) : Prop :=
  page_ok f (lp_off m) /\ 0 <= lp_idx m < numSlots /\ lp_off m < 2^62.

(** ** Lemmas *)
Lemma s64_small x : 0 <= x < 2^63 -> s64 x = x.
Proof. intros. unfold s64. destruct (Z.ltb_spec x (2^63)); lia. Qed.

Lemma root_off_eq f m : slot_ok f m -> root_off m = lp_off m + 9 + lp_idx m * 265.
Proof.
  intros ((H1 & H2 & H3 & H4) & H5 & H6). unfold root_off, slotSize, numSlots in *.
  rewrite Z.mod_small by lia. lia.
Qed.
Lemma root_off_bounds f m : slot_ok f m ->
  lp_off m + 9 <= root_off m /\ root_off m + 265 <= lp_off m + 4000 /\ root_off m < 2^63 - 10000 /\
  pageSize <= lp_off m /\ root_off m mod pageSize = 9 + lp_idx m * 265.
Proof.
  intros H. rewrite (root_off_eq H). destruct H as ((H1 & H2 & H3 & H4) & H5 & H6).
  unfold numSlots, pageSize in *. lia.
Qed.

Lemma dec_enc_mptr p tail : 0 <= mp_off p < 2^64 -> 0 <= mp_len p < 2^32 -> dec_mptr (enc_mptr p ++ tail) = p.
Proof.
  intros. unfold dec_mptr, enc_mptr. rewrite <- app_assoc.
  rewrite firstn_app_exact, skipn_app_exact by (rewrite length_le; reflexivity).
  rewrite firstn_app_exact by (rewrite length_le; reflexivity).
  rewrite !unle_le by (cbn; lia). destruct p; reflexivity.
Qed.
Lemma zlen_enc_mptr p : zlen (enc_mptr p) = 12.
Proof. unfold enc_mptr. rewrite zlen_app, !zlen_le. reflexivity. Qed.

Lemma lp_root_ok s m : slot_ok (file s) m ->
  exists p, lp_root m s = (Ok (root_at (file s) m), set_pos s p).
Proof.
  intros H. pose proof (root_off_bounds H) as (B1 & B2 & B3 & B4 & B5).
  destruct H as ((H1 & H2 & H3 & H4) & H5 & H6).
  unfold lp_root. destruct (Z.eqb_spec (lp_idx m) 255); [unfold numSlots in *; lia|].
  rewrite s64_small by lia.
  rewrite (@bind_ok _ _ _ _ _ _ _ _ (@seek_start_ok s (root_off m) ltac:(unfold pageSize in *; lia))).
  rewrite (@bind_ok _ _ _ _ _ _ _ _ (@read_full_ok (set_pos s (root_off m)) 12
      ltac:(cbn; lia) ltac:(lia) ltac:(cbn; unfold pageSize in *; lia) ltac:(cbn; unfold pageSize, numSlots in *; lia))).
  cbn [pos set_pos file]. eexists. reflexivity.
Qed.

Lemma lp_set_root_ok s m mp : slot_ok (file s) m -> budget s = None ->
  exists p, lp_set_root m mp s = (Ok tt, set_pos (set_file s (upd (file s) (root_off m) (enc_mptr mp))) p).
Proof.
  intros H Hb. pose proof (root_off_bounds H) as (B1 & B2 & B3 & B4 & B5).
  destruct H as ((H1 & H2 & H3 & H4) & H5 & H6).
  unfold lp_set_root. destruct (Z.eqb_spec (lp_idx m) 255); [unfold numSlots in *; lia|].
  rewrite s64_small by lia.
  rewrite (@bind_ok _ _ _ _ _ _ _ _ (@seek_start_ok s (root_off m) ltac:(unfold pageSize in *; lia))).
  destruct (@pf_write_ok (set_pos s (root_off m)) (enc_mptr mp)) as (n0 & p & E).
  { cbn; auto. }
  { cbn; unfold pageSize in *; lia. }
  { rewrite zlen_enc_mptr. cbn; unfold pageSize, numSlots in *; lia. }
  rewrite (@bind_ok _ _ _ _ _ _ _ _ E). exists p. reflexivity.
Qed.

Lemma root_at_set f m mp : slot_ok f m -> 0 <= mp_off mp < 2^64 -> 0 <= mp_len mp < 2^32 ->
  root_at (upd f (root_off m) (enc_mptr mp)) m = mp.
Proof.
  intros H H1 H2. pose proof (root_off_bounds H) as (B1 & B2 & B3 & B4 & B5).
  destruct H as ((G1 & G2 & G3 & G4) & G5 & G6).
  unfold root_at. rewrite <- (zlen_enc_mptr mp). rewrite slice_upd_same by (unfold pageSize in *; lia).
  rewrite <- (app_nil_r (enc_mptr mp)). apply dec_enc_mptr; auto.
Qed.
