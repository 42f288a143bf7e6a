(** pkg/pagefile/pagefile.go: page allocation with a persistent free list. *)
From Verif Require Import Base Store.

(** ** Model *)

(** len(pf.freePageIndexes): pkg/pagefile/pagefile.go:30 *)
Definition ringSize : Z := 512.

(** pkg/pagefile/pagefile.go:64-73: read free page offsets until the first zero *)
Fixpoint read_offsets (n : nat) (b : bytes) : list Z :=
  match n with
  | O => []
  | S n' =>
      let o := s64 (unle (firstn 8 b)) in
      if o =? 0 then [] else o :: read_offsets n' (skipn 8 b)
  end.

(** the 4096 byte buffer after a (possibly short) Read into it *)
Definition pad_page (d : bytes) : bytes := d ++ zeros (pageSize - zlen d).

(** NewPageFile: pkg/pagefile/pagefile.go:42-85 *)
Definition new_page_file : M st unit :=
  seek_start 0 ;;;
  r <- rws_read pageSize ;;
  match r with
  | (d, e) =>
      let buf := pad_page d in
      (match e with
       | Some EEof =>
           rws_write buf ;;;
           (fun s => (Ok tt, set_free s (repeat 0 512) 0 0))
       | Some e => fail e
       | None =>
           let offs := read_offsets 512 buf in
           (fun s => (Ok tt, set_free s (offs ++ repeat 0 (512 - length offs))
                                (zlen offs mod ringSize) (zlen offs)))
       end) ;;;
      n <- seek_end ;;
      if negb (n mod pageSize =? 0)
      then fail (EMsg "file size is not a multiple of the page size")
      else fun s => (Ok tt, set_lastPage s (n / pageSize))
  end.

(** Page(i): pkg/pagefile/pagefile.go:91-97 *)
Definition page_off (i : Z) : res Z :=
  if i <? 0 then Err (EMsg "page index cannot be negative") else Ok ((i + 1) * pageSize).

(** pkg/pagefile/pagefile.go:101,121 *)
Definition ring_tail (s : st) : Z := (fhead s - fcount s + ringSize) mod ringSize.

(** the page written by writeFreePageIndices for the offsets [l]:
    pkg/pagefile/pagefile.go:100-105 *)
Definition enc_free (l : list Z) : bytes :=
  let b := concat (map (fun o => le 8 (o mod 2^64)) l) in
  b ++ zeros (pageSize - zlen b).

(** writeFreePageIndices: pkg/pagefile/pagefile.go:99-113.
    [freePageIndexes[tail+i]] for i < count has no modulo: it panics (before
    anything is written) exactly when tail+count exceeds the array. *)
Definition write_free_page_indices : M st unit := fun s =>
  let tail := ring_tail s in
  if (0 <? fcount s) && (ringSize <? tail + fcount s) then (Panic, s)
  else (seek_start 0 ;;; rws_write (enc_free (slice (ring s) tail (fcount s))) ;;; ret tt) s.

(** FreePageIndex: pkg/pagefile/pagefile.go:115-131 *)
Definition free_page_index : M st Z := fun s =>
  if fcount s =? 0 then (Ok (-1), s)
  else
    let tail := ring_tail s in
    match znth (ring s) tail with
    | None => (Panic, s)
    | Some offset =>
        (write_free_page_indices ;;; ret offset)
          (set_free s (zset (ring s) tail 0) (fhead s) (fcount s - 1))
    end.

(** NewPage: pkg/pagefile/pagefile.go:133-179 ([buf = nil] is the empty list) *)
Definition new_page (buf : bytes) : M st Z :=
  if pageSize <? zlen buf then fail (EMsg "buffer is too large")
  else
    offset0 <- free_page_index ;;
    offset <- (if negb (offset0 =? -1)
               then (seek_start offset0 ;;; ret offset0)
               else (n <- seek_end ;;
                     fun s => (Ok n, set_lastPage s (lastPage s + 1)))) ;;
    pad <- (if negb (offset mod pageSize =? 0)
            then (let pad := pageSize - offset mod pageSize in
                  pf_write (zeros pad) ;;; ret pad)
            else ret 0) ;;
    rws_write (buf ++ zeros (pageSize - zlen buf)) ;;;
    seek_start offset ;;;
    ret (offset + pad).

(** FreePage: pkg/pagefile/pagefile.go:181-201 *)
Definition free_page (offset : Z) : M st unit := fun s =>
  if negb (Z.rem offset pageSize =? 0) then
    (Err (EMsg "offset is not a multiple of the page size"), s)
  else if fcount s =? ringSize then (Err (EMsg "free page index is full"), s)
  else if existsb (Z.eqb offset) (ring s) then (Err (EMsg "offset already exists"), s)
  else write_free_page_indices
         (set_free s (zset (ring s) (fhead s) offset)
            ((fhead s + 1) mod ringSize) (fcount s + 1)).

(** PageCount: pkg/pagefile/pagefile.go:211-213 *)
Definition page_count (s : st) : Z := lastPage s.

(** ** Invariant: the ring holds the queue [fl] without wrapping, and page 0
    stores it. *)
Definition page_ok (f : bytes) (o : Z) : Prop :=
  0 < o /\ o mod pageSize = 0 /\ o + pageSize <= zlen f /\ o < 2^63.

Record pf_inv (s : st) (fl : list Z) : Prop := {
  pi_ring : exists tail, 0 <= tail < 512 /\ tail + zlen fl <= 512 /\
      ring s = zeros tail ++ fl ++ zeros (512 - tail - zlen fl) /\
      fhead s = (tail + zlen fl) mod 512 /\ fcount s = zlen fl;
  pi_len : zlen (file s) mod pageSize = 0;
  pi_min : pageSize <= zlen (file s);
  pi_ok : Forall (page_ok (file s)) fl;
  pi_nodup : NoDup fl;
  pi_page0 : slice (file s) 0 pageSize = enc_free fl
}.

(** ** Proofs *)
Lemma zlen_concat8 (l : list Z) : zlen (concat (map (fun o => le 8 (o mod 2^64)) l)) = 8 * zlen l.
Proof.
  induction l as [|x l IH]; [reflexivity|].
  cbn [map concat]. rewrite zlen_app, zlen_le, IH, zlen_cons. lia.
Qed.
Lemma zlen_enc_free l : zlen l <= 512 -> zlen (enc_free l) = pageSize.
Proof.
  intros. unfold enc_free. rewrite zlen_app, zlen_concat8, zlen_zeros; unfold pageSize; lia.
Qed.

Lemma zeros_app a b : 0 <= a -> 0 <= b -> zeros a ++ zeros b = zeros (a + b).
Proof. intros. unfold zeros. rewrite <- repeat_app. f_equal. lia. Qed.
Lemma zeros_0 : zeros 0 = [].
Proof. reflexivity. Qed.
Lemma zeros_1 : zeros 1 = [0].
Proof. reflexivity. Qed.
Lemma zeros_S a : 0 < a -> zeros a = 0 :: zeros (a - 1).
Proof. intros. unfold zeros. replace (Z.to_nat a) with (S (Z.to_nat (a-1))) by lia. reflexivity. Qed.

Lemma znth_app {A} (a b : list A) x r i : b = x :: r -> i = zlen a -> znth (a ++ b) i = Some x.
Proof.
  intros -> ->. unfold znth. pose proof (zlen_nonneg a). destruct (Z.ltb_spec (zlen a) 0); [lia|].
  unfold zlen. rewrite Nat2Z.id, nth_error_app2, Nat.sub_diag by lia. reflexivity.
Qed.
Lemma zset_app {A} (a b : list A) x y r i : b = y :: r -> i = zlen a -> zset (a ++ b) i x = a ++ x :: r.
Proof.
  intros -> ->. unfold zset, zlen. rewrite Nat2Z.id.
  rewrite firstn_app, firstn_all, Nat.sub_diag, skipn_app, skipn_all, Nat.sub_diag.
  cbn [firstn skipn app]. rewrite app_nil_r. reflexivity.
Qed.

Lemma ring_tail_calc tail n h c : 0 <= tail < 512 -> 0 < n -> tail + n <= 512 ->
  h = (tail + n) mod 512 -> c = n -> (h - c + 512) mod 512 = tail.
Proof. intros. subst. lia. Qed.

Lemma read_offsets_enc fl rest : forall n, (length fl <= n)%nat ->
  Forall (fun o => 0 < o < 2^63) fl ->
  (length fl = n \/ exists r, rest = zeros 8 ++ r) ->
  read_offsets n (concat (map (fun o => le 8 (o mod 2^64)) fl) ++ rest) = fl.
Proof.
  induction fl as [|o fl IH]; intros n Hn Hf Hr.
  - cbn [map concat app]. destruct n as [|n]; [reflexivity|].
    destruct Hr as [Hr|(r & ->)]; [cbn in Hr; lia|].
    cbn [read_offsets]. reflexivity.
  - destruct n as [|n]; [cbn in Hn; lia|].
    inversion Hf as [|? ? Ho Hf']; subst.
    cbn [map concat]. rewrite <- app_assoc. cbn [read_offsets].
    rewrite firstn_app_exact, skipn_app_exact by (rewrite length_le; reflexivity).
    rewrite Z.mod_small by lia.
    rewrite unle_le by (cbn; lia).
    unfold s64. destruct (Z.ltb_spec o (2^63)); [|lia].
    destruct (Z.eqb_spec o 0); [lia|].
    f_equal. apply IH; auto.
    + cbn in Hn; lia.
    + destruct Hr as [Hr|Hr]; [left; cbn in Hr; lia | right; auto].
Qed.

Lemma read_offsets_enc_free fl : zlen fl <= 512 -> Forall (fun o => 0 < o < 2^63) fl ->
  read_offsets 512 (enc_free fl) = fl.
Proof.
  intros Hl Hf. unfold enc_free. apply read_offsets_enc; auto.
  - unfold zlen in Hl; lia.
  - rewrite zlen_concat8. destruct (Z.eq_dec (zlen fl) 512) as [E|E].
    + left. unfold zlen in E; lia.
    + right. exists (zeros (pageSize - 8 * zlen fl - 8)).
      rewrite zeros_app by (unfold pageSize; lia). f_equal; unfold pageSize; lia.
Qed.

Lemma page_ok_range f o : page_ok f o -> 0 < o < 2^63.
Proof. unfold page_ok; lia. Qed.

Lemma page_ok_mono f f' o : zlen f <= zlen f' -> page_ok f o -> page_ok f' o.
Proof. unfold page_ok; intros; lia. Qed.

(** popping the free list *)
Lemma free_page_index_nil s : pf_inv s [] -> free_page_index s = (Ok (-1), s).
Proof.
  intros [(tail & Ht & Hle & Hr & Hh & Hc) _ _ _ _]. unfold free_page_index.
  rewrite Hc. reflexivity.
Qed.

Lemma free_page_index_cons s o fl : pf_inv s (o :: fl) -> budget s = None ->
  exists h tail p,
    free_page_index s =
      (Ok o, set_pos (set_file (set_free s (zeros tail ++ fl ++ zeros (512 - tail - zlen fl)) h (zlen fl))
                               (upd (file s) 0 (enc_free fl))) p) /\
    0 <= tail < 512 /\ tail + zlen fl <= 512 /\ h = (tail + zlen fl) mod 512 /\
    (tail + zlen fl <= ring_tail s + 1 + zlen fl) /\ h = fhead s.
Proof.
  intros [(tail & Ht & Hle & Hr & Hh & Hc) Hlen Hmin Hok Hnd H0] Hb.
  rewrite zlen_cons in *. pose proof (zlen_nonneg fl) as Hfl.
  unfold free_page_index.
  destruct (Z.eqb_spec (fcount s) 0); [lia|].
  assert (Etail : ring_tail s = tail).
  { unfold ring_tail, ringSize. eapply ring_tail_calc with (n := 1 + zlen fl); eauto; lia. }
  rewrite Etail.
  assert (Hz : zlen (zeros tail) = tail) by (apply zlen_zeros; lia).
  rewrite Hr.
  replace (znth (zeros tail ++ (o :: fl) ++ zeros (512 - tail - (1 + zlen fl))) tail) with (Some o).
  2:{ symmetry. eapply znth_app; [reflexivity | auto]. }
  assert (Hring' : zset (zeros tail ++ (o :: fl) ++ zeros (512 - tail - (1 + zlen fl))) tail 0
     = zeros (tail + 1) ++ fl ++ zeros (512 - (tail + 1) - zlen fl)).
  { erewrite zset_app; [|reflexivity|lia]. cbn [app].
    rewrite <- zeros_app by lia. rewrite zeros_1, <- app_assoc. cbn [app].
    replace (512 - (tail + 1) - zlen fl) with (512 - tail - (1 + zlen fl)) by lia. reflexivity. }
  rewrite Hring'.
  set (s1 := set_free s _ _ _).
  assert (Ht1 : ring_tail s1 = (tail + 1) mod 512 \/ fl = []).
  { destruct fl as [|x fl']; [right; reflexivity|left].
    rewrite zlen_cons in *. pose proof (zlen_nonneg fl').
    unfold ring_tail, ringSize, s1. cbn [fhead fcount set_free].
    rewrite Hh, Hc. lia. }
  assert (Hw : write_free_page_indices s1 = (seek_start 0 ;;; rws_write (enc_free fl) ;;; ret tt) s1).
  { unfold write_free_page_indices.
    assert (Hcnt : fcount s1 = zlen fl) by (cbn; lia).
    rewrite Hcnt.
    destruct (Z.eq_dec (zlen fl) 0) as [E0|E0].
    - apply zlen_zero_nil in E0. subst fl. reflexivity.
    - destruct Ht1 as [Ht1|Ht1]; [|subst; exfalso; apply E0; reflexivity].
      rewrite Ht1, Z.mod_small by lia.
      destruct (Z.ltb_spec 0 (zlen fl)); [|lia].
      destruct (Z.ltb_spec ringSize (tail + 1 + zlen fl)); [unfold ringSize in *; lia|].
      cbn [andb]. unfold s1 at 1. cbn [ring set_free].
      rewrite slice_app_mid; auto. symmetry; apply zlen_zeros; lia. }
  unfold bind at 1. rewrite Hw.
  rewrite (@bind_ok _ _ _ _ _ _ _ _ (@seek_start_ok s1 0 ltac:(cbn; pose proof (zlen_nonneg (file s)); lia))).
  destruct (@rws_write_ok (set_pos s1 0) (enc_free fl)) as (n0 & p & E); [cbn; auto | cbn; pose proof (zlen_nonneg (file s)); lia |].
  unfold bind at 1. rewrite E. cbn [ret].
  destruct (Z.eq_dec (tail + 1) 512) as [E512|E512].
  - (* the ring is empty at its end: renormalise *)
    assert (Efl : fl = []) by (apply zlen_zero_nil; lia). subst fl.
    assert (Hf0 : fhead s = 0) by (rewrite Hh; change (zlen (@nil Z)) with 0; replace (tail + (1 + 0)) with 512 by lia; reflexivity).
    exists 0, 0, p. split; [|cbn; lia].
    unfold s1, set_pos, set_file, set_free. cbn [kind file pos budget ring fhead fcount lastPage].
    rewrite Hh, Hc. change (zlen (@nil Z)) with 0. replace tail with 511 by lia. reflexivity.
  - exists (fhead s), (tail + 1), p. split; [|split; [lia|split; [lia|split; [|split; [lia|reflexivity]]]]].
    + unfold s1, set_pos, set_file, set_free. cbn [kind file pos budget ring fhead fcount lastPage].
      replace (fcount s - 1) with (zlen fl) by lia. reflexivity.
    + rewrite Hh. f_equal. lia.
Qed.

(** the effect of NewPage *)
Definition np_off (s : st) (fl : list Z) : Z :=
  match fl with [] => zlen (file s) | o :: _ => o end.
Definition np_file (s : st) (fl : list Z) (buf : bytes) : bytes :=
  upd (match fl with [] => file s | _ :: fl' => upd (file s) 0 (enc_free fl') end)
      (np_off s fl) (buf ++ zeros (pageSize - zlen buf)).

(** the ring holds the queue [fl] from position [tail] on *)
Definition ring_at (s : st) (fl : list Z) (tail : Z) : Prop :=
  0 <= tail < 512 /\ tail + zlen fl <= 512 /\
  ring s = zeros tail ++ fl ++ zeros (512 - tail - zlen fl) /\
  fhead s = (tail + zlen fl) mod 512 /\ fcount s = zlen fl.

Lemma new_page_ok_ring s fl buf : pf_inv s fl -> budget s = None -> zlen buf <= pageSize ->
  exists s', new_page buf s = (Ok (np_off s fl), s') /\
    file s' = np_file s fl buf /\ pf_inv s' (tl fl) /\
    kind s' = kind s /\ budget s' = None /\
    lastPage s' = lastPage s + (match fl with [] => 1 | _ => 0 end) /\
    pos s' = np_off s fl /\
    (match fl with
     | [] => ring s' = ring s /\ fhead s' = fhead s /\ fcount s' = fcount s
     | _ :: fl' => exists tail, ring_at s' fl' tail /\ tail + zlen fl' <= ring_tail s + zlen fl /\ fhead s' = fhead s end).
Proof.
  intros Hinv Hb Hl. pose proof (zlen_nonneg buf) as Hbuf.
  assert (Hpg : zlen (buf ++ zeros (pageSize - zlen buf)) = pageSize).
  { rewrite zlen_app, zlen_zeros by lia. lia. }
  unfold new_page. destruct (Z.ltb_spec pageSize (zlen buf)); [lia|].
  destruct fl as [|o fl].
  - (* grow the file *)
    rewrite (@bind_ok _ _ _ _ _ _ _ _ (free_page_index_nil Hinv)).
    cbn [Z.eqb negb Pos.eqb].
    destruct Hinv as [(tail & Ht & Hle & Hr & Hh & Hc) Hlen Hmin Hok Hnd H0].
    unfold bind at 1. unfold bind at 1. rewrite seek_end_ok.
    set (s1 := set_lastPage _ _).
    destruct (Z.eqb_spec (zlen (file s) mod pageSize) 0); [|lia]. cbn [negb].
    unfold bind at 1. cbn [ret].
    destruct (@rws_write_ok s1 (buf ++ zeros (pageSize - zlen buf))) as (n0 & p & E).
    { cbn; auto. }
    { cbn. pose proof (zlen_nonneg (file s)); lia. }
    unfold bind at 1. rewrite E.
    set (s2 := set_pos _ _).
    assert (Hs2 : file s2 = np_file s [] buf) by reflexivity.
    assert (Hl2 : zlen (file s2) = zlen (file s) + pageSize).
    { rewrite Hs2. unfold np_file, np_off. rewrite zlen_upd; [lia | pose proof (zlen_nonneg (file s)); lia]. }
    rewrite (@bind_ok _ _ _ _ _ _ _ _ (@seek_start_ok s2 (zlen (file s)) ltac:(pose proof (zlen_nonneg (file s)); unfold pageSize in *; lia))).
    eexists. split; [cbn [ret]; unfold ret; f_equal; f_equal; unfold np_off; lia|].
    split; [exact Hs2|].
    split; [|cbn; auto 10].
    constructor; cbn [tl]; change (file (set_pos s2 (zlen (file s)))) with (file s2).
    + exists tail. cbn. auto.
    + rewrite Hl2. unfold pageSize in *. lia.
    + lia.
    + constructor.
    + constructor.
    + rewrite Hs2. unfold np_file, np_off.
      rewrite slice_upd_disj; [exact H0 | pose proof (zlen_nonneg (file s)); lia | lia | lia].
  - (* reuse a free page *)
    destruct (free_page_index_cons Hinv Hb) as (h & tail & p0 & E0 & Ht & Hle & Hh & Hadv & Hhs).
    rewrite (@bind_ok _ _ _ _ _ _ _ _ E0).
    set (s1 := set_pos _ p0).
    destruct Hinv as [(tail0 & Ht0 & Hle0 & Hr0 & Hh0 & Hc0) Hlen Hmin Hok Hnd H0].
    inversion Hok as [|? ? Ho Hok']; subst. inversion Hnd as [|? ? Hni Hnd']; subst.
    destruct Ho as (Ho1 & Ho2 & Ho3 & Ho4).
    rewrite zlen_cons in *. pose proof (zlen_nonneg fl) as Hfl.
    assert (Henc : zlen (enc_free fl) = pageSize) by (apply zlen_enc_free; lia).
    assert (Hl1 : zlen (file s1) = zlen (file s)).
    { cbn. rewrite zlen_upd by lia. lia. }
    destruct (Z.eqb_spec o (-1)); [lia|]. cbn [negb].
    unfold bind at 1. unfold bind at 1. rewrite seek_start_ok by lia. cbn [ret].
    unfold ret at 1.
    destruct (Z.eqb_spec (o mod pageSize) 0); [|lia]. cbn [negb].
    unfold bind at 1. cbn [ret]. unfold ret at 1.
    destruct (@rws_write_ok (set_pos s1 o) (buf ++ zeros (pageSize - zlen buf))) as (n0 & p & E).
    { cbn; auto. }
    { change (zlen (file (set_pos s1 o))) with (zlen (file s1)). cbn [pos set_pos]. lia. }
    unfold bind at 1. rewrite E. set (s2 := set_pos _ p).
    assert (Hs2 : file s2 = np_file s (o :: fl) buf) by reflexivity.
    assert (Hl2 : zlen (file s2) = zlen (file s)).
    { rewrite Hs2. unfold np_file, np_off. rewrite zlen_upd; rewrite zlen_upd by lia; lia. }
    rewrite (@bind_ok _ _ _ _ _ _ _ _ (@seek_start_ok s2 o ltac:(lia))).
    eexists. split; [unfold ret, np_off; f_equal; f_equal; lia|].
    split; [exact Hs2|].
    split; [|cbn [kind budget lastPage pos s2 set_pos set_file s1 set_free]; split; [auto|]; split; [auto|]; split; [lia|]; split; [auto|];
      exists tail; split; [split; [lia|]; split; [lia|]; split; [reflexivity|]; split; [auto|reflexivity] | split; [lia | exact Hhs]]].
    assert (H4096 : pageSize <= o).
    { unfold pageSize in *. lia. }
    constructor; cbn [tl]; change (file (set_pos s2 o)) with (file s2).
    + exists tail. cbn. auto.
    + rewrite Hl2; auto.
    + lia.
    + eapply Forall_impl; [|exact Hok']. intros a Ha. eapply page_ok_mono; [|exact Ha]. lia.
    + auto.
    + rewrite Hs2. unfold np_file, np_off. rewrite slice_upd_disj.
      * rewrite <- Henc. apply slice_upd_same. lia.
      * rewrite zlen_upd by lia. lia.
      * lia.
      * lia.
Qed.

Lemma new_page_ok s fl buf : pf_inv s fl -> budget s = None -> zlen buf <= pageSize ->
  exists s', new_page buf s = (Ok (np_off s fl), s') /\
    file s' = np_file s fl buf /\ pf_inv s' (tl fl) /\
    kind s' = kind s /\ budget s' = None /\
    lastPage s' = lastPage s + (match fl with [] => 1 | _ => 0 end) /\
    pos s' = np_off s fl.
Proof.
  intros H1 H2 H3. destruct (@new_page_ok_ring s fl buf H1 H2 H3) as (s' & E & A & B & C & D & F & G & _).
  exists s'. auto 10.
Qed.

Lemma new_page_too_large s buf : pageSize < zlen buf -> new_page buf s = (Err (EMsg "buffer is too large"), s).
Proof. intros. unfold new_page. destruct (Z.ltb_spec pageSize (zlen buf)); [reflexivity|lia]. Qed.

(** pages of the file after NewPage *)
Definition page (f : bytes) (o : Z) : bytes := slice f o pageSize.

Lemma zlen_np_file s fl buf : pf_inv s fl -> zlen buf <= pageSize ->
  zlen (np_file s fl buf) = match fl with [] => zlen (file s) + pageSize | _ => zlen (file s) end.
Proof.
  intros [(tail & Ht & Hle & Hr & Hh & Hc) Hlen Hmin Hok Hnd H0] Hb.
  pose proof (zlen_nonneg buf).
  assert (Hpg : zlen (buf ++ zeros (pageSize - zlen buf)) = pageSize).
  { rewrite zlen_app, zlen_zeros by lia. lia. }
  unfold np_file, np_off. destruct fl as [|o fl].
  - rewrite zlen_upd by (pose proof (zlen_nonneg (file s)); lia). lia.
  - rewrite zlen_cons in *. inversion Hok as [|? ? Ho Hok']; subst. destruct Ho as (Ho1 & Ho2 & Ho3 & Ho4).
    assert (zlen (enc_free fl) = pageSize) by (apply zlen_enc_free; lia).
    rewrite zlen_upd; rewrite zlen_upd by lia; lia.
Qed.

Lemma np_new_page s fl buf : pf_inv s fl -> zlen buf <= pageSize ->
  page (np_file s fl buf) (np_off s fl) = buf ++ zeros (pageSize - zlen buf).
Proof.
  intros [(tail & Ht & Hle & Hr & Hh & Hc) Hlen Hmin Hok Hnd H0] Hb.
  pose proof (zlen_nonneg buf).
  assert (Hpg : zlen (buf ++ zeros (pageSize - zlen buf)) = pageSize).
  { rewrite zlen_app, zlen_zeros by lia. lia. }
  set (pg := buf ++ zeros (pageSize - zlen buf)) in *.
  unfold page, np_file, np_off. fold pg. rewrite <- Hpg. apply slice_upd_same.
  destruct fl as [|o fl].
  - pose proof (zlen_nonneg (file s)); lia.
  - rewrite zlen_cons in *. inversion Hok as [|? ? Ho Hok']; subst. destruct Ho as (Ho1 & Ho2 & Ho3 & Ho4).
    assert (zlen (enc_free fl) = pageSize) by (apply zlen_enc_free; lia).
    rewrite zlen_upd by lia. lia.
Qed.

(** anything outside page 0 and outside the new page is unchanged *)
Lemma np_frame s fl buf o l : pf_inv s fl -> zlen buf <= pageSize ->
  pageSize <= o -> o + l <= np_off s fl \/ np_off s fl + pageSize <= o ->
  slice (np_file s fl buf) o l = slice (file s) o l.
Proof.
  intros [(tail & Ht & Hle & Hr & Hh & Hc) Hlen Hmin Hok Hnd H0] Hb Ho Hd.
  pose proof (zlen_nonneg buf).
  assert (Hpg : zlen (buf ++ zeros (pageSize - zlen buf)) = pageSize).
  { rewrite zlen_app, zlen_zeros by lia. lia. }
  unfold np_file, np_off in *. destruct fl as [|x fl].
  - rewrite slice_upd_disj; auto. all: unfold pageSize in *; pose proof (zlen_nonneg (file s)); lia.
  - rewrite zlen_cons in *. inversion Hok as [|? ? Hx Hok']; subst. destruct Hx as (Ho1 & Ho2 & Ho3 & Ho4).
    assert (zlen (enc_free fl) = pageSize) by (apply zlen_enc_free; lia).
    rewrite slice_upd_disj; [rewrite slice_upd_disj; auto; unfold pageSize in *; lia | rewrite zlen_upd by lia; lia | unfold pageSize in *; lia | lia].
Qed.

(** alignment makes distinct pages disjoint *)
Lemma aligned_disj a b : a mod pageSize = 0 -> b mod pageSize = 0 -> a <> b ->
  a + pageSize <= b \/ b + pageSize <= a.
Proof. unfold pageSize; intros; lia. Qed.

Lemma np_off_ok s fl : pf_inv s fl ->
  pageSize <= np_off s fl /\ np_off s fl mod pageSize = 0 /\ ~ In (np_off s fl) (tl fl).
Proof.
  intros [(tail & Ht & Hle & Hr & Hh & Hc) Hlen Hmin Hok Hnd H0].
  unfold np_off. destruct fl as [|o fl].
  - cbn; auto.
  - inversion Hok as [|? ? Ho Hok']; subst. inversion Hnd as [|? ? Hni Hnd']; subst.
    destruct Ho as (Ho1 & Ho2 & Ho3 & Ho4). cbn [tl]. repeat split; auto.
    unfold pageSize in *; lia.
Qed.

Lemma pf_inv_pos s fl p : pf_inv s fl -> pf_inv (set_pos s p) fl.
Proof. intros [H1 H2 H3 H4 H5]; constructor; auto. Qed.

(** writing inside the file, outside page 0, keeps the invariant *)
Lemma pf_inv_write s fl o b p : pf_inv s fl -> pageSize <= o -> o + zlen b <= zlen (file s) ->
  pf_inv (set_pos (set_file s (upd (file s) o b)) p) fl.
Proof.
  intros [H1 H2 H3 H4 H5 H6] Ho Hb. pose proof (zlen_nonneg b).
  assert (L : zlen (upd (file s) o b) = zlen (file s)).
  { rewrite zlen_upd by (unfold pageSize in *; lia). lia. }
  constructor; cbn [file set_pos set_file ring fhead fcount]; rewrite ?L; auto.
  - eapply Forall_impl; [|exact H4]. intros a Ha. eapply page_ok_mono; [|exact Ha]. lia.
  - rewrite slice_upd_disj; [exact H6 | unfold pageSize in *; lia | lia | lia].
Qed.
