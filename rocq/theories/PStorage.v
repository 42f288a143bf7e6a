(** C84: the storages as files: Seek with every whence, ReadAt, WriteAt, Truncate, closing and reopening. *)
From Verif Require Import Base Store PStore.

(** ** Model *)
(** io.SeekStart, io.SeekCurrent, io.SeekEnd and any other value *)
Inductive whence := WStart | WCurrent | WEnd | WOther.
(** Seek(offset, whence): pkg/buftest/buffer.go:33-49 (an unknown whence leaves the
    position), pkg/mmap/mmap.go:84-103. int64 overflow of the sums is left out. *)
Definition rws_seek (o : Z) (w : whence) : M st Z := fun s =>
  match w with
  | WStart => seek_abs o s
  | WCurrent => seek_abs (pos s + o) s
  | WEnd => seek_abs (zlen (file s) + o) s
  | WOther => match kind s with KBuf => seek_abs (pos s) s | KMmap => (Err (EMsg "mmap: invalid whence"), s) end
  end.
(** ReadAt(p, off) with len(p) = l: pkg/buftest/buffer.go:85-94,
    pkg/mmap/mmap.go:116-122 (slicing out of range panics) *)
Definition read_at (l off : Z) : M st (bytes * option err) := fun s =>
  match kind s with
  | KBuf =>
      if off <? 0 then (Ok ([], Some (EMsg "short buffer")), s)
      else if zlen (file s) <? off then (Ok ([], Some EEof), s)
      else (Ok (slice (file s) off l, None), s)
  | KMmap =>
      if (off <? 0) || (zlen (file s) <? off) then (Panic, s)
      else let d := slice (file s) off l in (Ok (d, if zlen d <? l then Some EEof else None), s)
  end.
(** WriteAt(p, off): pkg/buftest/buffer.go:71-83, pkg/mmap/mmap.go:135-163.
    In the mapped file a negative offset reaches os.File.WriteAt, which refuses it
    (Go standard library), when the end of the write lies beyond the mapping,
    and slicing panics otherwise; an empty mapping that stays empty is refused by
    mmap(2), mmap.go:147. The write is physical: the budget of Store.v counts it. *)
Definition write_at (b : bytes) (off : Z) : M st Z := fun s =>
  let len := zlen (file s) in
  match kind s with
  | KBuf =>
      if off <? 0 then (Err (EMsg "short buffer"), s)
      else if len <? off then (Err (EMsg "short write"), s)
      else match budget s with
           | Some O => (Crash, s)
           | bu => let s := set_budget s (match bu with Some (S k) => Some k | x => x end) in
               (Ok (zlen b), set_file s (upd (file s) off b))
           end
  | KMmap =>
      if (off <? 0) && (off + zlen b <=? len) then (Panic, s)
      else if off <? 0 then (Err (EMsg "negative offset"), s)
      else match budget s with
           | Some O => (Crash, s)
           | bu => let s := set_budget s (match bu with Some (S k) => Some k | x => x end) in
               if len <? off + zlen b then
                 let f' := match b with [] => file s | _ => upd (file s ++ zeros (off - len)) off b end in
                 if zlen f' =? 0 then (Err (EMsg "mmap: invalid argument"), s)
                 else (Ok (if len =? 0 then zlen b else zlen f'), set_file s f')
               else (Ok (zlen b), set_file s (upd (file s) off b))
           end
  end.
(** Truncate(size) of the in-memory buffer: pkg/buftest/buffer.go:60-69; the mapped
    file has none *)
Definition buf_truncate (size : Z) : M st unit := fun s =>
  if size <? 0 then (Err (EMsg "short buffer"), s)
  else if zlen (file s) <? size then (Err (EMsg "short write"), s)
  else (Ok tt, set_file s (firstn (Z.to_nat size) (file s))).
(** Bytes(): pkg/buftest/buffer.go:20-22, pkg/mmap/mmap.go:68-70 *)
Definition rws_bytes (s : st) : bytes := file s.

(** Write is WriteAt at the position, which then moves by the count (mmap.go:125-132) *)
Lemma write_is_write_at b s : budget s = None -> kind s = KMmap -> 0 <= pos s -> 0 < zlen (file s) ->
  rws_write b s = (n <- write_at b (pos s) ;; fun s' => (Ok n, set_pos s' (pos s' + n))) s.
Proof.
  intros Hb Hk Hp Hl. unfold rws_write, write_at, bind. rewrite Hb, Hk. destruct (Z.ltb_spec (pos s) 0); [lia|]. cbn [andb]. replace (set_budget s None) with s by (destruct s; cbn in *; subst; reflexivity). rewrite ?Hk.
  destruct (Z.ltb_spec (zlen (file s)) (pos s + zlen b)); [|reflexivity].
  set (f' := match b with [] => _ | _ => _ end). destruct (Z.eqb_spec (zlen f') 0) as [E|E]; [|reflexivity].
  exfalso. destruct b as [|x b]; subst f'; [lia|]. cbv beta iota in E. pose proof (zlen_nonneg b). rewrite zlen_cons in H0.
  assert (L : zlen (file s ++ zeros (pos s - zlen (file s))) = Z.max (zlen (file s)) (pos s)) by (rewrite zlen_app; unfold zeros, zlen; rewrite repeat_length; unfold zlen in *; lia).
  rewrite zlen_upd in E by lia. lia.
Qed.

(** ** Specification *)
(** operations at a place in the file: Seek(o, io.SeekStart) followed by Read or Write,
    ReadAt and WriteAt; reads ask for [l] bytes. Bytes() and, for the buffer, Truncate(n) *)
Inductive sop := SRead (o l : Z) | SWrite (o : Z) (b : bytes) | SReadAt (o l : Z) | SWriteAt (o : Z) (b : bytes) | SBytes | STruncate (n : Z).
(** [d] is what a file with content [f] has at [o], up to [l] bytes *)
Definition content (f : bytes) (o l : Z) (d : bytes) : Prop :=
  zlen d = Z.min l (zlen f - o) /\ forall i, 0 <= i < zlen d -> byte_at d i = byte_at f (o + i).
(** a file with content [f] answers the operations, all within it, with [ans] (nothing
    for a write) and ends with content [f'] *)
Inductive posix : bytes -> list sop -> list bytes -> bytes -> Prop :=
| px_nil f : posix f [] [] f
| px_read f o l d ops ans f' : 0 <= o <= zlen f -> 0 <= l -> content f o l d -> posix f ops ans f' -> posix f (SRead o l :: ops) (d :: ans) f'
| px_read_at f o l d ops ans f' : 0 <= o <= zlen f -> 0 <= l -> content f o l d -> posix f ops ans f' -> posix f (SReadAt o l :: ops) (d :: ans) f'
| px_write f o b g ops ans f' : 0 <= o <= zlen f -> overwritten f o b g -> posix g ops ans f' -> posix f (SWrite o b :: ops) ([] :: ans) f'
| px_write_at f o b g ops ans f' : 0 <= o <= zlen f -> overwritten f o b g -> posix g ops ans f' -> posix f (SWriteAt o b :: ops) ([] :: ans) f'
| px_bytes f ops ans f' : posix f ops ans f' -> posix f (SBytes :: ops) (f :: ans) f'
| px_truncate f n g ops ans f' : 0 <= n <= zlen f -> content f 0 n g -> posix g ops ans f' -> posix f (STruncate n :: ops) ([] :: ans) f'.
(** the same operations on a storage; the data, without the flag for the end of the file *)
Definition sop_run (o : sop) : M st bytes :=
  match o with
  | SRead o l => seek_start o ;;; r <- rws_read l ;; ret (fst r)
  | SWrite o b => seek_start o ;;; rws_write b ;;; ret []
  | SReadAt o l => r <- read_at l o ;; ret (fst r)
  | SWriteAt o b => write_at b o ;;; ret []
  | SBytes => fun s => (Ok (rws_bytes s), s)
  | STruncate n => buf_truncate n ;;; ret []
  end.
Fixpoint sops_run (ops : list sop) : M st (list bytes) :=
  match ops with [] => ret [] | o :: ops => d <- sop_run o ;; ds <- sops_run ops ;; ret (d :: ds) end.

(** ** Proofs *)
Lemma content_slice f o l : 0 <= o <= zlen f -> 0 <= l -> content f o l (slice f o l).
Proof.
  intros Ho Hl. assert (L : zlen (slice f o l) = Z.min l (zlen f - o)). { unfold slice, zlen in *. rewrite firstn_length, skipn_length. lia. }
  split; [exact L|]. intros i Hi. apply byte_at_slice; lia.
Qed.
Lemma content_unique f o l d d' : content f o l d -> content f o l d' -> d = d'.
Proof.
  intros [L H] [L' H']. apply nth_error_ext. intros i. destruct (Z.lt_ge_cases (Z.of_nat i) (zlen d)) as [Hi|Hi].
  - specialize (H (Z.of_nat i) ltac:(lia)). specialize (H' (Z.of_nat i) ltac:(lia)). rewrite <- H' in H. unfold byte_at in H. destruct (Z.ltb_spec (Z.of_nat i) 0); [lia|]. rewrite Nat2Z.id in H. exact H.
  - unfold zlen in *. rewrite !(proj2 (nth_error_None _ _)) by lia. reflexivity.
Qed.
(** WriteAt within the file writes its bytes there and nothing else, and leaves the position *)
Theorem C84_write_at s b o : budget s = None -> 0 <= o <= zlen (file s) ->
  exists n s1, write_at b o s = (Ok n, s1) /\ overwritten (file s) o b (file s1) /\ pos s1 = pos s /\ budget s1 = None /\ kind s1 = kind s.
Proof.
  intros Hb Ho. pose proof (@overwritten_upd (file s) o b Ho) as Hw. unfold write_at. rewrite Hb. replace (set_budget s None) with s by (destruct s; cbn in *; subst; reflexivity).
  destruct (Z.ltb_spec o 0); [lia|]. destruct (kind s) eqn:Ek.
  - destruct (Z.ltb_spec (zlen (file s)) o); [lia|]. do 2 eexists. split; [reflexivity|]. auto.
  - cbn [andb]. destruct (Z.ltb_spec (zlen (file s)) (o + zlen b)) as [Hg|Hg]; [|do 2 eexists; split; [reflexivity|]; auto].
    assert (Eb : forall (u v : bytes), match b with [] => u | _ => v end = v) by (destruct b; [change (zlen (@nil Z)) with 0 in Hg; lia|reflexivity]). rewrite !Eb.
    replace (zeros (o - zlen (file s))) with (@nil Z) by (unfold zeros; replace (Z.to_nat (o - zlen (file s))) with 0%nat by lia; reflexivity).
    rewrite app_nil_r. destruct Hw as [Hw1 Hw2]. pose proof (zlen_nonneg (file s)). destruct (Z.eqb_spec (zlen (upd (file s) o b)) 0); [lia|]. do 2 eexists. split; [reflexivity|]. cbn [file set_file]. repeat split; auto.
Qed.
(** ReadAt within the file reads what is there, and changes nothing *)
Theorem C84_read_at s l o : 0 <= o <= zlen (file s) -> 0 <= l -> exists d e, read_at l o s = (Ok (d, e), s) /\ content (file s) o l d /\ (o + l <= zlen (file s) -> e = None) /\ (kind s = KMmap -> zlen d < l -> e = Some EEof).
Proof.
  intros Ho Hl. pose proof (@content_slice (file s) o l Ho Hl) as Hc. unfold read_at. destruct (Z.ltb_spec o 0); [lia|]. destruct (Z.ltb_spec (zlen (file s)) o); [lia|]. cbn [orb]. destruct (kind s).
  - do 2 eexists. split; [reflexivity|]. split; [exact Hc|]. split; [reflexivity|]. discriminate.
  - do 2 eexists. split; [reflexivity|]. split; [exact Hc|]. destruct Hc as [L _]. split; intros; (destruct (Z.ltb_spec (zlen (slice (file s) o l)) l); [|first [reflexivity|lia]]); first [reflexivity|lia].
Qed.
(** Whatever is read and written in place, in whatever order, both storages hold and
    return the bytes a file would *)
Theorem C84_storages_are_files_partial ops : forall s ans f', budget s = None -> (kind s = KBuf \/ forall n, ~ In (STruncate n) ops) -> posix (file s) ops ans f' -> exists s', sops_run ops s = (Ok ans, s') /\ file s' = f'.
Proof.
  induction ops as [|op ops IH]; intros s ans f' Hb Hkd Hp; [inversion Hp; subst; exists s; auto|]. cbn [sops_run].
  assert (X : exists d s1 g ans', sop_run op s = (Ok d, s1) /\ file s1 = g /\ budget s1 = None /\ kind s1 = kind s /\ ans = d :: ans' /\ posix g ops ans' f').
  { inversion Hp as [|? o l d ? ? ? Ho Hl Hc0 Hr|? o l d ? ? ? Ho Hl Hc0 Hr|? o b g ? ? ? Ho Hw0 Hr|? o b g ? ? ? Ho Hw0 Hr|? ? ? ? Hr|? n g ? ? ? Hn Hg Hr]; subst.
    - cbn [sop_run]. rewrite (@bind_ok _ _ _ _ _ _ _ _ (@seek_start_ok s o Ho)). unfold bind, rws_read. cbn [kind file pos set_pos].
      assert (Ed : d = slice (file s) o l) by (eapply content_unique; [eassumption|apply content_slice; auto]). destruct (kind s) eqn:Ek.
      + destruct (Z.leb_spec (zlen (file s)) o).
        * assert (d = []) as -> by (apply zlen_zero_nil; destruct Hc0; lia). do 4 eexists. split; [reflexivity|]. repeat split; cbn; eauto.
        * subst d. do 4 eexists. split; [reflexivity|]. repeat split; cbn; eauto.
      + destruct (Z.ltb_spec (zlen (file s)) o); [lia|]. subst d. do 4 eexists. split; [reflexivity|]. repeat split; cbn; eauto.
    - cbn [sop_run]. destruct (@C84_read_at s l o Ho Hl) as (d' & e & E & Hc & _). unfold bind. rewrite E. assert (d' = d) as -> by (eapply content_unique; eauto).
      do 4 eexists. split; [reflexivity|]. repeat split; eauto.
    - cbn [sop_run]. destruct (@C11_write_effect s o b Hb Ho) as (n & s1 & E & Hw). assert (E' : (seek_start o ;;; rws_write b ;;; ret []) s = (Ok ([] : bytes), s1)).
      { unfold bind in *. destruct (seek_start o s) as [[?|?| | |] ?]; try discriminate. rewrite E. reflexivity. }
      rewrite E'. assert (file s1 = g) as Eg by (eapply overwritten_unique; eauto). subst g. assert (Hb1 : budget s1 = None /\ kind s1 = kind s).
      { rewrite (@bind_ok _ _ _ _ _ _ _ _ (@seek_start_ok s o Ho)) in E. destruct (@rws_write_ok (set_pos s o) b) as (n' & p & E2); [exact Hb|exact Ho|]. rewrite E2 in E. injection E as <- <-. split; [exact Hb|reflexivity]. } destruct Hb1 as [Hb1 Hk1].
      do 4 eexists. split; [reflexivity|]. repeat split; eauto.
    - cbn [sop_run]. destruct (@C84_write_at s b o Hb Ho) as (n & s1 & E & Hw & _ & Hb1 & Hk1). unfold bind. rewrite E. assert (file s1 = g) as Eg by (eapply overwritten_unique; eauto). subst g.
      do 4 eexists. split; [reflexivity|]. repeat split; eauto.
    - cbn [sop_run rws_bytes]. do 4 eexists. split; [reflexivity|]. repeat split; eauto.
    - cbn [sop_run]. unfold bind, buf_truncate. destruct (Z.ltb_spec n 0); [lia|]. destruct (Z.ltb_spec (zlen (file s)) n); [lia|].
      pose proof (zlen_nonneg (file s)). assert (Eg : g = firstn (Z.to_nat n) (file s)) by (eapply content_unique; [exact Hg|]; pose proof (@content_slice (file s) 0 n ltac:(lia) ltac:(lia)) as Hc; exact Hc). subst g.
      do 4 eexists. split; [reflexivity|]. repeat split; eauto. }
  destruct X as (d & s1 & g & ans' & E & Ef & Hb1 & Hk1 & -> & Hp'). assert (Hkd' : kind s1 = KBuf \/ forall n, ~ In (STruncate n) ops) by (rewrite Hk1; destruct Hkd as [Hkd|Hkd]; [auto|right; intros n Hi; exact (Hkd n (or_intror Hi))]). rewrite (@bind_ok _ _ _ _ _ _ _ _ E). subst g.
  destruct (IH s1 ans' f' Hb1 Hkd' Hp') as (s' & E' & F'). rewrite (@bind_ok _ _ _ _ _ _ _ _ E'). exists s'. auto.
Qed.
(** The buffer's ReadAt reads fewer bytes than asked for without an error, which
    io.ReaderAt forbids: a caller cannot tell where the file ends *)
Theorem C84_short_read_at_refuted s l o : kind s = KBuf -> 0 <= o <= zlen (file s) -> zlen (file s) < o + l -> exists d, read_at l o s = (Ok (d, None), s) /\ zlen d < l.
Proof.
  intros Hk Ho Hl. destruct (@C84_read_at s l o Ho ltac:(lia)) as (d & e & E & [L _] & _). exists d. split; [|lia].
  revert E. unfold read_at. rewrite Hk. destruct (Z.ltb_spec o 0); [lia|]. destruct (Z.ltb_spec (zlen (file s)) o); [lia|]. intros E. injection E as <- <-. reflexivity.
Qed.
(** Where the two storages differ: beyond the end ... *)
Theorem C84_write_at_beyond_the_end_refuted f b o : b <> [] -> 0 < zlen f < o ->
  write_at b o (open_rws KBuf f) = (Err (EMsg "short write"), open_rws KBuf f) /\
  exists n s1, write_at b o (open_rws KMmap f) = (Ok n, s1) /\ file s1 = f ++ zeros (o - zlen f) ++ b /\ n <> zlen b.
Proof.
  intros Hb Ho. unfold write_at. cbn [kind open_rws budget file set_budget]. destruct (Z.ltb_spec o 0); [lia|]. destruct (Z.ltb_spec (zlen f) o); [|lia]. split; [reflexivity|]. cbn [andb].
  pose proof (zlen_nonneg b). destruct (Z.ltb_spec (zlen f) (o + zlen b)); [|lia].
  assert (Eb : forall (u v : bytes), match b with [] => u | _ => v end = v) by (destruct b; [congruence|reflexivity]). rewrite !Eb.
  assert (L : zlen (f ++ zeros (o - zlen f)) = o) by (rewrite zlen_app, zlen_zeros; lia).
  assert (Eu : upd (f ++ zeros (o - zlen f)) o b = (f ++ zeros (o - zlen f)) ++ b) by (rewrite <- L at 2; apply upd_end). rewrite Eu.
  rewrite zlen_app, L. destruct (Z.eqb_spec (o + zlen b) 0); [lia|]. destruct (Z.eqb_spec (zlen f) 0); [lia|]. do 2 eexists. split; [reflexivity|]. cbn [file set_file]. split; [rewrite <- app_assoc; reflexivity|lia].
Qed.
Theorem C84_read_at_beyond_the_end_refuted f l o : zlen f < o -> 
  read_at l o (open_rws KBuf f) = (Ok ([], Some EEof), open_rws KBuf f) /\ fst (read_at l o (open_rws KMmap f)) = Panic.
Proof. intros H. pose proof (zlen_nonneg f). unfold read_at. cbn [kind open_rws file]. destruct (Z.ltb_spec o 0); [lia|]. destruct (Z.ltb_spec (zlen f) o); [|lia]. auto. Qed.
(** ... and Seek past the end: the buffer goes to its end instead, the mapped file refuses *)
Theorem C84_seek_beyond_the_end_refuted f o : zlen f < o ->
  rws_seek o WStart (open_rws KBuf f) = (Ok (zlen f), set_pos (open_rws KBuf f) (zlen f)) /\ rws_seek o WStart (open_rws KMmap f) = (Err (EMsg "mmap: position out of bounds"), open_rws KMmap f).
Proof.
  intros H. pose proof (zlen_nonneg f). unfold rws_seek, seek_abs. cbn [kind open_rws file]. destruct (Z.ltb_spec o 0); [lia|]. destruct (Z.ltb_spec (zlen f) o); [|lia]. auto.
Qed.
(** Seek within the file, from the start, the position or the end *)
Theorem C84_seek s o w a : (w = WStart /\ a = o) \/ (w = WCurrent /\ a = pos s + o) \/ (w = WEnd /\ a = zlen (file s) + o) -> 0 <= a <= zlen (file s) ->
  rws_seek o w s = (Ok a, set_pos s a).
Proof. intros H Ha. assert (E : seek_abs a s = (Ok a, set_pos s a)) by (apply seek_start_ok; auto). destruct H as [[-> ->]|[[-> ->]|[-> ->]]]; exact E. Qed.
(** Truncate keeps the first [size] bytes, ... *)
Theorem C84_truncate s size : 0 <= size <= zlen (file s) -> exists s', buf_truncate size s = (Ok tt, s') /\ zlen (file s') = size /\ forall i, i < size -> byte_at (file s') i = byte_at (file s) i.
Proof.
  intros H. unfold buf_truncate. destruct (Z.ltb_spec size 0); [lia|]. destruct (Z.ltb_spec (zlen (file s)) size); [lia|]. eexists. split; [reflexivity|]. cbn [file set_file]. split; [unfold zlen in *; rewrite firstn_length; lia|].
  intros i Hi. unfold byte_at. destruct (Z.ltb_spec i 0); [reflexivity|]. revert H1. assert (X : (Z.to_nat i < Z.to_nat size)%nat) by lia. revert X. generalize (Z.to_nat i) (Z.to_nat size) (file s). clear. intros i n f H _. revert f i H.
  induction n as [|n IH]; intros f i H; [lia|]. destruct f as [|x f]; [destruct i; reflexivity|]. destruct i as [|i]; [reflexivity|]. cbn. apply IH. lia.
Qed.
(** ... but not the position: a Write after cutting off the place it points to panics *)
Theorem C84_write_after_truncate_refuted s size b : kind s = KBuf -> budget s = None -> 0 <= size < pos s -> pos s <= zlen (file s) -> fst ((buf_truncate size ;;; rws_write b) s) = Panic.
Proof.
  intros Hk Hb H Hp. destruct (@C84_truncate s size ltac:(lia)) as (s' & E & L & _). rewrite (@bind_ok _ _ _ _ _ _ _ _ E). revert E. unfold buf_truncate. destruct (size <? 0); [discriminate|]. destruct (zlen (file s) <? size); [discriminate|]. intros X. injection X as <-.
  unfold rws_write. cbn [budget set_file set_budget kind]. rewrite Hb. cbn [kind set_budget set_file file pos]. rewrite Hk. cbn [file set_file] in L. rewrite L. destruct (Z.ltb_spec size (pos s)); [reflexivity|lia].
Qed.

(** a history of both kinds of operations: the mapped file grows from empty *)
Example C84_example k : (fun r : res (list bytes) * st => (fst r, file (snd r))) (sops_run [SWriteAt 0 [1; 2; 3]; SReadAt 1 5; SWrite 2 [9; 9]; SRead 0 4; SWriteAt 4 [7]; SBytes; SReadAt 5 1] (open_rws k [])) = (Ok [[]; [2; 3]; []; [1; 2; 9; 9]; []; [1; 2; 9; 9; 7]; []], [1; 2; 9; 9; 7]).
Proof. destruct k; vm_compute; reflexivity. Qed.
Example C84_posix : posix [] [SWriteAt 0 [1; 2; 3]; SReadAt 1 5] [[]; [2; 3]] [1; 2; 3].
Proof.
  assert (L3 : zlen [1; 2; 3] = 3) by reflexivity. assert (L0 : zlen (@nil Z) = 0) by reflexivity.
  apply (@px_write_at [] 0 [1; 2; 3] [1; 2; 3]); [lia|apply (@overwritten_upd [] 0 [1; 2; 3]); lia|]. apply px_read_at; [lia|lia|apply (@content_slice [1; 2; 3] 1 5); lia|apply px_nil].
Qed.
Example C84_write_after_truncate_example : fst ((rws_write [1; 2; 3] ;;; buf_truncate 1 ;;; rws_write [4]) (open_rws KBuf [])) = Panic.
Proof. reflexivity. Qed.
Example C84_truncate_example : (fun r : res (list bytes) * st => (fst r, file (snd r))) (sops_run [SWriteAt 0 [1; 2; 3]; STruncate 1; SWrite 1 [8]; SBytes] (open_rws KBuf [])) = (Ok [[]; []; []; [1; 8]], [1; 8]).
Proof. reflexivity. Qed.
