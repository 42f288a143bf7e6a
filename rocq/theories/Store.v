(** Storage: the io.ReadWriteSeeker under the page file. Two implementations
    exist in the repository, the in-memory test buffer (pkg/buftest/buffer.go)
    and the memory mapped file (pkg/mmap/mmap.go); both are modelled. *)
From Verif Require Import Base.

Inductive rws_kind := KBuf | KMmap.

(** The state of an open index file: the storage ([file], [pos]) and the
    in-memory fields of PageFile (pkg/pagefile/pagefile.go:24-34).
    - [file]: SeekableBuffer.buf (pkg/buftest/buffer.go:12), or the content of
      the mapped file, MemoryMappedFile.bytes (pkg/mmap/mmap.go:14); the mapping
      and the file are taken to be coherent (MAP_SHARED).
    - [pos]: SeekableBuffer.pos / MemoryMappedFile.seek.
    - [budget]: not in the code. [Some k] means that the process dies when it
      attempts its (k+1)-th physical write; [None] means it does not die.
    - [ring], [fhead], [fcount]: freePageIndexes, freePageHead, freePageCount.
    - [lastPage]: lastPage. *)
Record st := mkSt {
  kind : rws_kind;
  file : bytes;
  pos : Z;
  budget : option nat;
  ring : list Z;
  fhead : Z;
  fcount : Z;
  lastPage : Z
}.
Definition set_pos (s : st) (p : Z) : st :=
  mkSt (kind s) (file s) p (budget s) (ring s) (fhead s) (fcount s) (lastPage s).
Definition set_file (s : st) (f : bytes) : st :=
  mkSt (kind s) f (pos s) (budget s) (ring s) (fhead s) (fcount s) (lastPage s).
Definition set_budget (s : st) (b : option nat) : st :=
  mkSt (kind s) (file s) (pos s) b (ring s) (fhead s) (fcount s) (lastPage s).
Definition set_free (s : st) (r : list Z) (h c : Z) : st :=
  mkSt (kind s) (file s) (pos s) (budget s) r h c (lastPage s).
Definition set_lastPage (s : st) (n : Z) : st :=
  mkSt (kind s) (file s) (pos s) (budget s) (ring s) (fhead s) (fcount s) n.
(** storage freshly opened on [f] (pkg/buftest/buffer.go:16-18,
    pkg/mmap/mmap.go:34-48); the page file fields are not yet initialised *)
Definition open_rws (k : rws_kind) (f : bytes) : st :=
  mkSt k f 0 None (repeat 0 512) 0 0 0.

(** ** Model *)

(** int64(x) of a uint64 x *)
Definition s64 (x : Z) : Z := if x <? 2^63 then x else x - 2^64.

(** Seek(0..) to an absolute position: the common end of
    pkg/buftest/buffer.go:33-49 (clamps to [0, len]) and
    pkg/mmap/mmap.go:96-102 (refuses positions out of bounds) *)
Definition seek_abs (a : Z) : M st Z := fun s =>
  match kind s with
  | KBuf =>
      let p := if a <? 0 then 0 else a in
      let p := if zlen (file s) <? p then zlen (file s) else p in
      (Ok p, set_pos s p)
  | KMmap =>
      if a <? 0 then (Err (EMsg "mmap: negative position"), s)
      else if zlen (file s) <? a then (Err (EMsg "mmap: position out of bounds"), s)
      else (Ok a, set_pos s a)
  end.
(** Seek(o, io.SeekStart): pkg/buftest/buffer.go:35-36, pkg/mmap/mmap.go:87-88 *)
Definition seek_start (o : Z) : M st Z := seek_abs o.
(** Seek(0, io.SeekCurrent): pkg/buftest/buffer.go:37-38, pkg/mmap/mmap.go:89-90 *)
Definition seek_cur : M st Z := fun s => seek_abs (pos s) s.
(** Seek(0, io.SeekEnd): pkg/buftest/buffer.go:39-40, pkg/mmap/mmap.go:91-92 *)
Definition seek_end : M st Z := fun s => seek_abs (zlen (file s)) s.

(** Read(p) with len(p) = l: the bytes copied and the returned error.
    pkg/buftest/buffer.go:51-58 (a short read is not an error),
    pkg/mmap/mmap.go:106-113 (a short read returns io.EOF; slicing past the end panics) *)
Definition rws_read (l : Z) : M st (bytes * option err) := fun s =>
  match kind s with
  | KBuf =>
      if zlen (file s) <=? pos s then (Ok ([], Some EEof), s)
      else let d := slice (file s) (pos s) l in
           (Ok (d, None), set_pos s (pos s + zlen d))
  | KMmap =>
      if zlen (file s) <? pos s then (Panic, s)
      else let d := slice (file s) (pos s) l in
           (Ok (d, if zlen d <? l then Some EEof else None), set_pos s (pos s + zlen d))
  end.

(** Write(b), returning the reported count.
    pkg/buftest/buffer.go:24-31; pkg/mmap/mmap.go:125-163: a write that grows a
    non-empty mapping returns the length of the new mapping, because [b] is
    shadowed at mmap.go:153, and the position advances by that count.
    os.File.WriteAt beyond the end leaves a hole of zeros, and writes nothing if
    [b] is empty. *)
Definition rws_write (b : bytes) : M st Z := fun s =>
  match budget s with
  | Some O => (Crash, s)
  | bu =>
      let s := set_budget s (match bu with Some (S k) => Some k | x => x end) in
      let len := zlen (file s) in
      match kind s with
      | KBuf =>
          if len <? pos s then (Panic, s)
          else (Ok (zlen b), set_pos (set_file s (upd (file s) (pos s) b)) (pos s + zlen b))
      | KMmap =>
          if len <? pos s + zlen b then
            let f' := match b with [] => file s | _ => upd (file s ++ zeros (pos s - len)) (pos s) b end in
            let n := if len =? 0 then zlen b else zlen f' in
            (Ok n, set_pos (set_file s f') (pos s + n))
          else (Ok (zlen b), set_pos (set_file s (upd (file s) (pos s) b)) (pos s + zlen b))
      end
  end.

(** PageFile.Read, default (non release) build: pkg/pagefile/pagefile_debug.go:18-27 *)
Definition pf_read (l : Z) : M st (bytes * option err) :=
  n <- seek_cur ;;
  if pageSize <? n mod pageSize + l then panic else rws_read l.

(** PageFile.Write, default (non release) build: pkg/pagefile/pagefile_debug.go:7-16 *)
Definition pf_write (b : bytes) : M st Z :=
  n <- seek_cur ;;
  if pageSize <? n mod pageSize + zlen b then panic else rws_write b.

(** io.ReadFull on a PageFile as done by binary.Read (Go standard library), used in
    pkg/linkedpage/linkedpage.go:91,177,185. A short first read ends in an error
    in both storages (the next Read returns io.EOF); which one is kept. *)
Definition read_full (l : Z) : M st bytes :=
  r <- pf_read l ;;
  match r with
  | (d, e) =>
      if zlen d =? l then ret d
      else if zlen d =? 0 then fail (match e with Some e => e | None => EEof end)
      else fail (EMsg "unexpected EOF")
  end.

(** ** Lemmas *)
Lemma set_pos_pos s p q : set_pos (set_pos s p) q = set_pos s q.
Proof. reflexivity. Qed.
Lemma set_pos_same s : set_pos s (pos s) = s.
Proof. destruct s; reflexivity. Qed.

Lemma seek_abs_ok s a : 0 <= a <= zlen (file s) -> seek_abs a s = (Ok a, set_pos s a).
Proof.
  intros H. unfold seek_abs. destruct (kind s).
  - destruct (Z.ltb_spec a 0); [lia|]. destruct (Z.ltb_spec (zlen (file s)) a); [lia|]. reflexivity.
  - destruct (Z.ltb_spec a 0); [lia|]. destruct (Z.ltb_spec (zlen (file s)) a); [lia|]. reflexivity.
Qed.
Lemma seek_start_ok s a : 0 <= a <= zlen (file s) -> seek_start a s = (Ok a, set_pos s a).
Proof. apply seek_abs_ok. Qed.
Lemma seek_end_ok s : seek_end s = (Ok (zlen (file s)), set_pos s (zlen (file s))).
Proof. unfold seek_end. pose proof (zlen_nonneg (file s)). apply seek_abs_ok; lia. Qed.
Lemma seek_cur_ok s : 0 <= pos s <= zlen (file s) -> seek_cur s = (Ok (pos s), s).
Proof. intros; unfold seek_cur. rewrite seek_abs_ok by lia. rewrite set_pos_same; reflexivity. Qed.

Lemma rws_read_ok s l : 0 <= pos s -> 0 < l -> pos s + l <= zlen (file s) ->
  rws_read l s = (Ok (slice (file s) (pos s) l, None), set_pos s (pos s + l)).
Proof.
  intros. unfold rws_read. rewrite !zlen_slice by lia. destruct (kind s).
  - destruct (Z.leb_spec (zlen (file s)) (pos s)); [lia|]. reflexivity.
  - destruct (Z.ltb_spec (zlen (file s)) (pos s)); [lia|].
    destruct (Z.ltb_spec l l); [lia|]. reflexivity.
Qed.

Lemma rws_write_ok s b : budget s = None -> 0 <= pos s <= zlen (file s) ->
  exists n p, rws_write b s = (Ok n, set_pos (set_file s (upd (file s) (pos s) b)) p).
Proof.
  intros Hb H. unfold rws_write. rewrite Hb.
  replace (set_budget s None) with s by (destruct s; cbn in *; subst; reflexivity).
  destruct (kind s).
  - destruct (Z.ltb_spec (zlen (file s)) (pos s)); [lia|]. eauto.
  - destruct (Z.ltb_spec (zlen (file s)) (pos s + zlen b)); [|eauto].
    destruct b as [|x b]; [change (zlen (@nil Z)) with 0 in *; lia|].
    replace (zeros (pos s - zlen (file s))) with (@nil Z).
    + rewrite app_nil_r. eauto.
    + unfold zeros. replace (Z.to_nat (pos s - zlen (file s))) with 0%nat by lia. reflexivity.
Qed.

Lemma pf_read_ok s l : 0 <= pos s -> 0 < l -> pos s + l <= zlen (file s) ->
  pos s mod pageSize + l <= pageSize ->
  pf_read l s = (Ok (slice (file s) (pos s) l, None), set_pos s (pos s + l)).
Proof.
  intros. unfold pf_read. rewrite (@bind_ok _ _ _ _ _ _ (pos s) s).
  2:{ apply seek_cur_ok; lia. }
  destruct (Z.ltb_spec pageSize (pos s mod pageSize + l)); [lia|].
  apply rws_read_ok; lia.
Qed.
Lemma pf_write_ok s b : budget s = None -> 0 <= pos s <= zlen (file s) ->
  pos s mod pageSize + zlen b <= pageSize ->
  exists n p, pf_write b s = (Ok n, set_pos (set_file s (upd (file s) (pos s) b)) p).
Proof.
  intros Hb H Hp. unfold pf_write. rewrite (@bind_ok _ _ _ _ _ _ (pos s) s).
  2:{ apply seek_cur_ok; lia. }
  destruct (Z.ltb_spec pageSize (pos s mod pageSize + zlen b)); [lia|].
  apply rws_write_ok; auto.
Qed.
Lemma read_full_ok s l : 0 <= pos s -> 0 < l -> pos s + l <= zlen (file s) ->
  pos s mod pageSize + l <= pageSize ->
  read_full l s = (Ok (slice (file s) (pos s) l), set_pos s (pos s + l)).
Proof.
  intros. unfold read_full.
  rewrite (@bind_ok _ _ _ _ _ _ _ _ (@pf_read_ok s l ltac:(lia) ltac:(lia) ltac:(lia) ltac:(lia))).
  rewrite zlen_slice by lia. rewrite Z.eqb_refl. reflexivity.
Qed.
(** seek then read / write *)
Lemma seek_read_full s o l : 0 <= o -> 0 < l -> o + l <= zlen (file s) ->
  o mod pageSize + l <= pageSize ->
  exists p, (seek_start o ;;; read_full l) s = (Ok (slice (file s) o l), set_pos s p).
Proof.
  intros. exists (o + l).
  rewrite (@bind_ok _ _ _ _ _ _ _ _ (@seek_start_ok s o ltac:(lia))).
  rewrite read_full_ok by (cbn; lia). reflexivity.
Qed.
Lemma seek_pf_write s o b : budget s = None -> 0 <= o <= zlen (file s) ->
  o mod pageSize + zlen b <= pageSize ->
  exists n p, (seek_start o ;;; pf_write b) s = (Ok n, set_pos (set_file s (upd (file s) o b)) p).
Proof.
  intros Hb Ho Hp.
  rewrite (@bind_ok _ _ _ _ _ _ _ _ (@seek_start_ok s o ltac:(lia))).
  destruct (@pf_write_ok (set_pos s o) b) as (n & p & E); try (cbn; auto; fail).
  exists n, p. rewrite E. reflexivity.
Qed.
