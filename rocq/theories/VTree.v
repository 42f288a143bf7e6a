(** pkg/btree: the tree that stores one vector per id. *)
From Verif Require Import Base Varint Store PageFile RefValue Node LinkedPage BPTree.

(** ** Model *)

(** ReferencedId: pkg/pointer/referenced_value.go:22-25; hnsw.Id is a 64 bit uint
    (pkg/hnsw/hnsw.go:9) *)
Record vid := VID { vi_dp : mptr; vi_val : Z }.
(** hnsw.Point, a []float32 (pkg/hnsw/friends.go:10). A float32 is represented by
    its 32 bits: [math.Float32bits] is the identity of the model. *)
Definition vec := list Z.
(** BTreeNode: pkg/btree/node.go:13-20. Width is always 0 and never used. *)
Record vnode := VN { vids : list vid; vvecs : list vec; voffs : list Z; vdim : Z }.

(** CompareReferencedIds: pkg/pointer/referenced_value.go:50-58 *)
Definition vid_cmp (a b : vid) : Z :=
  if vi_val b <? vi_val a then 1 else if vi_val a <? vi_val b then -1 else 0.
(** slices.BinarySearchFunc(ids, key, CompareReferencedIds) *)
(** slices.BinarySearchFunc(ids, key, CompareReferencedIds): pkg/btree/btree.go:63-90 *)
Definition vbsearch (l : list vid) (k : vid) : nat * bool := bsearch_by vid_cmp l k.

(** Leaf(): pkg/btree/node.go:45-47 *)
Definition vleaf (n : vnode) : bool := match voffs n with [] => true | _ => false end.
(** Size(): pkg/btree/node.go:22-43; it panics if VectorDim is 0, see [vmarshal] and [vins_loop] *)
Definition vid_size (k : vid) : Z :=
  size_varint (mp_off (vi_dp k)) + size_varint (mp_len (vi_dp k)) + size_varint (vi_val k).
(** Size(): pkg/btree/node.go:22-43 *)
Definition vsize (n : vnode) : Z :=
  4 + zsum (map vid_size (vids n)) + zsum (map size_varint (voffs n)) + size_varint (vdim n) +
  zlen (vvecs n) * (4 * vdim n).

(** the bytes written by MarshalBinary: pkg/btree/node.go:58-85 *)
Definition enc_vid (k : vid) : bytes :=
  put_uvarint (mp_off (vi_dp k)) ++ put_uvarint (mp_len (vi_dp k)) ++ put_uvarint (vi_val k).
(** a vector: pkg/btree/node.go:49-92 *)
Definition enc_vec (v : vec) : bytes := concat (map (le 4) v).
(** MarshalBinary(): pkg/btree/node.go:49-92 *)
Definition venc (n : vnode) : bytes :=
  le 4 ((if vleaf n then - zlen (vids n) else zlen (vids n)) mod 2^32) ++
  concat (map enc_vid (vids n)) ++ concat (map put_uvarint (voffs n)) ++
  put_uvarint (vdim n) ++ concat (map enc_vec (vvecs n)).
(** MarshalBinary(): pkg/btree/node.go:49-92. No ids: panic. VectorDim 0: Size
    panics. More bytes than Size(): index panic. Fewer: "size mismatch" panic. *)
Definition vmarshal (n : vnode) : res bytes :=
  match vids n with
  | [] => Panic
  | _ => if vdim n =? 0 then Panic
         else if zlen (venc n) =? vsize n then Ok (venc n) else Panic
  end.

(** The Go conversion float32(u) of a uint32 [u]: the float32 nearest to the
    integer [u], ties to even. The result is given as the 32 bits of that float. *)
Definition f32_of_uint (u : Z) : Z :=
  if u =? 0 then 0
  else
    let e := Z.log2 u in
    let mant :=
      if e <=? 23 then u * 2^(23 - e)
      else
        let q := u / 2^(e - 23) in
        let r := u mod 2^(e - 23) in
        let half := 2^(e - 24) in
        if r <? half then q else if half <? r then q + 1
        else if Z.even q then q else q + 1 in
    (127 + e) * 2^23 + (mant - 2^23).

(** the loops of UnmarshalBinary: pkg/btree/node.go:114-126 (ids), 136-149 (vectors);
    the offsets loop 128-134 is [read_iptrs] *)
Fixpoint read_vids (n : nat) (buf : bytes) (m : Z) : res (list vid * Z) :=
  match n with
  | O => Ok ([], m)
  | S n' =>
      a <-- get_uvarint buf m ;;;
      let '(o, on) := a in
      b <-- get_uvarint buf (m + on) ;;;
      let '(l, ln) := b in
      let m := m + (on + ln) in
      v <-- get_uvarint buf m ;;;
      let '(x, vn) := v in
      rest <-- read_vids n' buf (m + vn) ;;;
      let '(ks, m) := rest in
      Ok (VID (MP o (l mod 2^32)) x :: ks, m)
  end.
(** one vector: pkg/btree/node.go:141-146. Line 144 converts the stored 32 bits as
    an integer; [binary.LittleEndian.Uint32] needs four bytes. *)
Fixpoint read_vec (n : nat) (buf : bytes) (m : Z) : res (vec * Z) :=
  match n with
  | O => Ok ([], m)
  | S n' =>
      if (m <? 0) || (zlen buf <? m + 4) then Panic
      else
        rest <-- read_vec n' buf (m + 4) ;;;
        let '(v, m') := rest in
        Ok (f32_of_uint (unle (slice buf m 4)) :: v, m')
  end.
(** the vectors of a node: pkg/btree/node.go:94-152 *)
Fixpoint read_vecs (n : nat) (d : nat) (buf : bytes) (m : Z) : res (list vec * Z) :=
  match n with
  | O => Ok ([], m)
  | S n' =>
      a <-- read_vec d buf m ;;;
      let '(v, m) := a in
      rest <-- read_vecs n' d buf m ;;;
      let '(vs, m) := rest in
      Ok (v :: vs, m)
  end.
(** UnmarshalBinary(buf): pkg/btree/node.go:94-152. [make] with a count of 2^31
    panics; huge counts and dimensions otherwise only cost memory (not modelled)
    before the reads run out of bytes. *)
Definition vunmarshal (buf : bytes) : res vnode :=
  if zlen buf <? 4 then Panic
  else
    let size := s32 (unle (firstn 4 buf)) in
    if (size =? 0) || (size =? - 2^31) then Panic
    else
      let cnt := Z.to_nat (Z.abs size) in
      r <-- read_vids cnt buf 4 ;;;
      let '(ks, m) := r in
      r <-- (if size <? 0 then Ok ([], m) else read_iptrs (S cnt) buf m) ;;;
      let '(os, m) := r in
      r <-- get_uvarint buf m ;;;
      let '(d, dn) := r in
      r <-- read_vecs cnt (Z.to_nat d) buf (m + dn) ;;;
      let '(vs, _) := r in
      Ok (VN ks vs os d).

(** readNode(offset): pkg/btree/btree.go:38-55 *)
Definition vread_node (off : Z) : M st vnode :=
  seek_start (s64 off) ;;;
  r <- pf_read pageSize ;;
  match r with
  | (_, Some e) => fail e
  | (d, None) => lift (vunmarshal (pad_page d))
  end.
(** as in BPTree.v, a read only moves the storage position, and every access
    seeks first: reads are modelled as leaving the state unchanged *)
Definition vrd (s : st) (off : Z) : res vnode := fst (vread_node off s).

(** TraversalRecord: pkg/btree/btree.go:57-61 *)
Record vtrec := VTR { vtnode : vnode; vtidx : Z; vtptr : mptr }.

(** root(): pkg/btree/btree.go:24-36; unlike the B+ tree it returns the error of
    MetaPage.Root() *)
Definition vroot (rd : Z -> res vnode) (rt : res mptr) : res (option (vnode * mptr)) :=
  mp <-- rt ;;;
  if mp_len mp =? 0 then Ok None else (n <-- rd (mp_off mp) ;;; Ok (Some (n, mp))).

(** traverse(key, node, ptr): pkg/btree/btree.go:63-90, leaf first; running out
    of [fuel] is [Hang] *)
Fixpoint vtraverse (fuel : nat) (rd : Z -> res vnode) (key : vid) (n : vnode) (ptr : mptr) : res (list vtrec) :=
  match fuel with
  | O => Hang
  | S fuel' =>
      let '(i, found) := vbsearch (vids n) key in
      if vleaf n then Ok [VTR n (Z.of_nat i) ptr]
      else
        let index := Z.of_nat i + (if found then 1 else 0) in
        match znth (voffs n) index with
        | None => Panic
        | Some co =>
            child <-- rd co ;;;
            path <-- vtraverse fuel' rd key child (MP co 0) ;;;
            Ok (path ++ [VTR n index ptr])
        end
  end.

(** Seek + WriteTo: pkg/btree/btree.go:178-184, 227-232; pkg/btree/node.go:154-161 *)
Definition vwrite_node (off : Z) (n : vnode) : M st unit :=
  seek_start (s64 off) ;;;
  buf <- lift (vmarshal n) ;;
  pf_write buf ;;; ret tt.

(** the halves of a split: pkg/btree/btree.go:148-176 *)
Definition vsplit_right (d : Z) (n : vnode) (mid : nat) : vnode :=
  if vleaf n then VN (skipn mid (vids n)) (skipn mid (vvecs n)) [] d
  else VN (skipn (S mid) (vids n)) (skipn (S mid) (vvecs n)) (skipn (S mid) (voffs n)) d.
(** the left half of a split node: pkg/btree/btree.go:143-175 *)
Definition vsplit_left (n : vnode) (mid : nat) : vnode :=
  if vleaf n then VN (firstn mid (vids n)) (firstn mid (vvecs n)) [] (vdim n)
  else VN (firstn mid (vids n)) (firstn mid (vvecs n)) (firstn (S mid) (voffs n)) (vdim n).
(** the parent update: pkg/btree/btree.go:185-202 *)
Definition vparent_insert (p : vnode) (i : nat) (k : vid) (v : vec) (noff moff : Z) : vnode :=
  VN (firstn i (vids p) ++ k :: skipn i (vids p)) (firstn i (vvecs p) ++ v :: skipn i (vvecs p))
     (firstn i (voffs p) ++ noff :: moff :: skipn (S i) (voffs p)) (vdim p).

(** the upward loop of Insert: pkg/btree/btree.go:138-236. [d] is t.VectorDim. *)
Fixpoint vins_loop (d : Z) (m : lp) (tr : vtrec) (rest : list vtrec) : M st unit :=
  let n := vtnode tr in
  if vdim n =? 0 then panic
  else if pageSize <? vsize n then
    let mid := (length (vids n) / 2)%nat in
    match nth_error (vids n) mid, nth_error (vvecs n) mid with
    | Some midKey, Some midVec =>
        mbuf <- lift (vmarshal (vsplit_right d n mid)) ;;
        moffset <- new_page mbuf ;;
        let noffset := mp_off (vtptr tr) in
        vwrite_node noffset (vsplit_left n mid) ;;;
        match rest with
        | p :: rest' =>
            vins_loop d m (VTR (vparent_insert (vtnode p) (Z.to_nat (vtidx p)) midKey midVec noffset (moffset mod 2^64))
                               (vtidx p) (vtptr p)) rest'
        | [] =>
            pbuf <- lift (vmarshal (VN [midKey] [midVec] [noffset; moffset mod 2^64] d)) ;;
            poffset <- new_page pbuf ;;
            lp_set_root m (MP (poffset mod 2^64) (zlen pbuf mod 2^32))
        end
    | _, _ => panic
    end
  else vwrite_node (mp_off (vtptr tr)) n.

(** BTree.Insert(key, vector): pkg/btree/btree.go:92-238 *)
Definition vt_insert (d : Z) (m : lp) (key : vid) (v : vec) : M st unit := fun s =>
  match vroot (vrd s) (fst (lp_root m s)) with
  | Err e => (Err e, s)
  | Panic => (Panic, s) | Crash => (Crash, s) | Hang => (Hang, s)
  | Ok None =>
      (buf <- lift (vmarshal (VN [key] [v] [] d)) ;;
       offset <- new_page buf ;;
       lp_set_root m (MP (offset mod 2^64) (zlen buf mod 2^32))) s
  | Ok (Some (root, off)) =>
      match vtraverse (fuel_of s) (vrd s) key root off with
      | Err e => (Err e, s)
      | Panic => (Panic, s) | Crash => (Crash, s) | Hang => (Hang, s)
      | Ok [] => (Panic, s)
      | Ok (leaf :: rest) =>
          let n := vtnode leaf in
          let '(j, found) := vbsearch (vids n) key in
          if found then (Err (EMsg "key already exists"), s)
          else
            let n' := VN (firstn j (vids n) ++ key :: skipn j (vids n))
                         (firstn j (vvecs n) ++ v :: skipn j (vvecs n)) (voffs n) (vdim n) in
            vins_loop d m (VTR n' (vtidx leaf) (vtptr leaf)) rest s
      end
  end.

(** BTree.Find(key): pkg/btree/btree.go:240-259. An empty tree gives the zero id,
    an empty vector and no error. *)
Definition vt_find (m : lp) (key : vid) (s : st) : res (vid * vec) :=
  r <-- vroot (vrd s) (fst (lp_root m s)) ;;;
  match r with
  | None => Ok (VID (MP 0 0) 0, [])
  | Some (root, off) =>
      path <-- vtraverse (fuel_of s) (vrd s) key root off ;;;
      match path with
      | [] => Ok (VID (MP 0 0) 0, [])
      | leaf :: _ =>
          let n := vtnode leaf in
          let '(j, found) := vbsearch (vids n) key in
          if found then
            match nth_error (vids n) j, nth_error (vvecs n) j with
            | Some k, Some v => Ok (k, v)
            | _, _ => Panic
            end
          else Err (EMsg "key not found")
      end
  end.
