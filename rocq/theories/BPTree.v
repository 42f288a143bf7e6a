(** pkg/bptree/bptree.go: the B+ tree. *)
From Verif Require Import Base Varint Store PageFile RefValue Node LinkedPage.

(** ** Model *)

(** readNode(ptr): pkg/bptree/bptree.go:160-173 *)
Definition read_node (c : codec) (p : mptr) : M st node :=
  seek_start (s64 (mp_off p)) ;;;
  r <- pf_read pageSize ;;
  match r with
  | (_, Some e) => fail e
  | (d, None) => lift (unmarshal c (pad_page d))
  end.

(** The reading half of the tree is written over a function [rd] that gives the
    outcome of readNode for each pointer, so that the TypeScript reader can share
    it. In Go, readNode only moves the storage position, and every access of
    bptree.go and linkedpage.go seeks first; so reads are modelled as leaving
    the state unchanged. *)
Definition go_rd (c : codec) (s : st) (p : mptr) : res node := fst (read_node c p s).

(** TraversalRecord: pkg/bptree/bptree.go:36-41 *)
Record trec := TR { tnode : node; tidx : Z; tptr : mptr }.

(** root(): pkg/bptree/bptree.go:24-34. An error of MetaPage.Root() is swallowed
    and looks like an empty tree. *)
Definition bp_root (rd : mptr -> res node) (rt : res mptr) : res (option (node * mptr)) :=
  match rt with
  | Ok mp => if mp_len mp =? 0 then Ok None else (n <-- rd mp ;;; Ok (Some (n, mp)))
  | Err _ => Ok None
  | Panic => Panic
  | Crash => Crash
  | Hang => Hang
  end.

(** traverse(key, node, ptr): pkg/bptree/bptree.go:225-250; the path is returned
    leaf first. The recursion is unbounded in the code: running out of [fuel]
    is [Hang]. *)
Fixpoint traverse (fuel : nat) (rd : mptr -> res node) (key : rv) (n : node) (ptr : mptr) : res (list trec) :=
  match fuel with
  | O => Hang
  | S fuel' =>
      let '(i, found) := bsearch (keys n) key in
      if is_leaf n then Ok [TR n (Z.of_nat i) ptr]
      else
        let index := Z.of_nat i + (if found then 1 else 0) in
        match node_pointer n index with
        | None => Panic
        | Some cp =>
            child <-- rd cp ;;;
            path <-- traverse fuel' rd key child cp ;;;
            Ok (path ++ [TR n index ptr])
        end
  end.

(** incr(i, delta) on the records from level i up: pkg/bptree/bptree.go:81-110.
    Returns the answer, the updated records and the error stored in the iterator. *)
Fixpoint incr (rd : mptr -> res node) (recs : list trec) (delta : Z) : res (bool * list trec * option err) :=
  match recs with
  | [] => Ok (false, [], None)
  | r :: rest =>
      let index := tidx r + delta in
      let rolloverLeft := index <? 0 in
      let rolloverRight := num_pointers (tnode r) <=? index in
      if rolloverLeft || rolloverRight then
        a <-- incr rd rest delta ;;;
        match a with
        | (false, rest', e) => Ok (false, TR (tnode r) index (tptr r) :: rest', e)
        | (true, rest', e) =>
            match rest' with
            | [] => Panic
            | q :: _ =>
                match node_pointer (tnode q) (tidx q) with
                | None => Panic
                | Some p =>
                    match rd p with
                    | Ok n => Ok (true, TR n (if rolloverLeft then num_pointers n - 1 else 0) (tptr r) :: rest', e)
                    | Err e' => Ok (false, TR (tnode r) index (tptr r) :: rest', Some e')
                    | Panic => Panic
                    | Crash => Crash
                    | Hang => Hang
                    end
                end
            end
        end
      else Ok (true, TR (tnode r) index (tptr r) :: rest, None)
  end.

(** TraversalIterator: pkg/bptree/bptree.go:43-48; [None] is a nil slice *)
Record iter := Iter { it_key : rv; it_recs : option (list trec); it_err : option err }.
(** Iter(key): pkg/bptree/bptree.go:136-138 *)
Definition bp_iter (key : rv) : iter := Iter key None None.

(** init(): pkg/bptree/bptree.go:58-77 *)
Definition it_init (fuel : nat) (rd : mptr -> res node) (rt : res mptr) (it : iter) : res (bool * iter) :=
  match bp_root rd rt with
  | Err e => Ok (false, Iter (it_key it) (it_recs it) (Some e))
  | Ok None => Ok (false, it)
  | Ok (Some (root, off)) =>
      match traverse fuel rd (it_key it) root off with
      | Ok path => Ok (true, Iter (it_key it) (Some path) (it_err it))
      | Err e => Ok (false, Iter (it_key it) (it_recs it) (Some e))
      | Panic => Panic | Crash => Crash | Hang => Hang
      end
  | Panic => Panic | Crash => Crash | Hang => Hang
  end.
(** incr on the records of an iterator: pkg/bptree/bptree.go:81-110 *)
Definition it_incr (rd : mptr -> res node) (it : iter) (recs : list trec) (delta : Z) : res (bool * iter) :=
  a <-- incr rd recs delta ;;;
  match a with
  | (b, recs', e) => Ok (b, Iter (it_key it) (Some recs') (match e with Some _ => e | None => it_err it end))
  end.
(** Next(): pkg/bptree/bptree.go:112-119 *)
Definition it_next (fuel : nat) (rd : mptr -> res node) (rt : res mptr) (it : iter) : res (bool * iter) :=
  match it_recs it with
  | None =>
      a <-- it_init fuel rd rt it ;;;
      match a with
      | (false, it') => Ok (false, it')
      | (true, it') =>
          match it_recs it' with
          | Some (r :: _) => Ok (negb (tidx r =? num_pointers (tnode r)), it')
          | _ => Panic
          end
      end
  | Some recs => it_incr rd it recs 1
  end.
(** Prev(): pkg/bptree/bptree.go:121-130 *)
Definition it_prev (fuel : nat) (rd : mptr -> res node) (rt : res mptr) (it : iter) : res (bool * iter) :=
  match it_recs it with
  | None =>
      a <-- it_init fuel rd rt it ;;;
      match a with
      | (false, it') => Ok (false, it')
      | (true, it') =>
          match it_recs it' with
          | Some recs => it_incr rd it' recs (-1)
          | None => Panic
          end
      end
  | Some recs => it_incr rd it recs (-1)
  end.
(** Key(), Pointer(): pkg/bptree/bptree.go:50-56; index out of range panics *)
Definition it_get (it : iter) : res (rv * mptr) :=
  match it_recs it with
  | Some (r :: _) =>
      match znth (keys (tnode r)) (tidx r), node_pointer (tnode r) (tidx r) with
      | Some k, Some p => Ok (k, p)
      | _, _ => Panic
      end
  | _ => Panic
  end.

(** Find(key): pkg/bptree/bptree.go:140-149 *)
Definition bp_find (fuel : nat) (rd : mptr -> res node) (rt : res mptr) (key : rv) : res (rv * mptr) :=
  a <-- it_next fuel rd rt (bp_iter key) ;;;
  match a with
  | (false, it) => match it_err it with Some e => Err e | None => Ok (RV (MP 0 0) [], MP 0 0) end
  | (true, it) => it_get it
  end.
(** Contains(key): pkg/bptree/bptree.go:151-158 *)
Definition bp_contains (fuel : nat) (rd : mptr -> res node) (rt : res mptr) (key : rv) : res bool :=
  a <-- bp_find fuel rd rt key ;;;
  match a with (k, _) => Ok (if list_eq_dec Z.eq_dec (rv_val k) (rv_val key) then true else false) end.

(** the descent loops of first() and last(): pkg/bptree/bptree.go:175-221 *)
Fixpoint descend (fuel : nat) (rd : mptr -> res node) (left : bool) (n : node) : res node :=
  match fuel with
  | O => Hang
  | S fuel' =>
      if is_leaf n then Ok n
      else match node_pointer n (if left then 0 else num_pointers n - 1) with
           | None => Panic
           | Some p => n <-- rd p ;;; descend fuel' rd left n
           end
  end.
(** first(): pkg/bptree/bptree.go:175-197, last(): 199-221. The root's pointer is
    always followed, even if the root is a leaf; a nil root panics. *)
Definition bp_edge (fuel : nat) (rd : mptr -> res node) (rt : res mptr) (left : bool) : res rv :=
  r <-- bp_root rd rt ;;;
  match r with
  | None => Panic
  | Some (root, _) =>
      match node_pointer root (if left then 0 else num_pointers root - 1) with
      | None => Panic
      | Some p =>
          n <-- rd p ;;;
          n <-- descend fuel rd left n ;;;
          match znth (keys n) (if left then 0 else zlen (keys n) - 1) with Some k => Ok k | None => Panic end
      end
  end.

(** depth beyond which a descent has revisited a page *)
Definition fuel_of (s : st) : nat := S (length (file s)).

(** the public operations on a tree whose meta page is slot [m] *)
(** Find(key): pkg/bptree/bptree.go:140-149 *)
Definition go_find (c : codec) (m : lp) (key : rv) (s : st) : res (rv * mptr) :=
  bp_find (fuel_of s) (go_rd c s) (fst (lp_root m s)) key.
(** Contains(key): pkg/bptree/bptree.go:151-158 *)
Definition go_contains (c : codec) (m : lp) (key : rv) (s : st) : res bool :=
  bp_contains (fuel_of s) (go_rd c s) (fst (lp_root m s)) key.
(** Next(): pkg/bptree/bptree.go:112-119 *)
Definition go_next (c : codec) (m : lp) (s : st) (it : iter) : res (bool * iter) :=
  it_next (fuel_of s) (go_rd c s) (fst (lp_root m s)) it.
(** Prev(): pkg/bptree/bptree.go:121-130 *)
Definition go_prev (c : codec) (m : lp) (s : st) (it : iter) : res (bool * iter) :=
  it_prev (fuel_of s) (go_rd c s) (fst (lp_root m s)) it.

(** Seek + WriteTo: pkg/bptree/bptree.go:340-346, 384-390; pkg/bptree/node.go:108-115 *)
Definition write_node (c : codec) (off : Z) (n : node) : M st unit :=
  seek_start (s64 off) ;;;
  buf <- lift (marshal (cwidth c) n) ;;
  pf_write buf ;;; ret tt.

(** the two halves of a split: pkg/bptree/bptree.go:313-338 *)
Definition split_right (n : node) (mid : nat) : node :=
  if is_leaf n then mkNode (skipn mid (keys n)) (skipn mid (lptrs n)) []
  else mkNode (skipn (S mid) (keys n)) [] (skipn (S mid) (iptrs n)).
(** the left half of a split node: pkg/bptree/bptree.go:332-338 *)
Definition split_left (n : node) (mid : nat) : node :=
  if is_leaf n then mkNode (firstn mid (keys n)) (firstn mid (lptrs n)) []
  else mkNode (firstn mid (keys n)) [] (firstn (S mid) (iptrs n)).
(** the parent update: pkg/bptree/bptree.go:348-361. The index is in range
    because traverse followed that pointer. Go's append on overlapping slices
    is a memmove, so it inserts. *)
Definition parent_insert (p : node) (i : nat) (k : rv) (noff moff : Z) : node :=
  mkNode (firstn i (keys p) ++ k :: skipn i (keys p)) (lptrs p)
         (firstn i (iptrs p) ++ noff :: moff :: skipn (S i) (iptrs p)).

(** the upward loop of Insert: pkg/bptree/bptree.go:303-395 *)
Fixpoint ins_loop (c : codec) (m : lp) (tr : trec) (rest : list trec) : M st unit :=
  let n := tnode tr in
  if pageSize <? node_size (cwidth c) n then
    let mid := (length (keys n) / 2)%nat in
    match nth_error (keys n) mid with
    | None => panic
    | Some midKey =>
        mbuf <- lift (marshal (cwidth c) (split_right n mid)) ;;
        moffset <- new_page mbuf ;;
        let noffset := mp_off (tptr tr) in
        write_node c noffset (split_left n mid) ;;;
        match rest with
        | p :: rest' =>
            ins_loop c m (TR (parent_insert (tnode p) (Z.to_nat (tidx p)) midKey noffset (moffset mod 2^64))
                             (tidx p) (tptr p)) rest'
        | [] =>
            pbuf <- lift (marshal (cwidth c) (mkNode [midKey] [] [noffset; moffset mod 2^64])) ;;
            poffset <- new_page pbuf ;;
            lp_set_root m (MP (poffset mod 2^64) (zlen pbuf mod 2^32))
        end
    end
  else write_node c (mp_off (tptr tr)) n.

(** Insert(key, value): pkg/bptree/bptree.go:252-396 *)
Definition bp_insert (c : codec) (m : lp) (key : rv) (value : mptr) : M st unit := fun s =>
  if negb (cwidth c =? 0) && negb (zlen (rv_val key) mod 2^16 =? (cwidth c - 1) mod 2^16)
  then (Err (EMsg "key does not match with BPTree width"), s)
  else
    match bp_root (go_rd c s) (fst (lp_root m s)) with
    | Err e => (Err e, s)
    | Panic => (Panic, s) | Crash => (Crash, s) | Hang => (Hang, s)
    | Ok None =>
        (buf <- lift (marshal (cwidth c) (mkNode [key] [value] [])) ;;
         offset <- new_page buf ;;
         lp_set_root m (MP (offset mod 2^64) (zlen buf mod 2^32))) s
    | Ok (Some (root, off)) =>
        match traverse (fuel_of s) (go_rd c s) key root off with
        | Err e => (Err e, s)
        | Panic => (Panic, s) | Crash => (Crash, s) | Hang => (Hang, s)
        | Ok [] => (Panic, s)
        | Ok (leaf :: rest) =>
            let n := tnode leaf in
            let '(j, found) := bsearch (keys n) key in
            if found then (Err (EMsg "key already exists"), s)
            else
              let n' := mkNode (firstn j (keys n) ++ key :: skipn j (keys n))
                               (firstn j (lptrs n) ++ value :: skipn j (lptrs n)) (iptrs n) in
              ins_loop c m (TR n' (tidx leaf) (tptr leaf)) rest s
        end
    end.
