(** The vector index graph (pkg/hnsw/hnsw.go, pkg/hnsw/friends.go).

    The coordinates are an abstract type with the three float32 operations the
    code uses and a rank (see Heap.v; the square root at the end of
    EuclidDistance is monotone and is part of the rank). Random levels are
    arguments. An id is a position in the slice of points. *)
From Verif Require Import Base Cells Heap.
Local Open Scope Z_scope.

Section Graph.
Variables (F : Type) (fzero : F) (fsub fadd fmul : F -> F -> F) (rank : F -> Z).
(** Point: pkg/hnsw/friends.go:10 *)
Definition point := list F.
(** EuclidDistance(p0, p1): pkg/hnsw/friends.go:107-116; a shorter p1 is an index panic *)
Fixpoint euclid_sum (sum : F) (p0 p1 : point) : res F :=
  match p0, p1 with
  | [], _ => Ok sum
  | a :: p0, b :: p1 => let delta := fsub a b in euclid_sum (fadd sum (fmul delta delta)) p0 p1
  | _ :: _, [] => Panic
  end.
(** EuclidDistance: pkg/hnsw/friends.go:107-116 *)
Definition euclid (p0 p1 : point) : res Z := rbind (euclid_sum fzero p0 p1) (fun s => Ok (rank s)).
(** Friends{friends, maxLevels}: pkg/hnsw/friends.go:12-15 *)
Record friends := FR { levels : list heap; max_levels : Z -> option nat }.
(** NewFriends(topLevel): pkg/hnsw/friends.go:18-29 *)
Definition new_friends (topLevel : nat) : friends := FR (repeat new_heap (S topLevel)) (fun _ => None).
(** TopLevel(), HasLevel(level): pkg/hnsw/friends.go:35-45; levels are not negative in the model *)
Definition top_level (f : friends) : nat := length (levels f) - 1.
(** HasLevel(level): pkg/hnsw/friends.go:39-45 *)
Definition has_level (f : friends) (level : nat) : bool := (level <? length (levels f))%nat.
(** InsertFriendsAtLevel(level, friendId, dist): pkg/hnsw/friends.go:48-58 *)
Fixpoint insert_upto (n : nat) (l : list heap) (id dist : Z) : list heap :=
  match n, l with
  | S n, h :: l => hinsert h id dist :: insert_upto n l id dist
  | _, _ => l
  end.
(** InsertFriendsAtLevel: pkg/hnsw/friends.go:48-58 *)
Definition insert_friend (f : friends) (level : nat) (id dist : Z) : res friends :=
  if negb (has_level f level) then Panic
  else Ok (FR (insert_upto (S level) (levels f) id dist) (set_v (max_levels f) id (Some level))).
(** GetFriendsAtLevel(level): pkg/hnsw/friends.go:60-66 *)
Definition get_friends (f : friends) (level : nat) : res heap :=
  if negb (has_level f level) then Err (EMsg "failed to get friends at level")
  else Ok (nth level (levels f) new_heap).
(** Hnsw: pkg/hnsw/hnsw.go:13-28; the map friends has exactly the ids of points as keys
    and is a list indexed by id *)
Record hnsw := HN { dim : nat; entry : Z; points : list point; fr : list friends; ef : Z; bigM : Z }.
(** NewHnsw(d, efConstruction, M, entryPoint): pkg/hnsw/hnsw.go:40-62 *)
Definition new_hnsw (d : nat) (efc m : Z) (p : point) : res hnsw :=
  if (d =? 0)%nat || negb (length p =? d)%nat then Panic else Ok (HN d 0 [p] [new_friends 0] efc m).
(** h.friends[id], h.points[id]; a missing key is a nil pointer, which panics when used *)
Definition friends_of (h : hnsw) (id : Z) : res friends := match nth_error (fr h) (Z.to_nat id) with Some f => Ok f | None => Panic end.
Definition point_of (h : hnsw) (id : Z) : res point := match nth_error (points h) (Z.to_nat id) with Some p => Ok p | None => Panic end.
Definition set_friends (h : hnsw) (id : Z) (f : friends) : hnsw := HN (dim h) (entry h) (points h) (lset (fr h) (Z.to_nat id) f) (ef h) (bigM h).

(** the loop over the friends of a candidate in searchLevel: pkg/hnsw/hnsw.go:104-129 *)
Record search := SR { seen : list bool; cand : heap; found : heap }.
(** the loop over the friends of a candidate: pkg/hnsw/hnsw.go:104-129 *)
Fixpoint search_friends (h : hnsw) (q : point) (num : Z) (its : list item) (s : search) : res search :=
  match its with
  | [] => Ok s
  | (fid, _) :: its =>
      match nth_error (seen s) (Z.to_nat fid) with
      | None => Panic
      | Some true => search_friends h q num its s
      | Some false =>
          let seen' := lset (seen s) (Z.to_nat fid) true in
          match peek_max (found s) with
          | None => Err (EMsg "Empty Heap")
          | Some furthest =>
              p <-- point_of h fid;;; d <-- euclid p q;;;
              if (d <? snd furthest) || (Z.of_nat (hlen (found s)) <? num) then
                let cand' := hinsert (cand s) fid d in
                let found' := hinsert (found s) fid d in
                if num <? Z.of_nat (hlen found') then
                  match pop_max found' with
                  | None => Err (EMsg "Empty Heap")
                  | Some (_, found') => search_friends h q num its (SR seen' cand' found')
                  end
                else search_friends h q num its (SR seen' cand' found')
              else search_friends h q num its (SR seen' (cand s) (found s))
          end
      end
  end.
(** the outer loop: pkg/hnsw/hnsw.go:82-131 *)
Fixpoint search_loop (fuel : nat) (h : hnsw) (q : point) (num : Z) (level : nat) (s : search) : res heap :=
  match fuel with
  | O => Hang
  | S fuel =>
      match pop_min (cand s) with
      | None => Ok (found s)
      | Some (closest, cand') =>
          match peek_max (found s) with
          | None => Err (EMsg "Empty Heap")
          | Some furthest =>
              if snd furthest <? snd closest then Ok (found s)
              else
                f <-- friends_of h (fst closest);;; hp <-- get_friends f level;;;
                s' <-- search_friends h q num (items hp) (SR (seen s) cand' (found s));;;
                search_loop fuel h q num level s'
          end
      end
  end.
(** searchLevel(q, entryItem, num, level): pkg/hnsw/hnsw.go:72-134. Every round
    pops a candidate and every candidate was marked in visited when it was
    added, so the rounds are fewer than points + 3; [Hang] is shown unreachable. *)
Definition search_level (h : hnsw) (q : point) (e : item) (num : Z) (level : nat) : res heap :=
  search_loop (length (points h) + 3) h q num level
    (SR (repeat false (length (fr h) + 1)) (hinsert new_heap (fst e) (snd e)) (hinsert new_heap (fst e) (snd e))).
(** the loop of findCloserEntryPoint: pkg/hnsw/hnsw.go:145-162; an error is a panic.
    [k] is the number of levels still to do, [level] the current one. *)
Definition as_panic {A} (r : res A) : res A := match r with Err _ => Panic | r => r end.
(** the loop of findCloserEntryPoint: pkg/hnsw/hnsw.go:136-165 *)
Fixpoint closer_loop (k : nat) (h : hnsw) (q : point) (ep : item) (level : nat) : res item :=
  match k with
  | O => Ok ep
  | S k =>
      nn <-- as_panic (search_level h q ep 1 level);;;
      if (hlen nn =? 0)%nat then Ok ep else
      match pop_min nn with
      | None => Panic
      | Some (ep, _) => closer_loop k h q ep (level - 1)
      end
  end.
(** findCloserEntryPoint(q, qFriends): pkg/hnsw/hnsw.go:136-165; the levels are
    TopLevel(entry), ..., qTop + 2 *)
Definition find_closer (h : hnsw) (q : point) (qTop : nat) : res item :=
  f <-- friends_of h (entry h);;; p <-- point_of h (entry h);;; d <-- euclid p q;;;
  closer_loop (top_level f - (qTop + 1)) h q (entry h, d) (top_level f).
(** selectNeighbors(nearestNeighbors): pkg/hnsw/hnsw.go:167-185; the result and the heap it popped from *)
Fixpoint pop_n (n : nat) (h : heap) : res (list item * heap) :=
  match n with
  | O => Ok ([], h)
  | S n => match pop_min h with None => Err (EMsg "Empty Heap") | Some (x, h) => r <-- pop_n n h;;; Ok (x :: fst r, snd r) end
  end.
(** selectNeighbors: pkg/hnsw/hnsw.go:167-185 *)
Definition select_neighbors (h : hnsw) (nn : heap) : res (list item * heap) :=
  if Z.of_nat (hlen nn) <=? bigM h then Ok (items nn, nn)
  else if bigM h <? 0 then Panic else pop_n (Z.to_nat (bigM h)) nn.
(** linking q with its neighbours: pkg/hnsw/hnsw.go:219-225 *)
Fixpoint link (h : hnsw) (q : point) (qId : Z) (level : nat) (ns : list item) : res hnsw :=
  match ns with
  | [] => Ok h
  | (n, _) :: ns =>
      p <-- point_of h n;;; d <-- euclid p q;;;
      fn <-- friends_of h n;;; fn <-- insert_friend fn level qId d;;; let h := set_friends h n fn in
      fq <-- friends_of h qId;;; fq <-- insert_friend fq level n d;;; let h := set_friends h qId fq in
      link h q qId level ns
  end.
(** trimming the neighbours: pkg/hnsw/hnsw.go:227-241 *)
Fixpoint trim (n : nat) (m : Z) (hp : heap) : res heap :=
  match n with
  | O => Ok hp
  | S n => if m <? Z.of_nat (hlen hp) then match pop_max hp with None => Err (EMsg "Empty Heap") | Some (_, hp) => trim n m hp end else Ok hp
  end.
(** the trimming of the friends of the new neighbours: pkg/hnsw/hnsw.go:187-256 *)
Fixpoint trim_all (h : hnsw) (level : nat) (ns : list item) : res hnsw :=
  match ns with
  | [] => Ok h
  | (n, _) :: ns =>
      f <-- friends_of h n;;; hp <-- get_friends f level;;;
      (* the loop pops one item each time, so it ends after at most len + 1 rounds *)
      hp <-- trim (S (hlen hp)) (bigM h) hp;;;
      trim_all (set_friends h n (FR (lset (levels f) level hp) (max_levels f))) level ns
  end.
(** the loop over the levels in InsertVector: pkg/hnsw/hnsw.go:207-249; [k] levels to do, from k - 1 down to 0 *)
Fixpoint insert_levels (k : nat) (h : hnsw) (q : point) (qId : Z) (ep : item) : res hnsw :=
  match k with
  | O => Ok h
  | S level =>
      nn <-- search_level h q ep (ef h) level;;;
      sel <-- select_neighbors h nn;;;
      h <-- link h q qId level (fst sel);;;
      h <-- trim_all h level (fst sel);;;
      match pop_min (snd sel) with
      | None => Err (EMsg "Empty Heap")
      | Some (ep, _) => insert_levels level h q qId ep
      end
  end.
(** InsertVector(q): pkg/hnsw/hnsw.go:187-256, with the level SpawnLevel() drew, when
    it is not negative (PLevels.v models the draw) *)
Definition insert_vector (h : hnsw) (q : point) (qTop : nat) : res (Z * hnsw) :=
  if negb (length q =? dim h)%nat then Err (EMsg "invalid vector dimensionality") else
  fe <-- friends_of h (entry h);;;
  let topLevel := top_level fe in
  let qId := zlen (points h) in
  let h := HN (dim h) (entry h) (points h ++ [q]) (fr h ++ [new_friends qTop]) (ef h) (bigM h) in
  ep <-- find_closer h q qTop;;;
  h <-- insert_levels (S (Nat.min topLevel qTop)) h q qId ep;;;
  Ok (qId, if (topLevel <? qTop)%nat then HN (dim h) qId (points h) (fr h) (ef h) (bigM h) else h).
(** the descent of KnnSearch: pkg/hnsw/hnsw.go:277-287; levels k, ..., 1 *)
Fixpoint knn_down (k : nat) (h : hnsw) (q : point) (ep : item) : res item :=
  match k with
  | O => Ok ep
  | S k' =>
      nn <-- search_level h q ep 1 k;;;
      match peek_min nn with
      | None => Err (EMsg "Empty Heap")
      | Some ep => knn_down k' h q ep
      end
  end.
(** KnnSearch(q, k): pkg/hnsw/hnsw.go:262-304 *)
Definition knn_search (h : hnsw) (q : point) (k : Z) : res heap :=
  p <-- point_of h (entry h);;; f <-- friends_of h (entry h);;;
  d <-- euclid q p;;;
  ep <-- knn_down (top_level f) h q (entry h, d);;;
  nn <-- search_level h q ep (ef h) 0;;;
  trim (S (hlen nn)) k nn.
(** Flush(numNeighbors): pkg/hnsw/friends.go:68-105 *)
Fixpoint flush_loop (n : nat) (f : friends) (hp : heap) : res bytes :=
  match n with
  | O => Ok []
  | S n =>
      if (hlen hp =? 0)%nat then r <-- flush_loop n f hp;;; Ok (zeros 5 ++ r) else
      match pop_min hp with
      | None => Err (EMsg "failed to find closest item in friends")
      | Some (x, hp) =>
          match max_levels f (fst x) with
          | None => Err (EMsg "failed to find id in maxLevels map")
          | Some l => r <-- flush_loop n f hp;;; Ok ((Z.of_nat l mod 256 :: be 4 (fst x mod 2^32)) ++ r)
          end
      end
  end.
(** Flush(numNeighbors): pkg/hnsw/friends.go:68-105 *)
Definition flush (f : friends) (numNeighbors : nat) : res bytes :=
  match levels f with [] => Panic | l0 :: _ => flush_loop numNeighbors f (clone l0) end.
End Graph.
