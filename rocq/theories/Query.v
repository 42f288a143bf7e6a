(** Queries in the browser: src/db/database.ts (the where part of query),
    src/bptree/bptree.ts, src/bptree/traversal.ts. *)
From Verif Require Import Base Varint Store PageFile RefValue Node LinkedPage BPTree BPRepr BPIter BPInsert BPLoop BPTop PTree Meta TsCodec.

(** ** Model *)
(** A RangeResolver on a file [f] asked for the bytes [start, end] (inclusive):
    the bytes of the file, fewer at its end. (src/resolver/resolver.ts:1-24;
    src/resolver/range-request.ts is not modelled here) *)
Definition resolve (f : bytes) (start end_ : Z) : bytes := slice f start (end_ - start + 1).
(** an exception thrown by JavaScript itself (reading a property of undefined, a
    DataView access out of bounds) *)
Definition js_throw {A} : res A := Err (EMsg "TypeError").

(** BPTreeNode.fromMemoryPointer: src/bptree/node.ts:243-272; BPTree.readNode:
    src/bptree/bptree.ts:77-96; BPTreeNode.child: src/bptree/node.ts:68-93 (its cache
    keeps what was read). Offsets are exact as JavaScript numbers below 2^53. *)
Definition ts_rd (c : codec) (f : bytes) (p : mptr) : res node :=
  ts_unmarshal c (resolve f (mp_off p) (mp_off p + 4096 - 1)).
(** BPTree.root(): src/bptree/bptree.ts:53-75. There is no test for an empty tree. *)
Definition ts_root (rd : mptr -> res node) (rt : res mptr) : res (node * mptr) :=
  mp <-- rt ;;; n <-- rd mp ;;; Ok (n, mp).

(** traverse: src/bptree/bptree.ts:136-155 *)
Fixpoint ts_traverse (fuel : nat) (rd : mptr -> res node) (key : rv) (n : node) (ptr : mptr) : res (list trec) :=
  match fuel with
  | O => Hang
  | S fuel' =>
      let '(i, found) := ts_bsearch (keys n) key in
      if is_leaf n then Ok [TR n (Z.of_nat i) ptr]
      else
        let index := Z.of_nat i + (if found then 1 else 0) in
        match node_pointer n index with
        | None => js_throw
        | Some cp =>
            child <-- rd cp ;;;
            path <-- ts_traverse fuel' rd key child cp ;;;
            Ok (path ++ [TR n index ptr])
        end
  end.
(** increment(i, delta): src/bptree/traversal.ts:43-74 *)
Fixpoint ts_incr (rd : mptr -> res node) (recs : list trec) (delta : Z) : res (bool * list trec) :=
  match recs with
  | [] => Ok (false, [])
  | r :: rest =>
      let index := tidx r + delta in
      let rolloverLeft := index <? 0 in
      let rolloverRight := num_pointers (tnode r) <=? index in
      if rolloverLeft || rolloverRight then
        a <-- ts_incr rd rest delta ;;;
        match a with
        | (false, rest') => Ok (false, TR (tnode r) index (tptr r) :: rest')
        | (true, rest') =>
            match rest' with
            | [] => Ok (false, TR (tnode r) index (tptr r) :: rest')
            | q :: _ =>
                match node_pointer (tnode q) (tidx q) with
                | None => js_throw
                | Some p =>
                    n <-- rd p ;;;
                    Ok (true, TR n (if rolloverLeft then num_pointers n - 1 else 0) (tptr r) :: rest')
                end
            end
        end
      else Ok (true, TR (tnode r) index (tptr r) :: rest)
  end.
(** TraversalIterator: src/bptree/traversal.ts:10-19 *)
Record titer := TIter { ti_key : rv; ti_recs : list trec }.
(** iter(key): src/bptree/bptree.ts:98-100 *)
Definition ts_iter (key : rv) : titer := TIter key [].
(** init(): src/bptree/traversal.ts:21-33 *)
Definition ts_init (fuel : nat) (rd : mptr -> res node) (rt : res mptr) (it : titer) : res titer :=
  r <-- ts_root rd rt ;;;
  let '(root, off) := r in
  path <-- ts_traverse fuel rd (ti_key it) root off ;;;
  Ok (TIter (ti_key it) path).
Definition ti_incr (rd : mptr -> res node) (it : titer) (delta : Z) : res (bool * titer) :=
  a <-- ts_incr rd (ti_recs it) delta ;;;
  let '(b, recs) := a in Ok (b, TIter (ti_key it) recs).
(** next(): src/bptree/traversal.ts:76-86 *)
Definition ts_next (fuel : nat) (rd : mptr -> res node) (rt : res mptr) (it : titer) : res (bool * titer) :=
  match ti_recs it with
  | [] =>
      it' <-- ts_init fuel rd rt it ;;;
      match ti_recs it' with
      | r :: _ => Ok (negb (tidx r =? num_pointers (tnode r)), it')
      | [] => js_throw
      end
  | _ => ti_incr rd it 1
  end.
(** prev(): src/bptree/traversal.ts:88-97 *)
Definition ts_prev (fuel : nat) (rd : mptr -> res node) (rt : res mptr) (it : titer) : res (bool * titer) :=
  match ti_recs it with
  | [] => it' <-- ts_init fuel rd rt it ;;; ti_incr rd it' (-1)
  | _ => ti_incr rd it (-1)
  end.
(** getKey(), getPointer(): src/bptree/traversal.ts:35-41 *)
Definition ts_get (it : titer) : res (rv * mptr) :=
  match ti_recs it with
  | r :: _ =>
      match znth (keys (tnode r)) (tidx r), node_pointer (tnode r) (tidx r) with
      | Some k, Some p => Ok (k, p)
      | _, _ => js_throw
      end
  | [] => js_throw
  end.
(** the descent loops of first() and last(): src/bptree/bptree.ts:102-134; as in
    the indexer, the root's pointer is followed even if the root is a leaf *)
Fixpoint ts_descend (fuel : nat) (rd : mptr -> res node) (left : bool) (n : node) : res node :=
  match fuel with
  | O => Hang
  | S fuel' =>
      if is_leaf n then Ok n
      else match node_pointer n (if left then 0 else num_pointers n - 1) with
           | None => js_throw
           | Some p => n <-- rd p ;;; ts_descend fuel' rd left n
           end
  end.
Definition ts_edge (fuel : nat) (rd : mptr -> res node) (rt : res mptr) (left : bool) : res rv :=
  r <-- ts_root rd rt ;;;
  let '(root, _) := r in
  match node_pointer root (if left then 0 else num_pointers root - 1) with
  | None => js_throw
  | Some p =>
      n <-- rd p ;;;
      n <-- ts_descend fuel rd left n ;;;
      match znth (keys n) (if left then 0 else zlen (keys n) - 1) with Some k => Ok k | None => js_throw end
  end.

(** DataFile.get(start, end): src/file/data-file.ts:28-35 (before decoding), called
    with Number(mp.offset) and Number(mp.offset) + mp.length - 1 *)
Definition ts_data (D : bytes) (p : mptr) : res bytes :=
  let start := mp_off p in
  let end_ := mp_off p + mp_len p - 1 in
  if end_ <=? start then Err (EMsg "Invalid range") else Ok (resolve D start end_).

(** one of the loops [while (await iter.step()) { if (stop) break; data = get; yield }]
    of src/db/database.ts:225-419, resumed until it has yielded [n] records or
    has ended. A record is given as its text; handleSelect (JSON.parse and the
    choice of fields) comes after. *)
Fixpoint yields (step : titer -> res (bool * titer)) (stop : rv -> bool) (D : bytes) (n : nat) (it : titer) : res (list bytes) :=
  match n with
  | O => Ok []
  | S n' =>
      a <-- step it ;;;
      match a with
      | (false, _) => Ok []
      | (true, it') =>
          e <-- ts_get it' ;;;
          let '(k, p) := e in
          if stop k then Ok []
          else
            d <-- ts_data D p ;;;
            rest <-- yields step stop D n' it' ;;;
            Ok (d :: rest)
      end
  end.

Inductive qop := QLt | QLe | QEq | QGe | QGt.
Inductive qdir := Asc | Desc.
(** maxUint64: src/file/multi.ts:6 *)
Definition maxUint64 : Z := 2^64 - 1.
(** the five operations of query: src/db/database.ts:225-419, on the tree read by
    [rd] with root pointer [rt]; [v] is valueBuf; the first [n] records *)
Definition where_tree (fuel : nat) (rd : mptr -> res node) (rt : res mptr) (D : bytes) (op : qop) (dir : qdir) (v : bytes) (n : nat) : res (list bytes) :=
  let next := ts_next fuel rd rt in
  let prev := ts_prev fuel rd rt in
  let never := fun _ => false in
  let cmp := fun k => ts_compare_bytes (rv_val k) v in
  match op, dir with
  | QGt, Asc => yields next never D n (ts_iter (RV (MP maxUint64 0) v))
  | QGt, Desc =>
      lastKey <-- ts_edge fuel rd rt false ;;;
      yields prev (fun k => cmp k <? 0) D n (ts_iter lastKey)
  | QGe, Asc => yields next never D n (ts_iter (RV (MP 0 0) v))
  | QGe, Desc =>
      lastKey <-- ts_edge fuel rd rt false ;;;
      yields prev (fun k => cmp k <? 0) D n (ts_iter lastKey)
  | QEq, _ => yields next (fun k => negb (cmp k =? 0)) D n (ts_iter (RV (MP 0 0) v))
  | QLe, Desc => yields prev never D n (ts_iter (RV (MP maxUint64 0) v))
  | QLe, Asc =>
      firstKey <-- ts_edge fuel rd rt true ;;;
      yields next (fun k => 0 <? cmp k) D n (ts_iter firstKey)
  | QLt, Desc => yields prev never D n (ts_iter (RV (MP 0 0) v))
  | QLt, Asc =>
      firstKey <-- ts_edge fuel rd rt true ;;;
      yields next (fun k => 0 <=? cmp k) D n (ts_iter firstKey)
  end.

(** ** Proofs: the browser's traversal is the indexer's *)
Lemma ts_traverse_eq fuel rd key : forall n ptr path, traverse fuel rd key n ptr = Ok path -> ts_traverse fuel rd key n ptr = Ok path.
Proof.
  induction fuel as [|fuel IH]; intros n ptr path E; [discriminate|].
  cbn [traverse ts_traverse] in *. rewrite ts_bsearch_eq. destruct (bsearch (keys n) key) as [i found].
  destruct (is_leaf n); [exact E|].
  destruct (node_pointer n (Z.of_nat i + (if found then 1 else 0))) as [cp|]; [|discriminate].
  destruct (rd cp) as [child| | | |]; try discriminate. cbn [rbind] in *.
  destruct (traverse fuel rd key child cp) as [path'| | | |] eqn:Ep; try discriminate. cbn [rbind] in *.
  rewrite (IH _ _ _ Ep). exact E.
Qed.
Lemma ts_incr_eq rd delta : forall recs b recs', incr rd recs delta = Ok (b, recs', None) -> ts_incr rd recs delta = Ok (b, recs').
Proof.
  induction recs as [|r rest IH]; intros b recs' E; cbn [incr ts_incr] in *; [injection E as <- <-; reflexivity|].
  destruct ((tidx r + delta <? 0) || (num_pointers (tnode r) <=? tidx r + delta)); [|injection E as <- <-; reflexivity].
  destruct (incr rd rest delta) as [[[b1 rest1] e1]| | | |] eqn:Ei; try discriminate. cbn [rbind] in E.
  destruct b1.
  - destruct rest1 as [|q tl]; [discriminate|]. destruct (node_pointer (tnode q) (tidx q)) as [p|] eqn:Ep; [|discriminate].
    destruct (rd p) as [n| | | |] eqn:En; try discriminate.
    injection E as <- <- ->. rewrite (IH _ _ eq_refl). cbn [rbind]. rewrite Ep, En. reflexivity.
  - injection E as <- <- ->. rewrite (IH _ _ eq_refl). reflexivity.
Qed.

(** what a query should see of an index with entries [es] *)
Definition texts (D : bytes) (es : list entry) : list bytes := map (fun e => slice D (mp_off (snd e)) (mp_len (snd e))) es.
(** records of one byte cannot be fetched (DataFile.get refuses them) *)
Definition fetchable (e : entry) : Prop := 2 <= mp_len (snd e).
Lemma ts_data_ok D e : fetchable e -> ts_data D (snd e) = Ok (slice D (mp_off (snd e)) (mp_len (snd e))).
Proof.
  intros H. unfold ts_data, fetchable, resolve in *. destruct (Z.leb_spec (mp_off (snd e) + mp_len (snd e) - 1) (mp_off (snd e))); [lia|].
  f_equal. f_equal. lia.
Qed.
(** the entries before the first one at which a loop stops *)
Fixpoint until (stop : rv -> bool) (es : list entry) : list entry :=
  match es with [] => [] | e :: es' => if stop (fst e) then [] else e :: until stop es' end.

Lemma rev_firstn_S {A} (l : list A) p e : nth_error l p = Some e -> rev (firstn (S p) l) = e :: rev (firstn p l).
Proof.
  revert p; induction l as [|x l IH]; intros [|p] E; try discriminate.
  - cbn in E. injection E as ->. reflexivity.
  - cbn [nth_error] in E. specialize (IH _ E). cbn [firstn rev] in *. rewrite IH. reflexivity.
Qed.

Section Iter.
  Variables (F : Z -> node -> Prop) (rd : mptr -> res node) (Hrd : rd_ok rd F).
  Variables (es : list entry) (h : nat) (mp : mptr) (pgs : list Z) (fuel : nat) (D : bytes).
  Hypothesis Htree : repr F h None None (mp_off mp) es pgs.
  Hypothesis Hlen : mp_len mp <> 0.
  Hypothesis Hfuel : (h < fuel)%nat.
  Hypothesis Hfetch : Forall fetchable es.

  Lemma es_sorted : sorted (map fst es).
  Proof. destruct (repr_good Htree) as (_ & S & _). exact S. Qed.

  Lemma ts_init_ok key :
    exists leaf mids les i before,
      ts_init fuel rd (Ok mp) (ts_iter key) = Ok (TIter key (leaf :: mids)) /\
      tidx leaf = Z.of_nat i /\ i = lb (map fst les) key /\
      at_leaf F es h (mp_off mp) (leaf :: mids) les (Z.of_nat i) before /\
      (before + i)%nat = lb (map fst es) key.
  Proof.
    destruct (@init_ok F rd Hrd es h mp pgs fuel Htree Hlen Hfuel key) as (leaf & mids & les & i & before & E & E1 & E2 & E3 & E4 & _).
    exists leaf, mids, les, i, before. split; auto.
    unfold it_init, bp_root in E. destruct (Z.eqb_spec (mp_len mp) 0); [congruence|].
    unfold ts_init, ts_root. cbn [rbind ti_key ts_iter]. destruct (rd mp) as [nr| | | |]; try discriminate. cbn [rbind] in *.
    cbn [it_key bp_iter] in E. destruct (traverse fuel rd key nr mp) as [path| | | |] eqn:Et; try discriminate.
    rewrite (@ts_traverse_eq _ _ _ _ _ _ Et). cbn [rbind]. injection E as ->. reflexivity.
  Qed.

  Lemma ti_incr_of it recs delta b it' : ti_recs it = recs ->
    it_incr rd (Iter (ti_key it) (Some recs) None) recs delta = Ok (b, it') -> it_err it' = None ->
    exists recs', ti_incr rd it delta = Ok (b, TIter (ti_key it) recs') /\ it_recs it' = Some recs'.
  Proof.
    intros Er E He. unfold it_incr in E. destruct (incr rd recs delta) as [[[b1 r1] e1]| | | |] eqn:Ei; try discriminate.
    cbn [rbind it_key it_err] in E. injection E as <- <-. cbn [it_err it_recs] in *.
    assert (e1 = None) as -> by (destruct e1; [discriminate|reflexivity]).
    exists r1. split; [|reflexivity]. unfold ti_incr. rewrite Er, (@ts_incr_eq _ _ _ _ _ Ei). reflexivity.
  Qed.
  Lemma ts_get_of k recs e x : it_get (Iter k (Some recs) x) = Ok e -> ts_get (TIter k recs) = Ok e.
  Proof.
    unfold it_get, ts_get. cbn [it_recs ti_recs]. destruct recs as [|r rest]; [discriminate|].
    destruct (znth (keys (tnode r)) (tidx r)); [|discriminate]. destruct (node_pointer (tnode r) (tidx r)); [auto|discriminate].
  Qed.
  Lemma it_get_recs it recs e k : it_recs it = Some recs -> it_get it = Ok e -> ts_get (TIter k recs) = Ok e.
  Proof. intros E H. eapply ts_get_of with (x := None). unfold it_get in *. rewrite E in H. exact H. Qed.

  Lemma fwd_recs recs p : fwd F es h (mp_off mp) recs p -> recs <> [].
  Proof. intros (les & i & b & Hal & _). inversion Hal; discriminate. Qed.
  Lemma bwd_recs recs p : bwd F es h (mp_off mp) recs p -> recs <> [].
  Proof. intros (les & i & b & Hal & _). inversion Hal; discriminate. Qed.

  Lemma fetch_nth p e : nth_error es p = Some e -> fetchable e.
  Proof. intros E. rewrite Forall_forall in Hfetch. apply Hfetch. eapply nth_error_In; eauto. Qed.

  Lemma yields_fwd stop n : forall it recs p, ti_recs it = recs -> fwd F es h (mp_off mp) recs p ->
    yields (ts_next fuel rd (Ok mp)) stop D n it = Ok (texts D (firstn n (until stop (skipn p es)))).
  Proof.
    induction n as [|n IH]; intros it recs p Er Hf; [reflexivity|].
    cbn [yields]. unfold ts_next. rewrite Er. pose proof (fwd_recs Hf) as Hne. destruct recs as [|r0 rr] eqn:Erec; [congruence|]. cbv beta iota. rewrite <- Erec in *. clear Erec Hne.
    destruct (@incr_fwd F rd Hrd es h (mp_off mp) (Iter (ti_key it) (Some recs) None) recs p eq_refl Hf)
      as [(E & it' & E' & He)|(it' & recs' & e & E1 & E2 & E3 & E4 & E5 & E6)].
    - destruct (@ti_incr_of it recs _ _ _ Er E' He) as (recs' & X & _). rewrite X. cbn [rbind]. rewrite E, skipn_all. destruct n; reflexivity.
    - destruct (@ti_incr_of it recs _ _ _ Er E1 E3) as (recs'' & X & Xr). rewrite E2 in Xr. injection Xr as <-. rewrite X. cbn [rbind].
      rewrite (@it_get_recs _ _ _ (ti_key it) E2 E5). cbn [rbind]. destruct e as [k v].
      rewrite (skipn_nth _ _ E4). cbn [until fst]. destruct (stop k); [reflexivity|].
      pose proof (ts_data_ok D (fetch_nth _ E4)) as Hd. cbn [snd] in Hd. rewrite Hd. cbn [rbind].
      fold (ts_next fuel rd (Ok mp)). rewrite (IH _ _ _ (eq_refl : ti_recs (TIter (ti_key it) recs') = recs') E6). cbn [rbind firstn texts map snd]. reflexivity.
  Qed.
  Lemma yields_bwd stop n : forall it recs p, ti_recs it = recs -> bwd F es h (mp_off mp) recs p ->
    yields (ts_prev fuel rd (Ok mp)) stop D n it = Ok (texts D (firstn n (until stop (rev (firstn p es))))).
  Proof.
    induction n as [|n IH]; intros it recs p Er Hf; [reflexivity|].
    cbn [yields]. unfold ts_prev. rewrite Er. pose proof (bwd_recs Hf) as Hne. destruct recs as [|r0 rr] eqn:Erec; [congruence|]. cbv beta iota. rewrite <- Erec in *. clear Erec Hne.
    destruct (@incr_bwd F rd Hrd es h (mp_off mp) (Iter (ti_key it) (Some recs) None) recs p eq_refl Hf)
      as [(E & it' & E' & He)|(it' & recs' & e & p' & E1 & E2 & E3 & Ep & E4 & E5 & E6)].
    - destruct (@ti_incr_of it recs _ _ _ Er E' He) as (recs' & X & _). rewrite X. cbn [rbind]. rewrite E. destruct n; reflexivity.
    - destruct (@ti_incr_of it recs _ _ _ Er E1 E3) as (recs'' & X & Xr). rewrite E2 in Xr. injection Xr as <-. rewrite X. cbn [rbind].
      rewrite (@it_get_recs _ _ _ (ti_key it) E2 E5). cbn [rbind]. destruct e as [k v].
      assert (Hrv : rev (firstn p es) = (k, v) :: rev (firstn p' es)).
      { subst p. apply rev_firstn_S; auto. }
      rewrite Hrv. cbn [until fst]. destruct (stop k); [reflexivity|].
      pose proof (ts_data_ok D (fetch_nth _ E4)) as Hd. cbn [snd] in Hd. rewrite Hd. cbn [rbind].
      fold (ts_prev fuel rd (Ok mp)). rewrite (IH _ _ _ (eq_refl : ti_recs (TIter (ti_key it) recs') = recs') E6). cbn [rbind firstn texts map snd]. reflexivity.
  Qed.

  (** walking back from any key *)
  Theorem yields_prev stop key n :
    yields (ts_prev fuel rd (Ok mp)) stop D n (ts_iter key) = Ok (texts D (firstn n (until stop (rev (below key es))))).
  Proof.
    destruct n as [|n]; [reflexivity|].
    destruct (ts_init_ok key) as (leaf & mids & les & i & before & E & Ei & El & Hal & Hp).
    rewrite (below_firstn key es_sorted).
    assert (Hb : bwd F es h (mp_off mp) (leaf :: mids) (lb (map fst es) key)).
    { exists les, i, before. split; auto. split; auto. subst i. rewrite <- (map_length fst les). apply lb_le. }
    rewrite <- (@yields_bwd stop (S n) (TIter key (leaf :: mids)) (leaf :: mids) _ eq_refl Hb).
    cbn [yields]. unfold ts_prev. cbn [ti_recs ts_iter]. rewrite E. reflexivity.
  Qed.
  (** walking forward from any key: everything from the key on, or nothing if the
      key falls off the end of its leaf *)
  Definition falls_off (key : rv) : Prop :=
    exists it, ts_next fuel rd (Ok mp) (ts_iter key) = Ok (false, it).
  Theorem yields_next stop key n :
    (~ falls_off key /\ yields (ts_next fuel rd (Ok mp)) stop D n (ts_iter key) = Ok (texts D (firstn n (until stop (from key es))))) \/
    (falls_off key /\ yields (ts_next fuel rd (Ok mp)) stop D n (ts_iter key) = Ok [] /\ ~ In key (map fst es) /\ ~ (forall x, In x (map fst es) -> rle key x)).
  Proof.
    destruct (@next_first F rd Hrd es h mp pgs fuel Htree Hlen Hfuel key) as (b & git & G1 & G2 & G3 & G4 & _).
    destruct (ts_init_ok key) as (leaf & mids & les & i & before & E & Ei & El & Hal & Hp).
    destruct (@init_ok F rd Hrd es h mp pgs fuel Htree Hlen Hfuel key) as (leaf' & mids' & les' & i' & before' & E' & Ei' & _).
    assert (Enext : ts_next fuel rd (Ok mp) (ts_iter key) = Ok (b, TIter key (leaf :: mids))).
    { unfold ts_next. cbn [ti_recs ts_iter]. rewrite E. cbn [rbind ti_recs].
      unfold it_next in G1. cbn [it_recs bp_iter] in G1. rewrite E' in G1. cbn [rbind it_recs] in G1. injection G1 as <- _.
      unfold it_init, bp_root in E'. destruct (Z.eqb_spec (mp_len mp) 0); [congruence|].
      unfold ts_init, ts_root in E. cbn [rbind ti_key ts_iter] in E. destruct (rd mp) as [nr| | | |]; try discriminate. cbn [rbind] in *.
      cbn [it_key bp_iter] in E'. destruct (traverse fuel rd key nr mp) as [path| | | |] eqn:Et; try discriminate.
      rewrite (@ts_traverse_eq _ _ _ _ _ _ Et) in E. cbn [rbind] in E. injection E as ->. injection E' as <- _. reflexivity. }
    inversion Hal as [n0 idx ptr rest lo hi off les0 esL esR pgs0 HF Hb Hctx Hes]; subst leaf mids les0 idx. clear Hal; subst before.
    cbn [tidx tnode] in *.
    assert (Hile : (i <= length les)%nat) by (subst i; rewrite <- (map_length fst les); apply lb_le).
    assert (Eb : b = negb (Z.of_nat i =? zlen les)).
    { unfold ts_next in Enext. cbn [ti_recs ts_iter] in Enext. rewrite E in Enext. cbn [rbind ti_recs tidx tnode] in Enext.
      rewrite (leaf_num Hb) in Enext. injection Enext as <-. reflexivity. }
    destruct b.
    - left. split. { intros (it & X). congruence. }
      destruct n as [|n]; [reflexivity|]. cbn [yields]. rewrite Enext. cbn [rbind].
      destruct (Z.eqb_spec (Z.of_nat i) (zlen les)) as [|Hne]; [discriminate|].
      assert (Hi : (i < length les)%nat) by (unfold zlen in *; lia).
      destruct (@leaf_get F n0 lo hi les (Iter key (Some (TR n0 (Z.of_nat i) ptr :: rest)) None) rest ptr i Hb Hi eq_refl) as (e & D1 & D2).
      rewrite (@ts_get_of _ _ _ _ D2). cbn [rbind]. destruct e as [k v].
      assert (Hn : nth_error es (length esL + i) = Some (k, v)).
      { rewrite Hes, nth_error_app2 by lia. replace (length esL + i - length esL)%nat with i by lia. rewrite nth_error_app1 by lia. auto. }
      rewrite (from_skipn key es_sorted), <- Hp, (skipn_nth _ _ Hn). cbn [until fst]. destruct (stop k); [reflexivity|].
      pose proof (ts_data_ok D (fetch_nth _ Hn)) as Hd. cbn [snd] in Hd. rewrite Hd. cbn [rbind].
      rewrite (@yields_fwd stop n (TIter key (TR n0 (Z.of_nat i) ptr :: rest)) (TR n0 (Z.of_nat i) ptr :: rest) (S (length esL + i)) eq_refl).
      + cbn [rbind firstn texts map snd]. reflexivity.
      + exists les, i, (length esL). split; [econstructor; eauto|]. split; [auto|]. lia.
    - right. split; [eexists; exact Enext|]. split; [destruct n; cbn [yields]; [reflexivity|rewrite Enext; reflexivity]|].
      split; intros X; [specialize (G3 X)|specialize (G4 X)]; discriminate.
  Qed.
  Corollary yields_next_in stop key n : In key (map fst es) \/ (forall x, In x (map fst es) -> rle key x) ->
    yields (ts_next fuel rd (Ok mp)) stop D n (ts_iter key) = Ok (texts D (firstn n (until stop (from key es)))).
  Proof. intros H. destruct (@yields_next stop key n) as [(_ & E)|(_ & _ & E1 & E2)]; [exact E|]. destruct H; contradiction. Qed.
End Iter.
