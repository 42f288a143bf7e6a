(** Full-text search in the browser: the search part of src/db/database.ts, with
    src/bptree/bptree.ts (termFrequency), src/ngram/tokenizer.ts and
    src/ngram/table.ts. *)
From Coq Require Import Permutation.
From Verif Require Import Base Varint Store PageFile PageHist RefValue Node LinkedPage BPTree BPRepr BPIter BPInsert BPLoop BPTop PTree Meta TsCodec Slots SlotAdd PSlots Cells IndexFile IFileInv PIndex Query QTree TsFile PNgram PClient PQuery.

(** ** Model *)
(** DataPointer: src/bptree/node.ts:11-14. An object; JavaScript maps compare objects
    by identity, so each has the number of its creation. {start, end} are those of
    the memory pointer: src/bptree/bptree.ts:185-190 *)
Record dptr := DP { dp_id : nat; dp_mp : mptr }.
(** Map<DataPointer, V>: get, and set, which keeps the place of a present key *)
(** Map.get of a Map<DataPointer, V>: src/ngram/table.ts:3-23, src/bptree/bptree.ts:32-35 *)
Fixpoint jmap_get {V} (m : list (dptr * V)) (k : dptr) : option V :=
  match m with [] => None | (k', v) :: t => if (dp_id k =? dp_id k')%nat then Some v else jmap_get t k end.
Fixpoint jmap_set {V} (m : list (dptr * V)) (k : dptr) (v : V) : list (dptr * V) :=
  match m with [] => [(k, v)] | (k', v') :: t => if (dp_id k =? dp_id k')%nat then (k', v) :: t else (k', v') :: jmap_set t k v end.
(** tfMap of a BPTree object: src/bptree/bptree.ts:16-30 *)
Definition tfmap := list (dptr * Z).

(** the loop of termFrequency(key): src/bptree/bptree.ts:176-196, with [step] for
    p.next(), [v] for key.value, [id] for the number of the next object; running out
    of [gas] is [Hang] *)
Fixpoint tf_loop (gas : nat) (step : titer -> res (bool * titer)) (v : bytes) (tf : tfmap) (id : nat) (it : titer) : res (tfmap * nat) :=
  match gas with
  | O => Hang
  | S gas' =>
      a <-- step it ;;;
      match a with
      | (false, _) => Ok (tf, id)
      | (true, it') =>
          e <-- ts_get it' ;;;
          let '(k, p) := e in
          if negb (ts_compare_bytes (rv_val k) v =? 0) then Ok (tf, id)
          else
            let dp := DP id p in
            tf_loop gas' step v (jmap_set tf dp (match jmap_get tf dp with Some x => x | None => 0 end + 1)) (S id) it'
      end
  end.

Section Search.
  (** JavaScript numbers with addition, and the score idf * (num / den) of n, nt, tf:
      src/db/database.ts:169-178 *)
  Variables (num : Type) (zero : num) (plus : num -> num -> num) (score : Z -> Z -> Z -> num).
  (** Array.prototype.sort with the comparison of top(): src/ngram/table.ts:11-15 *)
  Variable sort : list (dptr * num) -> list (dptr * num).
  (** toLowerCase, the random choices of shuffle, UTF-8 encoding, parseValue *)
  Variables (tl : list Z -> list Z) (choose : nat -> nat) (encode : list Z -> bytes) (parse : bytes -> option bytes).

  (** PriorityTable.insert: src/ngram/table.ts:6-9 *)
  Definition table_insert (t : list (dptr * num)) (k : dptr) (x : num) : list (dptr * num) :=
    jmap_set t k (plus (match jmap_get t k with Some y => y | None => zero end) x).
  (** btreeMap: the tfMap of the tree of each field type, src/db/database.ts:126 *)
  Definition trees := list (Z * tfmap).
  Fixpoint tree_get (m : trees) (ft : Z) : option tfmap :=
    match m with [] => None | (k, v) :: t => if ft =? k then Some v else tree_get t ft end.
  Fixpoint tree_set (m : trees) (ft : Z) (v : tfmap) : trees :=
    match m with [] => [(ft, v)] | (k, v') :: t => if ft =? k then (k, v) :: t else (k, v') :: tree_set t ft v end.

  (** the loop over the tokens: src/db/database.ts:128-182. metaPageCache saves a second
      seek, which would find the same page. *)
  Fixpoint search_loop (gas fuel : nat) (f D : bytes) (entries : Z) (name : bytes) (toks : list (bytes * Z))
      (ts : trees) (table : list (dptr * num)) (id : nat) : res (list (dptr * num)) :=
    match toks with
    | [] => Ok table
    | (valueBuf, ft) :: rest =>
        mps <-- ts_seek fuel f name ft ;;;
        match mps with
        | [mp] =>
            im <-- ts_index_meta f mp ;;;
            let ts := match tree_get ts (im_type im) with Some _ => ts | None => tree_set ts ft [] end in
            match tree_get ts ft with
            | None => js_throw
            | Some tf =>
                r <-- tf_loop gas (ts_next fuel (ts_rd (mkCodec (im_width im) D parse) f) (ts_mp_root f mp)) valueBuf tf id (ts_iter (RV (MP 0 0) valueBuf)) ;;;
                let '(tf, id) := r in
                let table := fold_left (fun t x => table_insert t (fst x) (score entries (zlen tf) (snd x))) tf table in
                search_loop gas fuel f D entries name rest (tree_set ts ft tf) table id
            end
        | _ => Err (EMsg "Expected to find meta page for key")
        end
    end.
  (** the records: src/db/database.ts:184-188 *)
  Fixpoint search_data (D : bytes) (l : list (dptr * num)) : res (list (bytes * num)) :=
    match l with
    | [] => Ok []
    | (k, x) :: t => d <-- ts_data D (dp_mp k) ;;; r <-- search_data D t ;;; Ok ((d, x) :: r)
    end.
  (** the headers with their types: src/file/meta.ts:84-103 *)
  Definition header_types (ims : list index_meta) (name : bytes) : list Z :=
    map im_type (filter (fun im => name_eqb (im_name im) name) ims).
  (** indexHeaders(): src/file/index-file.ts:130-147 *)
  Definition ts_headers (fuel : nat) (f : bytes) : res (list header) :=
    ms <-- ts_index_pages fuel f ;;;
    ims <-- ts_metas f ms ;;;
    Ok (map (fun name => HD name (header_types ims name)) (first_appearances (map im_name ims))).
  (** query({search: {key, like, config}}): src/db/database.ts:102-189, for gram
      lengths that are whole numbers ([min], [max]); [None] is the default 1, 2 *)
  Definition ts_search (gas fuel : nat) (f D : bytes) (name : bytes) (like : list Z) (cfg : option (nat * nat)) : res (list (bytes * num)) :=
    fm <-- ts_if_metadata f ;;;
    headers <-- ts_headers fuel f ;;;
    _ <-- validate_search name (match cfg with Some (a, b) => Some (js_int (Z.of_nat a), js_int (Z.of_nat b)) | None => None end) headers ;;;
    let '(minGram, maxGram) := match cfg with Some c => c | None => (1%nat, 2%nat) end in
    toks <-- ts_tokens tl minGram maxGram like ;;;
    likeToks <-- shuffle choose (map (fun t => (encode (fst t), snd t)) toks) ;;;
    table <-- search_loop gas fuel f D (fm_entries fm) name likeToks [] [] 0%nat ;;;
    search_data D (sort table).
End Search.

(** ** Walking an index with an iterator *)
Inductive trace (step : titer -> res (bool * titer)) : titer -> list entry -> Prop :=
| tr_end it it' : step it = Ok (false, it') -> trace step it []
| tr_step it it' e l : step it = Ok (true, it') -> ts_get it' = Ok e -> trace step it' l -> trace step it (e :: l).

Section Walk.
  Variables (F : Z -> node -> Prop) (rd : mptr -> res node) (Hrd : rd_ok rd F).
  Variables (es : list entry) (h : nat) (mp : mptr) (pgs : list Z) (fuel : nat).
  Hypothesis Htree : repr F h None None (mp_off mp) es pgs.
  Hypothesis Hlen : mp_len mp <> 0.
  Hypothesis Hfuel : (h < fuel)%nat.

  Lemma trace_fwd n : forall it recs p, (length es - p <= n)%nat -> ti_recs it = recs -> fwd F es h (mp_off mp) recs p ->
    trace (ts_next fuel rd (Ok mp)) it (skipn p es).
  Proof.
    induction n as [|n IH]; intros it recs p Hn Er Hf; pose proof (@fwd_recs F es h mp recs p Hf) as Hne;
      (destruct recs as [|r0 rr] eqn:Erec; [congruence|]); rewrite <- Erec in *;
      destruct (@incr_fwd F rd Hrd es h (mp_off mp) (Iter (ti_key it) (Some recs) None) recs p eq_refl Hf)
        as [(E & it' & E' & He)|(it' & recs' & e & E1 & E2 & E3 & E4 & E5 & E6)].
    1, 3: destruct (@ti_incr_of rd it recs _ _ _ Er E' He) as (recs' & X & _); rewrite E, skipn_all; econstructor; unfold ts_next; rewrite Er, Erec; exact X.
    - assert (p < length es)%nat by (apply nth_error_Some; congruence). lia.
    - destruct (@ti_incr_of rd it recs _ _ _ Er E1 E3) as (recs'' & X & Xr). rewrite E2 in Xr. injection Xr as <-.
      rewrite (skipn_nth _ _ E4). econstructor.
      + unfold ts_next. rewrite Er, Erec. exact X.
      + exact (@it_get_recs _ _ _ (ti_key it) E2 E5).
      + apply (IH _ recs'); auto. assert (p < length es)%nat by (apply nth_error_Some; congruence). lia.
  Qed.
  Theorem trace_next key :
    trace (ts_next fuel rd (Ok mp)) (ts_iter key) (from key es) \/
    (trace (ts_next fuel rd (Ok mp)) (ts_iter key) [] /\ falls_off rd mp fuel key).
  Proof.
    destruct (@next_first F rd Hrd es h mp pgs fuel Htree Hlen Hfuel key) as (b & git & G1 & G2 & G3 & G4 & _).
    destruct (@ts_init_ok F rd Hrd es h mp pgs fuel Htree Hlen Hfuel key) as (leaf & mids & les & i & before & E & Ei & El & Hal & Hp).
    assert (Enext : exists b, ts_next fuel rd (Ok mp) (ts_iter key) = Ok (b, TIter key (leaf :: mids)) /\ b = negb (tidx leaf =? num_pointers (tnode leaf))).
    { unfold ts_next. cbn [ti_recs ts_iter]. rewrite E. cbn [rbind ti_recs]. eexists. split; reflexivity. }
    destruct Enext as (b' & Enext & Eb).
    destruct b'; [left|right; split; [econstructor; exact Enext|eexists; exact Enext]].
    inversion Hal as [n0 idx ptr rest lo hi off les0 esL esR pgs0 HF Hb Hctx Hes]; subst leaf mids les0 idx. clear Hal; subst before.
    cbn [tidx tnode] in *. rewrite (leaf_num Hb) in Eb.
    assert (Hile : (i <= length les)%nat) by (subst i; rewrite <- (map_length fst les); apply lb_le).
    destruct (Z.eqb_spec (Z.of_nat i) (zlen les)) as [|Hne]; [discriminate|].
    assert (Hi : (i < length les)%nat) by (unfold zlen in *; lia).
    destruct (@leaf_get F n0 lo hi les (Iter key (Some (TR n0 (Z.of_nat i) ptr :: rest)) None) rest ptr i Hb Hi eq_refl) as (e & D1 & D2).
    assert (Hn : nth_error es (length esL + i) = Some e).
    { rewrite Hes, nth_error_app2 by lia. replace (length esL + i - length esL)%nat with i by lia. rewrite nth_error_app1 by lia. auto. }
    rewrite (from_skipn key (es_sorted mp Htree)), <- Hp, (skipn_nth _ _ Hn).
    econstructor; [exact Enext|exact (@ts_get_of _ _ _ None D2)|].
    apply (@trace_fwd (length es) _ (TR n0 (Z.of_nat i) ptr :: rest)); [lia|reflexivity|].
    exists les, i, (length esL). split; [econstructor; eauto|]. split; [auto|]. lia.
  Qed.
End Walk.

(** ** termFrequency *)
(** the entries of a walk that are counted: those before the first other value *)
Definition counted (v : bytes) (l : list entry) : list entry := until (fun k => negb (ts_compare_bytes (rv_val k) v =? 0)) l.
(** new objects for entries, numbered from [id], each counted once *)
Fixpoint objects (id : nat) (l : list entry) : tfmap :=
  match l with [] => [] | e :: t => (DP id (snd e), 1) :: objects (S id) t end.
Definition below_id {V} (id : nat) (m : list (dptr * V)) : Prop := Forall (fun x => (dp_id (fst x) < id)%nat) m.
Lemma jmap_get_fresh {V} (m : list (dptr * V)) id p : below_id id m -> jmap_get m (DP id p) = None.
Proof.
  induction m as [|[k v] m IH]; intros H; [reflexivity|]. inversion H; subst. cbn [jmap_get fst dp_id] in *.
  destruct (Nat.eqb_spec id (dp_id k)); [lia|auto].
Qed.
Lemma jmap_set_fresh {V} (m : list (dptr * V)) id p v : below_id id m -> jmap_set m (DP id p) v = m ++ [(DP id p, v)].
Proof.
  induction m as [|[k x] m IH]; intros H; [reflexivity|]. inversion H; subst. cbn [jmap_set fst dp_id app] in *.
  destruct (Nat.eqb_spec id (dp_id k)); [lia|]. rewrite IH by auto. reflexivity.
Qed.
Lemma tf_loop_trace step v l : forall it, trace step it l -> forall gas tf id, (length l < gas)%nat -> below_id id tf ->
  tf_loop gas step v tf id it = Ok (tf ++ objects id (counted v l), (id + length (counted v l))%nat).
Proof.
  induction 1 as [it it' E|it it' e l E Eg Ht IH]; intros gas tf id Hg Hb; (destruct gas as [|gas]; [cbn in Hg; lia|]); cbn [tf_loop]; rewrite E; cbn [rbind].
  - cbn. rewrite app_nil_r, Nat.add_0_r. reflexivity.
  - rewrite Eg. cbn [rbind]. destruct e as [k p]. unfold counted. cbn [until fst]. destruct (negb (ts_compare_bytes (rv_val k) v =? 0)).
    + cbn. rewrite app_nil_r, Nat.add_0_r. reflexivity.
    + rewrite jmap_get_fresh, jmap_set_fresh by auto. rewrite IH; [|cbn [length] in Hg; lia|].
      * fold (counted v l). cbn [objects length snd Z.add]. rewrite <- app_assoc. cbn [app]. do 2 f_equal. lia.
      * apply Forall_app. split; [eapply Forall_impl; [|exact Hb]; cbn; lia|]. constructor; [cbn; lia|constructor].
Qed.
