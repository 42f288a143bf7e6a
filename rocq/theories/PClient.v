(** C50-C52, C54: the query builder, the search validation, the range cache and
    the TypeScript type names. *)
From Coq Require Import QArith.
From Coq Require Strings.String.
From Verif Require Import Base Varint Meta Cells.
Local Open Scope Z_scope.
Local Open Scope list_scope.

(** ** C54: FieldType.TypescriptType *)
Section TypeNames.
Import Strings.String.
Local Open Scope list_scope.
(** the TypeScript type of a field type; see FieldType, pkg/appendable/appendable.go:43-62 *)
Definition ts_type_name (ft : Z) : String.string :=
  if (ft =? FTString) || (ft =? FTTrigram) || (ft =? FTBigram) || (ft =? FTUnigram) then "string"%string
  else if (ft =? FTInt64) || (ft =? FTUint64) || (ft =? FTFloat64) then "number"%string
  else if ft =? FTObject then "Record"%string
  else if ft =? FTArray then "any[]"%string
  else if ft =? FTBoolean then "boolean"%string
  else if ft =? FTNull then "null"%string
  else if ft =? FTVector then "number[]"%string
  else "unknown"%string.
(** strings.Join(components, " | ") *)
Fixpoint join_or (l : list String.string) : String.string :=
  match l with [] => ""%string | [x] => x | x :: t => String.append x (String.append " | "%string (join_or t)) end.
(** TypescriptType(): pkg/appendable/appendable.go:66-95 *)
Definition typescript_type (t : Z) : String.string :=
  let bit f := negb (Z.land t f =? 0) in
  let components :=
    (if bit FTString || bit FTTrigram || bit FTBigram || bit FTUnigram then ["string"%string] else []) ++
    (if bit FTInt64 || bit FTFloat64 then ["number"%string] else []) ++
    (if bit FTObject then ["Record"%string] else []) ++
    (if bit FTArray then ["any[]"%string] else []) ++
    (if bit FTBoolean then ["boolean"%string] else []) ++
    (if bit FTNull then ["null"%string] else []) ++
    (if bit FTVector then ["number[]"%string] else []) in
  match components with [] => "unknown"%string | _ => join_or components end.
(** C54 fails for every one of the twelve field types *)
Theorem C54_typescript_type_refuted ft : 0 <= ft <= 11 -> typescript_type ft <> ts_type_name ft.
Proof.
  intros H. assert (C : ft = 0 \/ ft = 1 \/ ft = 2 \/ ft = 3 \/ ft = 4 \/ ft = 5 \/ ft = 6 \/ ft = 7 \/ ft = 8 \/ ft = 9 \/ ft = 10 \/ ft = 11) by lia.
  repeat (destruct C as [->|C]; [intros X; vm_compute in X; discriminate|]). subst. intros X; vm_compute in X; discriminate.
Qed.
(** and it cannot tell: a string field is "unknown", and a boolean one "string | number | Record | any[] | boolean | null | number[]" *)
Example C54_string_is_unknown : typescript_type FTString = "unknown"%string /\ typescript_type FTBoolean = "string | number | Record | any[] | boolean | null | number[]"%string.
Proof. split; reflexivity. Qed.

End TypeNames.

(** ** C50: the query builder *)
(** JavaScript arrays are mutable objects, so the model has a heap of arrays: an
    array is a position in the heap. Clauses are opaque values. *)
Section Builder.
Variables (W O K : Type).
Inductive arr := AW (l : list W) | AO (l : list O) | AK (l : list K).
Definition heap := list arr.
(** queryObject: src/db/query-builder.ts:8-13; fields hold references *)
Record qobj := QO { q_where : option nat; q_order : option nat; q_select : option nat; q_limit : option Q }.
Definition get_w (h : heap) (r : nat) : list W := match nth_error h r with Some (AW l) => l | _ => [] end.
Definition get_o (h : heap) (r : nat) : list O := match nth_error h r with Some (AO l) => l | _ => [] end.
Definition get_k (h : heap) (r : nat) : list K := match nth_error h r with Some (AK l) => l | _ => [] end.
(** a new array *)
Definition alloc (h : heap) (a : arr) : nat * heap := (length h, h ++ [a]).
(** new QueryBuilder(database): src/db/query-builder.ts:8-15 *)
Definition new_builder (h : heap) : qobj * heap := let '(r, h) := alloc h (AW []) in (QO (Some r) None None None, h).
(** where(key, operation, value): src/db/query-builder.ts:37-48; the constructor of
    newQuery allocates an empty array that is dropped *)
Definition b_where (q : qobj) (c : W) (h : heap) : qobj * heap :=
  let '(_, h) := new_builder h in
  let '(r, h) := alloc h (AW (match q_where q with Some r => get_w h r | None => [] end ++ [c])) in
  (QO (Some r) (q_order q) (q_select q) (q_limit q), h).
(** orderBy(key, direction): src/db/query-builder.ts:50-57 *)
Definition b_order (q : qobj) (c : O) (h : heap) : qobj * heap :=
  let '(_, h) := new_builder h in
  let '(r, h) := alloc h (AO (match q_order q with Some r => get_o h r | None => [] end ++ [c])) in
  (QO (q_where q) (Some r) (q_select q) (q_limit q), h).
(** select(keys): src/db/query-builder.ts:59-66; keeps the caller's array *)
Definition b_select (q : qobj) (keys : nat) (h : heap) : qobj * heap :=
  let '(_, h) := new_builder h in (QO (q_where q) (q_order q) (Some keys) (q_limit q), h).
(** limit(limit): src/db/query-builder.ts:68-75 *)
Definition b_limit (q : qobj) (n : Q) (h : heap) : qobj * heap :=
  let '(_, h) := new_builder h in (QO (q_where q) (q_order q) (q_select q) (Some n), h).
(** what a builder holds: toQuery(), src/db/query-builder.ts:17-28 *)
Record clauses := CL { cl_where : list W; cl_order : option (list O); cl_select : option (list K); cl_limit : option Q }.
Definition view (h : heap) (q : qobj) : clauses :=
  CL (match q_where q with Some r => get_w h r | None => [] end) (option_map (get_o h) (q_order q)) (option_map (get_k h) (q_select q)) (q_limit q).

(** A program: builders made so far (newest last), and the calls made on them.
    The caller may also make arrays of keys. *)
Definition known_refs (h : heap) (q : qobj) : Prop :=
  forall r, q_where q = Some r \/ q_order q = Some r \/ q_select q = Some r -> (r < length h)%nat.
Inductive builders : heap -> list qobj -> Prop :=
| bs_start : builders [] []
| bs_new h bs q h' : builders h bs -> new_builder h = (q, h') -> builders h' (bs ++ [q])
| bs_where h bs q c q' h' : builders h bs -> In q bs -> b_where q c h = (q', h') -> builders h' (bs ++ [q'])
| bs_order h bs q c q' h' : builders h bs -> In q bs -> b_order q c h = (q', h') -> builders h' (bs ++ [q'])
| bs_keys h bs ks : builders h bs -> builders (h ++ [AK ks]) bs
| bs_select h bs q k q' h' : builders h bs -> In q bs -> (k < length h)%nat -> b_select q k h = (q', h') -> builders h' (bs ++ [q'])
| bs_limit h bs q n q' h' : builders h bs -> In q bs -> b_limit q n h = (q', h') -> builders h' (bs ++ [q']).

Lemma known_app h x q : known_refs h q -> known_refs (h ++ x) q.
Proof. intros H r Hr. rewrite app_length. specialize (H r Hr). lia. Qed.
Lemma get_w_app h x r : (r < length h)%nat -> get_w (h ++ x) r = get_w h r.
Proof. intros H. unfold get_w. rewrite nth_error_app1 by auto. reflexivity. Qed.
Lemma get_o_app h x r : (r < length h)%nat -> get_o (h ++ x) r = get_o h r.
Proof. intros H. unfold get_o. rewrite nth_error_app1 by auto. reflexivity. Qed.
Lemma get_k_app h x r : (r < length h)%nat -> get_k (h ++ x) r = get_k h r.
Proof. intros H. unfold get_k. rewrite nth_error_app1 by auto. reflexivity. Qed.
Lemma view_app h x q : known_refs h q -> view (h ++ x) q = view h q.
Proof.
  intros H. unfold view. f_equal.
  - destruct (q_where q) eqn:E; auto. apply get_w_app, H. auto.
  - destruct (q_order q) eqn:E; auto. cbn. rewrite get_o_app; auto.
  - destruct (q_select q) eqn:E; auto. cbn. rewrite get_k_app; auto.
Qed.
Lemma builders_known h bs : builders h bs -> forall q, In q bs -> known_refs h q.
Proof.
  assert (L : forall (h : heap) a b, length ((h ++ [a]) ++ [b]) = S (S (length h))) by (intros; rewrite !app_length; cbn; lia).
  induction 1 as [|h bs q h' H IH E|h bs q c q' h' H IH Hq E|h bs q c q' h' H IH Hq E|h bs ks H IH|h bs q k q' h' H IH Hq Hk E|h bs q n q' h' H IH Hq E]; intros p Hp.
  - destruct Hp.
  - unfold new_builder, alloc in E. injection E as <- <-. apply in_app_iff in Hp. destruct Hp as [Hp|[<-|[]]]; [apply known_app; auto|].
    intros r [Hr|[Hr|Hr]]; cbn in Hr; try discriminate. injection Hr as <-. rewrite app_length; cbn; lia.
  - unfold b_where, new_builder, alloc in E. injection E as <- <-. apply in_app_iff in Hp. destruct Hp as [Hp|[<-|[]]]; [apply known_app, known_app; auto|].
    intros r Hr. rewrite L. cbn in Hr. destruct Hr as [Hr|Hr]; [injection Hr as <-; rewrite app_length; cbn; lia|]. specialize (IH q Hq r). destruct Hr as [Hr|Hr]; (assert (r < length h)%nat by auto; lia).
  - unfold b_order, new_builder, alloc in E. injection E as <- <-. apply in_app_iff in Hp. destruct Hp as [Hp|[<-|[]]]; [apply known_app, known_app; auto|].
    intros r Hr. rewrite L. cbn in Hr. specialize (IH q Hq r). destruct Hr as [Hr|[Hr|Hr]]; [assert (r < length h)%nat by auto; lia| |assert (r < length h)%nat by auto; lia]. injection Hr as <-; rewrite app_length; cbn; lia.
  - apply known_app; auto.
  - unfold b_select, new_builder, alloc in E. injection E as <- <-. apply in_app_iff in Hp. destruct Hp as [Hp|[<-|[]]]; [apply known_app; auto|].
    intros r Hr. rewrite app_length. cbn in Hr. specialize (IH q Hq r). destruct Hr as [Hr|[Hr|Hr]]; [assert (r < length h)%nat by auto; lia|assert (r < length h)%nat by auto; lia|]. injection Hr as <-. lia.
  - unfold b_limit, new_builder, alloc in E. injection E as <- <-. apply in_app_iff in Hp. destruct Hp as [Hp|[<-|[]]]; [apply known_app; auto|].
    intros r Hr. rewrite app_length. cbn in Hr. specialize (IH q Hq r). assert (r < length h)%nat by tauto. lia.
Qed.

(** Whatever was built before: a call returns a builder with the old clauses
    plus the new one, and all builders made before hold what they held. *)
Theorem C50_where_adds_a_clause h bs q c q' h' : builders h bs -> In q bs -> b_where q c h = (q', h') ->
  view h' q' = CL (cl_where (view h q) ++ [c]) (cl_order (view h q)) (cl_select (view h q)) (cl_limit (view h q)) /\
  forall p, In p bs -> view h' p = view h p.
Proof.
  intros H Hq E. unfold b_where, new_builder, alloc in E. injection E as <- <-. pose proof (builders_known H) as Hk. split.
  2:{ intros p Hp. rewrite <- app_assoc. apply view_app; auto. }
  pose proof (view_app (AW [] :: [AW (match q_where q with Some r => get_w (h ++ [AW []]) r | None => [] end ++ [c])]) (Hk q Hq)) as V.
  rewrite <- V. unfold view. cbn [q_where q_order q_select q_limit cl_where cl_order cl_select cl_limit]. rewrite <- !app_assoc. cbn [app]. f_equal.
  unfold get_w at 1. rewrite app_length. cbn [length]. rewrite nth_error_app2 by lia. replace (length h + 1 - length h)%nat with 1%nat by lia. cbn [nth_error].
  destruct (q_where q) eqn:Eq; auto. rewrite !get_w_app; auto; apply (Hk q Hq); auto.
Qed.
Theorem C50_order_adds_a_clause h bs q c q' h' : builders h bs -> In q bs -> b_order q c h = (q', h') ->
  view h' q' = CL (cl_where (view h q)) (Some (match cl_order (view h q) with Some l => l | None => [] end ++ [c])) (cl_select (view h q)) (cl_limit (view h q)) /\
  forall p, In p bs -> view h' p = view h p.
Proof.
  intros H Hq E. unfold b_order, new_builder, alloc in E. injection E as <- <-. pose proof (builders_known H) as Hk. split.
  2:{ intros p Hp. rewrite <- app_assoc. apply view_app; auto. }
  pose proof (view_app (AW [] :: [AO (match q_order q with Some r => get_o (h ++ [AW []]) r | None => [] end ++ [c])]) (Hk q Hq)) as V.
  rewrite <- V. unfold view. cbn [q_where q_order q_select q_limit cl_where cl_order cl_select cl_limit option_map]. rewrite <- !app_assoc. cbn [app]. f_equal.
  f_equal. unfold get_o at 1. rewrite app_length. cbn [length]. rewrite nth_error_app2 by lia. replace (length h + 1 - length h)%nat with 1%nat by lia. cbn [nth_error].
  destruct (q_order q) eqn:Eq; auto. cbn [option_map]. rewrite !get_o_app; auto; apply (Hk q Hq); auto.
Qed.
Theorem C50_select_sets_the_fields h bs q k q' h' : builders h bs -> In q bs -> (k < length h)%nat -> b_select q k h = (q', h') ->
  view h' q' = CL (cl_where (view h q)) (cl_order (view h q)) (Some (get_k h k)) (cl_limit (view h q)) /\
  forall p, In p bs -> view h' p = view h p.
Proof.
  intros H Hq Hlt E. unfold b_select, new_builder, alloc in E. injection E as <- <-. pose proof (builders_known H) as Hk. split.
  2:{ intros p Hp. apply view_app; auto. }
  rewrite <- (view_app [AW []] (Hk q Hq)). unfold view. cbn [q_where q_order q_select q_limit cl_where cl_order cl_select cl_limit option_map]. rewrite get_k_app by auto. reflexivity.
Qed.
Theorem C50_limit_sets_the_limit h bs q n q' h' : builders h bs -> In q bs -> b_limit q n h = (q', h') ->
  view h' q' = CL (cl_where (view h q)) (cl_order (view h q)) (cl_select (view h q)) (Some n) /\
  forall p, In p bs -> view h' p = view h p.
Proof.
  intros H Hq E. unfold b_limit, new_builder, alloc in E. injection E as <- <-. pose proof (builders_known H) as Hk. split.
  2:{ intros p Hp. apply view_app; auto. }
  rewrite <- (view_app [AW []] (Hk q Hq)). reflexivity.
Qed.
Theorem C50_new_builder_is_empty h q h' : new_builder h = (q, h') -> view h' q = CL [] None None None.
Proof. intros E. injection E as <- <-. unfold view, get_w. cbn [q_where q_order q_select q_limit option_map]. rewrite nth_error_app2 by lia. rewrite Nat.sub_diag. reflexivity. Qed.
End Builder.
(** two builders from one parent do not see each other's clauses *)
Example C50_example :
  let '(q, h) := new_builder (W := Z) (O := Z) (K := Z) [] in let '(a, h) := b_where q 1 h in let '(b, h) := b_where a 2 h in let '(c, h) := b_where a 3 h in
  (view h a, view h b, view h c) = (CL [1] None None None, CL [1; 2] None None None, CL [1; 3] None None None).
Proof. reflexivity. Qed.

(** ** C51: validateSearch *)
(** JavaScript numbers, as far as comparisons go *)
Inductive jsnum := JNaN | JNegInf | JPosInf | JNum (q : Q).
(** a < b and a > b of JavaScript *)
Definition js_lt (a b : jsnum) : bool :=
  match a, b with
  | JNaN, _ | _, JNaN => false
  | JNegInf, JNegInf => false | JNegInf, _ => true
  | _, JNegInf => false
  | JPosInf, _ => false | JNum _, JPosInf => true
  | JNum x, JNum y => negb (Qle_bool y x)
  end.
Definition js_int (z : Z) : jsnum := JNum (inject_Z z).
(** IndexHeader: src/file/meta.ts:50-53 *)
Record header := HD { h_name : bytes; h_types : list Z }.
(** the search config: src/db/query-lang.ts:13-16 *)
Definition config := (jsnum * jsnum)%type.
(** validateSearch(search, headers): src/db/query-validation.ts:141-189; the
    result is the config in force *)
Definition validate_search (key : bytes) (cfg : option config) (headers : list header) : res config :=
  let '(minGram, maxGram) := match cfg with Some c => c | None => (js_int 1, js_int 2) end in
  match find (fun h => if list_eq_dec Z.eq_dec (h_name h) key then true else false) headers with
  | None => Err (EMsg "Unable to find index header for key")
  | Some fh =>
      let gset := fold_left (fun s ft => remove Z.eq_dec ft s) (h_types fh) [FTUnigram; FTBigram; FTTrigram] in
      if negb (zlen gset =? 0) then Err (EMsg "Unable to find valid ngram field types")
      else if js_lt (js_int 3) maxGram || js_lt (js_int 3) minGram then Err (EMsg "Invalid gram length configuration")
      else if js_lt minGram (js_int 1) || js_lt maxGram (js_int 1) then Err (EMsg "Invalid gram length configuration")
      else if js_lt maxGram minGram then Err (EMsg "Invalid gram length configuration")
      else Ok (minGram, maxGram)
  end.
(** Specification: the first header of that name has the three n-gram types, and 1 <= min <= max <= 3 *)
Definition has_ngrams (key : bytes) (headers : list header) : Prop :=
  exists a h b, headers = a ++ h :: b /\ h_name h = key /\ (forall x, In x a -> h_name x <> key) /\
    In FTUnigram (h_types h) /\ In FTBigram (h_types h) /\ In FTTrigram (h_types h).
Definition good_grams (c : config) : Prop :=
  exists a b : Q, c = (JNum a, JNum b) /\ (1 <= a)%Q /\ (a <= b)%Q /\ (b <= 3)%Q.
Definition config_of (cfg : option config) : config := match cfg with Some c => c | None => (js_int 1, js_int 2) end.
Definition no_nan (c : config) : Prop := fst c <> JNaN /\ snd c <> JNaN.

Lemma fold_remove ts s : fold_left (fun s ft => remove Z.eq_dec ft s) ts s = filter (fun x => negb (existsb (Z.eqb x) ts)) s.
Proof.
  revert s. induction ts as [|t ts IH]; intros s; cbn [fold_left existsb].
  - induction s as [|a s IHs]; [reflexivity|]. cbn [filter negb]. cbn. rewrite <- IHs at 1. reflexivity.
  - rewrite IH. induction s as [|a s IHs]; cbn [remove filter]; auto. destruct (Z.eq_dec t a) as [->|Hne].
    + rewrite Z.eqb_refl. cbn [orb negb]. exact IHs.
    + destruct (Z.eqb_spec a t); [congruence|]. cbn [orb filter]. rewrite IHs. reflexivity.
Qed.
Lemma exists_eqb x l : existsb (Z.eqb x) l = true <-> In x l.
Proof. rewrite existsb_exists. split; [intros (y & H & E); apply Z.eqb_eq in E; subst; auto|intros H; exists x; split; auto; apply Z.eqb_refl]. Qed.
Lemma gset_empty ts : zlen (fold_left (fun s ft => remove Z.eq_dec ft s) ts [FTUnigram; FTBigram; FTTrigram]) = 0 <->
  In FTUnigram ts /\ In FTBigram ts /\ In FTTrigram ts.
Proof.
  rewrite fold_remove. rewrite <- !exists_eqb. cbn [filter].
  destruct (existsb (Z.eqb FTUnigram) ts), (existsb (Z.eqb FTBigram) ts), (existsb (Z.eqb FTTrigram) ts); cbn; unfold zlen; cbn; intuition (try discriminate; try lia).
Qed.
Lemma find_first key hs : match find (fun h => if list_eq_dec Z.eq_dec (h_name h) key then true else false) hs with
  | Some h => exists a b, hs = a ++ h :: b /\ h_name h = key /\ forall x, In x a -> h_name x <> key
  | None => forall x, In x hs -> h_name x <> key end.
Proof.
  induction hs as [|h hs IH]; cbn [find]; [intros x []|]. destruct (list_eq_dec Z.eq_dec (h_name h) key) as [E|N].
  - exists [], hs. repeat split; auto.
  - destruct (find _ hs) as [h'|].
    + destruct IH as (a & b & -> & E & F). exists (h :: a), b. split; auto. split; auto. intros x [<-|Hx]; auto.
    + intros x [<-|Hx]; auto.
Qed.
Lemma first_unique key (a a' b b' : list header) h h' : a ++ h :: b = a' ++ h' :: b' -> h_name h = key -> h_name h' = key ->
  (forall x, In x a -> h_name x <> key) -> (forall x, In x a' -> h_name x <> key) -> h = h'.
Proof.
  revert a'. induction a as [|x a IH]; intros [|y a'] E H1 H2 F1 F2; cbn in E.
  - congruence.
  - injection E as -> _. exfalso. apply (F2 y); [left; auto|auto].
  - injection E as -> _. exfalso. apply (F1 h'); [left; auto|auto].
  - injection E as _ E. apply (IH a' E); auto; intros z Hz; [apply F1|apply F2]; right; auto.
Qed.
Lemma js_lt_q x y : js_lt (JNum x) (JNum y) = false <-> (y <= x)%Q.
Proof. cbn. rewrite negb_false_iff. apply Qle_bool_iff. Qed.
(** C51, for all configurations without NaN: accepted exactly when usable *)
Theorem C51_validation_partial key cfg headers : no_nan (config_of cfg) ->
  ((exists c, validate_search key cfg headers = Ok c) <-> has_ngrams key headers /\ good_grams (config_of cfg)) /\
  (forall c, validate_search key cfg headers = Ok c -> c = config_of cfg).
Proof.
  intros Hn. unfold validate_search. fold (config_of cfg). destruct (config_of cfg) as [mn mx]. unfold no_nan in Hn. cbn [fst snd] in Hn. destruct Hn as [Hn1 Hn2].
  pose proof (find_first key headers) as Hfind. destruct (find _ headers) as [fh|].
  2:{ split; [|intros c; discriminate]. split; [intros (c & X); discriminate|]. intros [(a & h & b & -> & E & _) _]. exfalso. apply (Hfind h); [apply in_or_app; right; left; auto|auto]. }
  destruct Hfind as (a & b & -> & E & F).
  assert (Hh : has_ngrams key (a ++ fh :: b) <-> In FTUnigram (h_types fh) /\ In FTBigram (h_types fh) /\ In FTTrigram (h_types fh)).
  { split; [|intros H; exists a, fh, b; repeat split; tauto]. intros (a' & h' & b' & E' & N' & F' & H). rewrite (@first_unique key a a' b b' fh h') by auto. exact H. }
  rewrite Hh, <- gset_empty. destruct (Z.eqb_spec (zlen (fold_left (fun s ft => remove Z.eq_dec ft s) (h_types fh) [FTUnigram; FTBigram; FTTrigram])) 0) as [Eg|Ng]; cbn [negb].
  2:{ split; [|intros c; discriminate]. split; [intros (c & X); discriminate|]. intros [X _]; contradiction. }
  assert (Q1 : js_int 1 = JNum 1) by reflexivity. assert (Q3 : js_int 3 = JNum 3) by reflexivity.
  destruct mn as [| | |x]; [exfalso; apply Hn1; reflexivity| | |]; destruct mx as [| | |y]; try (exfalso; apply Hn2; reflexivity); 
    try (match goal with |- (_ <-> _ /\ good_grams (JNum _, JNum _)) /\ _ => fail 1 | _ => idtac end;
      match goal with |- ((exists c, ?e = Ok c) <-> _) /\ _ => assert (Herr : forall c, e = Ok c -> False) end; [ (intros c; cbn -[Qle_bool]; repeat (match goal with |- context [Qle_bool ?a ?b] => destruct (Qle_bool a b) end; cbn [negb orb]); discriminate)|];
      split; [split; [intros (c & X); destruct (Herr c X)|intros [_ (p & q & X & _)]; discriminate]|intros c X; destruct (Herr c X)]).
  rewrite Q1, Q3.
  destruct (js_lt (JNum 3) (JNum y)) eqn:B1; cbn [orb].
  { split; [|intros c; discriminate]. split; [intros (c & X); discriminate|]. intros [_ (p & q & X & G1 & G2 & G3)]. injection X as -> ->. apply js_lt_q in G3. congruence. }
  destruct (js_lt (JNum 3) (JNum x)) eqn:B2.
  { split; [|intros c; discriminate]. split; [intros (c & X); discriminate|]. intros [_ (p & q & X & G1 & G2 & G3)]. injection X as -> ->. assert (G : (p <= 3)%Q) by (eapply Qle_trans; eauto). apply js_lt_q in G. congruence. }
  destruct (js_lt (JNum x) (JNum 1)) eqn:B3; cbn [orb].
  { split; [|intros c; discriminate]. split; [intros (c & X); discriminate|]. intros [_ (p & q & X & G1 & G2 & G3)]. injection X as -> ->. apply js_lt_q in G1. congruence. }
  destruct (js_lt (JNum y) (JNum 1)) eqn:B4.
  { split; [|intros c; discriminate]. split; [intros (c & X); discriminate|]. intros [_ (p & q & X & G1 & G2 & G3)]. injection X as -> ->. assert (G : (1 <= q)%Q) by (eapply Qle_trans; eauto). apply js_lt_q in G. congruence. }
  destruct (js_lt (JNum y) (JNum x)) eqn:B5.
  { split; [|intros c; discriminate]. split; [intros (c & X); discriminate|]. intros [_ (p & q & X & G1 & G2 & G3)]. injection X as -> ->. apply js_lt_q in G2. congruence. }
  split; [|intros c X; injection X as <-; reflexivity]. split; [|eauto]. intros _. split; auto. exists x, y. split; auto.
  apply js_lt_q in B1, B3, B5. auto.
Qed.
(** C51 fails for NaN, which every check lets pass *)
Theorem C51_validation_refuted key headers : has_ngrams key headers -> validate_search key (Some (JNaN, JNaN)) headers = Ok (JNaN, JNaN) /\ ~ good_grams (JNaN, JNaN).
Proof.
  intros (a & h & b & -> & E & F & H). split; [|intros (p & q & X & _); discriminate]. unfold validate_search.
  pose proof (find_first key (a ++ h :: b)) as Hfind. destruct (find _ (a ++ h :: b)) as [fh|].
  - destruct Hfind as (a' & b' & E' & N' & F'). rewrite <- (@first_unique key a a' b b' h fh) by auto. apply gset_empty in H. rewrite H. reflexivity.
  - exfalso. apply (Hfind h); [apply in_or_app; right; left; auto|auto].
Qed.
Example C51_example : validate_search [97] None [HD [98] []; HD [97] [FTString; FTTrigram; FTBigram; FTUnigram]] = Ok (js_int 1, js_int 2) /\
  validate_search [97] (Some (js_int 2, js_int 1)) [HD [97] [FTString; FTTrigram; FTBigram; FTUnigram]] = Err (EMsg "Invalid gram length configuration").
Proof. split; reflexivity. Qed.

(** ** C52: the range cache *)
(** A resolver answers a range start..end, both inclusive as in HTTP (see
    requestRange, src/resolver/range-request.ts:5-30). *)
Definition answer (f : bytes) (start end_ : Z) : bytes := slice f start (end_ - start + 1).
(** ArrayBuffer.slice(i, j), clamped to the buffer *)
Definition ab_slice (b : bytes) (i j : Z) : bytes := slice b i (Z.min j (zlen b) - i).
(** cache(resolver): src/resolver/cache.ts:3-35; the state is the list of cached ranges with their data *)
Definition cache_state := list ((Z * Z) * bytes).
Definition cache_get (resolver : Z -> Z -> bytes) (c : cache_state) (start end_ : Z) : bytes * cache_state :=
  match find (fun e => (fst (fst e) <=? start) && (end_ <=? snd (fst e))) c with
  | Some ((s, _), data) => (ab_slice data (start - s) (end_ - s), c)
  | None => let data := resolver start end_ in (data, c ++ [((start, end_), data)])
  end.
Fixpoint cache_run (resolver : Z -> Z -> bytes) (c : cache_state) (reqs : list (Z * Z)) : list bytes :=
  match reqs with
  | [] => []
  | (a, b) :: t => let '(d, c) := cache_get resolver c a b in d :: cache_run resolver c t
  end.
(** Specification of the actual behaviour: a range inside an earlier one comes back without its last byte. *)
Fixpoint cache_spec (f : bytes) (seen : list (Z * Z)) (reqs : list (Z * Z)) : list bytes :=
  match reqs with
  | [] => []
  | (a, b) :: t =>
      if existsb (fun r => (fst r <=? a) && (b <=? snd r)) seen then slice f a (b - a) :: cache_spec f seen t
      else answer f a b :: cache_spec f (seen ++ [(a, b)]) t
  end.
Definition in_file (f : bytes) (r : Z * Z) : Prop := 0 <= fst r <= snd r /\ snd r < zlen f.
Lemma cache_hit f s e a b : in_file f (s, e) -> in_file f (a, b) -> s <= a -> b <= e -> ab_slice (answer f s e) (a - s) (b - s) = slice f a (b - a).
Proof.
  unfold in_file, ab_slice, answer. cbn [fst snd]. intros [H1 H2] [H3 H4] H5 H6. rewrite zlen_slice by lia. rewrite Z.min_l by lia.
  rewrite slice_slice by lia. f_equal; lia.
Qed.
Theorem C52_cache_behaviour f reqs : Forall (in_file f) reqs -> cache_run (answer f) [] reqs = cache_spec f [] reqs.
Proof.
  intros H. assert (G : forall reqs seen, Forall (in_file f) reqs -> Forall (in_file f) seen ->
    cache_run (answer f) (map (fun r => (r, answer f (fst r) (snd r))) seen) reqs = cache_spec f seen reqs).
  { clear. induction reqs as [|[a b] reqs IH]; intros seen Hr Hs; [reflexivity|]. inversion Hr as [|? ? Hab Hr']; subst. cbn [cache_run cache_spec]. unfold cache_get.
    assert (Hf : match find (fun e => (fst (fst e) <=? a) && (b <=? snd (fst e))) (map (fun r => (r, answer f (fst r) (snd r))) seen) with
      | Some x => existsb (fun r => (fst r <=? a) && (b <=? snd r)) seen = true /\ exists s e, x = ((s, e), answer f s e) /\ in_file f (s, e) /\ s <= a /\ b <= e
      | None => existsb (fun r => (fst r <=? a) && (b <=? snd r)) seen = false end).
    { clear - Hs. induction Hs as [|[s e] seen Hse Hs IHs]; [reflexivity|]. cbn [map find existsb fst snd]. destruct ((s <=? a) && (b <=? e)) eqn:E.
      - split; [reflexivity|]. exists s, e. split; auto. split; auto. lia.
      - cbn [orb]. exact IHs. }
    destruct (find _ _) as [x|].
    - destruct Hf as (-> & s & e & -> & Hse & Ha & Hb). rewrite (cache_hit Hse Hab Ha Hb). f_equal. apply IH; auto.
    - rewrite Hf. f_equal. specialize (IH (seen ++ [(a, b)]) Hr'). rewrite map_app in IH. cbn [map fst snd] in IH. apply IH. apply Forall_app; auto. }
  apply (G reqs []); auto.
Qed.
(** so the first requests, and any request not inside an earlier one, are right *)
Theorem C52_cache_partial f reqs a b : Forall (in_file f) reqs -> in_file f (a, b) ->
  (forall r, In r reqs -> ~ (fst r <= a /\ b <= snd r)) -> last (cache_run (answer f) [] (reqs ++ [(a, b)])) [] = answer f a b.
Proof.
  intros H Hab Hno. rewrite C52_cache_behaviour by (apply Forall_app; auto).
  assert (G : forall reqs seen, (forall r, In r (seen ++ reqs) -> ~ (fst r <= a /\ b <= snd r)) -> last (cache_spec f seen (reqs ++ [(a, b)])) [] = answer f a b).
  { clear. induction reqs as [|[c d] reqs IH]; intros seen Hno; cbn [cache_spec app].
    - rewrite app_nil_r in Hno. destruct (existsb _ seen) eqn:E; [|reflexivity]. exfalso. apply existsb_exists in E. destruct E as (r & Hr & E). apply (Hno r Hr). lia.
    - assert (Hl : forall x (l : list bytes) d, l <> [] -> last (x :: l) d = last l d) by (intros x [|y l] d' Hx; [congruence|reflexivity]).
      assert (Hne : forall q seen, cache_spec f seen (q ++ [(a, b)]) <> []).
      { intros [|[u v] q] sn; cbn [app cache_spec]; destruct (existsb _ sn); discriminate. }
      destruct (existsb _ seen); rewrite Hl by apply Hne; apply IH.
      + intros r Hr. apply Hno. apply in_app_iff in Hr. apply in_or_app. cbn [In]. tauto.
      + intros r Hr. apply Hno. rewrite <- app_assoc in Hr. exact Hr. }
  apply (G reqs []). exact Hno.
Qed.
(** C52 fails: asking twice for the same range loses the last byte the second time. *)
Theorem C52_cache_refuted f a b : in_file f (a, b) -> exists d, cache_run (answer f) [] [(a, b); (a, b)] = [answer f a b; d] /\ zlen d = zlen (answer f a b) - 1.
Proof.
  intros H. exists (slice f a (b - a)). split.
  - rewrite C52_cache_behaviour by auto. cbn [cache_spec existsb app fst snd]. rewrite !Z.leb_refl. reflexivity.
  - unfold in_file in H; cbn [fst snd] in H. unfold answer. rewrite !zlen_slice by lia. lia.
Qed.
Example C52_example : cache_run (answer [10; 20; 30; 40]) [] [(1, 2); (1, 2); (0, 3)] = [[20; 30]; [20]; [10; 20; 30; 40]].
Proof. reflexivity. Qed.
