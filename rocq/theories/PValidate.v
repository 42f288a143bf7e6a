(** C76, C77: the fields of a database and the validation of queries in the browser. *)
From Coq Require Import Permutation.
From Verif Require Import Base Varint Store PageFile PageHist RefValue Node LinkedPage BPTree BPRepr BPIter BPInsert BPLoop BPTop PTree Meta TsCodec Slots SlotAdd PSlots Cells IndexFile IFileInv PIndex Query QTree TsFile PClient PQuery.

(** ** Model *)
(** collectIndexMetas(indexMetas): src/file/meta.ts:84-103. A JavaScript Map keeps its
    entries in the order of their first insertion; [header] is IndexHeader. *)
Fixpoint meta_put (m : list header) (name : bytes) (ft : Z) : list header :=
  match m with
  | [] => [HD name [ft]]
  | h :: t => if name_eqb (h_name h) name then HD (h_name h) (h_types h ++ [ft]) :: t else h :: meta_put t name ft
  end.
Definition collect_metas (ims : list index_meta) : list header := fold_left (fun m im => meta_put m (im_name im) (im_type im)) ims [].
(** indexHeaders(): src/file/index-file.ts:130-147; Database.fields(): src/db/database.ts:94-100
    (which keeps the answer for later calls) *)
Definition ts_fields (fuel : nat) (f : bytes) : res (list header) :=
  ms <-- ts_index_pages fuel f ;;; ims <-- ts_metas f ms ;;; Ok (collect_metas ims).

(** an optional property of a query object: absent (or falsy), not an array, an array *)
Inductive prop (A : Type) := Absent | NotArray | Arr (l : list A).
Arguments Absent {A}. Arguments NotArray {A}. Arguments Arr {A} l.
(** a where node as the caller wrote it: any operation string, a key that is a string or
    not ([None]), a value that may be undefined ([None]); bigint is a number *)
Record vnode := VN { vn_op : bytes; vn_key : option bytes; vn_value : option wval }.
(** the first element of orderBy: a direction and a key *)
Record vorder := VO { vo_dir : bytes; vo_key : option bytes }.
(** Query: src/db/query-lang.ts:32-38, without limit; [vq_search] is the key and the config *)
Record vquery := VQ { vq_where : prop vnode; vq_order : prop vorder; vq_select : prop (option bytes); vq_search : option (bytes * option config) }.

(** the operations "<", "<=", "==", ">=", ">" *)
Definition op_of (b : bytes) : option qop :=
  if name_eqb b [60] then Some QLt else if name_eqb b [60; 61] then Some QLe else if name_eqb b [61; 61] then Some QEq
  else if name_eqb b [62; 61] then Some QGe else if name_eqb b [62] then Some QGt else None.
Definition dir_asc : bytes := [65; 83; 67].
Definition dir_desc : bytes := [68; 69; 83; 67].
(** checkType: src/db/query-validation.ts:12-14 *)
Definition check_type (types : list Z) (ft : Z) : bool := existsb (Z.eqb ft) types.
Definition find_header (headers : list header) (key : bytes) : option header := find (fun h => name_eqb (h_name h) key) headers.
Definition vfail {A} : res A := Err (EMsg "Error").
(** the loop of validateWhere: src/db/query-validation.ts:24-90 *)
Fixpoint validate_nodes (headers : list header) (ns : list vnode) : res unit :=
  match ns with
  | [] => Ok tt
  | n :: rest =>
      match op_of (vn_op n) with
      | None => vfail
      | Some _ =>
          match vn_key n with
          | None => vfail
          | Some key =>
              match find_header headers key with
              | None => vfail
              | Some h =>
                  match vn_value n with
                  | None => vfail
                  | Some v =>
                      let ok := match v with
                        | WNull => check_type (h_types h) FTNull
                        | WNum _ => check_type (h_types h) FTFloat64 || check_type (h_types h) FTUint64 || check_type (h_types h) FTInt64
                        | WStr _ => check_type (h_types h) FTString
                        | WBool _ => check_type (h_types h) FTBoolean
                        | WOther => false
                        end in
                      if ok then validate_nodes headers rest else vfail
                  end
              end
          end
      end
  end.
(** validateWhere(where, headers): src/db/query-validation.ts:16-91, for a [where] that is not falsy *)
Definition validate_where (headers : list header) (w : prop vnode) : res unit :=
  match w with Arr (n :: ns) => validate_nodes headers (n :: ns) | _ => vfail end.
(** validateOrderBy(orderBy, whereKey): src/db/query-validation.ts:93-113; the keys are
    compared with !== *)
Definition validate_order (o : prop vorder) (whereKey : option bytes) : res unit :=
  match o with
  | Absent => Ok tt
  | Arr (x :: _) =>
      if negb (name_eqb (vo_dir x) dir_asc || name_eqb (vo_dir x) dir_desc) then vfail
      else match vo_key x, whereKey with Some a, Some b => if name_eqb a b then Ok tt else vfail | _, _ => vfail end
  | _ => vfail
  end.
(** validateSelect(select, headers): src/db/query-validation.ts:115-139 *)
Definition validate_select (headers : list header) (sel : prop (option bytes)) : res unit :=
  match sel with
  | Absent => Ok tt
  | Arr (x :: xs) =>
      if forallb (fun y => match y with Some k => existsb (fun h => name_eqb (h_name h) k) headers | None => false end) (x :: xs) then Ok tt else vfail
  | _ => vfail
  end.
(** validateQuery(query, headers): src/db/query-validation.ts:191-204 *)
Definition validate_query (q : vquery) (headers : list header) : res unit :=
  _ <-- (match vq_search q with Some (key, cfg) => _ <-- validate_search key cfg headers ;;; Ok tt | None => Ok tt end) ;;;
  match vq_where q with
  | Absent => Ok tt
  | w =>
      _ <-- validate_where headers w ;;;
      _ <-- validate_order (vq_order q) (match w with Arr (n :: _) => vn_key n | _ => None end) ;;;
      validate_select headers (vq_select q)
  end.

(** ** Specification *)
(** the indexed fields: each name once, in the order of creation, with the types of its
    indexes in the order of creation *)
Definition fields_of (l : list ixr) : list header :=
  map (fun name => HD name (map ix_type (filter (fun ix => name_eqb (ix_name ix) name) l))) (first_appearances (map ix_name l)).
(** some index of the field [key] can hold a value of the kind of [v] *)
Definition type_fits (v : wval) (ft : Z) : Prop :=
  match v with
  | WNull => ft = FTNull | WBool _ => ft = FTBoolean | WStr _ => ft = FTString
  | WNum _ => ft = FTFloat64 \/ ft = FTUint64 \/ ft = FTInt64
  | WOther => False
  end.
Definition indexed (l : list ixr) (key : bytes) (v : wval) : Prop := exists ix, In ix l /\ ix_name ix = key /\ type_fits v (ix_type ix).
(** the five operations and how they are written: < <= == >= > *)
Inductive spells : bytes -> qop -> Prop :=
| sp_lt : spells [60] QLt | sp_le : spells [60; 61] QLe | sp_eq : spells [61; 61] QEq | sp_ge : spells [62; 61] QGe | sp_gt : spells [62] QGt.
(** a usable where node *)
Definition good_node (l : list ixr) (n : vnode) : Prop :=
  (exists op, spells (vn_op n) op) /\ exists key v, vn_key n = Some key /\ vn_value n = Some v /\ indexed l key v.
(** a usable query without search *)
Definition good_query (l : list ixr) (q : vquery) : Prop :=
  vq_where q = Absent \/
  exists n ns, vq_where q = Arr (n :: ns) /\ Forall (good_node l) (n :: ns) /\
    (vq_order q = Absent \/ exists x xs, vq_order q = Arr (x :: xs) /\ (vo_dir x = dir_asc \/ vo_dir x = dir_desc) /\ vo_key x = vn_key n) /\
    (vq_select q = Absent \/ exists k ks, vq_select q = Arr (k :: ks) /\ forall y, In y (k :: ks) -> exists name, y = Some name /\ In name (map ix_name l)).

(** ** Proofs *)
Lemma name_eqb_iff a b : name_eqb a b = true <-> a = b.
Proof. unfold name_eqb. destruct (list_eq_dec Z.eq_dec a b); split; congruence. Qed.
Lemma name_eqb_false a b : name_eqb a b = false <-> a <> b.
Proof. unfold name_eqb. destruct (list_eq_dec Z.eq_dec a b); split; congruence. Qed.

Lemma fa_in l x : In x (first_appearances l) <-> In x l.
Proof. apply (proj2 (C26_first_appearances_spec l) x). Qed.
(** adding an index to [fields_of] *)
Lemma meta_put_new hs name ft : (forall h, In h hs -> h_name h <> name) -> meta_put hs name ft = hs ++ [HD name [ft]].
Proof.
  induction hs as [|h t IH]; intros H; [reflexivity|]. cbn [meta_put app]. assert (h_name h <> name) as E by (apply H; left; auto).
  apply name_eqb_false in E. rewrite E, IH; auto. intros; apply H; right; auto.
Qed.
Lemma meta_put_old ns g name ft : NoDup ns -> In name ns ->
  meta_put (map (fun n => HD n (g n)) ns) name ft = map (fun n => HD n (g n ++ if name_eqb n name then [ft] else [])) ns.
Proof.
  induction ns as [|a ns IH]; intros Hn Hi; [destruct Hi|]. inversion Hn; subst. cbn [map meta_put h_name h_types].
  destruct (name_eqb a name) eqn:E.
  - apply name_eqb_iff in E. subst a. f_equal. apply map_ext_in. intros b Hb. f_equal. assert (b <> name) as X by congruence.
    apply name_eqb_false in X. rewrite X, app_nil_r. reflexivity.
  - rewrite app_nil_r. f_equal. apply IH; auto. destruct Hi as [->|]; auto. apply name_eqb_false in E. congruence.
Qed.
Lemma fa_snoc l x : first_appearances (l ++ [x]) = first_appearances l ++ if existsb (name_eqb x) l then [] else [x].
Proof.
  induction l as [|a l IH]; [reflexivity|]. cbn [app first_appearances existsb]. rewrite IH, filter_app. f_equal.
  destruct (name_eqb x a) eqn:E; cbn [orb].
  - apply name_eqb_iff in E. subst a. destruct (existsb (name_eqb x) l) eqn:Ex; cbn [filter]; [reflexivity|].
    destruct (list_eq_dec Z.eq_dec x x); [reflexivity|congruence].
  - f_equal. destruct (existsb (name_eqb x) l); [reflexivity|]. cbn [filter]. apply name_eqb_false in E. destruct (list_eq_dec Z.eq_dec x a); [congruence|reflexivity].
Qed.
Lemma collect_fields l : collect_metas (map ix_meta l) = fields_of l.
Proof.
  induction l as [|ix l IH] using rev_ind; [reflexivity|]. unfold collect_metas in *. rewrite map_app, fold_left_app, IH. cbn [map fold_left ix_meta im_name im_type].
  unfold fields_of. rewrite map_app. cbn [map]. rewrite fa_snoc. destruct (existsb (name_eqb (ix_name ix)) (map ix_name l)) eqn:Ex.
  - rewrite app_nil_r. rewrite meta_put_old.
    + apply map_ext. intros n. f_equal. rewrite filter_app, map_app. f_equal. cbn [filter]. destruct (name_eqb n (ix_name ix)) eqn:E.
      * apply name_eqb_iff in E. subst n. rewrite (proj2 (name_eqb_iff _ _) eq_refl). reflexivity.
      * destruct (name_eqb (ix_name ix) n) eqn:E'; [|reflexivity]. apply name_eqb_iff in E'. apply name_eqb_false in E. congruence.
    + apply (proj1 (C26_first_appearances_spec (map ix_name l))).
    + apply fa_in. apply existsb_exists in Ex. destruct Ex as (y & Hy & E). apply name_eqb_iff in E. subst y. exact Hy.
  - assert (Hni : ~ In (ix_name ix) (map ix_name l)).
    { intros Hi. assert (existsb (name_eqb (ix_name ix)) (map ix_name l) = true) by (apply existsb_exists; eexists; split; [exact Hi|apply name_eqb_iff; auto]). congruence. }
    rewrite meta_put_new.
    + rewrite map_app. f_equal.
      * apply map_ext_in. intros n Hn. f_equal. rewrite filter_app, map_app. cbn [filter]. assert (ix_name ix <> n) as X by (intros En; apply Hni; rewrite En; apply fa_in; exact Hn).
        apply name_eqb_false in X. rewrite X. cbn [map]. rewrite app_nil_r. reflexivity.
      * cbn [map]. f_equal. f_equal. rewrite filter_app, map_app. cbn [filter]. rewrite (proj2 (name_eqb_iff _ _) eq_refl). cbn [map].
        assert (filter (fun ix0 => name_eqb (ix_name ix0) (ix_name ix)) l = []) as ->; [|reflexivity].
        assert (G : forall m, (forall x, In x m -> In x l) -> filter (fun ix0 => name_eqb (ix_name ix0) (ix_name ix)) m = []).
        { induction m as [|y m IHm]; intros Hm; [reflexivity|]. cbn [filter]. destruct (name_eqb (ix_name y) (ix_name ix)) eqn:E.
          - apply name_eqb_iff in E. exfalso. apply Hni. rewrite <- E. apply in_map. apply Hm. left; auto.
          - apply IHm. intros; apply Hm; right; auto. }
        apply G; auto.
    + intros h Hh. apply in_map_iff in Hh. destruct Hh as (n & <- & Hn). cbn [h_name]. intros ->. apply Hni, fa_in. exact Hn.
Qed.

Lemma file_fuel wd parse D fm l s fuel : widths_ok wd -> ifile wd parse D fm l s -> (fuel_of s <= fuel)%nat -> (length l <= fuel)%nat.
Proof.
  intros Hwd Hif Hf. destruct (ifile_holds Hwd Hif) as (HzD & fl & ms & x0 & L & H).
  pose proof (cells_fuel (ho_cells H)) as X. cbn [length] in X. rewrite <- (holds_len H) in X. lia.
Qed.

(** *** C76 *)
Theorem C76_fields_partial wd parse D fm l s fuel : widths_ok wd -> ifile wd parse D fm l s -> (fuel_of s <= fuel)%nat ->
  Forall (fun ix => ix_total ix < 2^31) l -> l <> [] -> ts_fields fuel (file s) = Ok (fields_of l).
Proof.
  intros Hwd Hif Hf Ht Hne. pose proof (file_fuel Hwd Hif Hf) as Hlen. destruct (ifile_holds Hwd Hif) as (HzD & fl & ms & x0 & L & H).
  unfold ts_fields. rewrite (sees_pages H Ht Hlen Hne). cbn [rbind]. rewrite (sees_metas H Ht). cbn [rbind]. rewrite collect_fields. reflexivity.
Qed.
(** an index file without indexes makes fields() fail instead of answering that there are none *)
Theorem C76_no_fields_refuted wd parse D fm s fuel : widths_ok wd -> ifile wd parse D fm [] s ->
  ts_fields fuel (file s) = Err (EMsg "failed to fetch meta pages").
Proof.
  intros Hwd Hif. destruct (ifile_holds Hwd Hif) as (HzD & fl & ms & x0 & L & H).
  unfold ts_fields, ts_index_pages. rewrite (sees_tree H). pose proof (cl_chain (ho_cells H)) as Hc. pose proof (holds_len H) as Hlen. cbn [length] in *.
  rewrite (ts_mp_next_ok (k := 0) Hc) by lia. rewrite <- Hlen. reflexivity.
Qed.

(** *** C77 *)
Lemma check_in types ft : check_type types ft = true <-> In ft types.
Proof.
  unfold check_type. rewrite existsb_exists. split.
  - intros (x & Hx & E). apply Z.eqb_eq in E. subst x. exact Hx.
  - intros H. exists ft. split; auto. apply Z.eqb_refl.
Qed.
Lemma find_fields l key : find_header (fields_of l) key =
  if existsb (name_eqb key) (map ix_name l) then Some (HD key (map ix_type (filter (fun ix => name_eqb (ix_name ix) key) l))) else None.
Proof.
  unfold find_header, fields_of. assert (E : existsb (name_eqb key) (map ix_name l) = existsb (name_eqb key) (first_appearances (map ix_name l))).
  { apply eq_iff_eq_true. rewrite !existsb_exists. split; intros (x & Hx & E); exists x; split; auto; apply fa_in; auto. }
  rewrite E. generalize (first_appearances (map ix_name l)) as ns. induction ns as [|a ns IH]; [reflexivity|]. cbn [map find h_name existsb].
  destruct (name_eqb a key) eqn:Ea.
  - apply name_eqb_iff in Ea. subst a. rewrite (proj2 (name_eqb_iff _ _) eq_refl). reflexivity.
  - destruct (name_eqb key a) eqn:Eb; [apply name_eqb_iff in Eb; apply name_eqb_false in Ea; congruence|]. exact IH.
Qed.
Lemma in_types l key ft : In ft (map ix_type (filter (fun ix => name_eqb (ix_name ix) key) l)) <-> exists ix, In ix l /\ ix_name ix = key /\ ix_type ix = ft.
Proof.
  rewrite in_map_iff. split.
  - intros (ix & E & Hi). apply filter_In in Hi. destruct Hi as [Hi En]. apply name_eqb_iff in En. exists ix. auto.
  - intros (ix & Hi & En & E). exists ix. split; auto. apply filter_In. split; auto. apply name_eqb_iff; auto.
Qed.
Lemma spells_iff b op : spells b op <-> op_of b = Some op.
Proof.
  split; [intros []; reflexivity|]. unfold op_of.
  repeat (match goal with |- context [name_eqb b ?x] => destruct (name_eqb b x) eqn:E; [apply name_eqb_iff in E; subst b; intros H; inversion H; constructor|clear E] end). discriminate.
Qed.
Lemma node_iff l n ns : validate_nodes (fields_of l) (n :: ns) = Ok tt <-> good_node l n /\ validate_nodes (fields_of l) ns = Ok tt.
Proof.
  cbn [validate_nodes]. unfold good_node, vfail. destruct (op_of (vn_op n)) as [op|] eqn:Eop; [apply spells_iff in Eop|split; [discriminate|intros (((op & X) & _) & _); apply spells_iff in X; congruence]].
  destruct (vn_key n) as [key|]; [|split; [discriminate|intros ((_ & key & v & X & _) & _); discriminate]].
  rewrite find_fields. destruct (existsb (name_eqb key) (map ix_name l)) eqn:Ex.
  2:{ split; [discriminate|]. intros ((_ & key' & v & X & _ & ix & Hi & En & _) & _). injection X as <-. exfalso.
      assert (existsb (name_eqb key) (map ix_name l) = true) by (apply existsb_exists; exists (ix_name ix); split; [apply in_map; auto|apply name_eqb_iff; auto]). congruence. }
  destruct (vn_value n) as [v|]; [|split; [discriminate|intros ((_ & key' & v & _ & X & _) & _); discriminate]].
  cbn [h_types]. set (ts := map ix_type (filter (fun ix => name_eqb (ix_name ix) key) l)).
  assert (G : (match v with
               | WNull => check_type ts FTNull
               | WNum _ => check_type ts FTFloat64 || check_type ts FTUint64 || check_type ts FTInt64
               | WStr _ => check_type ts FTString
               | WBool _ => check_type ts FTBoolean
               | WOther => false
               end = true) <-> indexed l key v).
  { unfold indexed, ts. destruct v; cbn [type_fits]; rewrite ?orb_true_iff, ?check_in, ?in_types.
    - reflexivity.
    - split; [intros [[H|H]|H]; destruct H as (ix & H1 & H2 & H3); exists ix; auto|].
      intros (ix & H1 & H2 & [H3|[H3|H3]]); [left; left|left; right|right]; exists ix; auto.
    - reflexivity.
    - reflexivity.
    - split; [discriminate|intros (ix & _ & _ & [])]. }
  match goal with |- context [if ?b then _ else _] => destruct b eqn:Eb end.
  - split.
    + intros H. split; auto. split; [eexists; exact Eop|]. exists key, v. repeat split; auto. apply G; reflexivity.
    + intros [_ H]; exact H.
  - split; [discriminate|]. intros ((_ & key' & v' & X & Y & Hi) & _). injection X as <-. injection Y as <-. apply G in Hi. discriminate.
Qed.
Lemma nodes_iff l ns : validate_nodes (fields_of l) ns = Ok tt <-> Forall (good_node l) ns.
Proof.
  induction ns as [|n ns IH]; [split; [constructor|reflexivity]|]. rewrite node_iff, IH. split; [intros []; constructor; auto|intros H; inversion H; auto].
Qed.
Lemma order_iff o k : validate_order o (Some k) = Ok tt <->
  o = Absent \/ exists x xs, o = Arr (x :: xs) /\ (vo_dir x = dir_asc \/ vo_dir x = dir_desc) /\ vo_key x = Some k.
Proof.
  unfold validate_order, vfail. destruct o as [| |[|x xs]].
  - split; auto.
  - split; [discriminate|intros [H|(x & xs & H & _)]; discriminate].
  - split; [discriminate|intros [H|(x & xs & H & _)]; discriminate].
  - destruct (name_eqb (vo_dir x) dir_asc || name_eqb (vo_dir x) dir_desc) eqn:Ed; cbn [negb].
    + assert (Hd : vo_dir x = dir_asc \/ vo_dir x = dir_desc) by (apply orb_true_iff in Ed; destruct Ed as [E|E]; apply name_eqb_iff in E; auto).
      destruct (vo_key x) as [a|] eqn:Ek.
      * destruct (name_eqb a k) eqn:Ea.
        -- apply name_eqb_iff in Ea. subst a. split; auto. intros _. right. exists x, xs. auto.
        -- split; [discriminate|]. intros [H|(y & ys & H & _ & H2)]; [discriminate|]. injection H as <- <-. rewrite Ek in H2. injection H2 as ->. apply name_eqb_false in Ea. congruence.
      * split; [discriminate|]. intros [H|(y & ys & H & _ & H2)]; [discriminate|]. injection H as <- <-. congruence.
    + split; [discriminate|]. intros [H|(y & ys & H & Hd & _)]; [discriminate|]. injection H as <- <-. exfalso.
      apply orb_false_iff in Ed. destruct Ed as [E1 E2]. apply name_eqb_false in E1, E2. destruct Hd; contradiction.
Qed.
Lemma select_iff l sel : validate_select (fields_of l) sel = Ok tt <->
  sel = Absent \/ exists k ks, sel = Arr (k :: ks) /\ forall y, In y (k :: ks) -> exists name, y = Some name /\ In name (map ix_name l).
Proof.
  unfold validate_select, vfail. destruct sel as [| |[|x xs]].
  - split; auto.
  - split; [discriminate|intros [H|(x & xs & H & _)]; discriminate].
  - split; [discriminate|intros [H|(x & xs & H & _)]; discriminate].
  - set (t := fun y => match y with Some k => existsb (fun h => name_eqb (h_name h) k) (fields_of l) | None => false end).
    assert (G : forall y, t y = true <-> exists name, y = Some name /\ In name (map ix_name l)).
    { intros [k|]; cbn [t]; [|split; [discriminate|intros (n & X & _); discriminate]]. rewrite existsb_exists. split.
      - intros (h & Hh & E). apply in_map_iff in Hh. destruct Hh as (n & <- & Hn). cbn [h_name] in E. apply name_eqb_iff in E. subst n. exists k. split; auto. apply fa_in; auto.
      - intros (n & [= <-] & Hn). unfold fields_of. eexists. split; [apply in_map, fa_in; exact Hn|]. cbn [h_name]. apply name_eqb_iff; auto. }
    destruct (forallb t (x :: xs)) eqn:Ef.
    + split; auto. intros _. right. exists x, xs. split; auto. intros y Hy. apply G. rewrite forallb_forall in Ef. apply Ef; auto.
    + split; [discriminate|]. intros [H|(k & ks & H & Ha)]; [discriminate|]. injection H as <- <-.
      assert (forallb t (x :: xs) = true) by (apply forallb_forall; intros y Hy; apply G; apply Ha; auto). congruence.
Qed.

(** Against the fields of a file, a query is accepted exactly when its search is (C51) and
    its clauses can be answered. *)
Theorem C77_accepted_iff l q : validate_query q (fields_of l) = Ok tt <->
  (match vq_search q with Some (key, cfg) => exists c, validate_search key cfg (fields_of l) = Ok c | None => True end) /\ good_query l q.
Proof.
  unfold validate_query, good_query.
  assert (S : (match vq_search q with Some (key, cfg) => _ <-- validate_search key cfg (fields_of l) ;;; Ok tt | None => Ok tt end = Ok tt) <->
              match vq_search q with Some (key, cfg) => exists c, validate_search key cfg (fields_of l) = Ok c | None => True end).
  { destruct (vq_search q) as [[key cfg]|]; [|tauto]. destruct (validate_search key cfg (fields_of l)) as [c| | | |]; cbn [rbind]; split; try discriminate; eauto; intros (c' & X); discriminate. }
  destruct (match vq_search q with Some (key, cfg) => _ <-- validate_search key cfg (fields_of l) ;;; Ok tt | None => Ok tt end) as [[]| | | |] eqn:Es; cbn [rbind].
  2-5: split; [discriminate|intros [X _]; apply S in X; discriminate].
  assert (S' := proj1 S eq_refl). clear Es S.
  destruct (vq_where q) as [| |[|n ns]] eqn:Ew.
  - split; auto.
  - cbn [validate_where vfail rbind]. split; [discriminate|]. intros [_ [X|(n & ns & X & _)]]; discriminate.
  - cbn [validate_where vfail rbind]. split; [discriminate|]. intros [_ [X|(n & ns & X & _)]]; discriminate.
  - cbn [validate_where]. destruct (validate_nodes (fields_of l) (n :: ns)) as [[]| | | |] eqn:En; cbn [rbind].
    2-5: split; [discriminate|]; intros [_ [X|(n' & ns' & X & H & _)]]; [discriminate|]; injection X as <- <-; apply nodes_iff in H; congruence.
    apply nodes_iff in En. assert (exists key, vn_key n = Some key) as (key & Ek) by (inversion En as [|? ? (_ & key & v & K & _) ?]; eauto).
    rewrite Ek. destruct (validate_order (vq_order q) (Some key)) as [[]| | | |] eqn:Eo; cbn [rbind].
    2-5: split; [discriminate|]; intros [_ [X|(n' & ns' & X & _ & H & _)]]; [discriminate|]; injection X as <- <-; rewrite Ek in H; apply order_iff in H; congruence.
    apply order_iff in Eo. rewrite select_iff. split.
    + intros H. split; auto. right. exists n, ns. rewrite Ek. auto.
    + intros [_ [X|(n' & ns' & X & _ & _ & H)]]; [discriminate|]. exact H.
Qed.

(** the clauses of an accepted query, as query() reads them *)
Definition clause_of (n : vnode) : option clause :=
  match op_of (vn_op n), vn_key n, vn_value n with Some op, Some key, Some v => Some (CW key op v) | _, _, _ => None end.
(** An accepted clause is never refused for want of a field or of an index: the browser
    finds the header and an index of the field with a type for the value. *)
Theorem C77_accepted_finds_index_partial wd parse D fm l s fuel q : widths_ok wd -> ifile wd parse D fm l s -> (fuel_of s <= fuel)%nat ->
  Forall (fun ix => ix_total ix < 2^31) l -> l <> [] ->
  forall headers, ts_fields fuel (file s) = Ok headers -> validate_query q headers = Ok tt ->
  forall ns, vq_where q = Arr ns -> forall n, In n ns -> exists w ix ft key mps,
    clause_of n = Some w /\ spells (vn_op n) (w_op w) /\ In ix l /\ ix_name ix = w_key w /\ type_fits (w_val w) (ix_type ix) /\
    existsb (fun h => name_eqb (h_name h) (w_key w)) headers = true /\
    process_where (w_val w) = Some (ft, key) /\ ts_seek fuel (file s) (w_key w) ft = Ok (ix_at ix :: mps).
Proof.
  intros Hwd Hif Hf Ht Hne headers Hh Hq ns Ew n Hn. pose proof (file_fuel Hwd Hif Hf) as Hlen.
  rewrite (C76_fields_partial Hwd Hif Hf Ht Hne) in Hh. injection Hh as <-. apply C77_accepted_iff in Hq. destruct Hq as [_ [X|(n0 & ns0 & X & Hg & _)]]; [congruence|].
  rewrite Ew in X. injection X as ->. rewrite Forall_forall in Hg. destruct (Hg n Hn) as ((op & Sop) & key & v & Ek & Ev & ix0 & Hi0 & En0 & Ht0).
  pose proof (proj1 (spells_iff _ _) Sop) as Eop.
  destruct (ifile_holds Hwd Hif) as (HzD & fl & ms & x0 & L & H).
  assert (exists ft kb, process_where v = Some (ft, kb)) as (ft & kb & Ep) by (destruct v; cbn in *; eauto; contradiction).
  assert (Hacc : forall ix, ts_accepts key ft (ix_meta ix) = true <-> ix_name ix = key /\ type_fits v (ix_type ix)).
  { intros ix. unfold ts_accepts. cbn [ix_meta im_name im_type]. rewrite andb_true_iff, name_eqb_iff.
    destruct v; cbn in Ep; try discriminate; injection Ep as <- _; cbn [type_fits]; cbv beta; try (change (FTNull =? FTFloat64) with false); try (change (FTBoolean =? FTFloat64) with false); try (change (FTString =? FTFloat64) with false); try (change (FTFloat64 =? FTFloat64) with true); cbv iota; rewrite ?orb_true_iff, ?Z.eqb_eq; split; intros [A B]; split; auto; tauto. }
  pose proof (sees_seek H Ht key ft Hlen Hne) as Esk.
  destruct (filter (fun ix => ts_accepts key ft (ix_meta ix)) l) as [|ix rest] eqn:Ef.
  { exfalso. assert (In ix0 (filter (fun ix => ts_accepts key ft (ix_meta ix)) l)) by (apply filter_In; split; auto; apply Hacc; auto). rewrite Ef in H0. destruct H0. }
  assert (Hix : In ix (filter (fun ix => ts_accepts key ft (ix_meta ix)) l)) by (rewrite Ef; left; auto). apply filter_In in Hix. destruct Hix as [Hil Hia]. apply Hacc in Hia. destruct Hia as [Hia1 Hia2].
  exists (CW key op v), ix, ft, kb, (map ix_at rest). cbn [w_key w_val]. unfold clause_of. rewrite Eop, Ek, Ev. repeat split; auto.
  apply existsb_exists. unfold fields_of. exists (HD key (map ix_type (filter (fun ix => name_eqb (ix_name ix) key) l))).
  split; [apply in_map_iff; exists key; split; auto; apply fa_in; rewrite <- Hia1; apply in_map; auto|]. cbn [h_name]. apply name_eqb_iff; auto.
Qed.
(** But a query that validateQuery accepts can still be refused by query(): clauses on two fields. *)
Theorem C77_accepted_two_fields_refuted parse fuel f D l key1 key2 op1 op2 v1 v2 n dirs limit :
  indexed l key1 v1 -> indexed l key2 v2 -> key1 <> key2 -> (exists o, spells op1 o) -> (exists o, spells op2 o) ->
  validate_query (VQ (Arr [VN op1 (Some key1) (Some v1); VN op2 (Some key2) (Some v2)]) Absent Absent None) (fields_of l) = Ok tt /\
  forall o1 o2, spells op1 o1 -> spells op2 o2 -> exists e, ts_query parse fuel f D (QY [CW key1 o1 v1; CW key2 o2 v2] dirs limit) n = Err e.
Proof.
  intros H1 H2 Hk Ho1 Ho2. split.
  - apply C77_accepted_iff. cbn [vq_search]. split; [exact I|]. right. cbn [vq_where vq_order vq_select]. eexists _, _. split; [reflexivity|]. split; [|auto].
    constructor; [|constructor; [|constructor]]; split; cbn [vn_op vn_key vn_value]; auto; [exists key1, v1|exists key2, v2]; auto.
  - intros o1 o2 _ _. eapply (@C68_two_fields_refused parse fuel f D _ n (CW key1 o1 v1) (CW key2 o2 v2)); cbn [qy_where w_key In]; auto.
Qed.
(** query() itself does not validate: see C69 for what it does with unknown fields and types. *)

(** ** Witnesses *)
Definition demo_indexes : list ixr := [IX (LP 4096 1) [97] FTFloat64 0 []; IX (LP 4096 2) [98] FTString 0 []; IX (LP 4096 3) [97] FTNull 0 []].
Example C76_example : fields_of demo_indexes = [HD [97] [FTFloat64; FTNull]; HD [98] [FTString]].
Proof. reflexivity. Qed.
(** a < 1 ORDER BY a ASC, select a, b *)
Example C77_example : validate_query (VQ (Arr [VN [60] (Some [97]) (Some (WNum (zeros 8)))]) (Arr [VO dir_asc (Some [97])]) (Arr [Some [97]; Some [98]]) None) (fields_of demo_indexes) = Ok tt.
Proof. reflexivity. Qed.
(** a string for a number field, an order by another field, an unknown selected field, an unknown operation *)
Example C77_example_refused :
  Forall (fun q => validate_query q (fields_of demo_indexes) = vfail)
    [VQ (Arr [VN [60] (Some [97]) (Some (WStr [49]))]) Absent Absent None;
     VQ (Arr [VN [60] (Some [97]) (Some WNull)]) (Arr [VO dir_asc (Some [98])]) Absent None;
     VQ (Arr [VN [60] (Some [97]) (Some WNull)]) Absent (Arr [Some [99]]) None;
     VQ (Arr [VN [33; 61] (Some [97]) (Some WNull)]) Absent Absent None;
     VQ (Arr []) Absent Absent None].
Proof. repeat (apply Forall_cons; [reflexivity|]). apply Forall_nil. Qed.
