(** C78, C79: what a query yields: the selected fields of the records (src/db/query-lang.ts,
    src/db/database.ts). *)
From Coq Require Import Permutation Sorted.
From Verif Require Import Base Varint Store PageFile PageHist RefValue Node LinkedPage BPTree BPRepr BPIter BPInsert BPLoop BPTop PTree Meta TsCodec Slots SlotAdd PSlots Cells IndexFile IFileInv PIndex Json Jsonl Grows JsonlRun JsonDoc JsonlDoc JsonlSpec JsonlHist PJsonl Query QTree TsFile PQuery PJsonlQuery JsParse PJsonlEx PQueryEx.

(** ** Model *)
Section M.
Variables (js_unquote js_float : bytes -> bytes).
(** yield handleSelect(data, query.select), for each record: src/db/database.ts:225-419. An exception ends
    the generator; what was yielded before it is not kept here. *)
Fixpoint select_all (select : option (list bytes)) (l : list bytes) : res (list jsv) :=
  match l with
  | [] => Ok []
  | d :: t => o <-- handle_select js_unquote js_float d select ;;; os <-- select_all select t ;;; Ok (o :: os)
  end.
(** query(query): src/db/database.ts:102-422, the first [n] values a consumer asks for *)
Definition db_query (parse : bytes -> option bytes) (fuel : nat) (f D : bytes) (q : query) (select : option (list bytes)) (n : nat) : res (list jsv) :=
  rs <-- ts_query parse fuel f D q n ;;; select_all select rs.

(** ** Specification *)
(** [o] has, of the fields [fs] of the line [x], exactly those that the line has, with their values *)
Definition selects (fs : list bytes) (x : line) (o : jsv) : Prop :=
  exists ps, o = SObj ps /\ NoDup (map fst ps) /\
    forall k, pget ps k = if in_dec (list_eq_dec Z.eq_dec) k fs then option_map (meaning js_unquote js_float) (last_member js_unquote k (ln_members x)) else None.
(** the whole record *)
Definition whole (x : line) : jsv := meaning js_unquote js_float (JObj (ln_ws x) (ln_members x)).

(** ** Proofs *)
Variable to_float : bytes -> option bytes.
Lemma parse_line x : line_wf to_float x -> json_parse js_unquote js_float (line_text x) = Ok (whole x).
Proof. intros (H1 & H2 & H3). unfold line_text. apply (json_parse_text js_unquote js_float to_float); auto. Qed.
Lemma pset_keys ps k v : map fst (pset ps k v) = if existsb (kb k) (map fst ps) then map fst ps else map fst ps ++ [k].
Proof.
  induction ps as [|[a y] ps IH]; [reflexivity|]. cbn [pset map fst existsb]. destruct (kb k a) eqn:E; [reflexivity|]. cbn [map fst orb]. rewrite IH.
  destruct (existsb (kb k) (map fst ps)); reflexivity.
Qed.
Lemma pset_nodup ps k v : NoDup (map fst ps) -> NoDup (map fst (pset ps k v)).
Proof.
  intros H. rewrite pset_keys. destruct (existsb (kb k) (map fst ps)) eqn:E; [exact H|].
  apply NoDup_rev in H. rewrite <- (rev_involutive (map fst ps ++ [k])). apply NoDup_rev. rewrite rev_app_distr. cbn [rev app]. constructor; auto.
  rewrite <- in_rev. intros Hi. assert (existsb (kb k) (map fst ps) = true) by (apply existsb_exists; exists k; split; auto; apply kb_refl). congruence.
Qed.
Lemma select_fold ps fs : (forall k, In k fs -> ~ In k inherited) -> forall acc, NoDup (map fst acc) ->
  NoDup (map fst (fold_left (fun acc k => match field_in ps k with Some v => assign acc k v | None => acc end) fs acc)) /\
  forall k, pget (fold_left (fun acc k => match field_in ps k with Some v => assign acc k v | None => acc end) fs acc) k =
    if in_dec (list_eq_dec Z.eq_dec) k fs then match pget ps k with Some v => Some v | None => pget acc k end else pget acc k.
Proof.
  induction fs as [|f fs IH]; intros Hin acc Hn; [split; auto|]. cbn [fold_left].
  assert (Hf : field_in ps f = pget ps f).
  { unfold field_in. destruct (pget ps f); [reflexivity|]. destruct (existsb (kb f) inherited) eqn:E; [|reflexivity].
    apply existsb_exists in E. destruct E as (y & Hy & Ey). apply kb_iff in Ey. subst y. exfalso. apply (Hin f); [left; auto|exact Hy]. }
  assert (Ha : forall v, assign acc f v = pset acc f v).
  { intros v. unfold assign. destruct (kb f proto_name) eqn:E; [|reflexivity]. apply kb_iff in E. subst f. exfalso. apply (Hin proto_name); [left; auto|left; auto]. }
  rewrite Hf. set (acc' := match pget ps f with Some v => assign acc f v | None => acc end).
  assert (Hn' : NoDup (map fst acc')) by (unfold acc'; destruct (pget ps f); [rewrite Ha; apply pset_nodup; auto|auto]).
  destruct (IH (fun k Hk => Hin k (or_intror Hk)) acc' Hn') as [A B]. split; [exact A|]. intros k. rewrite B.
  assert (Hk : pget acc' k = if kb k f then match pget ps f with Some v => Some v | None => pget acc k end else pget acc k).
  { unfold acc'. destruct (pget ps f) as [v|] eqn:E; [rewrite Ha, pget_pset; reflexivity|]. destruct (kb k f); reflexivity. }
  rewrite Hk. destruct (in_dec (list_eq_dec Z.eq_dec) k fs) as [I1|I1]; destruct (in_dec (list_eq_dec Z.eq_dec) k (f :: fs)) as [I2|I2].
  - destruct (pget ps k) eqn:E; [reflexivity|]. destruct (kb k f) eqn:Ek; [|reflexivity]. apply kb_iff in Ek. subst f. rewrite E. reflexivity.
  - exfalso. apply I2. right; auto.
  - destruct I2 as [->|I2]; [|contradiction]. rewrite kb_refl. reflexivity.
  - destruct (kb k f) eqn:Ek; [|reflexivity]. apply kb_iff in Ek. subst f. exfalso. apply I2. left; auto.
Qed.

(** *** C78 *)
(** No selection, or an empty one: the record. *)
Theorem C78_no_select x : line_wf to_float x -> handle_select js_unquote js_float (line_text x) None = Ok (whole x) /\ handle_select js_unquote js_float (line_text x) (Some []) = Ok (whole x).
Proof. intros H. unfold handle_select. rewrite (parse_line H). split; reflexivity. Qed.
(** A selection of names that are not names of Object.prototype: exactly the selected fields that the record has. *)
Theorem C78_select_partial x fs : line_wf to_float x -> fs <> [] -> (forall k, In k fs -> ~ In k inherited) ->
  exists o, handle_select js_unquote js_float (line_text x) (Some fs) = Ok o /\ selects fs x o.
Proof.
  intros H Hne Hin. unfold handle_select. rewrite (parse_line H). cbn [rbind]. destruct fs as [|f fs]; [congruence|]. unfold whole. cbn [meaning].
  eexists. split; [reflexivity|]. eexists. split; [reflexivity|].
  destruct (@select_fold (fold_left (fun ps m => pset ps (fst m) (snd m)) (mmeaning js_unquote js_float (ln_members x)) []) (f :: fs) Hin [] (NoDup_nil _)) as [A B].
  split; [exact A|]. intros k. rewrite B, pget_meaning. cbn [pget]. destruct (in_dec (list_eq_dec Z.eq_dec) k (f :: fs)); [|reflexivity].
  destruct (option_map _ _); reflexivity.
Qed.
Lemma select_one x name : line_wf to_float x ->
  handle_select js_unquote js_float (line_text x) (Some [name]) =
    Ok (SObj (match field_in (fold_left (fun ps m => pset ps (fst m) (snd m)) (mmeaning js_unquote js_float (ln_members x)) []) name with Some v => assign [] name v | None => [] end)).
Proof. intros H. unfold handle_select. rewrite (parse_line H). unfold whole. reflexivity. Qed.
(** A field inside a nested object is indexed under its dotted name, can be compared (C70) and passes
    the validation of select (C77), but selecting it gives nothing. *)
Theorem C78_nested_refuted unquote x name : line_wf to_float x -> In name (map fd_name (mfields unquote [] 0 true (ln_members x))) ->
  last_member js_unquote name (ln_members x) = None -> ~ In name inherited ->
  handle_select js_unquote js_float (line_text x) (Some [name]) = Ok (SObj []).
Proof.
  intros H _ Hl Hi. rewrite (select_one _ H). unfold field_in. rewrite pget_meaning, Hl. cbn [option_map].
  destruct (existsb (kb name) inherited) eqn:E; [|reflexivity]. apply existsb_exists in E. destruct E as (y & Hy & Ey). apply kb_iff in Ey. subst y. contradiction.
Qed.
(** Selecting a name of Object.prototype that the record does not have gives what is inherited; selecting __proto__ gives nothing
    even if the record has it. *)
Theorem C78_inherited_refuted x name : line_wf to_float x -> In name inherited ->
  (last_member js_unquote name (ln_members x) = None -> name <> proto_name -> handle_select js_unquote js_float (line_text x) (Some [name]) = Ok (SObj [(name, SInh name)])) /\
  handle_select js_unquote js_float (line_text x) (Some [proto_name]) = Ok (SObj []).
Proof.
  intros H Hi. rewrite !(select_one _ H). split.
  - intros Hl Hn. unfold field_in. rewrite pget_meaning, Hl. cbn [option_map].
    assert (existsb (kb name) inherited = true) as -> by (apply existsb_exists; exists name; split; auto; apply kb_refl). unfold assign.
    destruct (kb name proto_name) eqn:E; [apply kb_iff in E; contradiction|reflexivity].
  - unfold assign. rewrite kb_refl. destruct (field_in _ _); reflexivity.
Qed.
Lemma select_all_lines fs : fs <> [] -> (forall k, In k fs -> ~ In k inherited) -> forall xs, Forall (line_wf to_float) xs ->
  exists os, select_all (Some fs) (map line_text xs) = Ok os /\ Forall2 (fun x o => selects fs x o) xs os.
Proof.
  intros Hne Hin. induction 1 as [|x xs Hx _ (os & E & F)]; [exists []; split; [reflexivity|constructor]|]. cbn [map select_all].
  destruct (C78_select_partial Hx Hne Hin) as (o & Eo & So). rewrite Eo, E. cbn [rbind]. exists (o :: os). split; [reflexivity|constructor; auto].
Qed.
End M.

Section End.
Variables (js_unquote js_float unquote : bytes -> bytes) (to_float : bytes -> option bytes) (grams : bytes -> Z -> res (list (bytes * Z * Z))) (hdrs : list bytes).
Hypothesis float_8 : forall t f, to_float t = Some f -> zlen f = 8.
Notation sync := (jsonl_sync unquote to_float grams hdrs file_slot).
Notation parse := (jparse unquote to_float).
(** End to end (see C70): a JSONL file is synchronized; a descending < or <= query with a selection yields, for
    every line with a matching field in descending order, the selected fields of the line. *)
Theorem C78_query_select_partial D s s' ls tail r name v ft fuel op limit n fs :
  PJsonl.life unquote to_float grams hdrs D s -> PJsonl.fits unquote to_float grams hdrs D ls tail -> sync D s = (r, s') -> zlen (file s') <= 2^31 -> zlen D < 2^31 ->
  value_type v = Some ft -> (exists x, In x (all_fields unquote ls) /\ fd_name (snd x) = name /\ type_of (fd_value (snd x)) = ft) ->
  (forall field_name gram_type, In gram_type [FTUnigram; FTBigram; FTTrigram] -> total_of unquote to_float grams hdrs (occs unquote 0 ls) (field_name, gram_type) < 2^31) -> (fuel_of s' <= fuel)%nat ->
  op = QLt \/ op = QLe -> fs <> [] -> (forall k, In k fs -> ~ In k inherited) -> Forall (line_wf to_float) ls ->
  exists found os, Permutation found (filter (hit unquote to_float name op v) (all_fields unquote ls)) /\ arranged unquote to_float Desc found /\
    db_query js_unquote js_float parse fuel (file s') D (QY [CW name op v] [Desc] limit) (Some fs) n = Ok os /\
    Forall2 (fun x o => selects js_unquote js_float fs (fst x) o) (firstn n found) os.
Proof.
  intros Hl Hf Hs H1 H2 Hv Hn Hgt Hfu Hop Hne Hin Hwf.
  destruct (C70_lines_below_partial float_8 v Hl Hf Hs H1 H2 Hv Hn Hgt Hfu limit n Hop) as (found & P & A & E).
  assert (W : Forall (line_wf to_float) (map fst (firstn n found))).
  { apply Forall_forall. intros x Hx. apply in_map_iff in Hx. destruct Hx as (y & <- & Hy). assert (In y found) as Hy' by (rewrite <- (firstn_skipn n found); apply in_or_app; auto).
    apply (Permutation_in _ P) in Hy'. apply filter_In in Hy'. destruct Hy' as [Hy' _]. unfold all_fields in Hy'. apply in_flat_map in Hy'. destruct Hy' as (l0 & Hl0 & Hy').
    unfold line_fields in Hy'. apply in_map_iff in Hy'. destruct Hy' as (g & <- & _). cbn [fst].
    rewrite Forall_forall in Hwf. exact (Hwf l0 Hl0). }
  destruct (@select_all_lines js_unquote js_float to_float fs Hne Hin _ W) as (os & Eo & Fo).
  exists found, os. split; [exact P|]. split; [exact A|]. split.
  - unfold db_query. rewrite E. cbn [rbind]. rewrite map_map in Eo. exact Eo.
  - clear -Fo. revert os Fo. induction (firstn n found) as [|a l IH]; intros os F; inversion F; subst; constructor; auto.
Qed.
End End.

(** *** C79: queries on CSV files *)
(** the text of a CSV row of at least two cells, the first without quotes and brackets *)
Definition csv_row (t : bytes) : Prop := exists cell rest, plain cell /\ t = cell ++ 44 :: rest.
Theorem C79_row_refuted js_unquote js_float t select : csv_row t -> handle_select js_unquote js_float t select = Err (EMsg "SyntaxError").
Proof. intros (cell & rest & Hc & ->). unfold handle_select. rewrite (json_parse_comma js_unquote js_float (fun _ => None)) by auto. reflexivity. Qed.
(** A query on an index of such a file raises a SyntaxError as soon as it finds a row. *)
Theorem C79_csv_query_refuted js_unquote js_float wd parse D fm l s ix v fuel op limit n select : widths_ok wd -> ifile wd parse D fm l s -> readable wd D fm l s ix ->
  value_type v = Some (ix_type ix) -> (fuel_of s <= fuel)%nat -> op = QLt \/ op = QLe -> (0 < n)%nat ->
  (exists e, In e (ix_es ix) /\ satisfies op (value_key v) e = true) -> (forall e, In e (ix_es ix) -> csv_row (record_of D e)) ->
  db_query js_unquote js_float parse fuel (file s) D (ask ix op Desc v limit) select n = Err (EMsg "SyntaxError").
Proof.
  intros Hwd Hif Hr Hv Hf Hop Hn (e & He & Hs) Hrow.
  destruct (C48_descending_lt_le_partial Hwd Hif Hr v Hv Hf limit n Hop) as (found & P & _ & E).
  unfold db_query. rewrite E. cbn [rbind]. destruct n as [|n]; [lia|].
  assert (Hi : In e found) by (apply (Permutation_in _ (Permutation_sym P)), filter_In; auto).
  destruct found as [|e0 found]; [destruct Hi|]. cbn [firstn map select_all].
  rewrite C79_row_refuted; [reflexivity|]. apply Hrow. assert (X : In e0 (filter (satisfies op (value_key v)) (ix_es ix))) by (apply (Permutation_in _ P); left; auto). apply filter_In in X. tauto.
Qed.

(** ** Witnesses *)
Definition jf (t : bytes) : bytes := firstn 8 (t ++ zeros 8).
(** {"a" : [] , "b":"x","c":{"d":true}}, select b, e, a *)
Example C78_example : handle_select un jf (line_text line2) (Some [[98]; [101]; [97]]) = Ok (SObj [([98], SStr [120]); ([97], SArr [])]).
Proof. reflexivity. Qed.
(** "c.d" is a field, but cannot be selected; "toString" is not, and can *)
Example C78_example_nested : In [99; 46; 100] (map fd_name (mfields un [] 0 true (ln_members line2))) /\ handle_select un jf (line_text line2) (Some [[99; 46; 100]]) = Ok (SObj []).
Proof. split; [cbn; tauto|reflexivity]. Qed.
Example C78_example_inherited : handle_select un jf (line_text line2) (Some [[116; 111; 83; 116; 114; 105; 110; 103]]) = Ok (SObj [([116; 111; 83; 116; 114; 105; 110; 103], SInh [116; 111; 83; 116; 114; 105; 110; 103])]).
Proof. reflexivity. Qed.
(** 1,x *)
Example C79_example : csv_row [49; 44; 120] /\ json_parse un jf [49; 44; 120] = Err (EMsg "SyntaxError") /\ json_parse un jf [49; 32] = Ok (SNum (jf [49])).
Proof. split; [exists [49], [120]; split; [constructor; [lia|constructor]|reflexivity]|split; reflexivity]. Qed.
