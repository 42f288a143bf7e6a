(** C92: the browser reads the keys of an index as the indexer wrote them: the text of a
    value in the data file stands for the same key to both. *)
From Coq Require Import Permutation Sorted Lia.
From Verif Require Import Base Varint Store PageFile PageHist RefValue Node LinkedPage BPTree BPRepr BPIter BPInsert BPLoop BPTop PTree Meta TsCodec Slots SlotAdd PSlots Cells IndexFile IFileInv PIndex Json Jsonl Grows JsonlRun JsonDoc JsonlDoc JsonlSpec JsonlHist PJsonl Query QTree TsFile PQuery PJsonlQuery JsParse JsString.

(** ** Model *)
Section Js.
(** the number a text stands for (Number.parseFloat in JSON.parse), and the conversions of
    values to the type of an index they do not have: ToString and ToNumber *)
Variables (js_float : bytes -> bytes) (to_string to_number : jsv -> bytes) (truthy : jsv -> bool).
(** parseValue: src/bptree/node.ts:202-241. The text is decoded by the parts between its
    quotes ([js_unquote]): cutting at ASCII characters and decoding commute (js_decode_cut). *)
Definition parse_value (format ft : Z) (data : bytes) : res bytes :=
  if format =? 0 then
    j <-- json_parse js_unquote js_float data ;;;
    if ft =? FTNull then match j with SNull => Ok [] | _ => Err (EMsg "unrecognized value for null type") end
    else if ft =? FTBoolean then Ok [if match j with SBool b => b | _ => truthy j end then 1 else 0]
    else if (ft =? FTFloat64) || (ft =? FTInt64) || (ft =? FTUint64) then Ok (match j with SNum f => f | _ => to_number j end)
    else if ft =? FTString then Ok (match j with SStr b => b | _ => to_string j end)
    else Err (EMsg "Unexpected Field Type")
  else if format =? 1 then Ok data
  else Ok [].
(** as the codec of a tree *)
Definition browser (format ft : Z) (data : bytes) : option bytes := match parse_value format ft data with Ok k => Some k | _ => None end.

Section P.
(** strconv.ParseFloat, as in C37-C42; both round to the nearest float64 *)
Variables (to_float : bytes -> option bytes) (grams : bytes -> Z -> res (list (bytes * Z * Z))) (hdrs : list bytes).
Hypothesis float_8 : forall t f, to_float t = Some f -> zlen f = 8.
Hypothesis same_float : forall t f, to_float t = Some f -> js_float t = f.
Notation parse := (jparse go_unquote to_float).

(** ** Strings *)
(** Of every text of a string in UTF-8: the same bytes, those of the characters it writes. *)
Theorem C92_strings_mean_the_same b : str_body b -> is_utf8 b -> exists l, Forall ch_ok l /\ b = flat_map ch_text l /\ go_unquote b = value l /\ js_unquote b = value l.
Proof.
  intros B (cps & H & E). destruct (@body_chars (length cps) cps b (le_n _) H E B) as (l & Hl & El). exists l. rewrite El. auto using go_is_value, js_value.
Qed.
Lemma unquote_same b : str_body b -> is_utf8 b -> js_unquote b = go_unquote b.
Proof. intros B U. destruct (C92_strings_mean_the_same B U) as (l & _ & _ & -> & ->). reflexivity. Qed.

(** ** Keys *)
(** a number, string, boolean or null; the key it has in the index of its type *)
Definition scalar_key (v : jv) : option bytes :=
  match v with
  | JNull => Some []
  | JBool b => Some [if b then 1 else 0]
  | JNum t => to_float t
  | JStr b => Some (go_unquote b)
  | JArr _ _ | JObj _ _ => None
  end.
(** Parse (of the indexer, when it reads a page again) and parseValue (of the browser) give
    the text of a value its key. *)
Theorem C92_keys_agree w v k : ws w -> vwf to_float v -> scalar_key v = Some k -> is_utf8 (vtext v) ->
  parse (w ++ vtext v) = Some k /\ parse_value 0 (type_of v) (w ++ vtext v) = Ok k.
Proof.
  intros Hw Hv Hk Hu.
  assert (Hs : is_scalar v = true) by (destruct v; try discriminate; reflexivity).
  split.
  - unfold jparse, new_dec. rewrite <- (app_nil_r (vtext v)). rewrite (@token_scalar go_unquote to_float TopValue w TopValue v [] 0 [] (pre_ws _ Hw) eq_refl Hv Hs I).
    destruct v as [|b|t|b|w' l|w' l]; try discriminate; cbn [scalar_key vtok] in *; try (injection Hk as <-; reflexivity). rewrite Hk. reflexivity.
  - unfold parse_value. cbn [Z.eqb]. rewrite <- (app_nil_r (vtext v)). rewrite (@json_parse_text js_unquote js_float to_float w v [] Hw Hv (Forall_nil _)). cbn [rbind].
    destruct v as [|b|t|b|w' l|w' l]; try discriminate; cbn [type_of meaning scalar_key] in *.
    + injection Hk as <-. reflexivity.
    + injection Hk as <-. reflexivity.
    + cbn. rewrite (same_float Hk). reflexivity.
    + injection Hk as <-. cbn. f_equal. apply unquote_same; [exact Hv|]. cbn [vtext] in Hu. change (34 :: b ++ [34]) with ([] ++ 34 :: (b ++ [34])) in Hu. apply utf8_cut in Hu; [|lia]. destruct Hu as [_ Hu]. apply utf8_cut in Hu; [tauto|lia].
Qed.
(** The cells of a CSV file are taken as they are. *)
Theorem C92_cells_unchanged ft cell : parse_value 1 ft cell = Ok cell.
Proof. reflexivity. Qed.

(** ** Queries *)
(** the strings among the fields stand in the data file *)
Definition stands_at (D : bytes) (f : field) : Prop :=
  forall b, fd_value f = JStr b -> str_body b /\ exists a w c, D = a ++ w ++ (34 :: b ++ [34]) ++ c /\ ws w /\ zlen a = fd_from f /\ fd_to f - fd_from f = zlen w + zlen (34 :: b ++ [34]).
Lemma fields_stand D : (forall v, vwf to_float v -> vtight v -> forall path pos pre post, D = pre ++ vtext v ++ post -> zlen pre = pos -> Forall (stands_at D) (vfields go_unquote path pos v)) /\ (forall l : jitems, True) /\
  (forall l, mwf to_float l -> mtight l -> forall path pos first pre post, D = pre ++ mtext first l ++ post -> zlen pre = pos -> Forall (stands_at D) (mfields go_unquote path pos first l)).
Proof.
  apply json_ind; try (intros; exact I); try (intros; constructor; fail).
  - intros w l IH Hwf Ht path pos pre post HD Hp. rewrite vfields_obj. rewrite vtext_obj in HD. cbn [vwf vtight] in *. destruct Hwf as [_ Hwf].
    apply (IH Hwf Ht path (pos + 1 + zlen w) true (pre ++ 123 :: w) ([125] ++ post)); [rewrite HD; repeat (rewrite <- ?app_assoc; cbn [app]); reflexivity|rewrite zlen_app, zlen_cons; lia].
  - intros w1 k w2 w3 v IHv w4 t IHt Hwf Ht path pos first pre post HD Hp. rewrite mfields_cons. rewrite mtext_cons in HD. cbv zeta. cbn [mwf mtight] in *.
    destruct Hwf as (Hw1 & Hk & Hw2 & Hw3 & Hv & Hw4 & Hwt). destruct Ht as (H2 & Htv & Htt).
    set (p0 := pre ++ comma first ++ w1 ++ (34 :: k ++ [34]) ++ w2 ++ [58]).
    assert (Ep0 : zlen p0 = pos + zlen (comma first) + zlen w1 + zlen k + 2 + zlen w2 + 1).
    { unfold p0. rewrite !zlen_app, (zlen_cons 34), !zlen_app. change (zlen [34]) with 1. change (zlen [58]) with 1. lia. }
    assert (ED : D = p0 ++ w3 ++ vtext v ++ w4 ++ mtext false t ++ post).
    { rewrite HD. unfold p0. repeat (rewrite <- ?app_assoc; cbn [app]). reflexivity. }
    constructor; [|apply Forall_app; split].
    + intros b Eb. cbn [fd_value fd_from fd_to] in *. subst v. subst w2. change (zlen (@nil Z)) with 0 in *. cbn [vwf] in Hv. split; [exact Hv|]. exists p0, w3, (w4 ++ mtext false t ++ post). split; [exact ED|]. split; [exact Hw3|]. split; [lia|]. cbn [vtext]. lia.
    + apply (IHv Hv Htv _ _ (p0 ++ w3) (w4 ++ mtext false t ++ post)); [rewrite ED, <- app_assoc; reflexivity|rewrite zlen_app; lia].
    + apply (IHt Hwt Htt _ _ _ (p0 ++ w3 ++ vtext v ++ w4) post); [rewrite ED, <- !app_assoc; reflexivity|rewrite !zlen_app; lia].
Qed.
Lemma occs_stand D : forall ls at_ pre post, D = pre ++ lines_text ls ++ post -> zlen pre = at_ -> Forall (line_fits to_float) ls -> Forall (fun o => stands_at D (fst o)) (occs go_unquote at_ ls).
Proof.
  induction ls as [|x ls IH]; intros at_ pre post HD Hp Hl; [constructor|]. inversion Hl as [|? ? Hx Hr]; subst. cbn [occs lines_text] in *. apply Forall_app. split.
  - apply Forall_map. destruct Hx as ((Hb & Hw & Ha) & Ht & _). cbn [vwf] in Hw. destruct Hw as [Hw Hm].
    refine (Forall_impl _ _ (proj2 (proj2 (fields_stand _)) (ln_members x) Hm Ht [] _ true (pre ++ ln_before x ++ 123 :: ln_ws x) ([125] ++ ln_after x ++ 10 :: lines_text ls ++ post) _ _)); [intros f Hf; exact Hf| |rewrite !zlen_app, zlen_cons; lia].
    unfold line_text. rewrite vtext_obj. repeat (rewrite <- ?app_assoc; cbn [app]). reflexivity.
  - eapply IH with (pre := pre ++ line_text x ++ [10]) (post := post); [rewrite <- !app_assoc; reflexivity|rewrite !zlen_app; change (zlen [10]) with 1; lia|exact Hr].
Qed.

Section Ask.
  Variables (D : bytes) (s s' : st) (ls : list line) (tail : bytes) (r : res unit) (name : bytes) (v : wval) (ft : Z) (fuel : nat).
  (** as in C70: after a successful Synchronize *)
  Hypothesis Hlife : life go_unquote to_float grams hdrs D s.
  Hypothesis Hfits : fits go_unquote to_float grams hdrs D ls tail.
  Hypothesis Hsync : jsonl_sync go_unquote to_float grams hdrs file_slot D s = (r, s').
  Hypothesis Hfile : zlen (file s') <= 2^31.
  Hypothesis Hdata : zlen D < 2^31.
  Hypothesis Hv : value_type v = Some ft.
  Hypothesis Hname : exists x, In x (all_fields go_unquote ls) /\ fd_name (snd x) = name /\ type_of (fd_value (snd x)) = ft.
  Hypothesis Hgrams : forall field_name gram_type, In gram_type [FTUnigram; FTBigram; FTTrigram] -> total_of go_unquote to_float grams hdrs (occs go_unquote 0 ls) (field_name, gram_type) < 2^31.
  Hypothesis Hfuel : (fuel_of s' <= fuel)%nat.
  (** the data file is in UTF-8 *)
  Hypothesis Hutf8 : is_utf8 D.
  (** the root page of the field's index is a leaf *)
  Definition one_leaf : Prop := exists m im n, reads s' (find_or_create file_slot name ft) (m, im) /\ ts_rd (mkCodec (determine_type ft) D (browser 0 ft)) (file s') (root_at (file s') m) = Ok n /\ is_leaf n = true.
  Notation ask_browser op dir limit n := (ts_query (browser 0 ft) fuel (file s') D (QY [CW name op v] [dir] limit) n).
  Notation found := (lines_found go_unquote to_float).

  Lemma same_keys e : In e (entries_of go_unquote to_float grams hdrs (occs go_unquote 0 ls) (name, ft)) ->
    key_ok (ix_codec determine_type parse D ft) (fst e) -> key_ok (ix_codec determine_type (browser 0 ft) D ft) (fst e).
  Proof.
    intros He Hk. rewrite (@entries_map go_unquote to_float grams hdrs _ (name, ft) v Hv) in He. apply in_map_iff in He. destruct He as (o & <- & Ho). apply filter_In in Ho. destruct Ho as [Ho Hid].
    apply id_eqb_spec in Hid. unfold occ_id in Hid. injection Hid as _ Et. revert Hk. unfold key_ok, ix_codec. cbn [cwidth cdata cparse]. intros [H1 H2]. split; [exact H1|]. destruct (determine_type ft =? 0) eqn:E0; [|exact H2].
    destruct H2 as [H2 H3]. split; [exact H2|]. assert (Eft : ft = FTString) by (destruct v; cbn in Hv; try discriminate; injection Hv as <-; first [reflexivity|discriminate E0]).
    destruct (fd_value (fst o)) as [|b|t|b|w l|w l] eqn:Ev; cbn [type_of] in Et; rewrite Eft in Et; try discriminate Et. clear Et.
    destruct Hfits as (HD & _ & Hl & _). pose proof (@occs_stand D ls 0 [] tail HD eq_refl Hl) as Hst. rewrite Forall_forall in Hst. destruct (Hst o Ho b Ev) as (Hb & a & w & c & ED & Hw & Ea & El).
    unfold ent in *. cbn [fst rv_dp rv_val mp_off mp_len] in *. rewrite El in *. rewrite <- Ea in *.
    assert (Es : slice D (zlen a) (zlen w + zlen (34 :: b ++ [34])) = w ++ vtext (JStr b)).
    { rewrite ED. cbn [vtext]. replace (a ++ w ++ (34 :: b ++ [34]) ++ c) with (a ++ (w ++ 34 :: b ++ [34]) ++ c) by (rewrite <- !app_assoc; reflexivity). apply slice_mid; [reflexivity|rewrite zlen_app; reflexivity]. }
    rewrite Es in *. unfold browser. rewrite Eft.
    assert (Hu : is_utf8 (vtext (JStr b))).
    { cbn [vtext]. pose proof Hutf8 as U. rewrite ED in U. change (34 :: b ++ [34]) with (34 :: (b ++ [34])) in U. rewrite app_assoc in U. cbn [app] in U. apply utf8_cut in U; [|lia]. destruct U as [_ U].
      rewrite <- app_assoc in U. cbn [app] in U. apply utf8_cut in U; [|lia]. destruct U as [(cps & U1 & ->) _]. exists (34 :: cps ++ [34]). split.
      - constructor; [apply ascii_scalar; lia|]. apply Forall_app. split; auto. constructor; [apply ascii_scalar; lia|constructor].
      - cbn [flat_map]. rewrite flat_map_app. cbn [flat_map]. rewrite utf8_ascii by lia. reflexivity. }
    destruct (@C92_keys_agree w (JStr b) (go_unquote b) Hw Hb eq_refl Hu) as [P1 P2]. cbn [type_of] in P2. rewrite P2, <- H3, P1. reflexivity.
  Qed.
  Lemma index_here : exists fm l ix, ifile determine_type parse D fm l s' /\ readable determine_type D fm l s' ix /\ ix_name ix = name /\ ix_type ix = ft /\
    Permutation (ix_es ix) (entries_of go_unquote to_float grams hdrs (occs go_unquote 0 ls) (name, ft)) /\
    forall e, In e (ix_es ix) -> key_ok (ix_codec determine_type parse D (ix_type ix)) (fst e) -> key_ok (ix_codec determine_type (browser 0 ft) D (ix_type ix)) (fst e).
  Proof.
    destruct (@end_index go_unquote to_float grams hdrs float_8 D s s' ls tail r name v ft fuel Hlife Hfits Hsync Hfile Hdata Hv Hname Hgrams Hfuel) as (fm & l & ix & H1 & H2 & H3 & H4 & H5).
    exists fm, l, ix. repeat (split; [assumption|]). split; [rewrite H5; symmetry; apply Permutation_rev|]. intros e He. rewrite H4. apply same_keys. rewrite H5 in He. apply in_rev. exact He.
  Qed.
  Lemma one_leaf_page fm l ix : ifile determine_type parse D fm l s' -> readable determine_type D fm l s' ix -> ix_name ix = name -> ix_type ix = ft -> one_leaf <-> one_page determine_type (browser 0 ft) D s' ix.
  Proof.
    intros Hif Hr En Et. destruct (@C23_existing_is_found determine_type parse D _ l s' _ _ ix (wd_ok grams) Hif (rb_in Hr) En Et) as (q & Eq & Eqf). split.
    - intros (m & im & nd & (q' & Eq' & _) & X1 & X2). rewrite Eq in Eq'. injection Eq' as <- _ _. exists nd. rewrite Et. auto.
    - intros (nd & X1 & X2). rewrite Et in X1. do 2 eexists. exists nd. split; [exists q; split; [exact Eq|exact Eqf]|auto].
  Qed.
  (** What the browser, reading the keys by itself, answers: < and <= descending; *)
  Theorem C92_lines_below op limit n : op = QLt \/ op = QLe -> found ls name op Desc v n (ask_browser op Desc limit n).
  Proof.
    intros Hop. destruct index_here as (fm & l & ix & Hif & Hr & En & Et & Ep & Hk). assert (Hv' : value_type v = Some (ix_type ix)) by (rewrite Et; exact Hv).
    eapply (@answer_lines go_unquote to_float grams hdrs float_8); [exact (proj1 Hfits)|exact Hv|]. eapply answer_perm; [exact Ep|]. rewrite <- En.
    exact (@ask_desc_low determine_type parse (browser 0 ft) D fm l s' ix (wd_ok grams) Hif Hr Hk v fuel Hv' Hfuel op limit n Hop).
  Qed.
  (** >, >= and == ascending, or nothing; *)
  Theorem C92_lines_above_partial op limit n : op = QGt \/ op = QGe \/ op = QEq -> found ls name op Asc v n (ask_browser op Asc limit n) \/ ask_browser op Asc limit n = Ok [].
  Proof.
    intros Hop. destruct index_here as (fm & l & ix & Hif & Hr & En & Et & Ep & Hk). assert (Hv' : value_type v = Some (ix_type ix)) by (rewrite Et; exact Hv).
    destruct (@ask_asc_high determine_type parse (browser 0 ft) D fm l s' ix (wd_ok grams) Hif Hr Hk v fuel Hv' Hfuel op limit n Hop) as [A|A]; unfold ask in A; rewrite En in A; [left|right; exact A].
    eapply (@answer_lines go_unquote to_float grams hdrs float_8); [exact (proj1 Hfits)|exact Hv|]. eapply answer_perm; [exact Ep|exact A].
  Qed.
  (** not nothing when the index is one page. *)
  Theorem C92_one_page op limit n : op = QGt \/ op = QGe \/ op = QEq -> one_leaf -> found ls name op Asc v n (ask_browser op Asc limit n).
  Proof.
    intros Hop H1. destruct index_here as (fm & l & ix & Hif & Hr & En & Et & Ep & Hk). assert (Hv' : value_type v = Some (ix_type ix)) by (rewrite Et; exact Hv). apply (one_leaf_page Hif Hr En Et) in H1.
    pose proof (@ask_one_page determine_type parse (browser 0 ft) D fm l s' ix (wd_ok grams) Hif Hr Hk v fuel Hv' Hfuel op limit n Hop H1) as A. unfold ask in A. rewrite En in A.
    eapply (@answer_lines go_unquote to_float grams hdrs float_8); [exact (proj1 Hfits)|exact Hv|]. eapply answer_perm; [exact Ep|exact A].
  Qed.
End Ask.
End P.
End Js.
