(** C92: a data file whose strings mean the same to both, and one whose strings do not. *)
From Coq Require Import Permutation Sorted.
From Verif Require Import Base Varint Store PageFile RefValue Node LinkedPage BPTree PTree Meta IndexFile IFileInv PIndex Json Jsonl JsonDoc JsonlSpec PJsonl PJsonlEx Query QTree TsFile PQuery PJsonlQuery JsParse JsString PParse.

Definition jf (t : bytes) : bytes := firstn 8 (t ++ zeros 8).
Lemma jf_same t f : tf t = Some f -> jf t = f.
Proof. unfold tf, jf. congruence. Qed.
Definition any (j : jsv) : bytes := [].
Definition yes (j : jsv) : bool := true.
Notation gsync := (jsonl_sync go_unquote tf gr [] file_slot).
Notation ask_browser := (browser jf any any yes 0 FTString).
Lemma glife D : zlen D < 2^63 -> PJsonl.life go_unquote tf gr [] D (fresh KMmap).
Proof.
  intros H. apply (@lf_data go_unquote tf gr [] [] D); [|exact H]. apply (@lf_new go_unquote tf gr [] KMmap (opened KMmap) file_slot (fresh KMmap)); vm_compute; reflexivity.
Qed.
Lemma no_words ls name ft : In ft [FTUnigram; FTBigram; FTTrigram] -> total_of go_unquote tf gr [] (occs go_unquote 0 ls) (name, ft) < 2^31.
Proof.
  intros Hft. unfold total_of. assert (E : filter (fun p => id_eqb (po_id p) (name, ft)) (posts go_unquote tf gr [] (occs go_unquote 0 ls)) = []); [|rewrite E; reflexivity].
  generalize (occs go_unquote 0 ls). intros l. induction l as [|o l IH]; [reflexivity|]. unfold posts. cbn [flat_map]. fold (posts go_unquote tf gr [] l). rewrite filter_app, IH, app_nil_r.
  assert (Ep : postings go_unquote tf gr [] o = [PO (occ_id o) (entry go_unquote tf o) (weight o)]) by (unfold postings; destruct (fd_value (fst o)); reflexivity).
  rewrite Ep. cbn [filter po_id]. assert (Ei : id_eqb (occ_id o) (name, ft) = false); [|rewrite Ei; reflexivity].
  unfold id_eqb. cbn [snd occ_id]. apply andb_false_iff. right. apply Z.eqb_neq. intros X. cbn [occ_id snd] in X. destruct (fd_value (fst o)); cbn [type_of] in X; rewrite <- X in Hft; cbn in Hft; intuition discriminate.
Qed.
Lemma plain_fits ls : Forall (fun o : occ => zlen (fd_name (fst o)) <= 236) (occs go_unquote 0 ls) -> Forall (name_fits go_unquote gr []) (occs go_unquote 0 ls).
Proof. intros H. eapply Forall_impl; [|exact H]. intros o Ho. split; [exact Ho|]. intros X. discriminate X. Qed.

(** ** {"a":"é\u00e9\n"} *)
Definition accents : bytes := [195; 169; 92; 117; 48; 48; 101; 57; 92; 110].
Definition line_a : line := LN [] [] (MCons [] [97] [] [] (JStr accents) [] MNil) [].
Definition Da : bytes := data_of [line_a] [].
Definition sa : st := snd (gsync Da (fresh KMmap)).
Lemma body_a : str_body accents.
Proof. apply sb_char; [lia|lia|lia|]. apply sb_char; [lia|lia|lia|]. apply sb_u; unfold hex_digit; try lia. apply sb_esc; [cbn; tauto|apply sb_nil]. Qed.
Lemma utf8_a : is_utf8 Da.
Proof.
  exists [123; 34; 97; 34; 58; 34; 233; 92; 117; 48; 48; 101; 57; 92; 110; 34; 125; 10]. split; [|reflexivity].
  repeat constructor; vm_compute; congruence.
Qed.
Lemma fits_a : PJsonl.fits go_unquote tf gr [] Da [line_a] [].
Proof.
  split; [reflexivity|]. split; [intros []|]. split.
  - constructor; [|constructor]. split; [|split; [|reflexivity]]; [|cbn; auto]. split; [constructor|]. split; [|intros []]. cbn. split; [constructor|]. split; [constructor|]. split; [body|]. split; [constructor|]. split; [constructor|]. split; [exact body_a|]. split; [constructor|exact I].
  - apply plain_fits. vm_compute. repeat constructor; discriminate.
Qed.
Theorem C92_example : exists l, Forall ch_ok l /\ accents = flat_map ch_text l /\ value l = [195; 169; 195; 169; 10] /\ go_unquote accents = value l /\ js_unquote accents = value l.
Proof. exists [Raw 233; Uni 48 48 101 57; Esc 110]. split; [repeat constructor; vm_compute; congruence|]. repeat split; vm_compute; reflexivity. Qed.
Theorem C92_query_example : lines_found go_unquote tf [line_a] [97] QLe Desc (WStr [195; 169; 195; 169; 10]) 5
    (ts_query ask_browser (fuel_of sa) (file sa) Da (QY [CW [97] QLe (WStr [195; 169; 195; 169; 10])] [Desc] None) 5).
Proof.
  assert (Es : exists r, gsync Da (fresh KMmap) = (r, sa)) by (exists (fst (gsync Da (fresh KMmap))); unfold sa; destruct (gsync Da (fresh KMmap)); reflexivity). destruct Es as (r & Es).
  apply (@C92_lines_below jf any any yes tf gr [] tf_8 jf_same Da (fresh KMmap) sa [line_a] [] r [97] (WStr [195; 169; 195; 169; 10]) FTString (fuel_of sa)).
  - apply glife. reflexivity.
  - exact fits_a.
  - exact Es.
  - apply Z.leb_le. vm_compute. reflexivity.
  - reflexivity.
  - reflexivity.
  - exists (line_a, FD [97] (JStr accents) 4 16). split; [left; vm_compute; reflexivity|split; reflexivity].
  - intros gn gt. apply no_words.
  - apply le_n.
  - exact utf8_a.
  - right; reflexivity.
Qed.

(** ** {"a":"<FF>B"} and {"a":"<E2 82>"}: not UTF-8 *)
Definition line_x : line := LN [] [] (MCons [] [97] [] [] (JStr [255; 66]) [] MNil) [].
Definition line_y : line := LN [] [] (MCons [] [97] [] [] (JStr [226; 130]) [] MNil) [].
Definition Dx : bytes := data_of [line_x; line_y] [].
Definition sx : st := snd (gsync Dx (fresh KMmap)).
Lemma fits_x : PJsonl.fits go_unquote tf gr [] Dx [line_x; line_y] [].
Proof.
  split; [reflexivity|]. split; [intros []|]. split.
  - constructor; [|constructor; [|constructor]]; (split; [|split; [|reflexivity]]; [|cbn; auto]; split; [constructor|]; split; [|intros []]; cbn; split; [constructor|]; split; [constructor|]; split; [body|]; split; [constructor|]; split; [constructor|]; split; [body|]; split; [constructor|exact I]).
  - apply plain_fits. vm_compute. repeat constructor; discriminate.
Qed.
Definition replacement : bytes := [239; 191; 189].
(** C92 fails for text that is not UTF-8: the indexer puts one replacement character for each
    byte it cannot read, the browser one for a truncated character. *)
Theorem C92_ill_formed_strings_refuted : str_body [226; 130] /\ go_unquote [226; 130] = replacement ++ replacement /\ js_unquote [226; 130] = replacement.
Proof. split; [body|]. split; vm_compute; reflexivity. Qed.
(** The order of the index is then not the order the browser sees, and it misses lines that
    both read alike: "a" == "<replacement>B" has no answer, though it is the value of "a" in the
    first line to the indexer and to the browser. *)
Theorem C92_ill_formed_query_refuted :
  PJsonl.life go_unquote tf gr [] Dx (fresh KMmap) /\ PJsonl.fits go_unquote tf gr [] Dx [line_x; line_y] [] /\ fst (gsync Dx (fresh KMmap)) = Ok tt /\
  go_unquote [255; 66] = replacement ++ [66] /\ js_unquote [255; 66] = replacement ++ [66] /\
  json_parse js_unquote jf (line_text line_x) = Ok (SObj [([97], SStr (replacement ++ [66]))]) /\
  ts_query ask_browser (fuel_of sx) (file sx) Dx (QY [CW [97] QEq (WStr (replacement ++ [66]))] [Asc] None) 5 = Ok [] /\
  ts_query ask_browser (fuel_of sx) (file sx) Dx (QY [CW [97] QGe (WStr [])] [Asc] None) 5 = Ok [line_text line_x; line_text line_y].
Proof. split; [apply glife; reflexivity|]. split; [exact fits_x|]. do 5 (split; [vm_compute; reflexivity|]). vm_compute; reflexivity. Qed.
