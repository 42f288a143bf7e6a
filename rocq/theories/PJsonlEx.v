(** Concrete data files: the hypotheses of PJsonl.v are met, and what fails, fails on them. *)
From Coq Require Import Permutation.
From Verif Require Import Base Varint Store PageFile RefValue Node LinkedPage BPTree PTree Meta IndexFile IFileInv PIndex Json Jsonl JsonDoc JsonlSpec PJsonl.

(** strings without escapes; any eight bytes for a number *)
Definition un (b : bytes) : bytes := b.
Definition tf (t : bytes) : option bytes := Some (firstn 8 (t ++ zeros 8)).
Definition gr (v : bytes) (n : Z) : res (list (bytes * Z * Z)) := Ok [].
Lemma tf_8 t f : tf t = Some f -> zlen f = 8.
Proof. intros E. assert (X : f = firstn 8 (t ++ zeros 8)) by (unfold tf in E; congruence). rewrite X. unfold zlen. rewrite firstn_length, app_length. change (length (zeros 8)) with 8%nat. lia. Qed.
Notation sync := (jsonl_sync un tf gr [] file_slot).
Notation life := (life un tf gr []).
Notation fits := (fits un tf gr []).

(** a new index file for JSONL *)
Definition opened (k : rws_kind) : st := snd (new_page_file (open_rws k [])).
Definition fresh (k : rws_kind) : st := snd (new_index_file 0 (opened k)).
Lemma life_fresh k : life [] (fresh k).
Proof. apply (@lf_new un tf gr [] k (opened k) file_slot (fresh k)); destruct k; vm_compute; reflexivity. Qed.
Lemma life_of k D : zlen D < 2^63 -> life D (fresh k).
Proof. intros H. apply (@lf_data un tf gr [] [] D); [apply life_fresh|exact H]. Qed.

(** {"a":1} and {"a" : [] , "b":"x","c":{"d":true}} *)
Definition line1 : line := LN [] [] (MCons [] [97] [] [] (JNum [49]) [] MNil) [].
Definition line2 : line := LN [] [] (MCons [] [97] [32] [32] (JArr [] INil) [32] (MCons [32] [98] [] [] (JStr [120]) [] (MCons [] [99] [] [] (JObj [] (MCons [] [100] [] [] (JBool true) [] MNil)) [] MNil))) [].
Definition D12 : bytes := data_of [line1; line2] [123].
Ltac body := repeat (apply sb_char; [lia|lia|lia|]); apply sb_nil.
Ltac spaces := repeat constructor; auto.
Lemma num49 : number [49].
Proof. exists [], [49], [], []. split; auto. split; auto. split; [right; exists 49, []; split; auto; split; [lia|constructor]|auto]. Qed.
(** nothing is searched *)
Lemma unsearched ls : Forall (fun o : occ => zlen (fd_name (fst o)) <= 236) (occs un 0 ls) -> Forall (name_fits un gr []) (occs un 0 ls).
Proof. intros H. eapply Forall_impl; [|exact H]. intros o Ho. split; [exact Ho|]. intros X. discriminate X. Qed.
Lemma no_grams ls name ft : In ft [FTUnigram; FTBigram; FTTrigram] -> total_of un tf gr [] (occs un 0 ls) (name, ft) < 2^31.
Proof.
  intros Hft. unfold total_of. assert (E : filter (fun p => id_eqb (po_id p) (name, ft)) (posts un tf gr [] (occs un 0 ls)) = []); [|rewrite E; reflexivity].
  generalize (occs un 0 ls). intros l. induction l as [|o l IH]; [reflexivity|]. unfold posts. cbn [flat_map]. fold (posts un tf gr [] l). rewrite filter_app, IH, app_nil_r.
  assert (Ep : postings un tf gr [] o = [PO (occ_id o) (entry un tf o) (weight o)]) by (unfold postings; destruct (fd_value (fst o)); reflexivity).
  rewrite Ep. cbn [filter po_id]. assert (Ei : id_eqb (occ_id o) (name, ft) = false); [|rewrite Ei; reflexivity].
  unfold id_eqb. cbn [snd occ_id]. apply andb_false_iff. right. apply Z.eqb_neq. intros X. cbn [occ_id snd] in X. destruct (fd_value (fst o)); cbn [type_of] in X; rewrite <- X in Hft; cbn in Hft; intuition discriminate.
Qed.
Lemma fits12 : fits D12 [line1; line2] [123].
Proof.
  split; [reflexivity|]. split; [intros [X|[]]; discriminate|]. split.
  - repeat constructor; cbn; try exact I; auto; try lia; try (exists (firstn 8 ([49] ++ zeros 8)); reflexivity); try apply num49; try body; try reflexivity.
  - apply unsearched. vm_compute. repeat constructor; discriminate.
Qed.
(** C37, C39, C40, C42: a life whose Synchronize meets the hypotheses *)
Definition s12 (k : rws_kind) : st := snd (sync D12 (fresh k)).
Lemma small12 k : zlen (file (s12 k)) < 2^60.
Proof. apply Z.ltb_lt. destruct k; vm_compute; reflexivity. Qed.
Lemma C37_example k : fst (sync D12 (fresh k)) = Ok tt /\ reads (s12 k) (if_metadata file_slot) (FM 1 0 44 2).
Proof.
  destruct (@C37_read_offset_and_entries un tf gr [] tf_8 D12 (fresh k) [line1; line2] [123] (fst (sync D12 (fresh k))) (s12 k)) as [E R].
  - apply life_of. reflexivity.
  - exact fits12.
  - unfold s12. destruct (sync D12 (fresh k)). reflexivity.
  - apply small12.
  - split; auto.
Qed.
(** the same file in two steps: first the first line and a part of the second *)
Definition D1 : bytes := data_of [line1] [123; 34; 97].
Definition s1 (k : rws_kind) : st := snd (sync D1 (fresh k)).
Lemma C39_example k : life D12 (s1 k).
Proof.
  replace D12 with (D1 ++ skipn (length D1) D12) by reflexivity. apply lf_data; [|reflexivity]. apply (@lf_sync un tf gr [] D1 (fresh k) (fst (sync D1 (fresh k))) (s1 k)).
  - apply life_of. reflexivity.
  - unfold s1. destruct (sync D1 (fresh k)). reflexivity.
  - apply Z.ltb_lt. destruct k; vm_compute; reflexivity.
Qed.
(** what the specification says of the two lines *)
Example C40_example : ids un tf gr [] (occs un 0 [line1; line2]) = [([97], FTFloat64); ([97], FTArray); ([98], FTString); ([99], FTObject); ([99; 46; 100], FTBoolean)] /\
  entries_of un tf gr [] (occs un 0 [line1; line2]) ([98], FTString) = [(RV (MP 24 3) [120], MP 8 35)] /\
  entries_of un tf gr [] (occs un 0 [line1; line2]) ([97], FTFloat64) = [(RV (MP 5 1) (49 :: zeros 7), MP 0 7)] /\
  entries_of un tf gr [] (occs un 0 [line1; line2]) ([97], FTArray) = [].
Proof. vm_compute. auto. Qed.

(** *** C41: after a failure, Synchronize fails for ever *)
Definition bad : bytes := lines_text [line1] ++ [91; 10].
Definition line3 : line := LN [] [] (MCons [] [97] [] [] (JNum [50]) [] MNil) [].
Definition good : bytes := data_of [line1; line3] [].
Lemma num50 : number [50].
Proof. exists [], [50], [], []. split; auto. split; auto. split; [right; exists 50, []; split; auto; split; [lia|constructor]|auto]. Qed.
Lemma fits_good : fits good [line1; line3] [].
Proof.
  split; [reflexivity|]. split; [intros []|]. split.
  - repeat constructor; cbn; try exact I; auto; try lia; try (eexists; reflexivity); try apply num49; try apply num50; try body; try reflexivity.
  - apply unsearched. vm_compute. repeat constructor; discriminate.
Qed.
Definition after_bad (k : rws_kind) : st := snd (sync bad (fresh k)).
(** The data file {"a":1} [ fails on its second line. The file {"a":1} {"a":2}, which
    differs from that line on, is within the limits; a new index file takes it, but
    the one that saw the failure answers "key already exists". *)
Theorem C41_retry_refuted k : life bad (fresh k) /\ firstn 8 good = firstn 8 bad /\ fits good [line1; line3] [] /\
  fst (sync bad (fresh k)) = Err (EMsg "only json objects are supported at the root") /\
  fst (sync good (fresh k)) = Ok tt /\ fst (sync good (after_bad k)) = Err (EMsg "key already exists").
Proof.
  split; [apply life_of; reflexivity|]. split; [reflexivity|]. split; [exact fits_good|].
  split; [destruct k; vm_compute; reflexivity|]. split; destruct k; vm_compute; reflexivity.
Qed.

(** *** C42, C40: a space between a key and its colon *)
Definition line4 : line := LN [] [] (MCons [] [97] [32] [] (JStr [120]) [] MNil) [].
Definition D4 : bytes := data_of [line4] [].
Definition s4 (k : rws_kind) : st := snd (sync D4 (fresh k)).
(** {"a" :"x"} is a legal line; Synchronize succeeds, but the index of the strings
    "a" lists one entry with the empty value instead of "x". *)
Theorem C42_refuted k : line_wf tf line4 /\ fst (sync D4 (fresh k)) = Ok tt /\
  entries_of un tf gr [] (occs un 0 [line4]) ([97], FTString) = [(RV (MP 5 4) [120], MP 0 10)] /\
  exists m im s', find_or_create file_slot [97] FTString (s4 k) = (Ok (m, im), s') /\
    walk (mkCodec (determine_type FTString) D4 (jparse un tf)) m (s4 k) least 2 = Ok [(RV (MP 5 4) [], MP 0 10)].
Proof.
  split; [split; [constructor|]; split; [|constructor]; split; [constructor|]; cbn [mwf]; repeat split; try (constructor; fail); try body; repeat constructor; auto|]. split; [destruct k; vm_compute; reflexivity|]. split; [vm_compute; reflexivity|].
  eexists _, _, _. split; [destruct k; vm_compute; reflexivity|]. destruct k; vm_compute; reflexivity.
Qed.
