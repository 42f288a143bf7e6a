(** Concrete runs of the command: the hypotheses of PRuns.v are met. *)
From Coq Require Import Permutation.
From Verif Require Import Base Varint Store PageFile RefValue Node LinkedPage BPTree PTree Meta IndexFile IFileInv PIndex Json Jsonl JsonDoc JsonlSpec PJsonl PJsonlEx PJsonlQuery TsFile Query QTree PQuery PNgram Search PSearch PJsonlSearch PJsonlSearchEx Csv Cmd PRuns.

(** {"a":"Hi you"} is indexed by a run without headers; then {"a":"hi"} is added and the
    command is run with -s a; then again, with no new line *)
Definition D_a : bytes := data_of [la] [].
Definition nonum (b : bytes) : option bytes := None.
Notation rc := (run_command un tf nonum ng).
Definition F1 : bytes := snd (rc HJsonl [] D_a []).
Definition F2 : bytes := snd (rc HJsonl ha Dab F1).
Lemma news_a : news un tf ng D_a [] [] [la] [].
Proof.
  split; [reflexivity|]. split; [intros []|]. split.
  - repeat constructor; cbn; try exact I; auto; try lia; try body; try reflexivity.
  - constructor; [|constructor]. split; [vm_compute; discriminate|]. intros X. discriminate X.
Qed.
Lemma runs_a : runs un tf nonum ng D_a F1 [([], [la])].
Proof.
  apply (@ru_jsonl un tf nonum ng D_a [] [] [] [la] [] (Ok tt) F1); [|exact news_a|vm_compute; reflexivity|vm_compute; reflexivity].
  apply (@ru_data un tf nonum ng [] D_a); [constructor|vm_compute; reflexivity].
Qed.
Lemma news_b : news un tf ng Dab [([], [la])] ha [lb] [].
Proof.
  split; [reflexivity|]. split; [intros []|]. split.
  - repeat constructor; cbn; try exact I; auto; try lia; try body; try reflexivity.
  - destruct fits_ab as (_ & _ & _ & H). change (Forall (name_fits un ng ha) (occs un 0 [la] ++ occs un 15 [lb])) in H. apply Forall_app in H. exact (proj2 H).
Qed.
Lemma runs_ab : runs un tf nonum ng Dab F2 [([], [la]); (ha, [lb])].
Proof.
  apply (@ru_jsonl un tf nonum ng Dab F1 [([], [la])] ha [lb] [] (Ok tt) F2); [|exact news_b|vm_compute; reflexivity|vm_compute; reflexivity].
  change Dab with (D_a ++ data_of [lb] []). apply (@ru_data un tf nonum ng D_a); [exact runs_a|vm_compute; reflexivity].
Qed.
(** the index of strings has both lines, the index of unigrams has the letters of the second only *)
Example C88_example :
  map (fun e => rv_val (fst e)) (entries_of un tf ng [] (occs un 0 (lines_of [([], [la]); (ha, [lb])])) ([97], FTString)) = [[72; 105; 32; 121; 111; 117]; [104; 105]] /\
  map (fun e => (rv_val (fst e), snd e)) (entries_by un tf ng 0 [([], [la]); (ha, [lb])] ([97], FTUnigram)) = [([104], MP 15 10); ([105], MP 15 10)] /\
  posted_by un tf ng 0 [([], [la]); (ha, [lb])] ([97], FTUnigram) /\
  rc HJsonl ha Dab F2 = (Ok tt, F2) /\ rc HCsv [] Dab F2 = (Err (EMsg "unsupported format"), F2).
Proof.
  split; [vm_compute; reflexivity|]. split; [vm_compute; reflexivity|]. split; [right; left; right; left; vm_compute; reflexivity|]. split.
  - apply (@C88_nothing_new un tf nonum ng tf_8 Dab F2 _ ha [] runs_ab); [discriminate|reflexivity|intros []].
  - apply (@C88_wrong_handler un tf nonum ng tf_8 Dab F2 _ [] runs_ab). discriminate.
Qed.
(** all hypotheses of [C88_later_headers_refuted] are met: -s a, given after the line
    {"a":"Hi you"} was indexed, leaves the file as it is, without an index of unigrams *)
Example C88_later_headers_example : exists s, opened F1 s /\ ~ exists_index s ([97], FTUnigram).
Proof.
  assert (E : rc HJsonl ha D_a F1 = (Ok tt, F1)) by (apply (@C88_nothing_new un tf nonum ng tf_8 D_a F1 _ ha [] runs_a); [discriminate|reflexivity|intros []]).
  destruct (@C88_later_headers_refuted un tf nonum ng tf_8 D_a F1 [([], [la])] ha [] [] (Ok tt) F1 [97] FTUnigram runs_a) as [_ H]; auto.
  - discriminate.
  - split; [reflexivity|]. split; [intros []|]. split; constructor.
  - vm_compute. reflexivity.
  - intros h b' [X|[]]. injection X as <- <-. intros [].
  - left. reflexivity.
  - split; [vm_compute; discriminate|unfold FTUnigram; cbn; lia].
Qed.
