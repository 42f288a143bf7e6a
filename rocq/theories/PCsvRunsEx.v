(** Concrete runs of the command with -csv: the hypotheses of PCsvRuns.v are met. *)
From Coq Require Import Permutation.
From Verif Require Import Base Varint Store PageFile RefValue Node LinkedPage BPTree PTree Meta IndexFile IFileInv PIndex Json Jsonl Csv CsvSpec CsvRun PCsv PCsvEx PJsonlEx Cmd PCsvRuns.

(** the CSV handler makes no n-grams *)
Definition ng (b : bytes) (n : Z) : res (list (bytes * Z * Z)) := Ok [].
Notation rcc := (run_command un tf nm ng).
(** the file of PCsvEx.v in two steps: first a,b 1,x and a comma *)
Definition Fc1 : bytes := snd (rcc HCsv [] Dc1 []).
Definition Fc2 : bytes := snd (rcc HCsv [[98]] Dc Fc1).
Lemma cruns_1 : cruns un tf nm ng Dc1 Fc1.
Proof.
  apply (@cr_csv un tf nm ng Dc1 [] [] (fst (rcc HCsv [] Dc1 [])) Fc1).
  - apply (@cr_data un tf nm ng [] Dc1); [constructor|reflexivity].
  - vm_compute. discriminate.
  - apply surjective_pairing.
  - apply Z.ltb_lt. vm_compute. reflexivity.
Qed.
Lemma cruns_2 : cruns un tf nm ng Dc Fc1.
Proof. change Dc with (Dc1 ++ skipn (length Dc1) Dc). apply cr_data; [exact cruns_1|reflexivity]. Qed.
Lemma small_2 : zlen Fc2 < 2^60.
Proof. apply Z.ltb_lt. vm_compute. reflexivity. Qed.
Example C94_example : fst (rcc HCsv [[98]] Dc Fc1) = Ok tt /\ (exists s, copened_at Fc2 s /\ cshows nm 0 Dc s ([98], FTString) [(RV (MP 6 1) [120], MP 4 3); (RV (MP 9 1) [121], MP 8 3)] /\ ~ cexists s ([98], FTUnigram)) /\
  rcc HCsv [] (Dc ++ [44]) Fc2 = (Ok tt, Fc2) /\ rcc HJsonl [] Dc Fc1 = (Err (EMsg "unsupported format"), Fc1).
Proof.
  assert (E : rcc HCsv [[98]] Dc Fc1 = (fst (rcc HCsv [[98]] Dc Fc1), Fc2)) by apply surjective_pairing.
  destruct (@C94_every_run_indexes_the_rows_partial un tf nm ng Dc Fc1 hd [r1; r2] [49] [[98]] _ _ cruns_2 cfits_c ltac:(discriminate) E small_2) as (E1 & s & Ho & _ & _ & S & _).
  destruct (@C94_search_headers_are_ignored_refuted un tf nm ng Dc Fc1 hd [r1; r2] [49] [[98]] _ _ [98] FTUnigram cruns_2 cfits_c ltac:(discriminate) E small_2) as (_ & s' & Ho' & N); [left; reflexivity|right; left; reflexivity|left; reflexivity|].
  assert (s' = s) as ->.
  { destruct Ho as (x1 & t1 & A1 & A2 & _), Ho' as (x2 & t2 & B1 & B2 & _). rewrite A1 in B1. injection B1 as <-. rewrite A2 in B2. injection B2 as _ <-. reflexivity. }
  split; [exact E1|]. split; [|split].
  - exists s. split; [exact Ho|]. split; [|exact N]. apply (S ([98], FTString)). vm_compute. auto.
  - apply (@C94_nothing_new_partial un tf nm ng Dc Fc1 hd [r1; r2] [49] [[98]] _ Fc2 [] [44] cruns_2 cfits_c ltac:(discriminate) E small_2); [intros [X|[]]; discriminate X|reflexivity].
  - apply (@C94_wrong_handler_partial un tf nm ng Dc Fc1 hd [r1; r2] [49] [] [] cruns_2); [rewrite app_nil_r; exact cfits_c|].
    assert (N2 : (zlen Fc1 =? 0) = false) by (vm_compute; reflexivity). intros X. rewrite X in N2. discriminate N2.
Qed.
(** A run when the header is the only complete line, a, spoils the index file: the next
    run, on a b c, succeeds, but it takes b for the header: the column is named b. *)
Definition Fh1 : bytes := snd (rcc HCsv [] [97; 10] []).
Definition Fh2 : bytes := snd (rcc HCsv [] [97; 10; 98; 10; 99; 10] Fh1).
Theorem C94_header_alone_refuted : fst (rcc HCsv [] [97; 10] []) = Ok tt /\ fst (rcc HCsv [] [97; 10; 98; 10; 99; 10] Fh1) = Ok tt /\
  (exists s, copened_at Fh2 s /\ reads s (if_field_names file_slot) [[98]]) /\
  cfits [97; 10; 98; 10; 99; 10] (RW [[97]] false) [RW [[98]] false; RW [[99]] false] [].
Proof.
  split; [vm_compute; reflexivity|]. split; [vm_compute; reflexivity|]. split.
  - exists (snd (new_index_file 1 (snd (new_page_file (open_rws KMmap Fh2))))). split.
    + exists (snd (new_page_file (open_rws KMmap Fh2))), file_slot. split; [|split]; vm_compute; reflexivity.
    + eexists. split; vm_compute; reflexivity.
  - split; [reflexivity|]. split; [intros []|]. split; [rp|]. split; [repeat constructor; intros []|]. split; [repeat constructor; discriminate|].
    split; [constructor; [rp|constructor; [rp|constructor]]|]. split; [repeat constructor; cbn [length]; lia|reflexivity].
Qed.
