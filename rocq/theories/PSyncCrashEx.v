(** Concrete cases of C83: the hypotheses of PSyncCrash.v are met, and the failure shown by running the model. *)
From Verif Require Import Base Varint Store PageFile RefValue Node LinkedPage BPTree PTree Meta IndexFile IFileInv PIndex Json Jsonl JsonDoc JsonlSpec PJsonl PJsonlEx PSyncCrash PDeath.

Lemma reads_of {A} s (r : M st A) v : fst (r s) = Ok v -> file (snd (r s)) = file s -> reads s r v.
Proof. intros E1 E2. exists (snd (r s)). split; [|exact E2]. rewrite <- E1. apply surjective_pairing. Qed.
Lemma fresh_meta k : reads (fresh k) (if_metadata file_slot) (FM 1 0 0 0).
Proof. apply reads_of; destruct k; vm_compute; reflexivity. Qed.
(** {"a":1} and {"a" : [] , "b":"x","c":{"d":true}}, not yet indexed: some crash blocks the file for ever *)
Lemma C83_example k : exists w f, sync_dies un tf gr [] D12 (fresh k) w f /\
  (forall k, exists s1 h s2, new_page_file (open_rws k f) = (Ok tt, s1) /\ new_index_file 0 s1 = (Ok h, s2)) /\
  forall D' s', later un tf gr [] f D12 D' s' -> reads s' (if_metadata file_slot) (FM 1 0 0 0) /\ (zlen (file (snd (sync D' s'))) < 2^60 -> fst (sync D' s') = Err (EMsg "key already exists")).
Proof.
  apply (@C83_a_crash_can_block_indexing_refuted un tf gr [] tf_8 D12 (fresh k) [line1; line2] [123] 0 0).
  - apply life_of. reflexivity.
  - exact fits12.
  - apply small12.
  - apply fresh_meta.
  - eexists. split; [left; reflexivity|]. split; [cbn; lia|exact I].
Qed.
Definition D1 := Eval vm_compute in data_of [line1] [].
Definition dead (n : nat) := snd (sync D1 (set_budget (fresh KBuf) (Some n))).
Definition again (f : bytes) := let s := snd (new_page_file (open_rws KBuf f)) in let s := snd (new_index_file 0 s) in fst (sync D1 s).
(** the first line of the file alone: killed at its second write the Synchronize leaves
    an index without metadata, killed at its fifth or sixth an entry it will meet again *)
Lemma C83_witness : (fst (sync D1 (set_budget (fresh KBuf) (Some 1%nat))), again (file (dead 1))) = (Crash, Err (EMsg "invalid metadata size")) /\
  (fst (sync D1 (set_budget (fresh KBuf) (Some 4%nat))), again (file (dead 4))) = (Crash, Err (EMsg "key already exists")).
Proof. split; vm_compute; reflexivity. Qed.
(** the new index file and an index "a" *)
Lemma C83_create_example k : exists w s', find_or_create file_slot [97] 1 (set_budget (fresh k) (Some w)) = (Crash, s') /\
  forall k', exists s1 s2, new_page_file (open_rws k' (file s')) = (Ok tt, s1) /\ new_index_file 0 s1 = (Ok file_slot, s2) /\ file s2 = file s' /\
    forall name2 ft2, exists e s3, find_or_create file_slot name2 ft2 s2 = (Err e, s3) /\ file s3 = file s'.
Proof.
  destruct (@C83_crash_while_creating_an_index_refuted (fun _ => 0) (fun _ => None) [] (FM 1 0 0 0) [] (fresh k) [97] 1) as (w & s' & E & H).
  - intros t; lia.
  - apply (@if_new (fun _ => 0) (fun _ => None) k 0 (opened k) file_slot (fresh k)); [lia|destruct k; vm_compute; reflexivity..].
  - reflexivity.
  - intros ix [].
  - apply Z.ltb_lt. destruct k; vm_compute; reflexivity.
  - vm_compute. discriminate.
  - lia.
  - exists w, s'. split; [exact E|]. intros k'. destruct (H k') as (s1 & s2 & A & B & C & G). exists s1, s2. repeat (split; [assumption|]). intros name2 ft2. apply G. intros ix [].
Qed.
(** killed at its fifth write, the Synchronize of the same two lines leaves a file that
    can be opened, says that no line is indexed, and has the number 1 in its index "a" *)
Definition left5 (k : rws_kind) : bytes := file (snd (sync D12 (set_budget (fresh k) (Some 4%nat)))).
Lemma dies5 k : sync_dies un tf gr [] D12 (fresh k) 4 (left5 k).
Proof. exists (snd (sync D12 (set_budget (fresh k) (Some 4%nat)))). split; [|unfold left5; reflexivity]. rewrite (surjective_pairing (sync D12 (set_budget (fresh k) (Some 4%nat)))) at 1. f_equal. destruct k; vm_compute; reflexivity. Qed.
Lemma C83_position_example k k' : exists s1 h s2, new_page_file (open_rws k' (left5 k)) = (Ok tt, s1) /\ new_index_file 0 s1 = (Ok h, s2) /\ file s2 = left5 k /\
  reads s2 (if_metadata file_slot) (FM 1 0 0 0).
Proof.
  apply (@C83_crash_keeps_the_position_partial un tf gr [] tf_8 D12 (fresh k) [line1; line2] [123] 0 0 4 (left5 k)).
  - apply life_of. reflexivity.
  - exact fits12.
  - apply small12.
  - apply fresh_meta.
  - apply dies5.
Qed.
Definition opened5 k := snd (new_page_file (open_rws KBuf (left5 k))).
Definition reopen5 k := snd (new_index_file 0 (opened5 k)).
Lemma C83_entries_example k : exists total es, index_shows un tf D12 (reopen5 k) ([97], 3) total es /\ incl es (entries_of un tf gr [] (JsonlSpec.occs un 0 [line1; line2]) ([97], 3)).
Proof.
  assert (E1 : fst (new_page_file (open_rws KBuf (left5 k))) = Ok tt) by (destruct k; vm_compute; reflexivity).
  assert (E2 : fst (new_index_file 0 (opened5 k)) = Ok file_slot) by (destruct k; vm_compute; reflexivity).
  assert (E3 : (zlen (left5 k) <? 2^60) = true) by (destruct k; vm_compute; reflexivity).
  apply (@C83_crash_adds_nothing_wrong_partial un tf gr [] tf_8 D12 (fresh k) [line1; line2] [123] 0 0 4 (left5 k) KBuf (opened5 k) file_slot (reopen5 k)).
  - apply life_of. reflexivity.
  - exact fits12.
  - apply small12.
  - apply fresh_meta.
  - apply dies5.
  - apply Z.ltb_lt, E3.
  - unfold opened5. rewrite <- E1. apply surjective_pairing.
  - unfold reopen5. rewrite <- E2. apply surjective_pairing.
  - exists (LP 4096 1, IM [97] 3 9 0). apply reads_of; destruct k; vm_compute; reflexivity.
Qed.
(** the entry is there, although the count in the metadata of the index is still 0 *)
Lemma C83_entries_witness : match walk (mkCodec 9 D12 (Jsonl.jparse un tf)) (LP 4096 1) (reopen5 KBuf) least 5 with Ok l => length l | _ => 9%nat end = 1%nat.
Proof. vm_compute. reflexivity. Qed.
