(** Concrete cases of C90. *)
From Verif Require Import Base Varint Store PageFile RefValue Node LinkedPage BPTree PTree Meta IndexFile IFileInv PIndex Json Jsonl JsonDoc JsonlSpec PJsonl PJsonlEx Query TsFile PQuery PJsonlQuery PSyncCrash PSnapshot.

Notation jp := (jparse un tf).
(** the first line, {"a":1}, is indexed; the second, {"a" : [] , "b":"x","c":{"d":true}}, is being
    indexed: one write of its Synchronize is done *)
(** the state with the first line indexed, computed once *)
Definition s1l : st := Eval vm_compute in s1 KBuf.
Lemma s1_eq : s1 KBuf = s1l.
Proof. vm_compute. reflexivity. Qed.
Definition during : bytes := Eval vm_compute in file (snd (sync D12 (set_budget s1l (Some 1%nat)))).
Definition one : wval := WNum [49; 0; 0; 0; 0; 0; 0; 0].
Definition ask_a : query := QY [CW [97] QEq one] [Asc] None.
Lemma dies_at s n f : fst (sync D12 (set_budget s (Some n))) = Crash -> file (snd (sync D12 (set_budget s (Some n)))) = f -> instant un tf gr [] D12 s f.
Proof. intros E F. right. left. exists n, (snd (sync D12 (set_budget s (Some n)))). split; [rewrite <- E; apply surjective_pairing|exact F]. Qed.
Lemma during_instant : instant un tf gr [] D12 s1l during.
Proof. apply (@dies_at s1l 1%nat); vm_compute; reflexivity. Qed.
Lemma no_headers f D : (forall fuel ns, ts_header_names fuel f <> Ok ns) -> forall fuel q' n r, ts_query jp fuel f D q' n <> Ok r.
Proof.
  intros H fuel q' n r. unfold ts_query. destruct (_ <? _)%nat; [discriminate|]. destruct (ts_if_metadata f) as [fm| | | |]; cbn [rbind]; try discriminate.
  specialize (H fuel). destruct (ts_header_names fuel f) as [ns| | | |]; cbn [rbind]; try discriminate. exfalso. exact (H ns eq_refl).
Qed.
(** the file at the end of the Synchronize, computed once *)
Definition s2l : st := Eval vm_compute in snd (sync D12 s1l).
Lemma s2_eq : snd (sync D12 s1l) = s2l.
Proof. vm_compute. reflexivity. Qed.
(** C90 fails: a line that is found before and after the Synchronize is not found at an
    instant of it: there every query fails, whatever it asks for. *)
Theorem C90_blind_instant_refuted : exists D s ls tail f q found,
  life D s /\ fits D ls tail /\ instant un tf gr [] D s f /\
  ts_query jp (fuel_of s) (file s) D q 5 = Ok found /\ found <> [] /\
  ts_query jp (fuel_of (snd (sync D s))) (file (snd (sync D s))) D q 5 = Ok found /\
  forall fuel q' n r, ts_query jp fuel f D q' n <> Ok r.
Proof.
  exists D12, s1l, [line1; line2], [123], during, ask_a, [line_text line1].
  split; [rewrite <- s1_eq; apply C39_example|]. split; [exact fits12|]. split; [exact during_instant|].
  split; [vm_compute; reflexivity|]. split; [discriminate|]. split; [rewrite s2_eq; vm_compute; reflexivity|].
  assert (H : forall fuel ns, ts_header_names fuel during <> Ok ns) by (intros [|[|[|fuel]]] ns; vm_compute; discriminate).
  exact (@no_headers during D12 H).
Qed.
(** one more write, and the first line is found *)
Definition soon : bytes := Eval vm_compute in file (snd (sync D12 (set_budget s1l (Some 2%nat)))).
Lemma soon_instant : instant un tf gr [] D12 s1l soon.
Proof. apply (@dies_at s1l 2%nat); vm_compute; reflexivity. Qed.
Lemma C90_example : ts_query jp (S (length soon)) soon D12 ask_a 5 = Ok [line_text line1] /\
  lines_among un tf [line1; line2] [97] QEq Asc one 5 [line_text line1].
Proof.
  assert (Q : ts_query jp (S (length soon)) soon D12 ask_a 5 = Ok [line_text line1]) by (vm_compute; reflexivity).
  assert (E1 : (zlen soon <=? 2^31) = true) by (vm_compute; reflexivity).
  assert (E2 : (zlen (file (snd (sync D12 s1l))) <? 2^60) = true) by (rewrite s2_eq; vm_compute; reflexivity).
  split; [exact Q|].
  apply (@C90_answers_are_right_partial un tf gr [] tf_8 D12 s1l [line1; line2] [123] soon [97] one FTFloat64 (S (length soon))) with (limit := None).
  - rewrite <- s1_eq. apply C39_example.
  - exact fits12.
  - apply Z.ltb_lt, E2.
  - exact soon_instant.
  - apply Z.leb_le, E1.
  - reflexivity.
  - reflexivity.
  - apply Nat.le_refl.
  - discriminate.
  - exact Q.
Qed.
