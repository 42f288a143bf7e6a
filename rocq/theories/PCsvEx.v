(** Concrete CSV files: the hypotheses of PCsv.v are met, and what fails, fails on them. *)
From Coq Require Import Permutation.
From Verif Require Import Base Varint Store PageFile RefValue Node LinkedPage BPTree PTree Meta IndexFile IFileInv PIndex Json Jsonl Csv CsvSpec CsvRun PCsv.

(** the texts 1 and 2 are numbers *)
Definition nm (t : bytes) : option bytes :=
  if name_eqb t [49] then Some [63; 240; 0; 0; 0; 0; 0; 0] else if name_eqb t [50] then Some [64; 0; 0; 0; 0; 0; 0; 0] else None.
Notation sync := (csv_sync nm file_slot).
Notation clife := (clife nm).
Notation parse := (fun v => Some (csv_parse nm v)).
(** a new index file for CSV *)
Definition copened (k : rws_kind) : st := snd (new_page_file (open_rws k [])).
Definition cfresh (k : rws_kind) : st := snd (new_index_file 1 (copened k)).
Lemma clife_fresh k : clife [] (cfresh k).
Proof. apply (@cl_new nm k (copened k) file_slot (cfresh k)); destruct k; vm_compute; reflexivity. Qed.
Lemma clife_of k D : zlen D < 2^63 -> clife D (cfresh k).
Proof. intros H. apply (@cl_data nm [] D); [apply clife_fresh|exact H]. Qed.

(** a,b  1,x  ,y (with a carriage return) and then an unfinished line *)
Definition hd : row := RW [[97]; [98]] false.
Definition r1 : row := RW [[49]; [120]] false.
Definition r2 : row := RW [[]; [121]] true.
Definition Dc : bytes := row_text hd ++ 10 :: rows_text [r1; r2] ++ [49].
Lemma plain1 c : c <> 44 -> c <> 34 -> c <> 10 -> cell_plain [c].
Proof. intros. unfold cell_plain. cbn [In]. intuition congruence. Qed.
Lemma plain0 : cell_plain [].
Proof. unfold cell_plain. cbn [In]. tauto. Qed.
Ltac rp := unfold row_plain; cbn [cells cr]; split; [repeat constructor; first [apply plain0|apply plain1; lia]|split; [discriminate|split; [first [discriminate|intros _; discriminate]|reflexivity]]].
Lemma cfits_c : cfits Dc hd [r1; r2] [49].
Proof.
  split; [reflexivity|]. split; [intros [X|[]]; discriminate|]. split; [rp|]. split.
  { repeat constructor; cbn [In]; intuition congruence. }
  split; [repeat constructor; discriminate|]. split; [constructor; [rp|constructor; [rp|constructor]]|]. split; [repeat constructor; cbn [length]; lia|reflexivity].
Qed.
Definition sc (k : rws_kind) : st := snd (sync Dc (cfresh k)).
Lemma small_c k : zlen (file (sc k)) < 2^60.
Proof. apply Z.ltb_lt. destruct k; vm_compute; reflexivity. Qed.
Lemma sync_c k : sync Dc (cfresh k) = (fst (sync Dc (cfresh k)), sc k).
Proof. unfold sc. destruct (sync Dc (cfresh k)). reflexivity. Qed.
Lemma C43_example k : fst (sync Dc (cfresh k)) = Ok tt /\ reads (sc k) (if_field_names file_slot) [[97]; [98]] /\ cshows nm 0 Dc (sc k) ([98], FTString) [(RV (MP 6 1) [120], MP 4 3); (RV (MP 9 1) [121], MP 8 3)].
Proof.
  destruct (@C43_rows_under_header_names_partial nm Dc (cfresh k) hd [r1; r2] [49] _ _ (clife_of k Dc eq_refl) cfits_c ltac:(discriminate) (sync_c k) (small_c k)) as (E & R & S & _).
  split; auto. split; auto. apply (S ([98], FTString)). vm_compute. auto.
Qed.
(** the same file in two steps *)
Definition Dc1 : bytes := row_text hd ++ 10 :: rows_text [r1] ++ [44].
Definition sc1 (k : rws_kind) : st := snd (sync Dc1 (cfresh k)).
Lemma C43_example_two_steps k : clife Dc (sc1 k).
Proof.
  replace Dc with (Dc1 ++ skipn (length Dc1) Dc) by reflexivity. apply cl_data; [|reflexivity]. apply (@cl_sync nm Dc1 (cfresh k) (fst (sync Dc1 (cfresh k))) (sc1 k)).
  - apply clife_of. reflexivity.
  - vm_compute. discriminate.
  - unfold sc1. destruct (sync Dc1 (cfresh k)). reflexivity.
  - apply Z.ltb_lt. destruct k; vm_compute; reflexivity.
Qed.
(** C66: two rows, no entries *)
Theorem C66_entries_refuted k : fst (sync Dc (cfresh k)) = Ok tt /\ reads (sc k) (if_metadata file_slot) (FM 1 1 12 0).
Proof.
  split; [apply (C43_example k)|]. exact (@C66_entries_stay_zero nm Dc (cfresh k) hd [r1; r2] [49] _ _ (clife_of k Dc eq_refl) cfits_c ltac:(discriminate) (sync_c k) (small_c k)).
Qed.

(** ** What fails *)
(** The file "a" LF synchronized, then "b" LF "c" LF appended and synchronized: both succeed, but
    the second takes the first row for the header. *)
Definition two (D D' : bytes) (k : rws_kind) : res unit * res unit * st :=
  let (r, s) := sync D (cfresh k) in let (r', s') := sync (D ++ D') s in (r, r', s').
Theorem C43_header_alone_refuted : exists s, two [97; 10] [98; 10; 99; 10] KBuf = (Ok tt, Ok tt, s) /\ reads s (if_field_names file_slot) [[98]].
Proof.
  exists (snd (two [97; 10] [98; 10; 99; 10] KBuf)). split; [vm_compute; reflexivity|]. eexists. split; vm_compute; reflexivity.
Qed.
(** Two columns of the same name, "a,a" LF "1,2" LF, then "1,2" LF: the second Synchronize fails. *)
Theorem C43_same_names_refuted : exists e s, two [97; 44; 97; 10; 49; 44; 50; 10] [49; 44; 50; 10] KBuf = (Ok tt, Err e, s).
Proof. eexists _, _. vm_compute. reflexivity. Qed.
(** A first row shorter than the header, "a,b" LF "1" LF, then "1,2" LF: the second Synchronize fails. *)
Theorem C43_short_first_row_refuted : exists e s, two [97; 44; 98; 10; 49; 10] [49; 44; 50; 10] KBuf = (Ok tt, Err e, s).
Proof. eexists _, _. vm_compute. reflexivity. Qed.

(** "a" LF quote x quote LF: Synchronize succeeds; the entry's range holds a quote, not x,
    and the key read back from the data file is that quote. *)
Definition Dq : bytes := [97; 10; 34; 120; 34; 10].
Theorem C44_quoted_refuted : exists s m im e, sync Dq (cfresh KBuf) = (Ok tt, s) /\ reads s (find_or_create file_slot [97] FTString) (m, im) /\
  walk (mkCodec 0 Dq parse) m s least 2 = Ok [e] /\ slice Dq (mp_off (rv_dp (fst e))) (mp_len (rv_dp (fst e))) = [34] /\ rv_val (fst e) = [34].
Proof.
  exists (snd (sync Dq (cfresh KBuf))), (fst (match fst (find_or_create file_slot [97] FTString (snd (sync Dq (cfresh KBuf)))) with Ok x => x | _ => (file_slot, IM [] 0 0 0) end)), (IM [97] 0 0 0), (RV (MP 2 1) [34], MP 2 3).
  split; [vm_compute; reflexivity|]. split; [eexists; split; vm_compute; reflexivity|]. split; [vm_compute; reflexivity|]. split; reflexivity.
Qed.

(** "a" LF "1" LF: the index of the numbers of column a declares the width 9. Reading its tree
    with that width does not give the entry. *)
Definition Dw : bytes := [97; 10; 49; 10].
Definition sw : st := snd (sync Dw (cfresh KBuf)).
Definition mw : lp := match fst (find_or_create file_slot [97] FTFloat64 sw) with Ok x => fst x | _ => file_slot end.
Theorem C62_declared_width_refuted : fst (sync Dw (cfresh KBuf)) = Ok tt /\ reads sw (find_or_create file_slot [97] FTFloat64) (mw, IM [97] FTFloat64 9 0) /\
  walk (mkCodec 0 Dw parse) mw sw least 2 = Ok [(RV (MP 2 1) [63; 240; 0; 0; 0; 0; 0; 0], MP 2 1)] /\
  walk (mkCodec 9 Dw parse) mw sw least 2 <> Ok [(RV (MP 2 1) [63; 240; 0; 0; 0; 0; 0; 0], MP 2 1)].
Proof.
  split; [vm_compute; reflexivity|]. split; [eexists; split; vm_compute; reflexivity|]. split; [vm_compute; reflexivity|]. vm_compute. discriminate.
Qed.
