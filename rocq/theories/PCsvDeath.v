(** C91: a Synchronize of a CSV data file that is cut short by the death of the process,
    at any of its writes, and what the next one makes of the file it leaves. *)
From Coq Require Import Permutation.
From Verif Require Import Base Varint Store PageFile PageHist RefValue Node LinkedPage BPTree BPRepr BPIter BPInsert BPLoop BPTop PTree Meta Slots SlotAdd PSlots Cells IndexFile IFileInv PIndex Json Jsonl Grows JsonlRun JsonlHist Csv CsvSpec CsvRun PCsv PCsvEx Crash PCrash SyncCrash Death PDeath CsvDeath.

Section P.
Variable num : bytes -> option bytes.
Notation sync := (csv_sync num file_slot).
Notation clife := (PCsv.clife num).
(** ** Specification *)
(** the process dies at its write number [n] (counted from 0) during a Synchronize
    and leaves the index file [f] *)
Definition csync_dies (D : bytes) (s : st) (n : nat) (f : bytes) : Prop := exists s', sync D (set_budget s (Some n)) = (Crash, s') /\ file s' = f.

(** ** Proofs *)
Notation cpf := (fun v => Some (csv_parse num v)).
Lemma cdies_dead D s h rows tail fm w f : clife D s -> cfits D h rows tail -> rows <> [] -> zlen (file (snd (sync D s))) < 2^60 ->
  reads s (if_metadata file_slot) fm -> csync_dies D s w f -> fm_version fm = currentVersion /\ fm_format fm = 1 /\ dead wd0 cpf D fm (cexpected (csv_occs num h rows)) f.
Proof.
  intros Hl Hfit Hne Hf Hmeta (sc & Ec & Efc). assert (Hfit' : cfits (D ++ []) h rows tail) by (rewrite app_nil_r; auto).
  destruct (@clife_state num D s Hl h rows tail [] Hfit') as (a & b & -> & Hs & _). pose proof (cfits_limits Hfit) as Hlim. destruct Hfit as (HD & Ht & _).
  pose proof Hs as (l & Hi & _). destruct (gen_metadata wd0_ok Hi) as (p & Em & _). destruct Hmeta as (sm & Em' & _). rewrite Em in Em'. injection Em' as <- _.
  split; [reflexivity|]. split; [reflexivity|]. pose proof (@csync_dead num D h a b tail s HD Ht Hlim Hne Hs (or_introl Hf) w sc Ec) as H. rewrite Efc in H. exact H.
Qed.
(** For every life of an index file, every CSV data file within the limits and every
    moment at which the process may die during Synchronize: the file that is left can be
    opened, and its metadata say what they said before Synchronize. *)
Theorem C91_crash_keeps_the_position_partial D s h rows tail fm w f : clife D s -> cfits D h rows tail -> rows <> [] -> zlen (file (snd (sync D s))) < 2^60 ->
  reads s (if_metadata file_slot) fm -> csync_dies D s w f ->
  forall k, exists s1 h s2, new_page_file (open_rws k f) = (Ok tt, s1) /\ new_index_file 1 s1 = (Ok h, s2) /\ file s2 = f /\ reads s2 (if_metadata file_slot) fm.
Proof.
  intros Hl Hfit Hne Hf Hm Hd k. destruct (@cdies_dead D s h rows tail fm w f Hl Hfit Hne Hf Hm Hd) as (Hv & Hfo & s0 & ms & x0 & L & <- & W & Efm & HL).
  destruct (@wc_open_index s0 [] ms x0 L fm k W Efm Hv) as (s1 & s2 & E1 & E2 & E3 & W2). rewrite Hfo in E2. exists s1, file_slot, s2. split; auto. split; auto. split; auto. eapply wc_file_meta; eauto.
Qed.
(** ... and every index that is found in it lists, in ascending order, only entries that
    the rows of the data file give to it. *)
Theorem C91_crash_adds_nothing_wrong_partial D s h rows tail fm w f k s1 h' s2 i : clife D s -> cfits D h rows tail -> rows <> [] -> zlen (file (snd (sync D s))) < 2^60 ->
  reads s (if_metadata file_slot) fm -> csync_dies D s w f -> zlen f < 2^60 ->
  new_page_file (open_rws k f) = (Ok tt, s1) -> new_index_file 1 s1 = (Ok h', s2) -> cexists s2 i ->
  exists es, cshows num 0 D s2 i es /\ incl es (centries (csv_occs num h rows) i).
Proof.
  intros Hl Hfit Hne Hf Hm Hd Hz E1 E2 ([m im] & s3 & Ef & Es). destruct (@cdies_dead D s h rows tail fm w f Hl Hfit Hne Hf Hm Hd) as (Hv & Hfo & s0 & ms & x0 & L & <- & W & Efm & HL).
  destruct (@wc_open_index s0 [] ms x0 L fm k W Efm Hv) as (s1' & s2' & E1' & E2' & E3 & W2). rewrite Hfo in E2'. rewrite E1 in E1'. injection E1' as <-. rewrite E2 in E2'. injection E2' as -> <-.
  pose proof Ef as Ef'. unfold find_or_create in Ef'. rewrite <- (wc_slot0 W2) in Ef'.
  destruct (@wc_find wd0 cpf D (cexpected (csv_occs num h rows)) (fst i) (snd i) (length L) 0 (fuel_of s2) s2 [] ms x0 L m im s3 W2 eq_refl ltac:(rewrite E3; exact Hz) HL Ef' Es) as (j & x & Hx & -> & Eu & N1 & N2).
  assert (Hin : In x L) by (eapply nth_error_In; exact Hx). rewrite Forall_forall in HL. destruct (HL _ Hin) as [(X & _)|(c & Hc & (t & Et1 & Et2 & Et3) & Ecod & Hinc)]; [rewrite X in Eu; discriminate Eu|].
  assert (Et := index_unmarshal_exact Et2 Et3 Et1).
  rewrite Eu in Et. injection Et as ->. cbn [im_name im_type] in N1, N2. destruct (proj2 (proj2 (proj2 (proj2 (proj2 W2)))) _ _ Hx) as (_ & _ & Hsys). rewrite Ecod in Hsys.
  rewrite N1, N2 in *.
  exists (c_es x). split.
  - exists (slot ms (S j)), (IM (fst i) (snd i) (determine_type (snd i)) t). split; [exists s3; split; auto|]. exists (c_es x). split; [apply Permutation_refl|]. split; [eapply sys_ascending; eauto|].
    intros n0. pose proof (least_all Hsys) as Hle. etransitivity; [exact (@sys_walk _ s2 _ [] _ (c_pgs x) least n0 Hsys (or_intror Hle))|]. destruct (@below_none least (c_es x) Hle) as [_ ->]. reflexivity.
  - intros e He. apply Hinc in He. unfold cexpected in Hc. apply in_map_iff in Hc. destruct Hc as (i' & <- & _). cbn [ci_name ci_type ci_es] in *. rewrite <- in_rev in He. rewrite (surjective_pairing i), <- N1, <- N2, <- surjective_pairing. exact He.
Qed.
End P.

(** ** Concrete cases *)
Lemma reads_of {A} s (r : M st A) v : fst (r s) = Ok v -> file (snd (r s)) = file s -> reads s r v.
Proof. intros E1 E2. exists (snd (r s)). split; [|exact E2]. rewrite <- E1. apply surjective_pairing. Qed.
Lemma cfresh_meta k : reads (cfresh k) (if_metadata file_slot) (FM 1 1 0 0).
Proof. apply reads_of; destruct k; vm_compute; reflexivity. Qed.
Lemma dies_of D s n : fst (csv_sync nm file_slot D (set_budget s (Some n))) = Crash -> csync_dies nm D s n (file (snd (csv_sync nm file_slot D (set_budget s (Some n))))).
Proof. intros E. exists (snd (csv_sync nm file_slot D (set_budget s (Some n)))). split; [|reflexivity]. rewrite <- E. apply surjective_pairing. Qed.
(** the file of PCsvEx.v (a,b 1,x ,y), not yet indexed, killed at its ninth write: the
    first row is indexed, the second not *)
Definition cleft (n : nat) (k : rws_kind) : bytes := file (snd (csv_sync nm file_slot Dc (set_budget (cfresh k) (Some n)))).
Lemma cdies8 k : csync_dies nm Dc (cfresh k) 8 (cleft 8 k).
Proof.
  apply dies_of. destruct k; vm_compute; reflexivity.
Qed.
Lemma C91_position_example k k' : exists s1 h s2, new_page_file (open_rws k' (cleft 8 k)) = (Ok tt, s1) /\ new_index_file 1 s1 = (Ok h, s2) /\ file s2 = cleft 8 k /\
  reads s2 (if_metadata file_slot) (FM 1 1 0 0).
Proof.
  apply (@C91_crash_keeps_the_position_partial nm Dc (cfresh k) hd [r1; r2] [49] (FM 1 1 0 0) 8 (cleft 8 k)).
  - apply clife_of. reflexivity.
  - exact cfits_c.
  - discriminate.
  - apply small_c.
  - apply cfresh_meta.
  - apply cdies8.
Qed.
Definition copen (f : bytes) := snd (new_page_file (open_rws KBuf f)).
Definition creopen (f : bytes) := snd (new_index_file 1 (copen f)).
Lemma C91_entries_example k : exists es, cshows nm 0 Dc (creopen (cleft 8 k)) ([97], FTFloat64) es /\ incl es (centries (csv_occs nm hd [r1; r2]) ([97], FTFloat64)).
Proof.
  assert (E1 : fst (new_page_file (open_rws KBuf (cleft 8 k))) = Ok tt) by (destruct k; vm_compute; reflexivity).
  assert (E2 : fst (new_index_file 1 (copen (cleft 8 k))) = Ok file_slot) by (destruct k; vm_compute; reflexivity).
  assert (E3 : (zlen (cleft 8 k) <? 2^60) = true) by (destruct k; vm_compute; reflexivity).
  apply (@C91_crash_adds_nothing_wrong_partial nm Dc (cfresh k) hd [r1; r2] [49] (FM 1 1 0 0) 8 (cleft 8 k) KBuf (copen (cleft 8 k)) file_slot).
  - apply clife_of. reflexivity.
  - exact cfits_c.
  - discriminate.
  - apply small_c.
  - apply cfresh_meta.
  - apply cdies8.
  - apply Z.ltb_lt, E3.
  - unfold copen. rewrite <- E1. apply surjective_pairing.
  - unfold creopen. rewrite <- E2. apply surjective_pairing.
  - exists (LP 4096 1, IM [97] FTFloat64 9 0). apply reads_of; destruct k; vm_compute; reflexivity.
Qed.

(** ** What a death costs *)
(** A data file of one column: a, 1. Without a death its one record is the 1. Killed
    before the 1 is inserted, when the index "a" is just made: the next Synchronize
    succeeds, consumes the file, and has indexed the header as a record, under the text
    "a"; the offset says that all is well. *)
Definition Da : bytes := [97; 10; 49; 10].
Definition aleft : bytes := file (snd (csv_sync nm file_slot Da (set_budget (cfresh KBuf) (Some 2%nat)))).
Definition aagain : st := snd (csv_sync nm file_slot Da (creopen aleft)).
Theorem C91_header_becomes_a_record_refuted : csync_dies nm Da (cfresh KBuf) 2 aleft /\
  fst (csv_sync nm file_slot Da (creopen aleft)) = Ok tt /\ fst (if_metadata file_slot aagain) = Ok (FM 1 1 4 0) /\
  (exists m im, reads aagain (find_or_create file_slot [97] FTString) (m, im) /\ walk (mkCodec 0 Da (fun v => Some (csv_parse nm v))) m aagain least 2 = Ok [(RV (MP 0 1) [97], MP 0 1)]) /\
  centries (csv_occs nm (RW [[97]] false) [RW [[49]] false]) ([97], FTString) = [].
Proof.
  split; [|split; [|split; [|split]]].
  - apply dies_of. vm_compute. reflexivity.
  - vm_compute. reflexivity.
  - vm_compute. reflexivity.
  - exists (LP 4096 2), (IM [97] FTString 0 0). split; [apply reads_of|]; vm_compute; reflexivity.
  - vm_compute. reflexivity.
Qed.
(** With two columns, a,b 1,x: killed when the index "a" is just made, the file is taken
    to have the one column "a"; the next Synchronize finds two cells in the header, and
    the one after that finds "a" already indexed. *)
Definition Db : bytes := [97; 44; 98; 10; 49; 44; 120; 10].
Definition bleft : bytes := file (snd (csv_sync nm file_slot Db (set_budget (cfresh KBuf) (Some 2%nat)))).
Definition bagain : st := snd (csv_sync nm file_slot Db (creopen bleft)).
Theorem C91_header_is_cut_short_refuted : csync_dies nm Db (cfresh KBuf) 2 bleft /\ fst (if_field_names file_slot (creopen bleft)) = Ok [[97]] /\
  fst (csv_sync nm file_slot Db (creopen bleft)) = Err (EMsg "field index is out of bounds with header") /\
  fst (csv_sync nm file_slot Db bagain) = Err (EMsg "key already exists").
Proof.
  split; [|split; [|split]].
  - apply dies_of. vm_compute. reflexivity.
  - vm_compute. reflexivity.
  - vm_compute. reflexivity.
  - vm_compute. reflexivity.
Qed.
