(** C94: runs of the command (cmd/main.go) with -csv on a growing data file. *)
From Coq Require Import Permutation Sorted.
From Verif Require Import Base Varint Store PageFile PageHist RefValue Node LinkedPage BPTree BPRepr BPIter BPInsert BPLoop BPTop PTree Meta Slots SlotAdd PSlots Cells IndexFile IFileInv PIndex Json Jsonl Grows JsonlRun JsonlSpec JsonlHist Csv CsvSpec CsvRun PCsv Cmd.

Section P.
Variables (unquote : bytes -> bytes) (to_float num : bytes -> option bytes) (grams : bytes -> Z -> res (list (bytes * Z * Z))).
Notation run_command := (run_command unquote to_float num grams).
Notation csv_occs := (csv_occs num).
Notation cshows := (cshows num).

(** ** Specification *)
(** [cruns D F]: the data file, now [D], has grown, and the command was run on it with -csv and
    any search headers (and any number of times with -jsonl by mistake, once there was an index
    file), except while the header was its only complete line; the index file contains [F]. *)
Inductive cruns : bytes -> bytes -> Prop :=
| cr_none : cruns [] []
| cr_data D t F : cruns D F -> zlen (D ++ t) < 2^63 -> cruns (D ++ t) F
| cr_csv D F hdrs r F' : cruns D F -> count_occ Z.eq_dec D 10 <> 1%nat -> run_command HCsv hdrs D F = (r, F') -> zlen F' < 2^60 -> cruns D F'
| cr_jsonl D F hdrs r F' : cruns D F -> F <> [] -> run_command HJsonl hdrs D F = (r, F') -> cruns D F'.
(** the index file [F], opened as one of CSV *)
Definition copened_at (F : bytes) (s : st) : Prop :=
  exists s1 tree, new_page_file (open_rws KMmap F) = (Ok tt, s1) /\ new_index_file 1 s1 = (Ok tree, s) /\ file s = F.

(** ** Proofs *)
Notation cpf := (fun v => Some (csv_parse num v)).
Notation ifile := (ifile wd0 cpf).
Notation clife := (clife num).
Notation cstate := (cstate num).
Lemma cupd_same {A} (f b : list A) o l : 0 <= o -> o + zlen b <= zlen f -> l = zlen b -> slice f o l = b -> upd f o b = f.
Proof.
  intros Ho Hl -> E. unfold upd. rewrite <- E at 1. unfold slice. rewrite <- (firstn_skipn (Z.to_nat o) f) at 4. f_equal.
  rewrite <- (firstn_skipn (Z.to_nat (zlen b)) (skipn (Z.to_nat o) f)) at 2. f_equal. rewrite skipn_skipn. f_equal. pose proof (zlen_nonneg b). lia.
Qed.
Lemma cset_same D fm l s : ifile D fm l s -> exists p, if_set_metadata file_slot fm s = (Ok tt, set_pos s p).
Proof.
  intros Hi. destruct (ifile_holds wd0_ok Hi) as (_ & fl & ms & x0 & L & H). destruct (ho_fm H) as (F1 & F2 & F3). assert (Hx : nth_error (x0 :: L) 0 = Some x0) by reflexivity.
  destruct (cl_at (ho_cells H) _ Hx) as (M1 & M2 & _). pose proof (cells_slot _ (ho_cells H) Hx) as Hso. destruct (@cells_set s fl ms _ 0%nat x0 (c_meta x0) (ho_cells H) Hx M2) as (p & E & _ & _).
  exists p. unfold if_set_metadata. rewrite (@bind_ok _ _ _ (lift (file_meta_marshal fm)) _ s (c_meta x0) s) by (unfold lift; rewrite F1; reflexivity).
  rewrite <- (holds_slot0 H), E. f_equal. rewrite (@cupd_same _ (file s) (zlen (c_meta x0) :: c_meta x0) _ (1 + zlen (c_meta x0))); [destruct s; reflexivity| | | |].
  - pose proof (root_off_bounds Hso) as (B1 & B2 & B3 & B4 & B5). destruct Hso as ((P1 & P2 & P3 & P4) & P5 & P6). unfold pageSize in *; lia.
  - pose proof (root_off_bounds Hso) as (B1 & B2 & B3 & B4 & B5). destruct Hso as ((P1 & P2 & P3 & P4) & P5 & P6). rewrite zlen_cons. unfold pageSize in *; lia.
  - rewrite zlen_cons. reflexivity.
  - exact M1.
Qed.
(** opening *)
Lemma cruns_open D h a s hd : cstate D h a s -> exists s1 s2, new_page_file (open_rws KMmap (file s)) = (Ok tt, s1) /\ file s2 = file s /\
  new_index_file (format_of hd) s1 = ((match hd with HCsv => Ok file_slot | HJsonl => Err (EMsg "unsupported format") end), s2).
Proof.
  intros (l & Hi & _). destruct (ifile_holds wd0_ok Hi) as (_ & fl & ms & x0 & L & H).
  destruct (@holds_open _ s _ l fl ms x0 L KMmap (format_of hd) H) as (s1 & p & E1 & E2 & _ & _ & E5). cbn [fm_version fm_format] in E5. rewrite Z.eqb_refl in E5.
  exists s1, (set_pos s1 p). split; [exact E1|]. split; [exact E2|]. rewrite E5. destruct hd; reflexivity.
Qed.
Lemma wrong_run D h a s hdrs : cstate D h a s -> run_command HJsonl hdrs D (file s) = (Err (EMsg "unsupported format"), file s).
Proof.
  intros Hs. destruct (@cruns_open D h a s HJsonl Hs) as (s1 & s2 & E1 & E2 & E3). unfold Cmd.run_command, command. rewrite (@bind_ok _ _ _ _ _ _ _ _ E1). unfold bind. rewrite E3. cbn [fst snd]. f_equal. exact E2.
Qed.
(** a run is a Synchronize of an opened index file *)
Lemma csv_run D F h rows tail t hdrs : (F = [] /\ zlen D < 2^63) \/ (exists s, file s = F /\ clife D s) -> cfits (D ++ t) h rows tail ->
  exists s, clife D s /\ run_command HCsv hdrs D F = (fst (csv_sync num file_slot D s), file (snd (csv_sync num file_slot D s))).
Proof.
  intros H Hfit. assert (G : exists s1 s2, new_page_file (open_rws KMmap F) = (Ok tt, s1) /\ new_index_file 1 s1 = (Ok file_slot, s2) /\ clife D s2).
  { destruct H as [(-> & Hz)|(s & <- & Hl)].
    - destruct (@holds_create (ix_codec wd0 cpf D) KMmap 1) as (s1 & s2 & fl & ms & x0 & C1 & C2 & _); [intros ft; apply ix_codec_ok; [apply wd0_ok|exact Hz]|lia|].
      exists s1, s2. split; auto. split; auto. change D with ([] ++ D). apply cl_data; [|exact Hz]. exact (@cl_new num KMmap s1 file_slot s2 C1 C2).
    - destruct (@clife_state num D s Hl h rows tail t Hfit) as (a & b & _ & Hs & _). destruct (@cruns_open D h a s HCsv Hs) as (s1 & s2 & E1 & _ & E3). exists s1, s2. split; auto. split; auto. exact (@cl_open num D s KMmap s1 file_slot s2 Hl E1 E3). }
  destruct G as (s1 & s2 & G1 & G2 & G3). exists s2. split; auto. unfold Cmd.run_command, command. rewrite (@bind_ok _ _ _ _ _ _ _ _ G1). cbn [format_of]. rewrite (@bind_ok _ _ _ _ _ _ _ _ G2). reflexivity.
Qed.
Lemma cruns_life D F : cruns D F -> forall h rows tail t, cfits (D ++ t) h rows tail -> (F = [] /\ zlen D < 2^63) \/ exists s, file s = F /\ clife D s.
Proof.
  induction 1 as [|D t0 F H IH Hz|D F hdrs r F' H IH Hc E Hz|D F hdrs r F' H IH HF E]; intros h rows tail t Hfit.
  - left. split; auto. change (zlen (@nil Z)) with 0. lia.
  - rewrite <- app_assoc in Hfit. destruct (IH h rows tail (t0 ++ t) Hfit) as [(-> & _)|(s & <- & Hl)]; [left; auto|]. right. exists s. split; auto. apply cl_data; auto.
  - right. destruct (@csv_run D F h rows tail t hdrs (IH h rows tail t Hfit) Hfit) as (s & Hl & E'). rewrite E in E'. injection E' as -> ->. exists (snd (csv_sync num file_slot D s)). split; [reflexivity|].
    apply (@cl_sync num D s (fst (csv_sync num file_slot D s)) _ Hl Hc); [apply surjective_pairing|exact Hz].
  - right. destruct (IH h rows tail t Hfit) as [(-> & _)|(s & <- & Hl)]; [congruence|]. destruct (@clife_state num D s Hl h rows tail t Hfit) as (a & b & _ & Hs & _).
    rewrite (@wrong_run D h a s hdrs Hs) in E. injection E as _ <-. exists s. auto.
Qed.
Lemma cfits_nil D h rows tail : cfits D h rows tail -> cfits (D ++ []) h rows tail.
Proof. rewrite app_nil_r. auto. Qed.
Lemma cruns_run D F h rows tail hdrs r F' : cruns D F -> cfits D h rows tail -> rows <> [] -> run_command HCsv hdrs D F = (r, F') -> zlen F' < 2^60 ->
  r = Ok tt /\ exists s, file s = F' /\ clife D s /\ cstate D h rows s.
Proof.
  intros H Hfit Hne E Hz. pose proof (cfits_nil Hfit) as Hfit'. destruct (@csv_run D F h rows tail [] hdrs (@cruns_life D F H h rows tail [] Hfit') Hfit') as (s & Hl & E'). rewrite E in E'. injection E' as Er EF.
  destruct (@clife_sync num D s h rows tail Hl Hfit Hne) as (s' & Es & Hs); [rewrite <- EF; exact Hz|]. rewrite Es in Er, EF. cbn [fst snd] in Er, EF. split; auto. exists s'. split; auto. split; auto.
  apply (@cl_sync num D s (Ok tt) s' Hl); auto; [|rewrite <- EF; exact Hz]. destruct Hfit as (HD & _ & Hh & _ & _ & Hrows & _). rewrite HD, count_occ_app. cbn [count_occ]. destruct (Z.eq_dec 10 10) as [_|X]; [|congruence]. destruct rows as [|x rows]; [congruence|].
  rewrite count_occ_app, (count_rows Hrows). cbn [length]. lia.
Qed.

(** *** Theorems *)
(** Whenever there is a complete row, a run with -csv succeeds; the index file it leaves opens
    as one of CSV, its metadata count all complete lines as read, and its indexes are those of
    the rows, under the names of the first line: whatever the runs before it saw, and whatever
    their and its search headers were. What is missing from the full claim: the limits of
    [cfits], and that no run saw the header without a row ([C94_header_alone_refuted]). *)
Theorem C94_every_run_indexes_the_rows_partial D F h rows tail hdrs r F' : cruns D F -> cfits D h rows tail -> rows <> [] -> run_command HCsv hdrs D F = (r, F') -> zlen F' < 2^60 ->
  r = Ok tt /\ exists s, copened_at F' s /\
  reads s (if_metadata file_slot) (FM 1 1 (zlen (row_text h ++ 10 :: rows_text rows)) 0) /\
  reads s (if_field_names file_slot) (cells h) /\
  (forall i, In i (map fst (csv_occs h rows)) -> cshows 0 D s i (centries (csv_occs h rows) i)) /\
  (forall i, zlen (fst i) <= 245 -> 0 <= snd i < 2^8 -> cexists s i -> In i (map fst (csv_occs h rows))).
Proof.
  intros H Hfit Hne E Hz. destruct (@cruns_run D F h rows tail hdrs r F' H Hfit Hne E Hz) as (-> & s & <- & Hl & Hs). split; auto.
  destruct (@cruns_open D h rows s HCsv Hs) as (s1 & s2 & E1 & E2 & E3). pose proof (@cstate_open num D h rows s KMmap s1 file_slot s2 Hs E1 E3) as Hs2. exists s2. split; [exists s1, file_slot; auto|].
  pose proof Hs2 as (l & Hi & Hl' & _). split; [|split; [|split]].
  - pose proof (C22_metadata wd0_ok Hi) as R. unfold offset_of in R. destruct rows; [congruence|]. rewrite zlen_app, zlen_cons. rewrite Z.add_assoc. exact R.
  - pose proof (C26_field_names wd0_ok Hi) as R. destruct (cfits_limits Hfit) as (_ & L2 & _ & _ & L5 & L6). rewrite (@state_headers num h rows l Hl' L2 L5 L6) in R. destruct rows; [congruence|exact R].
  - intros i. exact (@cstate_shows num D h rows s2 i Hs2).
  - intros i. apply (@cstate_only num D h rows s2 i Hs2). rewrite E2. exact Hz.
Qed.
(** A run on the file a run left, with at most an unfinished line added since, succeeds and
    changes no byte. *)
Theorem C94_nothing_new_partial D F h rows tail hdrs r F' hdrs' u : cruns D F -> cfits D h rows tail -> rows <> [] -> run_command HCsv hdrs D F = (r, F') -> zlen F' < 2^60 ->
  ~ In 10 u -> zlen (D ++ u) < 2^63 -> run_command HCsv hdrs' (D ++ u) F' = (Ok tt, F').
Proof.
  intros H Hfit Hne E Hz Hu HDu. destruct (@cruns_run D F h rows tail hdrs r F' H Hfit Hne E Hz) as (-> & s & <- & Hl & Hs).
  destruct (@cruns_open D h rows s HCsv Hs) as (s1 & s2 & E1 & E2 & E3). pose proof (@cstate_open num D h rows s KMmap s1 file_slot s2 Hs E1 E3) as (l & Hi & _).
  pose proof (if_more u Hi HDu) as Hi0. destruct (gen_metadata wd0_ok Hi0) as (p & M & _). pose proof (if_read p Hi0) as Hi1. destruct (gen_names wd0_ok Hi1) as (q & N). pose proof (if_read q Hi1) as Hi2. destruct (cset_same Hi2) as (o & S).
  unfold Cmd.run_command, command. rewrite (@bind_ok _ _ _ _ _ _ _ _ E1). rewrite (@bind_ok _ _ _ _ _ _ _ _ E3). cbn [synchronize]. unfold csv_sync.
  rewrite (@bind_ok _ _ _ _ _ _ _ _ M), (@bind_ok _ _ _ _ _ _ _ _ N).
  destruct Hfit as (HD & Ht & _).
  erewrite bind_ok; [|apply (@loop_none num (D ++ u) _ (FM currentVersion 1 (offset_of h rows) 0) (length (D ++ u)) _ (row_text h ++ 10 :: rows_text rows) (tail ++ u))].
  - rewrite S. cbn [fst snd]. rewrite <- E2. reflexivity.
  - rewrite HD, <- !app_assoc. cbn [app]. rewrite <- app_assoc. reflexivity.
  - cbn [fm_read_offset]. unfold offset_of. destruct rows; [congruence|]. rewrite zlen_app, zlen_cons. lia.
  - intros X. apply in_app_or in X. tauto.
Qed.
(** The command with -jsonl refuses the index file and leaves it as it is. *)
Theorem C94_wrong_handler_partial D F h rows tail t hdrs : cruns D F -> cfits (D ++ t) h rows tail -> F <> [] -> run_command HJsonl hdrs D F = (Err (EMsg "unsupported format"), F).
Proof.
  intros H Hfit HF. destruct (@cruns_life D F H h rows tail t Hfit) as [(-> & _)|(s & <- & Hl)]; [congruence|]. destruct (@clife_state num D s Hl h rows tail t Hfit) as (a & b & _ & Hs & _). exact (@wrong_run D h a s hdrs Hs).
Qed.
(** Naming a column in -s is silently ignored: the run succeeds, and there is no index of n-grams. *)
Theorem C94_search_headers_are_ignored_refuted D F h rows tail hdrs r F' name ft : cruns D F -> cfits D h rows tail -> rows <> [] -> run_command HCsv hdrs D F = (r, F') -> zlen F' < 2^60 ->
  In name hdrs -> In name (cells h) -> In ft [FTUnigram; FTBigram; FTTrigram] ->
  r = Ok tt /\ exists s, copened_at F' s /\ ~ cexists s (name, ft).
Proof.
  intros H Hfit Hne E Hz _ Hin Hft. destruct (C94_every_run_indexes_the_rows_partial H Hfit Hne E Hz) as (Er & s & Ho & _ & _ & _ & Honly). split; auto. exists s. split; auto. intros He.
  assert (X : In (name, ft) (map fst (csv_occs h rows))).
  { apply Honly; auto; cbn [fst snd].
    - destruct Hfit as (_ & _ & _ & _ & Hn & _). rewrite Forall_forall in Hn. apply Hn. exact Hin.
    - destruct Hft as [<-|[<-|[<-|[]]]]; unfold FTUnigram, FTBigram, FTTrigram; lia. }
  apply in_map_iff in X. destruct X as (o & Eo & Ho').
  assert (G : forall at_ rs, In o (row_occs num at_ (cells h) rs) -> exists v, snd (fst o) = cell_type num v).
  { intros at_ rs. revert at_. induction rs as [|x rs IH]; intros at_ Hx; [contradiction|]. cbn [row_occs] in Hx. apply in_app_or in Hx. destruct Hx as [Hx|Hx]; [|eauto].
    revert Hx. generalize (MP at_ (zlen (row_text x))). intros line. generalize at_ at 1. generalize (cells h). induction (cells x) as [|v cs IHc]; intros hs pos Hx; [destruct hs; contradiction|]. destruct hs as [|n hs]; [contradiction|]. cbn [cell_occs] in Hx. destruct Hx as [<-|Hx]; [exists v; reflexivity|eauto]. }
  destruct (G _ _ Ho') as (v & Ev). rewrite Eo in Ev. cbn [snd] in Ev. unfold cell_type in Ev. unfold FTUnigram, FTBigram, FTTrigram, FTNull, FTFloat64, FTBoolean, FTString in *.
  destruct (text_in v [[]]); [|destruct (num v); [|destruct (text_in v (yes ++ no))]]; subst ft; destruct Hft as [X|[X|[X|[]]]]; discriminate X.
Qed.
End P.
