(** C88: runs of the command (cmd/main.go) on a growing data file, each with its own list of
    search headers. *)
From Coq Require Import Permutation Sorted.
From Verif Require Import Base Varint Store PageFile PageHist RefValue Node LinkedPage BPTree BPRepr BPIter BPInsert BPLoop BPTop PTree Meta Slots SlotAdd PSlots Cells IndexFile IFileInv PIndex Json Jsonl Grows JsonlRun JsonDoc JsonlDoc JsonlSpec JsonlHist PJsonl Csv Cmd.

Section P.
Variables (unquote : bytes -> bytes) (to_float num : bytes -> option bytes) (grams : bytes -> Z -> res (list (bytes * Z * Z))).
(** binary.BigEndian.PutUint64 into an 8 byte buffer, pkg/handlers/jsonl.go:106-118, 215-226 *)
Hypothesis float_8 : forall t f, to_float t = Some f -> zlen f = 8.
Notation parse := (jparse unquote to_float).
Notation occs := (occs unquote).
Notation run_command := (run_command unquote to_float num grams).
Notation index_shows := (index_shows unquote to_float).

(** ** Specification *)
(** a run of the command: its search headers, and the lines that were new to it *)
Definition batch := (list bytes * list line)%type.
Definition lines_of (B : list batch) : list line := flat_map snd B.
(** the new lines of a run, which are within the limits of C40 *)
Definition news (D : bytes) (B : list batch) (hdrs : list bytes) (b : list line) (tail : bytes) : Prop :=
  D = lines_text (lines_of B) ++ data_of b tail /\ ~ In 10 tail /\ Forall (line_fits to_float) b /\
  Forall (name_fits unquote grams hdrs) (occs (zlen (lines_text (lines_of B))) b).
(** [runs D F B]: the data file, now [D], has grown, and the command was run, with -jsonl, as
    [B] says (and any number of times with -csv by mistake); the index file now contains [F]. *)
Inductive runs : bytes -> bytes -> list batch -> Prop :=
| ru_none : runs [] [] []
| ru_data D t F B : runs D F B -> zlen (D ++ t) < 2^63 -> runs (D ++ t) F B
| ru_jsonl D F B hdrs b tail r F' : runs D F B -> news D B hdrs b tail -> run_command HJsonl hdrs D F = (r, F') -> zlen F' < 2^60 -> runs D F' (B ++ [(hdrs, b)])
| ru_csv D F B hdrs r F' : runs D F B -> B <> [] -> run_command HCsv hdrs D F = (r, F') -> runs D F' B.
(** what the lines of each run contribute to the index [i], with the headers of that run *)
Fixpoint entries_by (at_ : Z) (B : list batch) (i : bytes * Z) : smap :=
  match B with
  | [] => []
  | (h, b) :: t => entries_of unquote to_float grams h (occs at_ b) i ++ entries_by (at_ + zlen (lines_text b)) t i
  end.
Fixpoint total_by (at_ : Z) (B : list batch) (i : bytes * Z) : Z :=
  match B with
  | [] => 0
  | (h, b) :: t => (total_of unquote to_float grams h (occs at_ b) i + total_by (at_ + zlen (lines_text b)) t i) mod 2^64
  end.
Fixpoint posted_by (at_ : Z) (B : list batch) (i : bytes * Z) : Prop :=
  match B with
  | [] => False
  | (h, b) :: t => In i (ids unquote to_float grams h (occs at_ b)) \/ posted_by (at_ + zlen (lines_text b)) t i
  end.
(** the types of the indexes of n-grams; all other indexes are ordinary *)
Definition gram_type (ft : Z) : Prop := In ft [FTUnigram; FTBigram; FTTrigram].
(** the index file [F], opened *)
Definition opened (F : bytes) (s : st) : Prop :=
  exists s1 tree, new_page_file (open_rws KMmap F) = (Ok tt, s1) /\ new_index_file 0 s1 = (Ok tree, s) /\ file s = F.

(** ** Proofs *)
Notation ifile := (ifile determine_type parse).
Fixpoint bposts (at_ : Z) (B : list batch) : list posting :=
  match B with [] => [] | (h, b) :: t => posts unquote to_float grams h (occs at_ b) ++ bposts (at_ + zlen (lines_text b)) t end.
Lemma bposts_app B B' : forall at_, bposts at_ (B ++ B') = bposts at_ B ++ bposts (at_ + zlen (lines_text (lines_of B))) B'.
Proof.
  induction B as [|[h b] B IH]; intros at_; [cbn; change (zlen (@nil Z)) with 0; rewrite Z.add_0_r; reflexivity|].
  unfold lines_of. cbn [app bposts flat_map snd]. fold (lines_of B). rewrite IH, lines_app, zlen_app, <- app_assoc, Z.add_assoc. reflexivity.
Qed.
Lemma lines_of_snoc B h b : lines_of (B ++ [(h, b)]) = lines_of B ++ b.
Proof. unfold lines_of. rewrite flat_map_app. cbn [flat_map snd]. rewrite app_nil_r. reflexivity. Qed.
Definition holds_runs (D : bytes) (B : list batch) (s : st) : Prop :=
  exists l, ifile D (FM currentVersion 0 (zlen (lines_text (lines_of B))) (zlen (lines_of B))) l s /\ map strip l = pexpected (bposts 0 B) /\ below (zlen (lines_text (lines_of B))) (map strip l).
Lemma canon_pexpected l : canon (pexpected l).
Proof. unfold canon, pexpected. rewrite Forall_map. apply Forall_forall. intros i _. cbn [ci_total]. unfold ptotal. apply Z.mod_pos_bound. reflexivity. Qed.
(** one Synchronize *)
Lemma runs_sync D B hdrs b tail s : news D B hdrs b tail -> holds_runs D B s -> zlen (file (snd (jsonl_sync unquote to_float grams hdrs file_slot D s))) < 2^60 ->
  exists s', jsonl_sync unquote to_float grams hdrs file_slot D s = (Ok tt, s') /\ holds_runs D (B ++ [(hdrs, b)]) s'.
Proof.
  intros (HD & Ht & Hl2 & Ho2) (l & Hi & Hl & Hb) Hf. destruct (ifile_holds (wd_ok grams) Hi) as (HDz & _). set (a := lines_of B) in *.
  unfold data_of in HD.
  destruct (@lacts_ok unquote to_float grams hdrs float_8 D HDz b (zlen (lines_text a)) (lines_text a) tail HD eq_refl Hl2 Ho2) as (R1 & R2 & R3).
  pose proof (more_text a). pose proof (zlen_nonneg tail). pose proof (zlen_nonneg (lines_text b)). assert (HDl : zlen D = zlen (lines_text a) + zlen (lines_text b) + zlen tail) by (rewrite HD, !zlen_app; lia).
  pose proof (@sync_run unquote to_float grams hdrs float_8 D _ l s Hi) as SR. cbv zeta in SR.
  rewrite (@loop_lines unquote to_float grams hdrs float_8 D currentVersion 0 HDz b (zlen (lines_text a)) (lines_text a) tail (zlen a) (S (length D)) HD eq_refl Ht Hl2 Ho2) in SR; [|rewrite HD, !app_length; lia|apply zlen_nonneg|lia].
  cbn [fst snd] in SR. destruct (@fresh_ok unquote to_float D _ _ _ _ R1 R2 Hb) as [OK BE].
  assert (Eex : run (lacts unquote to_float grams hdrs (zlen (lines_text a)) b) (map strip l) = pexpected (bposts 0 (B ++ [(hdrs, b)]))).
  { rewrite Hl, R3 by apply canon_pexpected. rewrite facts_posts, pexpected_app, bposts_app. cbn [bposts]. rewrite app_nil_r. cbn [Z.add]. all: assumption || reflexivity. }
  destruct (SR OK (or_introl Hf)) as (l' & s' & E & Hi' & Hl'). exists s'. split; [exact E|]. exists l'. rewrite lines_of_snoc. fold a. split; [|split].
  - rewrite lines_app, !zlen_app. exact Hi'.
  - rewrite Hl'. exact Eex.
  - rewrite Hl', lines_app, zlen_app. exact BE.
Qed.
(** opening *)
Lemma runs_open D B s h : holds_runs D B s -> exists s1 s2, new_page_file (open_rws KMmap (file s)) = (Ok tt, s1) /\ file s2 = file s /\
  new_index_file (format_of h) s1 = ((match h with HJsonl => Ok file_slot | HCsv => Err (EMsg "unsupported format") end), s2) /\ (h = HJsonl -> holds_runs D B s2).
Proof.
  intros (l & Hi & H2). destruct (ifile_holds (wd_ok grams) Hi) as (_ & fl & ms & x0 & L & H).
  destruct (@holds_open _ s _ l fl ms x0 L KMmap (format_of h) H) as (s1 & p & E1 & E2 & _ & _ & E5). cbn [fm_version fm_format] in E5. rewrite Z.eqb_refl in E5.
  exists s1, (set_pos s1 p). split; [exact E1|]. split; [exact E2|]. split; [rewrite E5; destruct h; reflexivity|].
  intros ->. exists l. split; [|exact H2]. eapply if_open; [exact Hi|exact E1|exact E5].
Qed.
Lemma runs_inv D F B : runs D F B -> (B = [] /\ F = [] /\ zlen D < 2^63) \/ exists s, file s = F /\ holds_runs D B s.
Proof.
  induction 1 as [|D t F B H IH Hz|D F B hdrs b tail r F' H IH Hn E Hz|D F B hdrs r F' H IH HB E].
  - left. split; auto. split; auto. change (zlen (@nil Z)) with 0. lia.
  - destruct IH as [(-> & -> & _)|(s & <- & l & Hi & Hl)]; [left; auto|]. right. exists s. split; auto. exists l. split; auto. apply if_more; auto.
  - right. unfold Cmd.run_command in E. cbv zeta in E. injection E as E1 E2.
    assert (G : exists s1 s2, new_page_file (open_rws KMmap F) = (Ok tt, s1) /\ new_index_file 0 s1 = (Ok file_slot, s2) /\ holds_runs D B s2).
    { destruct IH as [(-> & -> & HzD)|(s & <- & Hs)].
      - destruct (@holds_create (ix_codec determine_type parse D) KMmap 0) as (s1 & s2 & fl & ms & x0 & C1 & C2 & _); [intros ft; apply ix_codec_ok; [apply (wd_ok grams)|exact HzD]|lia|].
        exists s1, s2. split; auto. split; auto. exists []. split; [|split; [reflexivity|intros c e []]].
        change D with ([] ++ D). apply if_more; [|exact HzD]. exact (@if_new determine_type parse KMmap 0 s1 file_slot s2 ltac:(lia) C1 C2).
      - destruct (@runs_open D B s HJsonl Hs) as (s1 & s2 & C1 & _ & C2 & C3). exists s1, s2. auto. }
    destruct G as (s1 & s2 & G1 & G2 & G3). unfold command in E1, E2.
    rewrite (@bind_ok _ _ _ _ _ _ _ _ G1) in E1, E2. cbn [format_of] in E1, E2. rewrite (@bind_ok _ _ _ _ _ _ _ _ G2) in E1, E2. cbn [synchronize] in E1, E2.
    destruct (@runs_sync D B hdrs b tail s2 Hn G3) as (s3 & Es & Hs3); [rewrite E2; exact Hz|]. rewrite Es in E2. cbn [snd] in E2. exists s3. auto.
  - destruct IH as [(-> & _)|(s & <- & Hs)]; [congruence|]. right. unfold Cmd.run_command in E. cbv zeta in E. injection E as E1 E2.
    destruct (@runs_open D B s HCsv Hs) as (s1 & s2 & C1 & Ef & C2 & _). unfold command in E1, E2.
    rewrite (@bind_ok _ _ _ _ _ _ _ _ C1) in E1, E2. unfold bind in E1, E2. rewrite C2 in E1, E2. cbn [snd] in E2. exists s. rewrite <- E2. auto.
Qed.
(** *** What it shows *)
Lemma in_firsts l x : In x (firsts l) <-> In x l.
Proof. apply (firsts_in unquote to_float grams). Qed.
Lemma eqb_refl a : id_eqb a a = true.
Proof. apply id_eqb_spec. auto. Qed.
Lemma eqb_eq a b : id_eqb a b = true -> a = b.
Proof. apply id_eqb_spec. Qed.
Notation pids l := (firsts (map po_id l)).
Lemma runs_ids D B s : holds_runs D B s -> exists l, ifile D (FM currentVersion 0 (zlen (lines_text (lines_of B))) (zlen (lines_of B))) l s /\ map (fun ix => (ix_name ix, ix_type ix)) l = pids (bposts 0 B) /\
  forall ix, In ix l -> ix_total ix = ptotal (bposts 0 B) (ix_name ix, ix_type ix) /\ ix_es ix = rev (pentries (bposts 0 B) (ix_name ix, ix_type ix)).
Proof.
  intros (l & Hi & Hl & _). exists l. split; auto. unfold pexpected in Hl. split.
  - transitivity (map (fun c => (ci_name c, ci_type c)) (map strip l)); [rewrite map_map; reflexivity|]. rewrite Hl, map_map. cbn [ci_name ci_type]. rewrite <- (map_id (pids (bposts 0 B))) at 2. apply map_ext. intros [n ft]. reflexivity.
  - intros ix Hin. assert (X : In (strip ix) (map strip l)) by (apply in_map; auto). rewrite Hl in X. apply in_map_iff in X. destruct X as ([n ft] & E & _).
    unfold strip in E. cbn [fst snd] in E. injection E as E1 E2 E3 E4. rewrite <- E1, <- E2. auto.
Qed.
Lemma runs_shows D B s i : holds_runs D B s -> In i (map po_id (bposts 0 B)) -> index_shows D s i (ptotal (bposts 0 B) i) (pentries (bposts 0 B) i).
Proof.
  intros Hs Hi. destruct (runs_ids Hs) as (l & Hif & Hids & Hx). apply (proj2 (@in_firsts _ _)) in Hi. rewrite <- Hids in Hi. apply in_map_iff in Hi. destruct Hi as (ix & <- & Hin). destruct (Hx ix Hin) as [T E]. cbn [fst snd].
  exists (ix_at ix). split.
  - cbn [fst snd]. rewrite <- T. apply (@C23_existing_is_found determine_type parse D _ l s _ _ ix (wd_ok grams) Hif Hin); auto.
  - destruct (ifile_holds (wd_ok grams) Hif) as (_ & fl & ms & x0 & L & H). destruct (@holds_reads determine_type parse D s _ l fl ms x0 L ix H Hin) as (_ & es & P1 & P2 & P3). exists es. split; [|split; auto].
    rewrite E in P1. eapply Permutation_trans; [exact P1|]. apply Permutation_sym, Permutation_rev.
Qed.
Lemma runs_only D B s i : holds_runs D B s -> zlen (file s) < 2^60 -> legal_id i -> exists_index s i -> In i (map po_id (bposts 0 B)).
Proof.
  intros Hs Hf [Hn Ht] ([m im] & R). destruct (runs_ids Hs) as (l & Hi & Hids & _). apply in_firsts. rewrite <- Hids. destruct i as [n ft]. exact (C23_found_exists (wd_ok grams) Hi Hf Hn Ht R).
Qed.
Lemma by_entries i B : forall at_, pentries (bposts at_ B) i = entries_by at_ B i.
Proof.
  induction B as [|[h b] B IH]; intros at_; [reflexivity|]. cbn [bposts entries_by]. unfold pentries. rewrite filter_app, flat_map_app. f_equal. apply IH.
Qed.
Lemma by_total i B : forall at_, ptotal (bposts at_ B) i = total_by at_ B i.
Proof.
  induction B as [|[h b] B IH]; intros at_; [reflexivity|]. cbn [bposts total_by]. unfold ptotal. rewrite filter_app, sum_app. rewrite Zplus_mod. f_equal. rewrite <- IH. reflexivity.
Qed.
Lemma by_posted i B : forall at_, In i (map po_id (bposts at_ B)) <-> posted_by at_ B i.
Proof.
  induction B as [|[h b] B IH]; intros at_; [cbn; tauto|]. cbn [bposts posted_by]. rewrite map_app, in_app_iff, IH. unfold ids. rewrite in_firsts. tauto.
Qed.
(** ordinary indexes do not depend on the headers *)
Lemma type_plain v : ~ gram_type (type_of v).
Proof. destruct v; cbn; unfold FTNull, FTBoolean, FTFloat64, FTString, FTArray, FTObject, FTUnigram, FTBigram, FTTrigram; lia. Qed.
Lemma ordinary_posts i h l : ~ gram_type (snd i) ->
  filter (fun p => id_eqb (po_id p) i) (posts unquote to_float grams h l) = filter (fun p => id_eqb (po_id p) i) (posts unquote to_float grams [] l).
Proof.
  intros Hi. unfold posts. induction l as [|o l IH]; [reflexivity|]. cbn [flat_map]. rewrite !filter_app, IH. f_equal. unfold postings. cbn [filter].
  assert (G : forall b, filter (fun p => id_eqb (po_id p) i) (gram_postings unquote grams o b) = []).
  { intros b. unfold gram_postings, gram_posting. cbn [filter po_id].
    assert (N : forall ft, gram_type ft -> id_eqb (fd_name (fst o), ft) i = false).
    { intros ft Hft. destruct (id_eqb _ i) eqn:E; auto. apply eqb_eq in E. subst i. contradiction. }
    rewrite !N; [reflexivity|right; right; left; reflexivity|right; left; reflexivity|left; reflexivity]. }
  destruct (fd_value (fst o)); try reflexivity. cbn [searched existsb]. destruct (searched h _); [|reflexivity]. rewrite G. reflexivity.
Qed.
Lemma ordinary_bposts i : ~ gram_type (snd i) -> forall B at_,
  filter (fun p => id_eqb (po_id p) i) (bposts at_ B) = filter (fun p => id_eqb (po_id p) i) (posts unquote to_float grams [] (occs at_ (lines_of B))).
Proof.
  intros Hi. induction B as [|[h b] B IH]; intros at_; [reflexivity|]. unfold lines_of. cbn [bposts flat_map snd]. fold (lines_of B).
  rewrite (@occs_app unquote), posts_app, !filter_app, IH, (@ordinary_posts i h _ Hi). all: reflexivity || assumption.
Qed.
Lemma in_filter i (l : list posting) : In i (map po_id l) <-> filter (fun p => id_eqb (po_id p) i) l <> [].
Proof.
  split.
  - intros H E. apply in_map_iff in H. destruct H as (p & <- & Hp). assert (X : In p (filter (fun q => id_eqb (po_id q) (po_id p)) l)) by (apply filter_In; split; auto; apply eqb_refl). rewrite E in X. destruct X.
  - intros H. destruct (filter _ l) as [|p q] eqn:E; [congruence|]. assert (X : In p (filter (fun p => id_eqb (po_id p) i) l)) by (rewrite E; left; auto). apply filter_In in X. destruct X as [X1 X2]. apply eqb_eq in X2. subst i. apply in_map. auto.
Qed.

(** *** Theorems *)
(** every run whose new lines are within the limits succeeds, whatever headers it and
    the runs before it were given *)
Theorem C88_every_run_succeeds D F B hdrs b tail r F' : runs D F B -> news D B hdrs b tail -> run_command HJsonl hdrs D F = (r, F') -> zlen F' < 2^60 -> r = Ok tt.
Proof.
  intros H Hn E Hz. unfold Cmd.run_command in E. cbv zeta in E. injection E as E1 E2.
  assert (G : exists s1 s2, new_page_file (open_rws KMmap F) = (Ok tt, s1) /\ new_index_file 0 s1 = (Ok file_slot, s2) /\ holds_runs D B s2).
  { destruct (runs_inv H) as [(-> & -> & HzD)|(s & <- & Hs)].
    - destruct (@holds_create (ix_codec determine_type parse D) KMmap 0) as (s1 & s2 & fl & ms & x0 & C1 & C2 & _); [intros ft; apply ix_codec_ok; [apply (wd_ok grams)|exact HzD]|lia|].
      exists s1, s2. split; auto. split; auto. exists []. split; [|split; [reflexivity|intros c e []]].
      change D with ([] ++ D). apply if_more; [|exact HzD]. exact (@if_new determine_type parse KMmap 0 s1 file_slot s2 ltac:(lia) C1 C2).
    - destruct (@runs_open D B s HJsonl Hs) as (s1 & s2 & C1 & _ & C2 & C3). exists s1, s2. auto. }
  destruct G as (s1 & s2 & G1 & G2 & G3). unfold command in E1, E2.
  rewrite (@bind_ok _ _ _ _ _ _ _ _ G1) in E1, E2. cbn [format_of] in E1, E2. rewrite (@bind_ok _ _ _ _ _ _ _ _ G2) in E1, E2. cbn [synchronize] in E1, E2.
  destruct (@runs_sync D B hdrs b tail s2 Hn G3) as (s3 & Es & Hs3); [rewrite E2; exact Hz|]. rewrite Es in E1. auto.
Qed.
(** What the index file says after at least one run: it opens, its metadata count all lines;
    the ordinary indexes are those of the lines, whatever the headers were; an index of
    n-grams holds what the lines of each run contribute with the headers of that run. *)
Theorem C88_contents D F B : runs D F B -> B <> [] -> zlen F < 2^60 -> exists s, opened F s /\
  reads s (if_metadata file_slot) (FM 1 0 (zlen (lines_text (lines_of B))) (zlen (lines_of B))) /\
  (forall i, ~ gram_type (snd i) -> In i (ids unquote to_float grams [] (occs 0 (lines_of B))) ->
     index_shows D s i (total_of unquote to_float grams [] (occs 0 (lines_of B)) i) (entries_of unquote to_float grams [] (occs 0 (lines_of B)) i)) /\
  (forall i, ~ gram_type (snd i) -> legal_id i -> exists_index s i -> In i (ids unquote to_float grams [] (occs 0 (lines_of B)))) /\
  (forall i, gram_type (snd i) -> posted_by 0 B i -> index_shows D s i (total_by 0 B i) (entries_by 0 B i)) /\
  (forall i, gram_type (snd i) -> legal_id i -> exists_index s i -> posted_by 0 B i).
Proof.
  intros H HB HF. destruct (runs_inv H) as [(-> & _)|(s & <- & Hs)]; [congruence|].
  destruct (@runs_open D B s HJsonl Hs) as (s1 & s2 & C1 & Ef & C2 & C3). specialize (C3 eq_refl). exists s2. split; [exists s1, file_slot; auto|].
  split; [destruct C3 as (l & Hi & _); exact (C22_metadata (wd_ok grams) Hi)|].
  split; [intros i Hg Hi|split; [intros i Hg Hl He|split; [intros i Hg Hi|intros i Hg Hl He]]].
  - pose proof (@ordinary_bposts i Hg B 0) as Ef2. assert (Hin : In i (map po_id (bposts 0 B))) by (apply in_filter; rewrite Ef2; apply in_filter; apply in_firsts; exact Hi).
    pose proof (@runs_shows D B s2 i C3 Hin) as X. unfold ptotal, pentries in X. rewrite Ef2 in X. exact X.
  - pose proof (@ordinary_bposts i Hg B 0) as Ef2. unfold ids. apply in_firsts. apply in_filter. rewrite <- Ef2. apply in_filter. apply (@runs_only D B s2 i C3); auto. rewrite Ef. exact HF.
  - pose proof (@runs_shows D B s2 i C3 (proj2 (@by_posted i B 0) Hi)) as X. rewrite by_total, by_entries in X. exact X.
  - apply by_posted. apply (@runs_only D B s2 i C3); auto. rewrite Ef. exact HF.
Qed.
(** Without a new complete line, a run with any headers succeeds and changes no byte. *)
Theorem C88_nothing_new D F B hdrs rest : runs D F B -> B <> [] -> D = lines_text (lines_of B) ++ rest -> ~ In 10 rest -> run_command HJsonl hdrs D F = (Ok tt, F).
Proof.
  intros H HB HD Hn. destruct (runs_inv H) as [(-> & _)|(s & <- & Hs)]; [congruence|].
  destruct (@runs_open D B s HJsonl Hs) as (s1 & s2 & C1 & Ef & C2 & C3). destruct (C3 eq_refl) as (l & Hi & _).
  destruct (@sync_nothing unquote to_float grams hdrs float_8 D _ l s2 (lines_text (lines_of B)) rest Hi HD eq_refl Hn) as (p & E).
  unfold Cmd.run_command, command. rewrite (@bind_ok _ _ _ _ _ _ _ _ C1). cbn [format_of] in *. rewrite (@bind_ok _ _ _ _ _ _ _ _ C2). cbn [synchronize]. rewrite E. cbn [fst snd]. f_equal. exact Ef.
Qed.
(** The command with -csv refuses the index file and leaves it as it is. *)
Theorem C88_wrong_handler D F B hdrs : runs D F B -> B <> [] -> run_command HCsv hdrs D F = (Err (EMsg "unsupported format"), F).
Proof.
  intros H HB. destruct (runs_inv H) as [(-> & _)|(s & <- & Hs)]; [congruence|].
  destruct (@runs_open D B s HCsv Hs) as (s1 & s2 & C1 & Ef & C2 & _).
  unfold Cmd.run_command, command. rewrite (@bind_ok _ _ _ _ _ _ _ _ C1). unfold bind. rewrite C2. cbn [fst snd]. f_equal. exact Ef.
Qed.
(** Naming a field in -s makes only lines added from then on searchable: after a run with
    the new headers there is no index of n-grams of a field that no earlier run named, and
    that is not a string field of a new line. *)
Lemma posts_grams h l n ft : gram_type ft -> In (n, ft) (map po_id (posts unquote to_float grams h l)) -> searched h n = true /\ exists o, In o l /\ fd_name (fst o) = n.
Proof.
  intros Hg Hin. apply in_map_iff in Hin. destruct Hin as (p & E & Hp). unfold posts in Hp. apply in_flat_map in Hp. destruct Hp as (o & Ho & Hp). unfold postings in Hp.
  destruct Hp as [<-|Hp]; [cbn [po_id] in E; unfold occ_id in E; injection E as _ E; rewrite <- E in Hg; destruct (@type_plain _ Hg)|].
  destruct (fd_value (fst o)); try destruct Hp. destruct (searched h (fd_name (fst o))) eqn:Es; [|destruct Hp].
  assert (En : fd_name (fst o) = n) by (unfold gram_postings, gram_posting in Hp; repeat destruct Hp as [<-|Hp]; try (cbn [po_id] in E; injection E; auto); destruct Hp).
  rewrite <- En. split; auto. exists o. auto.
Qed.
Theorem C88_later_headers_refuted D F B hdrs b tail r F' n ft : runs D F B -> B <> [] -> news D B hdrs b tail -> run_command HJsonl hdrs D F = (r, F') -> zlen F' < 2^60 ->
  (forall h b', In (h, b') B -> ~ In n h) -> ~ In n (map (fun o : occ => fd_name (fst o)) (occs (zlen (lines_text (lines_of B))) b)) ->
  gram_type ft -> legal_id (n, ft) ->
  r = Ok tt /\ exists s, opened F' s /\ ~ exists_index s (n, ft).
Proof.
  intros H HB Hn E Hz Hno Hnew Hg Hl. split; [exact (C88_every_run_succeeds H Hn E Hz)|]. pose proof (ru_jsonl H Hn E Hz) as H'.
  destruct (C88_contents H') as (s & Ho & _ & _ & _ & _ & G); [destruct B; discriminate|exact Hz|]. exists s. split; auto. intros He. pose proof (G (n, ft) Hg Hl He) as Hp.
  apply by_posted in Hp. rewrite bposts_app, map_app, in_app_iff in Hp. destruct Hp as [Hp|Hp].
  - clear H HB Hn Hnew E H' Ho G He. revert Hp. generalize 0. induction B as [|[h b'] B IH]; intros at_; [intros []|]. cbn [bposts]. rewrite map_app, in_app_iff. intros [Hp|Hp].
    + destruct (@posts_grams h _ n ft Hg Hp) as [Hs _]. apply (Hno h b'); [left; auto|]. unfold searched in Hs. apply existsb_exists in Hs. destruct Hs as (x & Hx & Ex). destruct (list_eq_dec Z.eq_dec n x); [subst; auto|discriminate].
    + revert Hp. apply IH. intros h' b'' Hin. apply (Hno h' b''). right. auto.
  - cbn [bposts Z.add] in Hp. rewrite app_nil_r in Hp. destruct (@posts_grams hdrs _ n ft Hg Hp) as [_ (o & Ho' & En)]. apply Hnew. apply in_map_iff. exists o. auto.
Qed.
End P.
