(** C83, what does hold: a Synchronize of a JSONL data file that is cut short by the
    death of the process, at any of its writes. *)
From Coq Require Import Permutation.
From Verif Require Import Base Varint Store PageFile PageHist RefValue Node LinkedPage BPTree BPRepr BPIter BPInsert BPLoop BPTop PTree Meta Slots SlotAdd PSlots Cells IndexFile IFileInv PIndex Json Jsonl Grows JsonlRun JsonDoc JsonlDoc JsonlSpec JsonlHist PJsonl Crash PCrash SyncCrash JsonlBlock PSyncCrash Death JsonlDeath.

(** ** The file that is left, read *)
Lemma wc_pos s fl ms X p : wc s fl ms X -> wc (set_pos s p) fl ms X.
Proof. intros H. eapply wc_same; [exact H|apply pf_inv_pos, (proj1 H)|apply (proj1 (proj2 H))|reflexivity]. Qed.
Lemma wc_open s fl ms X k : wc s fl ms X -> exists s1 p, new_page_file (open_rws k (file s)) = (Ok tt, s1) /\ file s1 = file s /\
  new_multi s1 = (Ok (head_of ms), set_pos s1 p) /\ wc (set_pos s1 p) fl ms X.
Proof.
  intros H. pose proof H as (H1 & H2 & H3 & H4 & H5 & H6). destruct (@new_page_file_reopen s fl k H1) as (s' & E & F1 & F2 & F3 & F4 & F5 & F6).
  assert (H' : wc s' fl ms X) by (eapply wc_same; eauto). destruct (@new_multi_reopen s' ms _ (proj1 (proj2 (proj2 H'))) H4) as (p & E2).
  exists s', p. split; auto. split; auto. split; auto. apply wc_pos, H'.
Qed.
Lemma wc_slot0 s fl ms X : wc s fl ms X -> slot ms 0 = file_slot.
Proof. intros H. unfold slot, file_slot. change (0 / 15)%nat with 0%nat. rewrite (proj1 (proj2 (proj2 (proj2 H)))). reflexivity. Qed.
Lemma wc_metadata s fl ms X k x : wc s fl ms X -> nth_error X k = Some x -> exists p, lp_metadata (slot ms k) s = (Ok (c_meta x), set_pos s p).
Proof.
  intros (_ & _ & _ & _ & _ & H) Hx. destruct (H _ _ Hx) as (M1 & M2 & (S1 & S2 & S3 & S4 & _)). apply lp_metadata_ok; auto. lia.
Qed.
Lemma wc_file_meta s fl ms x0 L fm : wc s fl ms (x0 :: L) -> file_meta_unmarshal (c_meta x0) = Ok fm -> reads s (if_metadata file_slot) fm.
Proof.
  intros H E. destruct (@wc_metadata s fl ms _ 0%nat x0 H eq_refl) as (p & Em). rewrite (wc_slot0 H) in Em. exists (set_pos s p). split; [|reflexivity].
  unfold if_metadata. rewrite (@bind_ok _ _ _ _ _ _ _ _ Em). unfold lift. rewrite E. reflexivity.
Qed.
Lemma wc_open_index s fl ms x0 L fm k : wc s fl ms (x0 :: L) -> file_meta_unmarshal (c_meta x0) = Ok fm -> fm_version fm = currentVersion ->
  exists s1 s2, new_page_file (open_rws k (file s)) = (Ok tt, s1) /\ new_index_file (fm_format fm) s1 = (Ok file_slot, s2) /\ file s2 = file s /\ wc s2 fl ms (x0 :: L).
Proof.
  intros H Efm Ev. destruct (wc_open k H) as (s1 & p & E1 & F1 & E2 & H1). exists s1. pose proof (wc_slot0 H1) as E0.
  destruct (@lp_next_head (set_pos s1 p) ms _ (proj1 (proj2 (proj2 H1)))) as (q & E3). cbn [length Nat.ltb Nat.leb] in E3.
  destruct (@wc_metadata _ _ _ _ 0%nat x0 (wc_pos q H1) eq_refl) as (r & E4).
  exists (set_pos (set_pos (set_pos s1 p) q) r). split; auto. split; [|split; [exact F1|do 2 apply wc_pos; exact H1]].
  unfold new_index_file. rewrite (@bind_ok _ _ _ _ _ _ _ _ E2). rewrite E3. rewrite (@bind_ok _ _ _ _ _ _ _ _ E4).
  rewrite (@bind_ok _ _ _ (lift (file_meta_unmarshal (c_meta x0))) _ _ fm (set_pos (set_pos (set_pos s1 p) q) r)) by (unfold lift; rewrite Efm; reflexivity).
  rewrite Ev, (Z.eqb_refl (fm_format fm)), E0. reflexivity.
Qed.
(** a search that finds nothing changes the file *)
Lemma chain_next f ms n ms' o : mchain f ms n -> mchain f ms' (S n) -> ms' = ms \/ ms' = ms ++ [o] -> False.
Proof.
  intros H H' E. assert (Hl : (length ms - 1 < length ms)%nat) by (pose proof (mc_len H); lia). pose proof (mc_hdr H Hl) as Hh.
  destruct E as [-> | ->].
  - pose proof (mc_hdr H' Hl) as Hh'. rewrite Hh in Hh'. apply app_inj_tail in Hh'. destruct Hh' as [_ Hh']. unfold count_of in Hh'. destruct (Nat.ltb_spec (S (length ms - 1)) (length ms)); lia.
  - assert (Hl' : (length ms - 1 < length (ms ++ [o]))%nat) by (rewrite app_length; lia). pose proof (mc_hdr H' Hl') as Hh'. rewrite app_nth1 in Hh' by exact Hl. rewrite Hh in Hh'.
    apply app_inj_tail in Hh'. destruct Hh' as [Hh' _].
    assert (En : next_of ms (length ms - 1) = 2^64 - 1). { unfold next_of. replace (nth_error ms (S (length ms - 1))) with (@None Z); [reflexivity|]. symmetry. apply nth_error_None. lia. }
    assert (En' : next_of (ms ++ [o]) (length ms - 1) = o). { unfold next_of. rewrite nth_error_app2 by lia. replace (S (length ms - 1) - length ms)%nat with 0%nat by lia. reflexivity. }
    assert (Ho : 0 <= o < 2^62). { pose proof (mc_ok H') as Hf. rewrite Forall_forall in Hf. destruct (Hf o) as [(P1 & _) P2]; [apply in_or_app; right; left; reflexivity|]. unfold pageSize in P1. lia. }
    rewrite En, En' in Hh'. apply (f_equal unle) in Hh'. rewrite !unle_le in Hh' by lia. lia.
Qed.
Section G.
Variables (wd : Z -> Z) (parse : bytes -> option bytes) (D : bytes).
Notation left_cell := (left_cell wd parse D).
Lemma wc_find E name ft : forall d k fuel s fl ms x0 L m im s', wc s fl ms (x0 :: L) -> (k + d = length L)%nat -> zlen (file s) < 2^60 -> Forall (left_cell E) L ->
  find_or_create_from fuel (slot ms k) name ft s = (Ok (m, im), s') -> file s' = file s ->
  exists j x, nth_error (x0 :: L) (S j) = Some x /\ m = slot ms (S j) /\ index_meta_unmarshal (c_meta x) = Ok im /\ im_name im = name /\ im_type im = ft.
Proof.
  induction d as [|d IH]; intros k fuel s fl ms x0 L m im s' H Hk Hz HL Ef Es; (destruct fuel as [|fuel]; [discriminate|]); cbn [find_or_create_from] in Ef.
  - exfalso. destruct (@lp_next_ok s ms (length (x0 :: L)) k (proj1 (proj2 (proj2 H))) ltac:(cbn [length]; lia)) as (p & En). rewrite En in Ef.
    replace (Nat.ltb (S k) (length (x0 :: L))) with false in Ef by (symmetry; apply Nat.ltb_ge; cbn [length]; lia).
    pose proof (wc_pos p H) as (W1 & W2 & W3 & W4 & W5 & W6).
    destruct (@lp_add_next_ok (set_pos s p) fl ms (length (x0 :: L)) W1 W2 W3 W5 Hz) as (s2 & ms' & fl' & Ea & I2 & B2 & _ & C2 & Hms & _).
    replace (tail_of ms (length (x0 :: L))) with (slot ms k) in Ea by (cbn [length tail_of]; replace (length L) with k by lia; reflexivity). rewrite (@bind_ok _ _ _ _ _ _ _ _ Ea) in Ef. cbv zeta in Ef.
    destruct (index_meta_marshal _) as [buf|e| | |] eqn:Em; try discriminate Ef. change (lift (Ok buf)) with (@ret st bytes buf) in Ef. rewrite (@bind_ok _ _ _ (ret buf) _ s2 buf s2 eq_refl) in Ef.
    assert (Hs2 : slot_ok (file s2) (slot ms' (length (x0 :: L)))) by (eapply slot_okk; [exact C2|lia]).
    destruct (Z_le_gt_dec (zlen buf) 255) as [Hb|Hb].
    + destruct (@lp_set_metadata_ok s2 _ buf Hs2 B2 Hb) as (q & Ew). rewrite (@bind_ok _ _ _ _ _ _ _ _ Ew) in Ef. injection Ef as _ _ <-. cbn [file set_pos set_file] in Es.
      apply (@chain_next (file s) ms (length (x0 :: L)) ms' (np_off (set_pos s p) fl)); [exact W3| |destruct Hms as [[-> _]|[-> _]]; auto].
      rewrite <- Es. apply (proj1 (@mchain_slot_write (file s2) ms' (S (length (x0 :: L))) (length (x0 :: L)) (root_off (slot ms' (length (x0 :: L))) + 12) (zlen buf :: buf) C2 ltac:(lia) ltac:(lia) ltac:(rewrite zlen_cons; lia))).
    + assert (Hi : lp_idx (slot ms' (length (x0 :: L))) <> 255) by (unfold slot; cbn [lp_idx]; pose proof (Nat.mod_upper_bound (length (x0 :: L)) 15 ltac:(lia)); lia).
      unfold bind in Ef. rewrite (@lp_set_metadata_err s2 _ buf Hi ltac:(lia)) in Ef. discriminate Ef.
  - destruct (@lp_next_ok s ms (length (x0 :: L)) k (proj1 (proj2 (proj2 H))) ltac:(cbn [length]; lia)) as (p & En). rewrite En in Ef.
    replace (Nat.ltb (S k) (length (x0 :: L))) with true in Ef by (symmetry; apply Nat.ltb_lt; cbn [length]; lia).
    destruct (nth_error (x0 :: L) (S k)) as [x|] eqn:Ex; [|apply nth_error_None in Ex; cbn [length] in Ex; lia].
    destruct (@wc_metadata _ _ _ _ (S k) x (wc_pos p H) Ex) as (q & Em). rewrite (@bind_ok _ _ _ _ _ _ _ _ Em) in Ef.
    destruct (index_meta_unmarshal (c_meta x)) as [im0|e| | |] eqn:Eu; try discriminate Ef. change (lift (Ok im0)) with (@ret st index_meta im0) in Ef. rewrite (@bind_ok _ _ _ (ret im0) _ _ im0 _ eq_refl) in Ef.
    destruct (name_eqb (im_name im0) name && (im_type im0 =? ft)) eqn:Eb.
    + apply andb_prop in Eb. destruct Eb as [Eb1 Eb2]. injection Ef as <- <- _. exists k, x. split; auto. split; auto. split; auto. split; [apply name_eqb_spec, Eb1|lia].
    + apply (IH (S k) fuel (set_pos (set_pos s p) q) fl ms x0 L m im s'); auto; [do 2 apply wc_pos; exact H|lia].
Qed.
End G.

Section P.
Variables (unquote : bytes -> bytes) (to_float : bytes -> option bytes) (grams : bytes -> Z -> res (list (bytes * Z * Z))) (hdrs : list bytes).
Hypothesis float_8 : forall t f, to_float t = Some f -> zlen f = 8.
Notation sync := (jsonl_sync unquote to_float grams hdrs file_slot).
Notation occs := (occs unquote).
Notation life := (life unquote to_float grams hdrs).
Notation fits := (fits unquote to_float grams hdrs).
Notation sync_dies := (sync_dies unquote to_float grams hdrs).
Notation index_shows := (index_shows unquote to_float).
Notation entries_of := (entries_of unquote to_float grams hdrs).
Notation jparse := (jparse unquote to_float).
Notation expected := (expected unquote to_float grams hdrs).
Notation dead := (dead determine_type jparse).
Lemma dies_dead D s ls tail off n w f : life D s -> fits D ls tail -> zlen (file (snd (sync D s))) < 2^60 ->
  reads s (if_metadata file_slot) (FM 1 0 off n) -> sync_dies D s w f -> dead D (FM 1 0 off n) (expected (occs 0 ls)) f.
Proof.
  intros Hl Hfit Hf Hmeta (sc & Ec & Efc). assert (Hfit' : fits (D ++ []) ls tail) by (rewrite app_nil_r; auto).
  destruct (@life_state unquote to_float grams hdrs float_8 D s Hl ls tail [] Hfit') as (a & b & u & -> & Hu & Hs).
  destruct (state_meta Hs) as (sm & Em & _). destruct Hmeta as (sm' & Em' & _). rewrite Em in Em'. injection Em' as <- <- _.
  destruct Hs as (l & Hi & Hst & Hbe). pose proof Hfit as (HD & Ht & Hls & Hoc). destruct (ifile_holds (wd_ok grams) Hi) as (HDz & _).
  rewrite (@occs_app unquote grams) in Hoc. apply Forall_app in Hoc. destruct Hoc as [Ho1 Ho2]. cbn [Z.add] in Ho2. apply Forall_app in Hls. destruct Hls as [Hl1 Hl2].
  assert (HDe : D = lines_text a ++ lines_text b ++ tail) by (rewrite HD; unfold data_of; rewrite (@lines_app); rewrite <- app_assoc; reflexivity).
  destruct (@lacts_ok unquote to_float grams hdrs float_8 D HDz b (zlen (lines_text a)) (lines_text a) tail HDe eq_refl Hl2 Ho2) as (R1 & R2 & R3).
  pose proof (more_text a) as Hm. pose proof (zlen_nonneg tail). pose proof (zlen_nonneg (lines_text b)). assert (HDl : zlen D = zlen (lines_text a) + zlen (lines_text b) + zlen tail) by (rewrite HDe, !zlen_app; lia).
  destruct (@fresh_ok unquote to_float D _ _ _ _ R1 R2 Hbe) as [OK BE].
  pose proof (@sync_dead unquote to_float grams hdrs D _ l s Hi) as SD. cbv zeta in SD.
  rewrite (@loop_lines unquote to_float grams hdrs float_8 D currentVersion 0 HDz b (zlen (lines_text a)) (lines_text a) tail (zlen a) (S (length D)) HDe eq_refl Ht Hl2 Ho2) in SD; [|rewrite HDe, !app_length; lia|apply zlen_nonneg|lia].
  cbn [fst snd] in SD.
  assert (Eex : run (lacts unquote to_float grams hdrs (zlen (lines_text a)) b) (map strip l) = expected (occs 0 (a ++ b))).
  { rewrite Hst, R3 by apply canon_expected. rewrite (@expected_app unquote to_float grams hdrs). rewrite <- (Z.add_0_l (zlen (lines_text a))), <- (@occs_app unquote grams). reflexivity. }
  rewrite Eex in SD. specialize (SD OK (or_introl Hf) ltac:(discriminate)). specialize (SD w). rewrite Ec in SD. rewrite <- Efc. apply SD. reflexivity.
Unshelve. all: first [exact grams|exact hdrs|exact to_float|exact unquote].
Qed.

(** For every life of an index file, every data file within the limits and every
    moment at which the process may die during Synchronize: the file that is left can
    be opened, and says that as many lines are indexed as before Synchronize. *)
Theorem C83_crash_keeps_the_position_partial D s ls tail off n w f : life D s -> fits D ls tail -> zlen (file (snd (sync D s))) < 2^60 ->
  reads s (if_metadata file_slot) (FM 1 0 off n) -> sync_dies D s w f ->
  forall k, exists s1 h s2, new_page_file (open_rws k f) = (Ok tt, s1) /\ new_index_file 0 s1 = (Ok h, s2) /\ file s2 = f /\
    reads s2 (if_metadata file_slot) (FM 1 0 off n).
Proof.
  intros Hl Hfit Hf Hm Hd k. destruct (@dies_dead D s ls tail off n w f Hl Hfit Hf Hm Hd) as (s0 & ms & x0 & L & <- & W & Efm & HL).
  destruct (@wc_open_index s0 [] ms x0 L _ k W Efm eq_refl) as (s1 & s2 & E1 & E2 & E3 & W2). exists s1, file_slot, s2. split; auto. split; auto. split; auto. eapply wc_file_meta; eauto.
Qed.
(** ... and every index that is found in it lists, in ascending order, only entries that
    the lines of the data file give to it. *)
Theorem C83_crash_adds_nothing_wrong_partial D s ls tail off n w f k s1 h s2 i : life D s -> fits D ls tail -> zlen (file (snd (sync D s))) < 2^60 ->
  reads s (if_metadata file_slot) (FM 1 0 off n) -> sync_dies D s w f -> zlen f < 2^60 ->
  new_page_file (open_rws k f) = (Ok tt, s1) -> new_index_file 0 s1 = (Ok h, s2) -> exists_index s2 i ->
  exists total es, index_shows D s2 i total es /\ incl es (entries_of (occs 0 ls) i).
Proof.
  intros Hl Hfit Hf Hm Hd Hz E1 E2 ([m im] & s3 & Ef & Es). destruct (@dies_dead D s ls tail off n w f Hl Hfit Hf Hm Hd) as (s0 & ms & x0 & L & <- & W & Efm & HL).
  destruct (@wc_open_index s0 [] ms x0 L _ k W Efm eq_refl) as (s1' & s2' & E1' & E2' & E3 & W2). rewrite E1 in E1'. injection E1' as <-. cbn [fm_format] in E2'. rewrite E2 in E2'. injection E2' as -> <-.
  pose proof Ef as Ef'. unfold find_or_create in Ef'. rewrite <- (wc_slot0 W2) in Ef'.
  destruct (@wc_find determine_type jparse D (expected (occs 0 ls)) (fst i) (snd i) (length L) 0 (fuel_of s2) s2 [] ms x0 L m im s3 W2 eq_refl ltac:(rewrite E3; exact Hz) HL Ef' Es) as (j & x & Hx & -> & Eu & N1 & N2).
  assert (Hin : In x L) by (eapply nth_error_In; exact Hx). rewrite Forall_forall in HL. destruct (HL _ Hin) as [(X & _)|(c & Hc & (t & Et1 & Et2 & Et3) & Ecod & Hinc)]; [rewrite X in Eu; discriminate Eu|].
  assert (Et := index_unmarshal_exact Et2 Et3 Et1).
  rewrite Eu in Et. injection Et as ->. cbn [im_name im_type] in N1, N2. destruct (proj2 (proj2 (proj2 (proj2 (proj2 W2)))) _ _ Hx) as (_ & _ & Hsys). rewrite Ecod in Hsys.
  rewrite N1, N2 in *.
  exists t, (c_es x). split.
  - exists (slot ms (S j)). split; [exists s3; split; auto|]. exists (c_es x). split; [apply Permutation_refl|]. split; [eapply sys_ascending; eauto|].
    intros n0. pose proof (least_all Hsys) as Hle. etransitivity; [exact (@sys_walk _ s2 _ [] _ (c_pgs x) least n0 Hsys (or_intror Hle))|]. destruct (@below_none least (c_es x) Hle) as [_ ->]. reflexivity.
  - intros e He. apply Hinc in He. unfold JsonlHist.expected in Hc. apply in_map_iff in Hc. destruct Hc as (i' & <- & _). cbn [ci_name ci_type ci_es] in *. rewrite <- in_rev in He. rewrite (surjective_pairing i), <- N1, <- N2, <- surjective_pairing. exact He.
Qed.
End P.
