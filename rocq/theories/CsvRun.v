(** What the CSV handler does to the index file. *)
From Coq Require Import Permutation.
From Verif Require Import Base Varint Store PageFile PageHist RefValue Node LinkedPage BPTree BPRepr BPIter BPInsert BPLoop BPTop PTree Meta Slots SlotAdd PSlots Cells IndexFile IFileInv PIndex Json Jsonl Grows JsonlRun JsonlSpec JsonlHist Csv CsvSpec.

(** ** Finding an index and inserting into it, for any widths and parser *)
Section Generic.
Variables (wd : Z -> Z) (parse : bytes -> option bytes).
Hypothesis Hwd : widths_ok wd.
Notation ifile := (ifile wd parse).
Definition facts2 (o : cocc) : list act := [AFind (fst (fst o)) (snd (fst o)); APut (fst (fst o)) (snd (fst o)) (fst (snd o)) (snd (snd o))].
Lemma gen_find D fm l s name ft : ifile D fm l s -> zlen (file s) < 2^60 -> zlen name <= 245 -> 0 <= ft < 2^8 ->
  exists m im l' s', find_or_create file_slot name ft s = (Ok (m, im), s') /\ ifile D fm l' s' /\ (exists ix, In ix l' /\ ix_at ix = m /\ ix_name ix = name /\ ix_type ix = ft) /\
    map strip l' = step (AFind name ft) (map strip l).
Proof.
  intros Hi Hf Hn Hft. destruct (ifile_holds Hwd Hi) as (HD & fl & ms & x0 & L & H).
  cbn [step]. rewrite existsb_strip. destruct (existsb (same_indexb name ft) l) eqn:E.
  - destruct (find_existing _ _ H E) as (p & ix & I1 & (I2 & I3) & I4). exists (ix_at ix), (ix_meta ix), l, (set_pos s p).
    split; [exact I4|]. split; [|split; [exists ix; auto|auto]].
    pose proof (@if_index _ _ D fm l s name ft _ _ _ Hi Hf ltac:(lia) Hft I4) as X. rewrite E in X. exact X.
  - destruct (@find_new (ix_codec wd parse D) s fm l fl ms x0 L name ft) as (s2 & fl' & ms' & L' & F1 & F2 & F3 & F4 & _); auto; [intros; apply ix_codec_ok; auto|].
    eexists _, _, _, s2. split; [exact F1|]. pose proof (@if_index _ _ D fm l s name ft _ _ _ Hi Hf ltac:(lia) Hft F1) as X. rewrite E in X. split; [exact X|].
    split; [eexists; split; [apply in_or_app; right; left; reflexivity|auto]|]. rewrite map_app. reflexivity.
Qed.
Lemma gen_strip_at D fm l s ix0 g gc : ifile D fm l s -> In ix0 l ->
  (forall ix, strip (g ix) = gc (strip ix)) ->
  map strip (at_index (ix_at ix0) g l) = map (fun c => if ci_is (ix_name ix0) (ix_type ix0) c then gc c else c) (map strip l).
Proof.
  intros Hi Hin Hg. destruct (C23_unique Hwd Hi) as [N1 N2]. unfold at_index. rewrite !map_map. apply map_ext_in. intros ix Hx.
  assert (E : lp_eqb (ix_at ix) (ix_at ix0) = ci_is (ix_name ix0) (ix_type ix0) (strip ix)).
  { destruct (ci_is _ _ _) eqn:E.
    - apply same_indexb_spec in E. destruct E as [E1 E2]. apply In_nth_error in Hx. destruct Hx as (i & Hx). apply In_nth_error in Hin. destruct Hin as (j & Hj).
      assert (i = j).
      { apply (proj1 (NoDup_nth_error _) N1); [rewrite map_length; apply nth_error_Some; congruence|]. rewrite !nth_error_map, Hx, Hj. cbn [option_map]. congruence. }
      subst j. assert (ix = ix0) by congruence. subst. apply lp_eqb_refl.
    - apply lp_eqb_neq. intros X. assert (Y : ci_is (ix_name ix0) (ix_type ix0) (strip ix) = true); [|congruence].
      apply In_nth_error in Hx. destruct Hx as (i & Hx). apply In_nth_error in Hin. destruct Hin as (j & Hj).
      assert (i = j).
      { apply (proj1 (NoDup_nth_error _) N2); [rewrite map_length; apply nth_error_Some; congruence|]. rewrite !nth_error_map, Hx, Hj. cbn [option_map]. congruence. }
      subst j. assert (ix = ix0) by congruence. subst. apply same_indexb_spec. split; auto. }
  rewrite E. destruct (ci_is _ _ _); auto.
Qed.
Lemma gen_put D fm l s ix k v : ifile D fm l s -> zlen (file s) < 2^60 -> In ix l -> op_ok (ix_codec wd parse D (ix_type ix)) (k, v) ->
  (wd (ix_type ix) = 0 \/ zlen (rv_val k) = wd (ix_type ix) - 1) -> (forall c, In c (map strip l) -> ci_is (ix_name ix) (ix_type ix) c = true -> ~ In k (map fst (ci_es c))) ->
  exists l' s', bp_insert (ix_codec wd parse D (ix_type ix)) (ix_at ix) k v s = (Ok tt, s') /\ ifile D fm l' s' /\ map strip l' = step (APut (ix_name ix) (ix_type ix) k v) (map strip l).
Proof.
  intros Hi Hf Hin Hop Hw Hnew. destruct (ifile_holds Hwd Hi) as (HD & fl & ms & x0 & L & H).
  pose proof Hin as Hin2. apply In_nth_error in Hin2. destruct Hin2 as (i & Hk). destruct (op_key_ok Hop Hw) as [Hkk Hv].
  destruct (@holds_put _ s fm l fl ms x0 L i ix k v H Hk) as (s' & fl' & L' & F1 & F2 & F3 & F4 & _); auto.
  { apply ix_codec_kw, Hwd. }
  { apply (Hnew (strip ix)); [apply in_map_iff; eauto|]. apply same_indexb_spec. split; auto. }
  eexists (at_index (ix_at ix) (with_put k v) l), s'. split; [exact F1|]. split; [eapply if_put; eauto|].
  cbn [step]. apply (@gen_strip_at D fm l s ix (with_put k v) (fun c => CI (ci_name c) (ci_type c) (ci_total c) ((k, v) :: ci_es c))); auto.
Qed.
Lemma gen_names D fm l s : ifile D fm l s -> exists p, if_field_names file_slot s = (Ok (first_appearances (map ix_name l)), set_pos s p).
Proof.
  intros Hi. destruct (ifile_holds Hwd Hi) as (HD & fl & ms & x0 & L & H).
  destruct (@names_from _ (length l) 0%nat (fuel_of s) s [] fm l fl ms x0 L H eq_refl (holds_fuel H)) as (p & E).
  exists p. unfold if_field_names. rewrite <- (holds_slot0 H), E. cbn [skipn]. rewrite names_spec. cbn [app].
  f_equal. f_equal. erewrite filter_ext; [|intros; cbn [existsb negb]; reflexivity]. clear. induction (first_appearances (map ix_name l)) as [|a q IH]; cbn; congruence.
Qed.
Lemma gen_metadata D fm l s : ifile D fm l s -> exists p, if_metadata file_slot s = (Ok fm, set_pos s p) /\ file_meta_ok fm /\ fm_format fm <= 1.
Proof.
  intros Hi. destruct (ifile_holds Hwd Hi) as (_ & fl & ms & x0 & L & H). destruct (holds_file_metadata H) as (b & p & E1 & E2). exists p. split; [|apply (ho_fm H)].
  unfold if_metadata. rewrite <- (holds_slot0 H), (@bind_ok _ _ _ _ _ _ _ _ E1). unfold lift. rewrite E2. reflexivity.
Qed.
End Generic.

(** ** Contents *)
Lemma firsts_in0 (l : list (bytes * Z)) x : In x (firsts l) <-> In x l.
Proof. apply (@firsts_in (fun b => b) (fun _ => None) (fun _ _ => Panic)). Qed.
Definition cexpected (l : list cocc) : list ci := map (fun i => CI (fst i) (snd i) 0 (rev (centries l i))) (firsts (map fst l)).
Definition cex (l : list cocc) (i : bytes * Z) : ci := CI (fst i) (snd i) 0 (rev (centries l i)).
Lemma same_id a b : same_idb a b = id_eqb a b. Proof. reflexivity. Qed.
Lemma cex_is l (o : cocc) i : ci_is (fst (fst o)) (snd (fst o)) (cex l i) = id_eqb (fst o) i.
Proof. rewrite ci_is_id. cbn [cex ci_name ci_type]. rewrite id_eqb_sym. destruct i, (fst o); reflexivity. Qed.
Lemma centries_snoc (l : list cocc) o i : centries (l ++ [o]) i = centries l i ++ if id_eqb (fst o) i then [snd o] else [].
Proof. unfold centries. rewrite filter_app, map_app. cbn [filter]. rewrite same_id. destruct (id_eqb (fst o) i); reflexivity. Qed.
Lemma cex_fresh (l : list cocc) i : ~ In i (map fst l) -> cex l i = CI (fst i) (snd i) 0 [].
Proof.
  intros H. assert (E : filter (fun o : cocc => same_idb (fst o) i) l = []).
  { induction l as [|a l IH]; cbn [filter]; auto. cbn [map In] in H. rewrite same_id. destruct (id_eqb (fst a) i) eqn:E; [apply id_eqb_spec in E; tauto|]. apply IH. tauto. }
  unfold cex, centries. rewrite E. reflexivity.
Qed.
Lemma cexpected_snoc (l : list cocc) o : run (facts2 o) (cexpected l) = cexpected (l ++ [o]).
Proof.
  unfold facts2, cexpected. fold (cex l) (cex (l ++ [o])). rewrite map_app. cbn [map]. rewrite firsts_snoc. cbn [run step].
  change (fun i : bytes * Z => CI (fst i) (snd i) 0 (rev (centries l i))) with (cex l). change (fun i : bytes * Z => CI (fst i) (snd i) 0 (rev (centries (l ++ [o]) i))) with (cex (l ++ [o])).
  assert (E0 : existsb (ci_is (fst (fst o)) (snd (fst o))) (map (cex l) (firsts (map fst l))) = existsb (id_eqb (fst o)) (firsts (map fst l))).
  { rewrite existsb_map. induction (firsts (map fst l)) as [|a q IH]; cbn [existsb]; auto. rewrite IH, cex_is. reflexivity. }
  rewrite E0.
  assert (E1 : forall q, map (fun c => if ci_is (fst (fst o)) (snd (fst o)) c then CI (ci_name c) (ci_type c) (ci_total c) ((fst (snd o), snd (snd o)) :: ci_es c) else c) (map (cex l) q) = map (cex (l ++ [o])) q).
  { intros q. rewrite map_map. apply map_ext. intros i. rewrite cex_is. unfold cex. rewrite centries_snoc. destruct (id_eqb (fst o) i); [|rewrite app_nil_r; reflexivity].
    cbn [ci_name ci_type ci_total ci_es]. rewrite rev_app_distr. destruct (snd o). reflexivity. }
  destruct (existsb (id_eqb (fst o)) (firsts (map fst l))) eqn:F; [apply E1|].
  rewrite <- (@cex_fresh l (fst o)).
  - change ([cex l (fst o)]) with (map (cex l) [fst o]). rewrite <- map_app. apply E1.
  - intros X. apply firsts_in0 in X. assert (Y : existsb (id_eqb (fst o)) (firsts (map fst l)) = true) by (apply existsb_exists; exists (fst o); split; auto; apply id_eqb_refl). congruence.
Qed.

Lemma pot_cexpected q : forall l, pot (cexpected l) <= pot (cexpected (l ++ q)).
Proof.
  induction q as [|o q IH]; intros l; [rewrite app_nil_r; lia|]. replace (l ++ o :: q) with ((l ++ [o]) ++ q) by (rewrite <- app_assoc; reflexivity).
  eapply Z.le_trans; [|apply IH]. rewrite <- cexpected_snoc. apply pot_run.
Qed.
Lemma csmall_before wd parse D fm l s n l0 q : widths_ok wd -> ifile wd parse D fm l s -> pot (map strip l) <= pot (cexpected (l0 ++ q)) -> zlen (file s) <= n -> small n (cexpected (l0 ++ q)) -> zlen (file s) < 2^60.
Proof. intros Hwd Hi Hp Hn [H|H]; [lia|]. eapply pot_small; eauto. lia. Qed.

Lemma index_byte_nl t r : ~ In 10 t -> index_byte 10 (t ++ 10 :: r) = Some (zlen t).
Proof.
  induction t as [|c t IH]; intros H; [reflexivity|]. cbn [app index_byte]. destruct (Z.eqb_spec c 10); [subst; exfalso; apply H; left; auto|]. rewrite IH by (intros X; apply H; right; auto). rewrite zlen_cons. cbn [option_map]. f_equal. lia.
Qed.
(** ** The reader on plain rows *)
Lemma scan_plain v : ~ In 44 v -> ~ In 34 v -> forall acc, csv_scan FPlain acc v = Ok [rev acc ++ v].
Proof.
  induction v as [|c v IH]; intros H1 H2 acc; cbn [csv_scan]; [rewrite app_nil_r; reflexivity|]. destruct (Z.eqb_spec c 34); [subst; exfalso; apply H2; left; auto|]. destruct (Z.eqb_spec c 44); [subst; exfalso; apply H1; left; auto|].
  rewrite IH by (intros X; solve [apply H1; right; auto|apply H2; right; auto]). cbn [rev]. rewrite <- app_assoc. reflexivity.
Qed.
Lemma scan_plain_comma v t : ~ In 44 v -> ~ In 34 v -> forall acc, csv_scan FPlain acc (v ++ 44 :: t) = rcons (rev acc ++ v) (csv_scan FStart [] t).
Proof.
  induction v as [|c v IH]; intros H1 H2 acc; cbn [app csv_scan]; [rewrite app_nil_r; reflexivity|]. destruct (Z.eqb_spec c 34); [subst; exfalso; apply H2; left; auto|]. destruct (Z.eqb_spec c 44); [subst; exfalso; apply H1; left; auto|].
  rewrite IH by (intros X; solve [apply H1; right; auto|apply H2; right; auto]). cbn [rev]. rewrite <- app_assoc. reflexivity.
Qed.
Lemma scan_cells cs : cs <> [] -> Forall cell_plain cs -> csv_scan FStart [] (commas cs) = Ok cs.
Proof.
  induction cs as [|v cs IH]; [congruence|]. intros _ H. inversion H as [|? ? (H1 & H2 & _) H']; subst.
  destruct cs as [|w cs].
  - cbn [commas]. destruct v as [|c v]; [reflexivity|]. cbn [csv_scan]. destruct (Z.eqb_spec c 34); [subst; exfalso; apply H2; left; auto|]. destruct (Z.eqb_spec c 44); [subst; exfalso; apply H1; left; auto|].
    rewrite scan_plain by (intros X; solve [apply H1; right; auto|apply H2; right; auto]). reflexivity.
  - change (commas (v :: w :: cs)) with (v ++ 44 :: commas (w :: cs)). specialize (IH ltac:(discriminate) H'). destruct v as [|c v].
    + cbn [app csv_scan]. change (44 =? 34) with false. change (44 =? 44) with true. cbv iota. rewrite IH. reflexivity.
    + cbn [app csv_scan]. destruct (Z.eqb_spec c 34); [subst; exfalso; apply H2; left; auto|]. destruct (Z.eqb_spec c 44); [subst; exfalso; apply H1; left; auto|].
      rewrite scan_plain_comma by (intros X; solve [apply H1; right; auto|apply H2; right; auto]). rewrite IH. reflexivity.
Qed.
Lemma read_row r : row_plain r -> csv_read (row_text r) = Ok (cells r).
Proof.
  intros (H1 & H2 & H3 & _). unfold csv_read. assert (E : drop_cr (row_text r) = commas (cells r)).
  { unfold drop_cr. unfold row_text in *. destruct (cr r).
    - rewrite last_last. cbn [Z.eqb]. change (13 =? 13) with true. cbv iota. apply removelast_last.
    - rewrite app_nil_r in *. specialize (H3 eq_refl). destruct (Z.eqb_spec (last (commas (cells r)) 0) 13); [contradiction|reflexivity]. }
  rewrite E. destruct (commas (cells r)) as [|c t] eqn:Ec; [congruence|]. rewrite <- Ec. apply scan_cells; auto. intros X. rewrite X in Ec. discriminate.
Qed.
Lemma commas_no10 cs : Forall cell_plain cs -> ~ In 10 (commas cs).
Proof.
  induction 1 as [|v cs (H1 & H2 & H3) H IH]; [intros []|]. cbn [commas]. destruct cs as [|w cs]; [auto|]. intros X. apply in_app_or in X. destruct X as [X|[X|X]]; [auto|discriminate|auto].
Qed.
Lemma row_no10 r : row_plain r -> ~ In 10 (row_text r).
Proof. intros (H1 & _) X. apply in_app_or in X. destruct X as [X|X]; [eapply commas_no10; eauto|]. destruct (cr r); [destruct X as [X|[]]; discriminate|contradiction]. Qed.

(** ** The handler *)
Section C.
Variable num : bytes -> option bytes.
Definition wd0 (ft : Z) : Z := 0.
Lemma wd0_ok : widths_ok wd0. Proof. intros ft. unfold wd0. lia. Qed.
Notation cpf := (fun v => Some (csv_parse num v)).
Notation ifile := (ifile wd0 cpf).
Lemma text_in_spec v l : text_in v l = existsb (name_eqb v) l.
Proof.
  unfold text_in. destruct (in_dec (list_eq_dec Z.eq_dec) v l) as [H|H]; symmetry.
  - apply existsb_exists. exists v. split; auto. apply name_eqb_spec. auto.
  - destruct (existsb (name_eqb v) l) eqn:E; auto. apply existsb_exists in E. destruct E as (w & Hw & E). apply name_eqb_spec in E. subst. contradiction.
Qed.
Lemma infer_spec v : infer num v = cell_type num v.
Proof.
  unfold infer, cell_type, parse_bool. rewrite !text_in_spec. destruct v as [|c v]; [reflexivity|]. destruct (num (c :: v)); [reflexivity|]. rewrite existsb_app. change yes with trues. change no with falses.
  change (existsb (name_eqb (c :: v)) [[]]) with (name_eqb (c :: v) [] || false). destruct (name_eqb (c :: v) []) eqn:E; [apply name_eqb_spec in E; discriminate|]. cbn [orb].
  destruct (existsb (name_eqb (c :: v)) trues); [reflexivity|]. destruct (existsb (name_eqb (c :: v)) falses); reflexivity.
Qed.
Lemma parse_spec v : csv_parse num v = cell_key num v.
Proof.
  unfold csv_parse, cell_key, parse_bool. rewrite !text_in_spec. destruct v as [|c v]; [reflexivity|]. destruct (num (c :: v)).
  - change (existsb (name_eqb (c :: v)) [[]]) with (name_eqb (c :: v) [] || false). destruct (name_eqb (c :: v) []) eqn:E; [apply name_eqb_spec in E; discriminate|]. reflexivity.
  - change yes with trues. change no with falses.
    change (existsb (name_eqb (c :: v)) [[]]) with (name_eqb (c :: v) [] || false). destruct (name_eqb (c :: v) []) eqn:E; [apply name_eqb_spec in E; discriminate|]. cbn [orb].
    destruct (existsb (name_eqb (c :: v)) trues); [reflexivity|]. destruct (existsb (name_eqb (c :: v)) falses); reflexivity.
Qed.
Lemma type_range0 v : 0 <= cell_type num v < 2^8.
Proof. unfold cell_type. destruct (text_in v [[]]); [vm_compute; intuition congruence|]. destruct (num v); [vm_compute; intuition congruence|]. destruct (text_in v (yes ++ no)); vm_compute; intuition congruence. Qed.
Lemma grows_csv_fields df data : forall rec hs cum, grows (csv_fields num file_slot df data hs rec cum).
Proof. induction rec as [|v rec IH]; intros [|h hs] cum; cbn [csv_fields]; gr. Qed.
Lemma grows_csv_loop df : forall fuel hs m, grows (csv_loop num fuel file_slot df hs m).
Proof. induction fuel as [|fuel IH]; intros hs m; cbn [csv_loop]; [gr|]. destruct hs; gr; apply grows_csv_fields. Qed.
Lemma below_snoc hi l o : below hi (cexpected l) -> hi <= koff (fst (snd o)) -> below (koff (fst (snd o)) + 1) (cexpected (l ++ [o])).
Proof.
  intros H Hk c e Hc He. unfold cexpected in Hc. apply in_map_iff in Hc. destruct Hc as (i & <- & Hi). cbn [ci_es] in He. rewrite <- in_rev, centries_snoc in He. apply in_app_or in He. destruct He as [He|He].
  - assert (Hin : In i (firsts (map fst l))).
    { apply firsts_in0. unfold centries in He. apply in_map_iff in He. destruct He as (o' & _ & Ho'). apply filter_In in Ho'. destruct Ho' as [Ho' E]. rewrite same_id in E. apply id_eqb_spec in E. subst i. apply in_map; auto. }
    assert (X : koff (fst e) < hi); [|lia]. apply (H (cex l i) e); [unfold cexpected; apply in_map_iff; exists i; auto|]. cbn [cex ci_es]. apply -> in_rev. exact He.
  - destruct (id_eqb (fst o) i); [destruct He as [<-|[]]; lia|contradiction].
Qed.
(** one row *)
Lemma fields_run D data fm : zlen D < 2^63 -> 0 <= mp_off data -> 0 <= mp_len data < 2^32 -> forall rec hs pre post cum l l0 s,
  D = pre ++ commas rec ++ post -> zlen pre = mp_off data + cum -> 0 <= cum -> cum + zlen (commas rec) < 2^32 -> (length rec <= length hs)%nat -> Forall (fun n => zlen n <= 245) hs ->
  ifile D fm l s -> map strip l = cexpected l0 -> below (mp_off data + cum) (cexpected l0) -> small (zlen (file (snd (csv_fields num file_slot D data hs rec cum s)))) (cexpected (l0 ++ cell_occs num data (mp_off data + cum) hs rec)) ->
  exists l' s', csv_fields num file_slot D data hs rec cum s = (Ok tt, s') /\ ifile D fm l' s' /\
    map strip l' = cexpected (l0 ++ cell_occs num data (mp_off data + cum) hs rec) /\ below (mp_off data + cum + zlen (commas rec) + 1) (cexpected (l0 ++ cell_occs num data (mp_off data + cum) hs rec)).
Proof.
  intros HD Hoff Hlen. induction rec as [|v rec IH]; intros hs pre post cum l l0 s HDe Hpre Hcum Hsm Hle Hhs Hi Hl Hb Hf.
  - exists l, s. cbn [csv_fields]. split; [reflexivity|]. split; auto. assert (X : cell_occs num data (mp_off data + cum) hs [] = []) by (destruct hs; reflexivity). rewrite X, app_nil_r. split; auto.
    eapply below_mono; eauto. cbn [commas]. change (zlen (@nil Z)) with 0. lia.
  - destruct hs as [|name hs]; [cbn [length] in Hle; lia|]. cbn [csv_fields cell_occs] in *. inversion Hhs as [|? ? Hn Hhs']; subst x l1.
    assert (Hc : exists tl, commas (v :: rec) = v ++ tl /\ (tl = [] /\ rec = [] \/ tl = 44 :: commas rec)).
    { destruct rec as [|w rec]; [exists []; rewrite app_nil_r; auto|exists (44 :: commas (w :: rec)); auto]. }
    destruct Hc as (tl & Etl & Htl). pose proof (zlen_nonneg v). pose proof (zlen_nonneg tl). pose proof (zlen_nonneg post). assert (Hz : zlen (commas (v :: rec)) = zlen v + zlen tl) by (rewrite Etl, zlen_app; auto).
    assert (HDz : zlen D = zlen pre + zlen v + zlen tl + zlen post) by (rewrite HDe, !zlen_app, Hz; lia).
    assert (Eo : u64 (mp_off data + cum) = mp_off data + cum) by (unfold u64; apply Z.mod_small; lia). assert (E3 : u32 (zlen v) = zlen v) by (unfold u32; apply Z.mod_small; lia).
    rewrite Eo, E3 in *. set (k := RV (MP (mp_off data + cum) (zlen v)) (csv_parse num v)) in *.
    assert (Hf1 : zlen (file s) < 2^60).
    { assert (G : grows (pm <- find_or_create file_slot name (infer num v) ;; bp_insert (ccodec num D) (fst pm) k data ;;; csv_fields num file_slot D data hs rec (u64 (cum + u32 (zlen v + 1))))) by (gr; apply grows_csv_fields). pose proof (G s). eapply csmall_before; [apply wd0_ok|exact Hi| |eassumption|exact Hf]. rewrite Hl. apply pot_cexpected. }
    rewrite infer_spec in *. destruct (@gen_find wd0 cpf wd0_ok D fm l s name (cell_type num v) Hi Hf1 Hn (type_range0 v)) as (m & im & l1 & s1 & F1 & F2 & (ix & I1 & I2 & I3 & I4) & F3).
    rewrite (@bind_ok _ _ _ _ _ _ _ _ F1) in *. cbn [fst snd] in *. subst m.
    assert (Hf2 : zlen (file s1) < 2^60).
    { assert (G : grows (bp_insert (ccodec num D) (ix_at ix) k data ;;; csv_fields num file_slot D data hs rec (u64 (cum + u32 (zlen v + 1))))) by (gr; apply grows_csv_fields). pose proof (G s1). eapply csmall_before; [apply wd0_ok|exact F2| |eassumption|exact Hf]. rewrite F3, Hl. match goal with |- context [?o :: cell_occs _ _ _ _ _] => replace (l0 ++ o :: cell_occs num data (mp_off data + cum + zlen v + 1) hs rec) with ((l0 ++ [o]) ++ cell_occs num data (mp_off data + cum + zlen v + 1) hs rec) by (rewrite <- app_assoc; reflexivity) end.
      eapply Z.le_trans; [|apply pot_cexpected]. rewrite <- cexpected_snoc. unfold facts2. cbn [fst snd run]. apply pot_step. }
    assert (Hb1 : below (mp_off data + cum) (map strip l1)).
    { rewrite F3, Hl. cbn [step]. destruct (existsb _ _); auto. intros c e Hc He. apply in_app_or in Hc. destruct Hc as [Hc|[<-|[]]]; [eapply Hb; eauto|contradiction]. }
    destruct (@gen_put wd0 cpf wd0_ok D fm l1 s1 ix k data F2 Hf2 I1) as (l2 & s2 & P1 & P2 & P3).
    { unfold op_ok, ix_codec, wd0. cbn [fst snd rv_dp rv_val mp_off mp_len cwidth cdata cparse k]. split; [lia|]. split; [lia|]. split; [lia|]. split; [lia|]. split; [intros X; exfalso; apply X; reflexivity|]. intros _. split; [lia|].
      rewrite HDe, Etl. replace (pre ++ (v ++ tl) ++ post) with (pre ++ v ++ (tl ++ post)) by (rewrite <- app_assoc; reflexivity). rewrite slice_mid; [reflexivity|lia|reflexivity]. }
    { left. reflexivity. }
    { intros c Hc _ X. apply in_map_iff in X. destruct X as (e & E & He). pose proof (Hb1 c e Hc He) as Y. rewrite E in Y. unfold koff, k in Y. cbn [rv_dp mp_off] in Y. lia. }
    change (ix_codec wd0 cpf D (ix_type ix)) with (ccodec num D) in P1. rewrite (@bind_ok _ _ _ _ _ _ _ _ P1) in *.
    set (o := ((name, cell_type num v), (k, data)) : cocc). assert (El2 : map strip l2 = cexpected (l0 ++ [o])).
    { rewrite <- cexpected_snoc. unfold facts2, o. cbn [fst snd run]. rewrite P3, F3, Hl, I3, I4. reflexivity. }
    pose proof (@below_snoc (mp_off data + cum) l0 o Hb ltac:(unfold koff, o, k; cbn [fst snd rv_dp mp_off]; lia)) as Hb2. unfold koff at 1 in Hb2. cbn [o fst snd k rv_dp mp_off] in Hb2.
    match goal with |- context [?x :: cell_occs _ _ _ _ _] => replace x with o by (unfold o, k; rewrite parse_spec; reflexivity) end.
    assert (Eapp : forall q : list cocc, l0 ++ o :: q = (l0 ++ [o]) ++ q) by (intros q; rewrite <- app_assoc; reflexivity). rewrite Eapp. replace (mp_off data + cum + zlen v + 1) with (mp_off data + (cum + zlen v + 1)) by lia.
    destruct Htl as [[-> ->]|Htl].
    + cbn [csv_fields cell_occs] in *. exists l2, s2. split; [reflexivity|]. split; auto. assert (X : cell_occs num data (mp_off data + (cum + zlen v + 1)) hs [] = []) by (destruct hs; reflexivity). rewrite X, app_nil_r. split; auto.
      eapply below_mono; eauto. rewrite Hz. lia.
    + assert (Et : zlen tl = 1 + zlen (commas rec)) by (rewrite Htl, zlen_cons; reflexivity). pose proof (zlen_nonneg (commas rec)).
      assert (Ec : u64 (cum + u32 (zlen v + 1)) = cum + zlen v + 1) by (unfold u64, u32; rewrite (Z.mod_small (zlen v + 1)) by lia; rewrite Z.mod_small; lia). rewrite Ec in *.
      destruct (IH hs (pre ++ v ++ [44]) post (cum + zlen v + 1) l2 (l0 ++ [o]) s2) as (l3 & s3 & R1 & R2 & R3 & R4); auto.
      * rewrite HDe, Etl, Htl. repeat first [rewrite <- app_assoc|progress (cbn [app])]. reflexivity.
      * rewrite !zlen_app. change (zlen [44]) with 1. lia.
      * lia.
      * lia.
      * cbn [length] in Hle. lia.
      * eapply below_mono; [exact Hb2|]. lia.
      * match type of Hf with small _ (cexpected (l0 ++ ?x :: _)) => replace x with o in Hf by (unfold o, k; rewrite parse_spec; reflexivity) end. rewrite Eapp in Hf. replace (mp_off data + cum + zlen v + 1) with (mp_off data + (cum + zlen v + 1)) in Hf by lia. exact Hf.
      * exists l3, s3. split; auto. split; auto. split; auto. eapply below_mono; eauto. lia.
Qed.
(** rows, when the header is known *)
Lemma rows_run D fm v f e hs : zlen D < 2^63 -> hs <> [] -> Forall (fun n => zlen n <= 245) hs -> forall rows pre tail fuel l l0 s,
  D = pre ++ rows_text rows ++ tail -> ~ In 10 tail -> Forall row_plain rows -> Forall (fun r => (length (cells r) <= length hs)%nat) rows -> (length rows < fuel)%nat ->
  ifile D fm l s -> map strip l = cexpected l0 -> below (zlen pre) (cexpected l0) -> small (zlen (file (snd (csv_loop num fuel file_slot D hs (FM v f (zlen pre) e) s)))) (cexpected (l0 ++ row_occs num (zlen pre) hs rows)) ->
  exists l' s', csv_loop num fuel file_slot D hs (FM v f (zlen pre) e) s = (Ok (FM v f (zlen pre + zlen (rows_text rows)) e), s') /\ ifile D fm l' s' /\
    map strip l' = cexpected (l0 ++ row_occs num (zlen pre) hs rows) /\ below (zlen pre + zlen (rows_text rows)) (cexpected (l0 ++ row_occs num (zlen pre) hs rows)).
Proof.
  intros HD Hne Hhs. induction rows as [|r rows IH]; intros pre tail fuel l l0 s HDe Ht Hr Hlen Hfu Hi Hl Hb Hf; (destruct fuel as [|fuel]; [cbn [length] in Hfu; lia|]); cbn [csv_loop fm_read_offset rows_text row_occs] in *; cbv zeta in *.
  - pose proof (zlen_nonneg tail). destruct (Z.ltb_spec (zlen D) (zlen pre)) as [X|_]; [rewrite HDe, zlen_app in X; cbn [app] in X; lia|].
    replace (skipn (Z.to_nat (zlen pre)) D) with tail; [|rewrite HDe; cbn [app]; unfold zlen; rewrite Nat2Z.id, skipn_app, skipn_all, Nat.sub_diag; reflexivity].
    rewrite index_byte_none by auto. exists l, s. rewrite app_nil_r. change (zlen (@nil Z)) with 0. rewrite Z.add_0_r. split; [reflexivity|]. auto.
  - inversion Hr as [|? ? Hx Hr']; subst x l1. inversion Hlen as [|? ? Hlx Hlen']; subst x l1. pose proof (row_no10 Hx) as Hnl. pose proof Hx as (Hx1 & Hx2 & Hx3 & Hx4).
    pose proof (zlen_nonneg pre). pose proof (zlen_nonneg (row_text r)). pose proof (zlen_nonneg (rows_text rows)). pose proof (zlen_nonneg tail).
    assert (HDz : zlen D = zlen pre + zlen (row_text r) + 1 + zlen (rows_text rows) + zlen tail) by (rewrite HDe, !zlen_app, zlen_cons; lia).
    destruct (Z.ltb_spec (zlen D) (zlen pre)) as [X|_]; [lia|].
    assert (Esk : skipn (Z.to_nat (zlen pre)) D = row_text r ++ 10 :: rows_text rows ++ tail).
    { rewrite HDe. unfold zlen. rewrite Nat2Z.id, skipn_app, skipn_all, Nat.sub_diag. cbn [app skipn]. rewrite <- app_assoc. reflexivity. }
    rewrite Esk, index_byte_nl in Hf |- * by auto.
    assert (Esl : slice D (zlen pre) (zlen (row_text r)) = row_text r).
    { unfold slice. rewrite Esk. unfold zlen. rewrite Nat2Z.id, firstn_app, Nat.sub_diag, firstn_all. cbn [firstn]. apply app_nil_r. }
    rewrite Esl, read_row in Hf |- * by auto. rewrite (@bind_ok _ _ _ (lift (Ok (cells r))) _ s (cells r) s eq_refl) in Hf |- *. destruct hs as [|h0 hs0] eqn:Ehs; [congruence|]. rewrite <- Ehs in *.
    assert (Eu : u32 (zlen (row_text r)) = zlen (row_text r)) by (unfold u32; apply Z.mod_small; lia). rewrite Eu in Hf |- *. cbn [fm_version fm_format fm_entries] in *.
    assert (Eo : u64 (zlen pre + zlen (row_text r) + 1) = zlen pre + zlen (row_text r) + 1) by (unfold u64; rewrite Z.mod_small; lia). rewrite Eo in Hf |- *.
    set (data := MP (zlen pre) (zlen (row_text r))) in *.
    assert (Hf1 : small (zlen (file (snd (csv_fields num file_slot D data hs (cells r) 0 s)))) (cexpected (l0 ++ cell_occs num data (mp_off data + 0) hs (cells r)))).
    { cbn [mp_off data]. rewrite Z.add_0_r. destruct Hf as [Hf|Hf]; [left|right; eapply Z.le_lt_trans; [|exact Hf]; rewrite app_assoc; apply pot_cexpected].
      unfold bind in Hf. destruct (csv_fields num file_slot D data hs (cells r) 0 s) as [[a|e0| | |] s1]; cbn [snd] in *; auto. pose proof (grows_csv_loop D fuel hs (FM v f (zlen pre + zlen (row_text r) + 1) e) s1). lia. }
    assert (Ert : zlen (row_text r) = zlen (commas (cells r)) + zlen (if cr r then [13] else [])) by (unfold row_text; apply zlen_app). pose proof (zlen_nonneg (if cr r then [13] else [])).
    destruct (@fields_run D data fm HD ltac:(cbn; lia) ltac:(cbn; lia) (cells r) hs pre ((if cr r then [13] else []) ++ 10 :: rows_text rows ++ tail) 0 l l0 s) as (l1 & s1 & R1 & R2 & R3 & R4); auto.
    { rewrite HDe. unfold row_text. repeat first [rewrite <- app_assoc|progress (cbn [app])]. reflexivity. }
    { cbn [mp_off data]. lia. }
    { lia. }
    { lia. }
    { cbn [mp_off data]. rewrite Z.add_0_r. exact Hb. }
    rewrite (@bind_ok _ _ _ _ _ _ _ _ R1) in Hf |- *. cbn [mp_off data] in R3, R4. rewrite Z.add_0_r in R3, R4.
    assert (Ep : zlen pre + zlen (row_text r) + 1 = zlen (pre ++ row_text r ++ [10])) by (rewrite !zlen_app; change (zlen [10]) with 1; lia). rewrite Ep in Hf |- *.
    destruct (IH (pre ++ row_text r ++ [10]) tail fuel l1 (l0 ++ cell_occs num data (zlen pre) hs (cells r)) s1) as (l2 & s2 & Q1 & Q2 & Q3 & Q4); auto.
    { rewrite HDe. repeat first [rewrite <- app_assoc|progress (cbn [app])]. reflexivity. }
    { cbn [length] in Hfu. lia. }
    { eapply below_mono; [exact R4|]. lia. }
    { rewrite <- app_assoc. exact Hf. }
    exists l2, s2. rewrite <- app_assoc in Q3, Q4. split; [rewrite Q1; f_equal; f_equal; f_equal; rewrite (zlen_app (row_text r)), zlen_cons; lia|]. split; auto. split; auto. eapply below_mono; [exact Q4|]. rewrite (zlen_app (row_text r)), zlen_cons. lia.
Qed.
(** the loop without a known header and without a complete line *)
Lemma loop_none D hs m fuel s pre tail : D = pre ++ tail -> fm_read_offset m = zlen pre -> ~ In 10 tail -> csv_loop num (S fuel) file_slot D hs m s = (Ok m, s).
Proof.
  intros HDe Hro Hn. cbn [csv_loop]. cbv zeta. rewrite Hro. pose proof (zlen_nonneg tail). destruct (Z.ltb_spec (zlen D) (zlen pre)) as [X|_]; [rewrite HDe, zlen_app in X; lia|].
  replace (skipn (Z.to_nat (zlen pre)) D) with tail; [|rewrite HDe; unfold zlen; rewrite Nat2Z.id, skipn_app, skipn_all, Nat.sub_diag; reflexivity].
  rewrite index_byte_none by auto. reflexivity.
Qed.
(** reading the header *)
Lemma loop_header D v f e fuel s h rest : zlen D < 2^63 -> D = row_text h ++ 10 :: rest -> row_plain h ->
  csv_loop num (S fuel) file_slot D [] (FM v f 0 e) s = csv_loop num fuel file_slot D (cells h) (FM v f (zlen (row_text h) + 1) e) s.
Proof.
  intros HD HDe Hh. cbn [csv_loop fm_read_offset]. cbv zeta. pose proof (zlen_nonneg (row_text h)). pose proof (zlen_nonneg rest).
  assert (HDz : zlen D = zlen (row_text h) + 1 + zlen rest) by (rewrite HDe, zlen_app, zlen_cons; lia).
  destruct (Z.ltb_spec (zlen D) 0) as [X|_]; [lia|]. change (Z.to_nat 0) with 0%nat. cbn [skipn]. assert (Ei : index_byte 10 D = Some (zlen (row_text h))) by (rewrite HDe; apply index_byte_nl, row_no10, Hh). rewrite Ei.
  assert (Esl : slice D 0 (zlen (row_text h)) = row_text h).
  { unfold slice. rewrite HDe. change (Z.to_nat 0) with 0%nat. cbn [skipn]. unfold zlen. rewrite Nat2Z.id, firstn_app, Nat.sub_diag, firstn_all. cbn [firstn]. apply app_nil_r. }
  rewrite Esl, read_row by auto. rewrite (@bind_ok _ _ _ (lift (Ok (cells h))) _ s (cells h) s eq_refl). cbn [fm_version fm_format fm_entries].
  assert (Eo : u64 (0 + zlen (row_text h) + 1) = zlen (row_text h) + 1) by (unfold u64; rewrite Z.mod_small; lia). rewrite Eo. reflexivity.
Qed.
End C.
