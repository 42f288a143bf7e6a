(** C90: queries while the indexer is at work: the browser reads the index file as it is at
    some instant of a Synchronize of a JSONL data file. *)
From Coq Require Import Permutation Sorted.
From Verif Require Import Base Varint Store PageFile PageHist RefValue Node LinkedPage BPTree BPRepr BPIter BPInsert BPLoop BPTop PTree Meta TsCodec Slots SlotAdd PSlots Cells IndexFile IFileInv PIndex Json Jsonl Grows JsonlRun JsonDoc JsonlDoc JsonlSpec JsonlHist PJsonl Query QTree TsFile PQuery PJsonlQuery Crash PCrash SyncCrash JsonlBlock PSyncCrash Death JsonlDeath PDeath.

(** ** A loop of the query, from whatever key it starts *)
Lemma until_split stop : forall l, exists r, l = until stop l ++ r.
Proof. induction l as [|e l IH]; [exists []; reflexivity|]. cbn [until]. destruct (stop (fst e)); [exists (e :: l); reflexivity|]. destruct IH as (r & E). exists r. cbn [app]. rewrite <- E. reflexivity. Qed.
Lemma until_all stop : forall l, Forall (fun e => stop (fst e) = false) (until stop l).
Proof. induction l as [|e l IH]; cbn [until]; [constructor|]. destruct (stop (fst e)) eqn:E; [constructor|constructor; auto]. Qed.
Lemma ascending_nodup es : ascending es -> NoDup es.
Proof.
  unfold ascending. induction 1 as [|a l H IH Ha]; constructor; auto. intros X. rewrite Forall_forall in Ha. specialize (Ha _ X). cbn beta in Ha. rewrite rv_cmp_refl in Ha. lia.
Qed.
Lemma ascending_parts a b : ascending (a ++ b) -> ascending a /\ ascending b.
Proof.
  unfold ascending. induction a as [|x a IH]; cbn [app]; intros H; [split; [constructor|auto]|]. inversion H as [|? ? H1 H2]; subst. destruct (IH H1). apply Forall_app in H2. split; [constructor; tauto|auto].
Qed.
Lemma perm_of_incl {A} : forall l m : list A, NoDup l -> incl l m -> exists r, Permutation (l ++ r) m.
Proof.
  induction l as [|x l IH]; intros m Hn Hi; [exists m; reflexivity|]. inversion Hn as [|? ? N1 N2]; subst.
  destruct (in_split x m) as (a & b & ->); [apply Hi; left; auto|]. destruct (IH (a ++ b) N2) as (r & P).
  - intros y Hy. assert (X : In y (a ++ x :: b)) by (apply Hi; right; auto). rewrite in_app_iff in *. cbn [In] in X. destruct X as [X|[X|X]]; auto. subst. contradiction.
  - exists r. cbn [app]. rewrite P. apply Permutation_middle.
Qed.
(** [sel]: some of the entries, each once, all satisfying the comparison, in order *)
Definition chosen (es : smap) (op : qop) (dir : qdir) (v : bytes) (sel : smap) : Prop :=
  NoDup sel /\ incl sel es /\ Forall (fun e => satisfies op v e = true) sel /\ ordered dir sel.
(** the order in which the records come *)
Definition coming (op : qop) (dir : qdir) : qdir := match op with QEq => Asc | _ => dir end.
Section Loop.
  Variables (F : Z -> node -> Prop) (rd : mptr -> res node) (Hrd : rd_ok rd F).
  Variables (es : smap) (h : nat) (mp : mptr) (pgs : list Z) (fuel : nat) (D : bytes).
  Hypothesis Htree : repr F h None None (mp_off mp) es pgs.
  Hypothesis Hlen : mp_len mp <> 0.
  Hypothesis Hfuel : (h < fuel)%nat.
  Hypothesis Hfetch : Forall fetchable es.
  Hypothesis Hsmall : Forall key_small es.
  Hypothesis Hasc : ascending es.
  Lemma chosen_nil op dir v : chosen es op dir v [].
  Proof. split; [constructor|]. split; [intros e []|]. split; [constructor|]. destruct dir; constructor. Qed.
  Lemma chosen_filter op v : chosen es op Asc v (filter (sat op v) es).
  Proof.
    split; [apply ascending_nodup, asc_filter, Hasc|]. split; [intros e He; apply filter_In in He; tauto|]. split; [apply Forall_forall; intros e He; apply filter_In in He; destruct He as [_ He]; exact He|].
    apply asc_filter, Hasc.
  Qed.
  Lemma chosen_rev op v sel : chosen es op Asc v sel -> chosen es op Desc v (rev sel).
  Proof.
    intros (A & B & C & O). split; [apply NoDup_rev, A|]. split; [intros e He; apply B, in_rev, He|]. split; [apply Forall_rev, C|]. cbn [ordered]. rewrite rev_involutive. exact O.
  Qed.
  Lemma where_chosen op dir v n r : (op, dir) <> (QGt, Desc) -> where_tree fuel rd (Ok mp) D op dir v n = Ok r ->
    exists sel, chosen es op (coming op dir) v sel /\ r = texts D (firstn n sel).
  Proof.
    intros Hne E. assert (Hcases : ((dir = Asc /\ (op = QGt \/ op = QGe)) \/ op = QEq) \/ (dir = Desc /\ (op = QLt \/ op = QLe)) \/ (dir = Asc /\ (op = QLt \/ op = QLe)) \/ (dir = Desc /\ op = QGe)) by (destruct op, dir; try congruence; tauto).
    destruct Hcases as [Hc|[[-> Hc]|[[-> Hc]|[-> ->]]]].
    - assert (Hco : coming op dir = Asc) by (destruct Hc as [[-> [-> | ->]] | ->]; reflexivity). rewrite Hco.
      destruct (@where_asc_high _ _ Hrd es h mp pgs fuel D Htree Hlen Hfuel Hfetch Hsmall op dir v n Hc) as [(_ & E')|(_ & E' & _)]; rewrite E in E'; injection E' as ->.
      + exists (filter (sat op v) es). split; [apply chosen_filter|reflexivity].
      + exists []. split; [apply chosen_nil|]. rewrite firstn_nil. reflexivity.
    - assert (Hco : coming op Desc = Desc) by (destruct Hc as [-> | ->]; reflexivity). rewrite Hco.
      rewrite (@where_desc_low _ _ Hrd es h mp pgs fuel D Htree Hlen Hfuel Hfetch Hsmall op v n Hc) in E. injection E as <-. exists (rev (filter (sat op v) es)). split; [apply chosen_rev, chosen_filter|reflexivity].
    - assert (Hco : coming op Asc = Asc) by (destruct Hc as [-> | ->]; reflexivity). rewrite Hco. unfold where_tree in E.
      assert (G : exists k stop, yields (ts_next fuel rd (Ok mp)) stop D n (ts_iter k) = Ok r /\ forall x, stop (fst x) = false -> satisfies op v x = true).
      { destruct Hc as [-> | ->]; (destruct (ts_edge fuel rd (Ok mp) true) as [k| | | |]; try discriminate E); cbn [rbind] in E; (eexists k, _; split; [exact E|]); intros x Hx; cbn beta in Hx; rewrite ts_compare_bytes_eq in Hx; unfold satisfies; lia. }
      destruct G as (k & stop & G1 & G2).
      destruct (@yields_next F rd Hrd es h mp pgs fuel D Htree Hlen Hfuel Hfetch stop k n) as [(_ & E')|(_ & E' & _)]; rewrite G1 in E'; injection E' as ->.
      + exists (until stop (from k es)). split; [|reflexivity]. destruct (until_split stop (from k es)) as (t & Et).
        assert (Ha : ascending (from k es)) by (apply asc_filter, Hasc). rewrite Et in Ha. apply ascending_parts in Ha. destruct Ha as [Ha _].
        split; [apply ascending_nodup, Ha|]. split; [|split; [|exact Ha]].
        * intros e He. assert (X : In e (from k es)) by (rewrite Et; apply in_or_app; auto). apply filter_In in X. tauto.
        * eapply Forall_impl; [|apply until_all]. intros x Hx. apply G2, Hx.
      + exists []. split; [apply chosen_nil|]. rewrite firstn_nil. reflexivity.
    - cbn [coming]. unfold where_tree in E. destruct (ts_edge fuel rd (Ok mp) false) as [k| | | |]; try discriminate E. cbn [rbind] in E.
      rewrite (@yields_prev F rd Hrd es h mp pgs fuel D Htree Hlen Hfuel Hfetch) in E. injection E as <-. eexists. split; [|reflexivity].
      set (stop := fun k0 : rv => ts_compare_bytes (rv_val k0) v <? 0). destruct (until_split stop (rev (BPIter.below k es))) as (t & Et).
      assert (Ha : ascending (BPIter.below k es)) by (apply asc_filter, Hasc). rewrite <- (rev_involutive (BPIter.below k es)), Et, rev_app_distr in Ha. apply ascending_parts in Ha. destruct Ha as [_ Ha].
      split; [rewrite <- (rev_involutive (until _ _)); apply NoDup_rev, ascending_nodup, Ha|]. split; [|split; [|exact Ha]].
      + intros e He. assert (X : In e (rev (BPIter.below k es))) by (rewrite Et; apply in_or_app; auto). apply in_rev in X. apply filter_In in X. tauto.
      + eapply Forall_impl; [|apply until_all]. intros x Hx. unfold stop in Hx. rewrite ts_compare_bytes_eq in Hx. unfold satisfies. lia.
  Qed.
  (** descending >: what >= gives *)
  Lemma where_gt_desc v n : where_tree fuel rd (Ok mp) D QGt Desc v n = where_tree fuel rd (Ok mp) D QGe Desc v n.
  Proof. reflexivity. Qed.
End Loop.

(** ** The file at an instant, as the browser reads it *)
Lemma ts_metas_in f : forall ms ims m, ts_metas f ms = Ok ims -> forall im, In (m, im) (combine ms ims) -> ts_index_meta f m = Ok im.
Proof.
  induction ms as [|a ms IH]; intros ims m E im Hin; cbn [ts_metas] in E; [injection E as <-; destruct Hin|].
  destruct (ts_index_meta f a) as [x| | | |] eqn:Ea; try discriminate E. cbn [rbind] in E. destruct (ts_metas f ms) as [y| | | |] eqn:Eb; try discriminate E. cbn [rbind] in E. injection E as <-.
  cbn [combine In] in Hin. destruct Hin as [Hin|Hin]; [injection Hin as <- <-; exact Ea|]. eapply IH; eauto.
Qed.
(** what the browser makes of the metadata of an index, whatever its total *)
Lemma ts_names m b im : index_meta_ok m -> zlen (im_name m) < 2^16 -> index_meta_marshal m = Ok b -> ts_read_index_meta b = Ok im ->
  im_name im = im_name m /\ im_type im = im_type m /\ im_width im = im_width m.
Proof.
  intros (H1 & H2 & H3) Hn Hb E. rewrite index_meta_marshal_eq in Hb by auto. apply Ok_inj in Hb. subst b.
  set (nm := im_name m) in *. set (v := put_uvarint (im_total m)) in *.
  pose proof (zlen_nonneg nm) as N0. pose proof (zlen_nonneg v) as N1.
  unfold ts_read_index_meta in E.
  set (b := le 2 (im_type m)) in *. set (b2 := le 2 (im_width m)) in *. set (b3 := le 2 (zlen nm)) in *.
  assert (Lb : zlen b = 2) by apply zlen_le. assert (Lb2 : zlen b2 = 2) by apply zlen_le. assert (Lb3 : zlen b3 = 2) by apply zlen_le.
  set (buf := b ++ b2 ++ b3 ++ nm ++ v) in *.
  assert (L : zlen buf = 6 + zlen nm + zlen v) by (unfold buf; rewrite !zlen_app; lia).
  rewrite !L in E.
  destruct (Z.ltb_spec (6 + zlen nm + zlen v) 6); [lia|].
  assert (E0 : slice buf 0 2 = b) by (unfold buf; rewrite <- Lb; apply slice_app_exact).
  assert (E2 : slice buf 2 2 = b2) by (unfold buf; apply slice_app_mid; auto).
  assert (E4 : slice buf 4 2 = b3).
  { unfold buf. rewrite (app_assoc b). apply slice_app_mid; [rewrite zlen_app; lia | auto]. }
  rewrite E0, E2, E4 in E. unfold b, b2, b3 in E. rewrite !unle_le in E by (change (256 ^ Z.of_nat 2) with (2^16); lia).
  destruct (Z.ltb_spec (6 + zlen nm + zlen v) (6 + zlen nm)); [lia|].
  destruct (ts_uvarint _) as [tl tn]. apply Ok_inj in E. subst im. cbn [im_name im_type im_width]. split; [|auto].
  unfold buf. replace (b ++ b2 ++ b3 ++ nm ++ v) with ((b ++ b2 ++ b3) ++ nm ++ v) by (rewrite <- !app_assoc; reflexivity).
  assert (L6 : zlen (b ++ b2 ++ b3) = 6) by (rewrite !zlen_app; lia). rewrite (@js_slice_mid (b ++ b2 ++ b3) nm v 6 (6 + zlen nm)) by lia. reflexivity.
Qed.
(** the root of an empty tree is not readable *)
Lemma where_empty fuel rd mp D op dir v n r e : rd mp = Err e -> where_tree fuel rd (Ok mp) D op dir v n = Ok r -> r = [].
Proof.
  intros Hrd E. assert (Hroot : Query.ts_root rd (Ok mp) = Err e) by (unfold Query.ts_root; cbn [rbind]; rewrite Hrd; reflexivity).
  assert (Hin : forall it, ts_init fuel rd (Ok mp) it = Err e) by (intros it; unfold ts_init; rewrite Hroot; reflexivity).
  assert (Hed : forall b, ts_edge fuel rd (Ok mp) b = Err e) by (intros b; unfold ts_edge; rewrite Hroot; reflexivity).
  assert (Hy : forall b stop k, yields (if b : bool then ts_next fuel rd (Ok mp) else ts_prev fuel rd (Ok mp)) stop D n (ts_iter k) = Ok r -> r = []).
  { intros b stop k. destruct n as [|n']; cbn [yields]; [congruence|]. destruct b; unfold ts_next, ts_prev; cbn [ti_recs ts_iter]; rewrite Hin; discriminate. }
  unfold where_tree in E. rewrite ?Hed in E.
  destruct op, dir; cbn [rbind] in E; try discriminate E; first [exact (Hy true _ _ E)|exact (Hy false _ _ E)].
Qed.
Lemma ts_rd_page0 c f : slice f 0 pageSize = enc_free [] -> ts_rd c f (MP 0 0) = Err (EMsg "empty node").
Proof.
  intros H. unfold ts_rd, resolve. cbn [mp_off]. change (0 + 4096 - 1 - 0 + 1) with pageSize. rewrite H. vm_compute. reflexivity.
Qed.

Section G.
Variables (wd : Z -> Z) (parse : bytes -> option bytes) (D : bytes).
Notation dead := (dead wd parse D).
Lemma dead_query fm E f name op dir v limit n r ft fuel : dead fm E f -> zlen f <= 2^31 -> (S (length f) <= fuel)%nat -> wd = determine_type ->
  value_type v = Some ft -> (op, dir) <> (QGt, Desc) ->
  (forall c, In c E -> ci_type c <> FTInt64 /\ ci_type c <> FTUint64) ->
  (forall c, In c E -> ci_name c = name -> ci_type c = ft -> Forall (fun e => entry_small e /\ 2 <= mp_len (snd e)) (ci_es c)) ->
  ts_query parse fuel f D (QY [CW name op v] [dir] limit) n = Ok r ->
  exists c es sel, In c E /\ ci_name c = name /\ ci_type c = ft /\ incl es (ci_es c) /\ chosen es op (coming op dir) (value_key v) sel /\ r = texts D (firstn n sel).
Proof.
  intros (s & ms & x0 & L & <- & W & _ & HL) Hf Hfuel -> Hv Hod Hty Hsm Q.
  assert (Hpw : process_where v = Some (ft, value_key v)) by (revert Hv; destruct v; cbn [value_type process_where value_key]; intros Hv; first [discriminate|injection Hv as <-; reflexivity]).
  pose proof W as (Hi & Hb & Hch & Hfirst & Hnd & Hat).
  unfold ts_query in Q. cbn [qy_where qy_order map w_key first_appearances filter length Nat.ltb Nat.leb] in Q.
  destruct (ts_if_metadata (file s)) as [fm'| | | |]; try discriminate Q. cbn [rbind] in Q.
  destruct (ts_header_names fuel (file s)) as [hs| | | |]; try discriminate Q. cbn [rbind ts_clauses] in Q.
  assert (Q1 : ts_clause parse fuel (file s) D hs dir (CW name op v) n = Ok r).
  { destruct (ts_clause parse fuel (file s) D hs dir (CW name op v) n) as [r0| | | |]; try discriminate Q. cbn [rbind] in Q.
    destruct (length r0 <? n)%nat; cbn [rbind] in Q; rewrite app_nil_r in Q; exact Q. }
  clear Q. unfold ts_clause in Q1. cbn [w_key w_val w_op] in Q1. destruct (negb _); [discriminate|]. rewrite Hpw in Q1.
  destruct (ts_seek fuel (file s) name ft) as [mps| | | |] eqn:Es; try discriminate Q1. cbn [rbind] in Q1. destruct mps as [|mp mps]; [discriminate|].
  destruct (ts_index_meta (file s) mp) as [im| | | |] eqn:Eim; try discriminate Q1. cbn [rbind] in Q1.
  unfold ts_seek in Es. assert (Etree : ts_tree = slot ms 0) by (unfold ts_tree, slot; cbn; rewrite Hfirst; reflexivity).
  unfold ts_index_pages in Es. rewrite Etree, (ts_mp_next_ok (k := 0) Hch) in Es by (cbn [length]; lia). cbn [rbind length] in Es.
  destruct (Nat.ltb_spec 1 (S (length L))) as [HlL|HlL]; [|discriminate].
  assert (HLf : (length L < fuel)%nat).
  { assert (Hp : pageSize * zlen ms <= zlen (file s)) by (apply pages_count; [apply (mc_nd Hch)|]; eapply Forall_impl; [|exact (mc_ok Hch)]; intros a [X _]; auto).
    pose proof (mc_n Hch) as Y. cbn [length] in Y. unfold zlen, pageSize in *. lia. }
  rewrite (@ts_pages_ok (file s) ms _ Hch (length L - 1) 1 fuel) in Es by (cbn [length]; lia). cbn [rbind] in Es.
  replace (S (length L - 1)) with (length L) in Es by lia.
  destruct (ts_metas (file s) (map (slot ms) (seq 1 (length L)))) as [ims| | | |] eqn:Em; try discriminate Es. cbn [rbind] in Es.
  assert (Hin : In mp (map fst (filter (fun x => ts_accepts name ft (snd x)) (combine (map (slot ms) (seq 1 (length L))) ims)))) by (injection Es as ->; left; reflexivity).
  apply in_map_iff in Hin. destruct Hin as ((mp', im') & <- & Hin). cbn [fst] in *. apply filter_In in Hin. destruct Hin as [Hin Hacc]. cbn [snd] in Hacc.
  pose proof (@ts_metas_in _ _ _ mp' Em _ Hin) as Eim'. rewrite Eim in Eim'. injection Eim' as <-.
  apply in_combine_l in Hin. apply in_map_iff in Hin. destruct Hin as (k & <- & Hk). apply in_seq in Hk.
  destruct k as [|k]; [lia|]. destruct (nth_error L k) as [x|] eqn:Ex; [|apply nth_error_None in Ex; lia].
  assert (Ex' : nth_error (x0 :: L) (S k) = Some x) by exact Ex. destruct (Hat _ _ Ex') as (M1 & M2 & Hsys). pose proof Hsys as (Hc & _ & _ & Hslot & Htree & Hnd' & Hlp).
  unfold ts_index_meta in Eim. rewrite (ts_mp_metadata_ok Hslot M1 M2) in Eim. cbn [rbind] in Eim.
  rewrite Forall_forall in HL. destruct (HL _ (nth_error_In _ _ Ex)) as [(X & _)|(c & Hc' & (t & T1 & T2 & T3) & Ecod & Hinc)]; [rewrite X in Eim; discriminate Eim|].
  destruct (ts_names T2 ltac:(cbn [im_name]; lia) T1 Eim) as (N1 & N2 & N3). cbn [im_name im_type im_width] in N1, N2, N3.
  unfold ts_accepts in Hacc. apply andb_true_iff in Hacc. destruct Hacc as [A1 A2]. apply name_eqb_spec in A1.
  assert (Hcn : ci_name c = name) by congruence.
  assert (Hct : ci_type c = ft).
  { destruct (Hty c Hc') as [Y1 Y2]. rewrite N2 in A2. destruct (Z.eqb_spec ft FTFloat64) as [E0|E0].
    - apply orb_true_iff in A2. destruct A2 as [A2|A2]; [apply orb_true_iff in A2; destruct A2 as [A2|A2]|]; apply Z.eqb_eq in A2; congruence.
    - apply Z.eqb_eq in A2. congruence. }
  exists c, (c_es x). rewrite N3, Hct in Q1. rewrite (ts_mp_root_ok Hslot) in Q1. rewrite Hct in Ecod. change (mkCodec (determine_type ft) D parse) with (ix_codec determine_type parse D ft) in Q1.
  destruct Htree as [(X & _ & Er)|(h & root & rlen & Er & Hl & R)].
  - rewrite Er in Q1. pose proof (pi_page0 Hi) as P0. exists []. split; auto. split; auto. split; auto. split; auto. split; [apply chosen_nil|].
    rewrite firstn_nil. eapply where_empty; [apply ts_rd_page0; exact P0|exact Q1].
  - rewrite Er in Q1. assert (Hes : Forall (fun e => entry_small e /\ 2 <= mp_len (snd e)) (c_es x)).
    { rewrite Forall_forall. intros e He. specialize (Hsm c Hc' Hcn Hct). rewrite Forall_forall in Hsm. apply Hsm, Hinc, He. }
    assert (Hh : (h < fuel_of s)%nat).
    { pose proof (tree_at_pages (or_intror (ex_intro _ h (ex_intro _ root (ex_intro _ rlen (conj Er (conj Hl R))))) : tree_at _ _ _ _ _)) as Hok.
      eapply fuel_enough; [eapply NoDup_app_l; exact Hnd'|exact Hok|]. eapply repr_height; eauto. }
    rewrite Ecod in *. set (cd := ix_codec determine_type parse D ft) in *.
    assert (R' : repr (small_at cd (file s)) h None None (mp_off (MP root rlen)) (c_es x) (c_pgs x)).
    { cbn [mp_off]. apply repr_small; auto. eapply Forall_impl; [|exact Hes]. intros a [X _]; exact X. }
    destruct (@where_chosen (small_at cd (file s)) (ts_rd cd (file s)) (ts_rd_ok Hc) (c_es x) h (MP root rlen) (c_pgs x) fuel D R' ltac:(cbn [mp_len]; lia) ltac:(unfold fuel_of in Hh; lia)) with (op := op) (dir := dir) (v := value_key v) (n := n) (r := r) as (sel & S1 & S2); auto.
    + eapply Forall_impl; [|exact Hes]; intros a [_ X]; exact X.
    + eapply Forall_impl; [|exact Hes]; intros a [[X _] _]; exact X.
    + eapply sys_ascending; eauto.
    + exists sel. auto 10.
Qed.
End G.

Section P.
Variables (unquote : bytes -> bytes) (to_float : bytes -> option bytes) (grams : bytes -> Z -> res (list (bytes * Z * Z))) (hdrs : list bytes).
Hypothesis float_8 : forall t f, to_float t = Some f -> zlen f = 8.
Notation sync := (jsonl_sync unquote to_float grams hdrs file_slot).
Notation occs := (occs unquote).
Notation life := (life unquote to_float grams hdrs).
Notation fits := (fits unquote to_float grams hdrs).
Notation sync_dies := (sync_dies unquote to_float grams hdrs).
Notation entries_of := (entries_of unquote to_float grams hdrs).
Notation ids := (ids unquote to_float grams hdrs).
Notation jparse := (jparse unquote to_float).
Notation expected := (expected unquote to_float grams hdrs).
Notation dead := (dead determine_type jparse).
Notation all_fields := (all_fields unquote).
Notation hit := (hit unquote to_float).
Notation arranged := (arranged unquote to_float).
Notation compared := (compared unquote to_float).

(** ** Specification *)
(** [f]: what the index file holds at some instant of the Synchronize of [s] over [D]:
    before its first write, after any of its writes, or at its end. What a killed
    Synchronize has written up to then is what is in the file at that instant. *)
Definition instant (D : bytes) (s : st) (f : bytes) : Prop := f = file s \/ (exists w, sync_dies D s w f) \/ f = file (snd (sync D s)).
(** [lines_among]: the first [n] of some of the lines with a matching field, once for each such
    field and in order; [rest] are those left out *)
Definition lines_among (ls : list line) (name : bytes) (op : qop) (dir : qdir) (v : wval) (n : nat) (r : list bytes) : Prop :=
  exists found rest, Permutation (found ++ rest) (filter (hit name op v) (all_fields ls)) /\ arranged dir found /\
    r = map (fun x => line_text (fst x)) (firstn n found).

(** ** Proofs *)
Lemma instant_dead D s ls tail f : life D s -> fits D ls tail -> zlen (file (snd (sync D s))) < 2^60 -> instant D s f ->
  exists fm, dead D fm (expected (occs 0 ls)) f.
Proof.
  intros Hl Hfit Hf Hins. assert (Hfit' : fits (D ++ []) ls tail) by (rewrite app_nil_r; auto).
  destruct (@life_state unquote to_float grams hdrs float_8 D s Hl ls tail [] Hfit') as (a & b & u & Els & Hu & Hs).
  destruct Hins as [-> | [(w & Hd) | ->]].
  - pose proof Hs as (l & Hi & Hst & Hbe). eexists. eapply dead_mono; [|eapply (ifile_dead (wd_ok grams)); exact Hi]. rewrite Hst. subst ls.
    rewrite (@occs_app unquote grams), <- (@expected_app unquote to_float grams hdrs). apply subs_run.
  - destruct (state_meta Hs) as (sm & Em & Ef). eexists. eapply dies_dead; eauto. exists sm. split; [exact Em|exact Ef].
  - destruct (@life_sync unquote to_float grams hdrs float_8 D s ls tail Hl Hfit Hf) as (s2 & E2 & S2). rewrite E2. cbn [snd].
    destruct S2 as (l & Hi & Hst & Hbe). eexists. rewrite <- Hst. eapply (ifile_dead (wd_ok grams)). exact Hi.
Qed.
Lemma expected_types l c : In c (expected l) -> ci_type c <> FTInt64 /\ ci_type c <> FTUint64.
Proof.
  intros Hc. unfold JsonlHist.expected in Hc. apply in_map_iff in Hc. destruct Hc as (i & <- & Hi). cbn [ci_type].
  unfold JsonlSpec.ids in Hi. apply (proj1 (firsts_in unquote to_float grams _ _)) in Hi. apply in_map_iff in Hi. destruct Hi as (p & <- & Hp). unfold JsonlSpec.posts in Hp. apply in_flat_map in Hp. destruct Hp as (o & _ & Hp).
  unfold postings in Hp. destruct Hp as [<-|Hp]; [cbn [po_id]; unfold occ_id; cbn [snd]; destruct (fd_value (fst o)); split; discriminate|].
  destruct (fd_value (fst o)); try contradiction. destruct (searched hdrs (fd_name (fst o))); [|contradiction].
  destruct Hp as [<-|[<-|[<-|[]]]]; cbn [gram_posting po_id snd]; split; discriminate.
Qed.
Lemma entries_small D ls tail name ft v : D = data_of ls tail -> zlen D < 2^31 -> value_type v = Some ft ->
  Forall (fun e => entry_small e /\ 2 <= mp_len (snd e)) (entries_of (occs 0 ls) (name, ft)).
Proof.
  intros E HD Hv. rewrite (@entries_map unquote to_float grams hdrs (occs 0 ls) (name, ft) v Hv). apply Forall_forall. intros e He.
  apply in_map_iff in He. destruct He as (o & <- & Ho). apply filter_In in Ho. destruct Ho as [Ho _].
  rewrite <- (placed_snd unquote to_float grams float_8 ls 0) in Ho. apply in_map_iff in Ho. destruct Ho as (p & <- & Hp).
  pose proof (@placed_ok unquote to_float grams float_8 D ls 0 [] tail E eq_refl) as Hok. rewrite Forall_forall in Hok. specialize (Hok p Hp). cbn beta in Hok.
  destruct p as [[x f] [g m]]. unfold entry_small, mptr_small, ent. cbn [fst snd rv_dp mp_off mp_len] in Hok |- *. lia.
Qed.
(** some of the entries of an index are some of the lines *)
Lemma some_lines D ls tail name op dir v n ft es sel : D = data_of ls tail -> value_type v = Some ft -> incl es (rev (entries_of (occs 0 ls) (name, ft))) ->
  chosen es op dir (value_key v) sel -> lines_among ls name op dir v n (texts D (firstn n sel)).
Proof.
  intros E Hv Hinc (C1 & C2 & C3 & C4).
  set (pl := filter (fun x => id_eqb (occ_id (snd x)) (name, ft)) (placed unquote 0 ls)).
  assert (Epl : entries_of (occs 0 ls) (name, ft) = map (fun p : (line * field) * occ => ent unquote to_float (snd p)) pl).
  { rewrite (@entries_map unquote to_float grams hdrs (occs 0 ls) (name, ft) v Hv), <- (placed_snd unquote to_float grams float_8 ls 0). rewrite map_filter, map_map. reflexivity. }
  destruct (@perm_of_incl _ sel (entries_of (occs 0 ls) (name, ft)) C1) as (rest & P).
  { intros e He. apply C2, Hinc, in_rev in He. exact He. }
  rewrite Epl in P. apply Permutation_map_inv in P. destruct P as (l3 & E3 & P3).
  symmetry in E3; apply map_eq_app in E3. destruct E3 as (pa & pb & -> & Ea & Eb).
  assert (Hin : forall p, In p (pa ++ pb) -> In p (placed unquote 0 ls) /\ id_eqb (occ_id (snd p)) (name, ft) = true).
  { intros p Hp. apply (Permutation_in _ (Permutation_sym P3)) in Hp. apply filter_In in Hp. exact Hp. }
  destruct (@answer_placed unquote to_float grams float_8 D ls tail name op dir v n (Ok (texts D (firstn n sel))) ft pa E Hv) as (found & F1 & F2 & F3).
  - intros p Hp. apply Hin. apply in_or_app. auto.
  - rewrite Ea. exists sel. split; [|split; [exact C4|reflexivity]]. assert (Ef : filter (satisfies op (value_key v)) sel = sel) by (clear -C3; induction C3 as [|x l Hx Hl IH]; [reflexivity|]; cbn [filter]; rewrite Hx, IH; reflexivity). rewrite Ef. reflexivity.
  - exists found, (filter (hit name op v) (map fst pb)). split; [|split; [exact F2|congruence]].
    rewrite F1, <- filter_app, <- map_app. etransitivity; [apply perm_filter, Permutation_map; symmetry; exact P3|]. unfold pl.
    rewrite <- (placed_fst unquote ls 0), !map_filter, filter_filter.
    assert (Hok := @placed_ok unquote to_float grams float_8 D ls 0 [] tail E eq_refl). rewrite Forall_forall in Hok. erewrite filter_ext_in; [reflexivity|]. intros p Hp. cbn beta.
    destruct (Hok p Hp) as (_ & _ & _ & _ & _ & _ & _ & _ & Ev & En). destruct p as [[x f] [g0 m]]. cbn [fst snd] in Ev, En. unfold PJsonlQuery.hit, occ_id. cbn [fst snd]. rewrite Hv, Ev, En.
    destruct (id_eqb _ _); reflexivity.
Qed.
Lemma among_eq ls name v n r dir : lines_among ls name QEq Asc v n r -> lines_among ls name QEq dir v n r.
Proof.
  intros (found & rest & P & A & E). exists found, rest. split; auto. split; auto. unfold PJsonlQuery.arranged.
  assert (Hall : Forall (fun x => compared (snd x) = value_key v) found).
  { apply Forall_forall. intros x Hx. assert (X : In x (filter (hit name QEq v) (all_fields ls))) by (eapply Permutation_in; [exact P|apply in_or_app; auto]).
    apply filter_In in X. destruct X as [_ X]. unfold PJsonlQuery.hit in X. apply andb_true_iff in X. destruct X as [_ X]. cbv zeta in X. apply Z.eqb_eq in X. apply bytes_cmp_eq. exact X. }
  clear -Hall. induction Hall as [|x l Hx Hl IH]; constructor; auto. eapply Forall_impl; [|exact Hl]. cbn beta. intros y Hy. rewrite Hx, Hy, (proj2 (bytes_cmp_eq _ _) eq_refl). destruct dir; lia.
Qed.

Section Main.
  Variables (D : bytes) (s : st) (ls : list line) (tail : bytes) (f : bytes) (name : bytes) (v : wval) (ft : Z) (fuel : nat).
  (** an instant of a Synchronize; the data file and the index file are below 2 GiB *)
  Hypothesis Hlife : life D s.
  Hypothesis Hfits : fits D ls tail.
  Hypothesis Hend : zlen (file (snd (sync D s))) < 2^60.
  Hypothesis Hinstant : instant D s f.
  Hypothesis Hfile : zlen f <= 2^31.
  Hypothesis Hdata : zlen D < 2^31.
  Hypothesis Hv : value_type v = Some ft.
  Hypothesis Hfuel : (S (length f) <= fuel)%nat.
  (** Whatever the instant, and whatever the comparison (but descending >): a query either
      fails or returns only lines with a matching field, each once per such field, in the
      order asked for. *)
  Theorem C90_answers_are_right_partial op dir limit n r : (op, dir) <> (QGt, Desc) ->
    ts_query jparse fuel f D (QY [CW name op v] [dir] limit) n = Ok r -> lines_among ls name op dir v n r.
  Proof.
    intros Hod Q. destruct (@instant_dead D s ls tail f Hlife Hfits Hend Hinstant) as (fm & Hd).
    assert (HDe : D = data_of ls tail) by apply Hfits.
    destruct (@dead_query determine_type jparse D fm _ f name op dir v limit n r ft fuel Hd Hfile Hfuel eq_refl Hv Hod) as (c & es & sel & Hc & En & Et & Hinc & Hch & ->); auto.
    - intros c Hc. eapply expected_types; eauto.
    - intros c Hc En Et. unfold JsonlHist.expected in Hc. apply in_map_iff in Hc. destruct Hc as (i & <- & _). cbn [ci_name ci_type ci_es] in *. apply Forall_rev.
      rewrite (surjective_pairing i), En, Et. eapply entries_small; eauto.
    - unfold JsonlHist.expected in Hc. apply in_map_iff in Hc. destruct Hc as (i & <- & _). cbn [ci_name ci_type ci_es] in *.
      rewrite (surjective_pairing i), En, Et in Hinc. pose proof (@some_lines D ls tail name op _ v n ft es sel HDe Hv Hinc Hch) as X.
      destruct op; cbn [coming] in X; auto. apply among_eq. exact X.
  Qed.
  (** Descending > returns what descending >= does, so lines whose field equals the value too. *)
  Theorem C90_descending_gt_partial limit n r :
    ts_query jparse fuel f D (QY [CW name QGt v] [Desc] limit) n = Ok r -> lines_among ls name QGe Desc v n r.
  Proof. intros Q. apply (@C90_answers_are_right_partial QGe Desc limit n r ltac:(discriminate)). exact Q. Qed.
End Main.
End P.
