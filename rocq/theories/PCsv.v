(** C43, C44, C62, C66: synchronizing a CSV data file (pkg/handlers/csv.go). What the data
    file means is specified in CsvSpec.v; the conversion of number texts is a parameter. *)
From Coq Require Import Permutation Sorted.
From Verif Require Import Base Varint Store PageFile PageHist RefValue Node LinkedPage BPTree BPRepr BPIter BPInsert BPLoop BPTop PTree Meta Slots SlotAdd PSlots Cells IndexFile IFileInv PIndex Json Jsonl Grows JsonlRun JsonlSpec JsonlHist Csv CsvSpec CsvRun.

(** ** Specification *)
Section P.
Variable num : bytes -> option bytes.
Notation sync := (csv_sync num file_slot).
Notation parse := (fun v => Some (csv_parse num v)).
(** A life of an index file of format CSV: created, its data file grows, the file is
    synchronized (successfully or not), closed and reopened. It is not synchronized
    while the header is the only complete line. *)
Inductive clife : bytes -> st -> Prop :=
| cl_new k s h s' : new_page_file (open_rws k []) = (Ok tt, s) -> new_index_file 1 s = (Ok h, s') -> clife [] s'
| cl_data D t s : clife D s -> zlen (D ++ t) < 2^63 -> clife (D ++ t) s
| cl_sync D s r s' : clife D s -> count_occ Z.eq_dec D 10 <> 1%nat -> sync D s = (r, s') -> zlen (file s') < 2^60 -> clife D s'
| cl_open D s k s1 h s2 : clife D s -> new_page_file (open_rws k (file s)) = (Ok tt, s1) -> new_index_file 1 s1 = (Ok h, s2) -> clife D s2.
(** Index [i] = (name, type) of the file: FindOrCreateIndex finds it without changing a
    byte; a walk from the least key, with the width [w], lists these entries, ascending. *)
Definition cshows (w : Z) (D : bytes) (s : st) (i : bytes * Z) (es : smap) : Prop :=
  exists m im, reads s (find_or_create file_slot (fst i) (snd i)) (m, im) /\
    exists es', Permutation es' es /\ ascending es' /\ forall n, walk (mkCodec w D parse) m s least n = Ok (firstn n es').
Definition cexists (s : st) (i : bytes * Z) : Prop := exists x, reads s (find_or_create file_slot (fst i) (snd i)) x.

(** ** Proofs *)
Notation ifile := (ifile wd0 parse).
Lemma fa_filter p l : filter p (first_appearances l) = first_appearances (filter p l).
Proof.
  induction l as [|a l IH]; [reflexivity|]. cbn [first_appearances filter]. destruct (p a) eqn:E.
  - cbn [first_appearances]. f_equal. rewrite <- IH, !filter_filter. apply filter_ext. intros x. apply andb_comm.
  - rewrite <- IH, filter_filter. apply filter_ext_in. intros x Hx. destruct (list_eq_dec Z.eq_dec x a) as [->|_]; [rewrite E; reflexivity|rewrite ?andb_true_r; reflexivity].
Qed.
Lemma fa_firsts (l : list (bytes * Z)) : first_appearances (map fst (firsts l)) = first_appearances (map fst l).
Proof.
  induction l as [|x l IH]; [reflexivity|]. cbn [firsts map first_appearances]. f_equal. rewrite <- IH, !fa_filter. f_equal.
  clear IH. induction (firsts l) as [|y q IHq]; [reflexivity|]. cbn [filter map]. destruct (id_eqb y x) eqn:E; cbn [negb map filter].
  - apply id_eqb_spec in E. subst y. destruct (list_eq_dec Z.eq_dec (fst x) (fst x)); [exact IHq|congruence].
  - destruct (list_eq_dec Z.eq_dec (fst y) (fst x)); [exact IHq|f_equal; exact IHq].
Qed.
Lemma fa_none l (hs : list bytes) : (forall x, In x l -> In x hs) -> filter (fun y => negb (if in_dec (list_eq_dec Z.eq_dec) y hs then true else false)) (first_appearances l) = [].
Proof.
  intros H. assert (G : forall q, (forall x, In x q -> In x hs) -> filter (fun y => negb (if in_dec (list_eq_dec Z.eq_dec) y hs then true else false)) q = []).
  { induction q as [|a q IH]; intros Hq; [reflexivity|]. cbn [filter]. destruct (in_dec (list_eq_dec Z.eq_dec) a hs) as [_|X]; [cbn [negb]; apply IH; intros; apply Hq; right; auto|exfalso; apply X, Hq; left; auto]. }
  apply G. intros x Hx. apply H. apply (proj2 (C26_first_appearances_spec l)). exact Hx.
Qed.
Lemma filter_all {A} p (l : list A) : (forall x, p x = true) -> filter p l = l.
Proof. intros H. induction l as [|a l IH]; [reflexivity|]. cbn [filter]. rewrite H, IH. reflexivity. Qed.
Lemma fa_prefix hs : NoDup hs -> forall l, (forall x, In x l -> In x hs) -> first_appearances (hs ++ l) = hs.
Proof.
  assert (G : forall a l, NoDup a -> first_appearances (a ++ l) = a ++ filter (fun y => negb (if in_dec (list_eq_dec Z.eq_dec) y a then true else false)) (first_appearances l)).
  { induction a as [|x a IH]; intros l Hn; cbn [app first_appearances].
    - symmetry. apply filter_all. intros y. match goal with |- context [in_dec ?d y ?q] => destruct (in_dec d y q) as [[]|_] end; reflexivity.
    - inversion Hn as [|? ? Hx Hn']; subst. f_equal. rewrite IH by auto. rewrite filter_app. f_equal.
      + clear - Hx. induction a as [|y a IH]; [reflexivity|]. cbn [filter]. destruct (list_eq_dec Z.eq_dec y x) as [->|_]; [exfalso; apply Hx; left; auto|]. f_equal. apply IH. intros X. apply Hx. right; auto.
      + rewrite filter_filter. apply filter_ext. intros y. destruct (in_dec (list_eq_dec Z.eq_dec) y (x :: a)) as [X|X]; cbn [negb].
        * destruct (list_eq_dec Z.eq_dec y x) as [->|Hne]; [reflexivity|]. cbn [andb]. destruct X as [X|X]; [congruence|]. destruct (in_dec (list_eq_dec Z.eq_dec) y a); [reflexivity|contradiction].
        * destruct (list_eq_dec Z.eq_dec y x) as [->|Hne]; [exfalso; apply X; left; auto|]. cbn [andb]. destruct (in_dec (list_eq_dec Z.eq_dec) y a); [exfalso; apply X; right; auto|reflexivity]. }
  intros Hn l Hl. rewrite G by auto. rewrite fa_none by auto. apply app_nil_r.
Qed.
Lemma cell_names line : forall cs pos hs, (length cs <= length hs)%nat -> map (fun o : cocc => fst (fst o)) (cell_occs num line pos hs cs) = firstn (length cs) hs.
Proof.
  induction cs as [|v cs IH]; intros pos [|h hs] Hl; cbn [length cell_occs map firstn] in *; try reflexivity; try lia. cbn [fst]. f_equal. apply IH. lia.
Qed.
Lemma row_names hs : forall rows at_, Forall (fun r => (length (cells r) <= length hs)%nat) rows -> forall x, In x (map (fun o : cocc => fst (fst o)) (row_occs num at_ hs rows)) -> In x hs.
Proof.
  induction rows as [|r rows IH]; intros at_ H x Hx; cbn [row_occs map] in Hx; [contradiction|]. inversion H; subst. rewrite map_app in Hx. apply in_app_or in Hx. destruct Hx as [Hx|Hx]; [|eapply IH; eauto].
  rewrite cell_names in Hx by auto. rewrite <- (firstn_skipn (length (cells r)) hs). apply in_or_app. auto.
Qed.
Lemma rows_app a b : rows_text (a ++ b) = rows_text a ++ rows_text b.
Proof. induction a as [|x a IH]; cbn [app rows_text]; [reflexivity|]. rewrite IH, <- app_assoc. reflexivity. Qed.
Lemma row_occs_app hs a b : forall at_, row_occs num at_ hs (a ++ b) = row_occs num at_ hs a ++ row_occs num (at_ + zlen (rows_text a)) hs b.
Proof.
  induction a as [|x a IH]; intros at_; cbn [app row_occs rows_text]; [change (zlen (@nil Z)) with 0; rewrite Z.add_0_r; reflexivity|].
  rewrite IH, <- app_assoc. rewrite zlen_app, zlen_cons. replace (at_ + zlen (row_text x) + 1 + zlen (rows_text a)) with (at_ + (zlen (row_text x) + (1 + zlen (rows_text a)))) by lia. reflexivity.
Qed.
(** the state after the rows [a] *)
Definition offset_of (h : row) (a : list row) : Z := match a with [] => 0 | _ => zlen (row_text h) + 1 + zlen (rows_text a) end.
Definition cstate (D : bytes) (h : row) (a : list row) (s : st) : Prop :=
  exists l, ifile D (FM currentVersion 1 (offset_of h a) 0) l s /\ map strip l = cexpected (csv_occs num h a) /\ below (offset_of h a) (cexpected (csv_occs num h a)).
Lemma strip_names l (L : list cocc) : map strip l = cexpected L -> map ix_name l = map fst (firsts (map fst L)).
Proof.
  intros H. transitivity (map ci_name (map strip l)); [rewrite map_map; reflexivity|]. rewrite H. unfold cexpected. rewrite map_map. reflexivity.
Qed.
Lemma state_headers h a l : map strip l = cexpected (csv_occs num h a) -> NoDup (cells h) -> Forall (fun r => (length (cells r) <= length (cells h))%nat) a ->
  match a with [] => True | r :: _ => length (cells r) = length (cells h) end -> first_appearances (map ix_name l) = match a with [] => [] | _ => cells h end.
Proof.
  intros Hl Hn Hle Hfull. rewrite (strip_names _ _ Hl), fa_firsts, map_map. destruct a as [|r a]; [reflexivity|]. unfold csv_occs. cbn [row_occs]. rewrite map_app, cell_names by lia. rewrite Hfull, firstn_all.
  inversion Hle; subst. apply fa_prefix; auto. intros x Hx. eapply row_names; eauto.
Qed.
Lemma commas_nonempty r : row_plain r -> cells r <> [].
Proof. intros (_ & H & _) E. rewrite E in H. apply H. reflexivity. Qed.
(** the limits of the complete part of a data file *)
Definition climits (h : row) (rows : list row) : Prop :=
  row_plain h /\ NoDup (cells h) /\ Forall (fun n => zlen n <= 245) (cells h) /\
  Forall row_plain rows /\ Forall (fun r => (length (cells r) <= length (cells h))%nat) rows /\
  match rows with [] => True | r :: _ => length (cells r) = length (cells h) end.
Lemma climits_part h a b : climits h (a ++ b) -> climits h a.
Proof.
  intros (H1 & H2 & H3 & H4 & H5 & H6). apply Forall_app in H4, H5. split; auto. split; auto. split; auto. split; [tauto|]. split; [tauto|]. destruct a; auto.
Qed.
Lemma count_rows rows : Forall row_plain rows -> count_occ Z.eq_dec (rows_text rows) 10 = length rows.
Proof.
  induction 1 as [|r rows Hr H IH]; [reflexivity|]. cbn [rows_text length]. rewrite count_occ_app. cbn [count_occ]. destruct (Z.eq_dec 10 10); [|contradiction]. rewrite IH.
  rewrite (proj1 (count_occ_not_In Z.eq_dec (row_text r) 10)) by (apply row_no10; auto). lia.
Qed.
Lemma len_rows ls : (length ls <= length (rows_text ls))%nat.
Proof. induction ls as [|x ls IH]; cbn [rows_text length]; [lia|]. rewrite app_length. cbn [length]. lia. Qed.
(** synchronizing from the state after the rows [a], when the complete rows are [a ++ b] *)
Lemma csync_state D h a b tail s : D = row_text h ++ 10 :: rows_text (a ++ b) ++ tail -> ~ In 10 tail -> climits h (a ++ b) -> a ++ b <> [] -> cstate D h a s -> small (zlen (file (snd (sync D s)))) (cexpected (csv_occs num h (a ++ b))) ->
  exists s', sync D s = (Ok tt, s') /\ cstate D h (a ++ b) s'.
Proof.
  intros HDe Ht Hlim Hne (l & Hi & Hl & Hb) Hf. pose proof Hlim as (L1 & L2 & L3 & L4 & L5 & L6). destruct (ifile_holds wd0_ok Hi) as (HD & _).
  unfold csv_sync in *. destruct (gen_metadata wd0_ok Hi) as (p & E1 & M1 & M2). rewrite (@bind_ok _ _ _ _ _ _ _ _ E1) in Hf |- *. pose proof (if_read p Hi) as Hi1.
  destruct (gen_names wd0_ok Hi1) as (p2 & E2). rewrite (@bind_ok _ _ _ _ _ _ _ _ E2) in Hf |- *. pose proof (if_read p2 Hi1) as Hi2. set (s2 := set_pos (set_pos s p) p2) in *.
  destruct (climits_part _ _ Hlim) as (_ & _ & _ & La4 & La5 & La6).
  rewrite (@state_headers h a l Hl L2 La5 La6) in Hf |- *. set (hs := match a with [] => [] | _ => cells h end) in *.
  assert (Hf1 : small (zlen (file (snd (csv_loop num (S (length D)) file_slot D hs (FM currentVersion 1 (offset_of h a) 0) s2)))) (cexpected (csv_occs num h (a ++ b)))).
  { destruct Hf as [Hf|Hf]; [left|right; exact Hf]. unfold bind in Hf. destruct (csv_loop _ _ _ _ _ _ s2) as [[m|e| | |] s3]; cbn [snd] in *; auto. pose proof (grows_if_set_metadata file_slot m s3). lia. }
  rewrite rows_app in HDe. apply Forall_app in L4, L5. destruct L4 as [L4a L4b]. destruct L5 as [L5a L5b].
  assert (Hlen : (S (length b) <= length D)%nat).
  { pose proof (len_rows b). rewrite HDe, app_length. cbn [length]. rewrite !app_length. lia. }
  pose proof (zlen_nonneg (row_text h)). pose proof (zlen_nonneg (rows_text a)). pose proof (zlen_nonneg (rows_text b)). pose proof (zlen_nonneg tail).
  assert (HDz : zlen D = zlen (row_text h) + 1 + zlen (rows_text a) + zlen (rows_text b) + zlen tail) by (rewrite HDe, zlen_app, zlen_cons, !zlen_app; lia).
  set (pre := row_text h ++ 10 :: rows_text a). assert (Hpre : zlen pre = zlen (row_text h) + 1 + zlen (rows_text a)) by (unfold pre; rewrite zlen_app, zlen_cons; lia).
  assert (HDp : D = pre ++ rows_text b ++ tail) by (rewrite HDe; unfold pre; repeat first [rewrite <- app_assoc|progress (cbn [app])]; reflexivity).
  assert (Eloop : exists fuel, (length b < fuel)%nat /\ csv_loop num (S (length D)) file_slot D hs (FM currentVersion 1 (offset_of h a) 0) s2 = csv_loop num fuel file_slot D (cells h) (FM currentVersion 1 (zlen pre) 0) s2).
  { destruct a as [|r a].
    - exists (length D). split; [lia|]. unfold hs, offset_of. rewrite (@loop_header num D currentVersion 1 0 (length D) s2 h (rows_text b ++ tail) HD HDe L1). do 2 f_equal. rewrite Hpre. cbn [rows_text]. change (zlen (@nil Z)) with 0. rewrite Z.add_0_r. reflexivity.
    - exists (S (length D)). split; [lia|]. unfold hs. rewrite Hpre. reflexivity. }
  destruct Eloop as (fuel & Hfu & Eloop). rewrite Eloop in Hf1.
  assert (Eocc : csv_occs num h a ++ row_occs num (zlen pre) (cells h) b = csv_occs num h (a ++ b)) by (unfold csv_occs; rewrite row_occs_app, Hpre; reflexivity). rewrite <- Eocc in Hf1.
  assert (Hbp : below (zlen pre) (cexpected (csv_occs num h a))).
  { eapply below_mono; [exact Hb|]. rewrite Hpre. unfold offset_of. destruct a; lia. }
  destruct (@rows_run num D _ currentVersion 1 0 (cells h) HD (commas_nonempty L1) L3 b pre tail fuel l (csv_occs num h a) s2 HDp Ht L4b L5b Hfu Hi2 Hl Hbp Hf1) as (l' & s3 & R1 & R2 & R3 & R4).
  rewrite <- Eloop in R1. rewrite (@bind_ok _ _ _ _ _ _ _ _ R1) in Hf |- *.
  assert (Eoff : zlen pre + zlen (rows_text b) = offset_of h (a ++ b)).
  { unfold offset_of. destruct (a ++ b) eqn:Eab; [congruence|]. rewrite <- Eab, rows_app, zlen_app. lia. }
  rewrite Eoff in *. destruct (ifile_holds wd0_ok R2) as (_ & fl1 & ms1 & x1 & K1 & HH).
  set (fm' := FM currentVersion 1 (offset_of h (a ++ b)) 0) in *.
  assert (Hok : file_meta_ok fm').
  { unfold file_meta_ok, fm', currentVersion. cbn [fm_version fm_format fm_read_offset fm_entries]. repeat split; lia. }
  destruct (@holds_set_meta _ s3 _ fm' l' fl1 ms1 x1 K1 HH Hok) as (s4 & x' & F1 & F2 & F3 & F4); [cbn; lia|].
  exists s4. split; [exact F1|]. exists l'. split; [eapply if_meta; eauto; cbn; lia|].
  rewrite Eocc in *. auto.
Qed.
Lemma csync_idle D h s : ~ In 10 D -> cstate D h [] s -> exists s', sync D s = (Ok tt, s') /\ cstate D h [] s'.
Proof.
  intros Hn (l & Hi & Hl & Hb). unfold csv_sync. destruct (gen_metadata wd0_ok Hi) as (p & E1 & M1 & M2). rewrite (@bind_ok _ _ _ _ _ _ _ _ E1). pose proof (if_read p Hi) as Hi1.
  destruct (gen_names wd0_ok Hi1) as (p2 & E2). rewrite (@bind_ok _ _ _ _ _ _ _ _ E2). pose proof (if_read p2 Hi1) as Hi2. set (s2 := set_pos (set_pos s p) p2) in *.
  rewrite (@bind_ok _ _ _ _ _ _ _ _ (@loop_none num D (first_appearances (map ix_name l)) (FM currentVersion 1 (offset_of h []) 0) (length D) s2 [] D eq_refl eq_refl Hn)).
  destruct (ifile_holds wd0_ok Hi2) as (_ & fl1 & ms1 & x1 & K1 & H1). destruct (@holds_set_meta _ s2 _ (FM currentVersion 1 (offset_of h []) 0) l fl1 ms1 x1 K1 H1 M1 M2) as (s4 & x' & F1 & F2 & F3 & F4).
  exists s4. split; [exact F1|]. exists l. split; [eapply if_meta; eauto|auto].
Qed.
(** cutting a data file *)
Lemma ccut ls : forall tail u t, Forall row_plain ls -> ~ In 10 tail -> u ++ t = rows_text ls ++ tail ->
  exists a b tail', ls = a ++ b /\ u = rows_text a ++ tail' /\ ~ In 10 tail'.
Proof.
  induction ls as [|x ls IH]; intros tail u t Hls Ht E.
  - exists [], [], u. split; auto. split; [reflexivity|]. cbn [rows_text app] in E. subst tail. intros X. apply Ht. apply in_or_app. auto.
  - inversion Hls as [|? ? Hx Hls']; subst x0 l. cbn [rows_text] in E. rewrite <- app_assoc in E. cbn [app] in E.
    destruct (Nat.le_gt_cases (length u) (length (row_text x))) as [Hle|Hgt].
    + exists [], (x :: ls), u. split; auto. split; [reflexivity|]. intros X. apply (row_no10 Hx).
      assert (Eu : u = firstn (length u) (row_text x)).
      { assert (Y : firstn (length u) (u ++ t) = firstn (length u) (row_text x ++ 10 :: rows_text ls ++ tail)) by (rewrite E; reflexivity).
        rewrite firstn_app, Nat.sub_diag, firstn_all in Y. cbn [firstn] in Y. rewrite app_nil_r in Y. rewrite firstn_app in Y. replace (length u - length (row_text x))%nat with 0%nat in Y by lia. cbn [firstn] in Y. rewrite app_nil_r in Y. exact Y. }
      rewrite Eu in X. rewrite <- (firstn_skipn (length u) (row_text x)). apply in_or_app. auto.
    + assert (Eu : exists v, u = row_text x ++ 10 :: v /\ v ++ t = rows_text ls ++ tail).
      { exists (skipn (S (length (row_text x))) u).
        assert (Y : firstn (S (length (row_text x))) u = row_text x ++ [10]).
        { assert (Z1 : firstn (S (length (row_text x))) (u ++ t) = firstn (S (length (row_text x))) (row_text x ++ 10 :: rows_text ls ++ tail)) by (rewrite E; reflexivity).
          rewrite firstn_app in Z1. replace (S (length (row_text x)) - length u)%nat with 0%nat in Z1 by lia. change (firstn 0 t) with (@nil Z) in Z1. rewrite app_nil_r in Z1. rewrite Z1.
          rewrite firstn_app. replace (S (length (row_text x)) - length (row_text x))%nat with 1%nat by lia. rewrite firstn_all2 by lia. reflexivity. }
        assert (Eu : u = row_text x ++ 10 :: skipn (S (length (row_text x))) u) by (pose proof (firstn_skipn (S (length (row_text x))) u) as FS; rewrite Y in FS; rewrite <- app_assoc in FS; symmetry; exact FS).
        split; auto. rewrite Eu in E. rewrite <- app_assoc in E. cbn [app] in E. apply app_inv_head in E. injection E as E. exact E. }
      destruct Eu as (v & -> & Ev). destruct (IH tail v t Hls' Ht Ev) as (a & b & tail' & -> & -> & Hn). exists (x :: a), b, tail'. split; auto. split; auto.
      cbn [rows_text]. rewrite <- app_assoc. reflexivity.
Qed.
Lemma cstate_more D h t a s : cstate D h a s -> zlen (D ++ t) < 2^63 -> cstate (D ++ t) h a s.
Proof. intros (l & Hi & H) Hz. exists l. split; auto. apply if_more; auto. Qed.
Lemma cstate_open D h a s k s1 h' s2 : cstate D h a s -> new_page_file (open_rws k (file s)) = (Ok tt, s1) -> new_index_file 1 s1 = (Ok h', s2) -> cstate D h a s2.
Proof. intros (l & Hi & H) E1 E2. exists l. split; auto. eapply if_open; eauto. Qed.
Lemma cfits_limits D h rows tail : cfits D h rows tail -> climits h rows.
Proof. intros (H1 & H2 & H). exact H. Qed.
Theorem clife_state D s : clife D s -> forall h rows tail t, cfits (D ++ t) h rows tail -> exists a b, rows = a ++ b /\ cstate D h a s /\ (a <> [] -> exists u, D = row_text h ++ 10 :: rows_text a ++ u).
Proof.
  induction 1 as [k s h0 s' E1 E2|D t0 s H IH Hz|D s r s' H IH Hc E Hz|D s k s1 h0 s2 H IH E1 E2]; intros h rows tail t Hfit.
  - exists [], rows. split; auto. split; [|congruence]. exists []. split; [apply (@if_new wd0 parse k 1 s h0 s'); auto; lia|]. split; [reflexivity|]. intros c e [].
  - rewrite <- app_assoc in Hfit. destruct (IH h rows tail (t0 ++ t) Hfit) as (a & b & -> & Hs & Hu). exists a, b. split; auto. split; [apply cstate_more; auto|].
    intros Ha. destruct (Hu Ha) as (u & ->). exists (u ++ t0). rewrite <- !app_assoc. cbn [app]. rewrite <- app_assoc. reflexivity.
  - destruct (IH h rows tail t Hfit) as (a & b & -> & Hs & Hu). pose proof (cfits_limits Hfit) as Hlim. pose proof Hfit as (HD & Ht & _). pose proof Hlim as (L1 & _ & _ & L4 & _).
    assert (Hcut : exists a2 b2 tail', h :: a ++ b = a2 ++ b2 /\ D = rows_text a2 ++ tail' /\ ~ In 10 tail').
    { apply (@ccut (h :: a ++ b) tail D t); [constructor; auto|auto|]. rewrite HD. cbn [rows_text]. rewrite <- app_assoc. reflexivity. }
    destruct Hcut as (a2 & b2 & tail' & Eab & HD2 & Hn'). destruct a2 as [|h2 c].
    + (* no complete line *) cbn [rows_text app] in HD2. subst tail'. assert (a = []).
      { destruct a as [|r0 a]; auto. destruct (Hu ltac:(discriminate)) as (u & Eu). exfalso. apply Hn'. rewrite Eu. apply in_or_app. right. left. reflexivity. }
      subst a. destruct (@csync_idle D h s Hn' Hs) as (s2 & E2 & S2). rewrite E in E2. injection E2 as -> ->. exists [], b. split; [reflexivity|]. split; [exact S2|congruence].
    + injection Eab as Eh Eab. subst h2. destruct c as [|r1 c].
      * exfalso. apply Hc. rewrite HD2. cbn [rows_text]. rewrite !count_occ_app. cbn [count_occ]. destruct (Z.eq_dec 10 10); [|contradiction].
        rewrite (proj1 (count_occ_not_In Z.eq_dec (row_text h) 10)) by (apply row_no10; auto). rewrite (proj1 (count_occ_not_In Z.eq_dec tail' 10)) by auto. reflexivity.
      * set (c' := r1 :: c) in *. assert (Hpre : exists b1, c' = a ++ b1).
        { destruct a as [|r0 a']; [exists c'; reflexivity|]. set (a := r0 :: a') in *. destruct (Hu ltac:(discriminate)) as (u & Eu). 
          destruct (Nat.le_gt_cases (length a) (length c')) as [Hle|Hgt].
          - exists (skipn (length a) c'). rewrite <- (firstn_skipn (length a) c') at 1. f_equal. assert (Y : firstn (length a) (a ++ b) = firstn (length a) (c' ++ b2)) by (rewrite Eab; reflexivity).
            rewrite firstn_app, Nat.sub_diag, firstn_all in Y. cbn [firstn] in Y. rewrite app_nil_r in Y. rewrite firstn_app in Y. replace (length a - length c')%nat with 0%nat in Y by lia. cbn [firstn] in Y. rewrite app_nil_r in Y. auto.
          - exfalso. assert (C1 : count_occ Z.eq_dec D 10 = S (length c')).
            { rewrite HD2, count_occ_app. rewrite (proj1 (count_occ_not_In Z.eq_dec tail' 10)) by auto. rewrite count_rows; [cbn [length]; lia|]. constructor; auto. rewrite Eab in L4. apply Forall_app in L4. tauto. }
            rewrite Eu in C1. change (row_text h ++ 10 :: rows_text a ++ u) with (row_text h ++ (10 :: rows_text a ++ u)) in C1. rewrite count_occ_app in C1. cbn [count_occ] in C1. destruct (Z.eq_dec 10 10); [|contradiction].
            rewrite count_occ_app, count_rows in C1; [lia|]. apply Forall_app in L4. tauto. }
        destruct Hpre as (b1 & Ec). assert (HD3 : D = row_text h ++ 10 :: rows_text (a ++ b1) ++ tail') by (rewrite HD2; cbn [rows_text]; rewrite <- Ec, <- app_assoc; reflexivity).
        assert (Eb : b = b1 ++ b2) by (rewrite Ec, <- app_assoc in Eab; apply app_inv_head in Eab; exact Eab).
        destruct (@csync_state D h a b1 tail' s HD3 Hn') as (s2 & E2 & S2); auto.
        { apply (@climits_part h (a ++ b1) b2). rewrite <- app_assoc, <- Eb. exact Hlim. }
        { rewrite <- Ec. discriminate. }
        { left. rewrite E. exact Hz. }
        rewrite E in E2. injection E2 as -> ->. exists (a ++ b1), b2. split; [rewrite <- app_assoc, <- Eb; auto|]. split; auto. intros _. exists tail'. exact HD3.
  - destruct (IH h rows tail t Hfit) as (a & b & -> & Hs & Hu). exists a, b. split; auto. split; auto. eapply cstate_open; eauto.
Qed.
Theorem clife_sync D s h rows tail : clife D s -> cfits D h rows tail -> rows <> [] -> zlen (file (snd (sync D s))) < 2^60 -> exists s', sync D s = (Ok tt, s') /\ cstate D h rows s'.
Proof.
  intros Hl Hfit Hne Hf. assert (Hfit' : cfits (D ++ []) h rows tail) by (rewrite app_nil_r; auto).
  destruct (@clife_state D s Hl h rows tail [] Hfit') as (a & b & -> & Hs & _). pose proof (cfits_limits Hfit) as Hlim. destruct Hfit as (HD & Ht & _). apply (@csync_state D h a b tail s); auto. left; exact Hf.
Qed.
(** what the state shows *)
Lemma cstate_shows D h a s i : cstate D h a s -> In i (map fst (csv_occs num h a)) -> cshows 0 D s i (centries (csv_occs num h a) i).
Proof.
  intros (l & Hi & Hl & _) Hin. assert (X : In (cex (csv_occs num h a) i) (map strip l)) by (rewrite Hl; unfold cexpected; apply in_map_iff; exists i; split; auto; apply firsts_in0; auto).
  apply in_map_iff in X. destruct X as (ix & E & Hix). unfold strip, cex in E. injection E as E1 E2 E3 E4.
  exists (ix_at ix), (IM (fst i) (snd i) (determine_type (snd i)) (ix_total ix)). split.
  - apply (@C23_existing_is_found wd0 parse D _ l s _ _ ix wd0_ok Hi Hix); auto.
  - destruct (ifile_holds wd0_ok Hi) as (_ & fl & ms & x0 & L & H). destruct (@holds_reads wd0 parse D s _ l fl ms x0 L ix H Hix) as (_ & es & P1 & P2 & P3). exists es. split; [|split; auto].
    rewrite E4 in P1. eapply Permutation_trans; [exact P1|]. apply Permutation_sym, Permutation_rev.
Qed.
Lemma cstate_only D h a s i : cstate D h a s -> zlen (file s) < 2^60 -> zlen (fst i) <= 245 -> 0 <= snd i < 2^8 -> cexists s i -> In i (map fst (csv_occs num h a)).
Proof.
  intros (l & Hi & Hl & _) Hf Hn Ht ([m im] & R). destruct i as [n ft]. pose proof (C23_found_exists wd0_ok Hi Hf Hn Ht R) as X. apply in_map_iff in X. destruct X as (ix & E & Hix). injection E as E1 E2.
  assert (Y : In (strip ix) (map strip l)) by (apply in_map; auto). rewrite Hl in Y. unfold cexpected in Y. apply in_map_iff in Y. destruct Y as ([n' ft'] & E & Hj). unfold strip in E. injection E as E3 E4 _ _. cbn [fst snd] in *. apply (proj1 (firsts_in0 _ _)) in Hj. subst. exact Hj.
Qed.
(** Every cell of every complete row is indexed under the name that the file's first line
    has in its column, however the file was cut into appends, closed and reopened; nothing
    else is indexed. What is missing from the full claim: the limits of [cfits] and that no
    Synchronize saw the header without a row; see PCsvEx.v. *)
Theorem C43_rows_under_header_names_partial D s h rows tail r s' : clife D s -> cfits D h rows tail -> rows <> [] -> sync D s = (r, s') -> zlen (file s') < 2^60 ->
  r = Ok tt /\ reads s' (if_field_names file_slot) (cells h) /\
  (forall i, In i (map fst (csv_occs num h rows)) -> cshows 0 D s' i (centries (csv_occs num h rows) i)) /\
  (forall i, zlen (fst i) <= 245 -> 0 <= snd i < 2^8 -> cexists s' i -> In i (map fst (csv_occs num h rows))).
Proof.
  intros Hl Hfit Hne E Hf. destruct (clife_sync Hl Hfit Hne) as (s2 & E2 & S2); [rewrite E; exact Hf|]. rewrite E in E2. injection E2 as -> ->.
  split; auto. split; [|split; [intros i Hi; apply cstate_shows; auto|intros i H1 H2 H3; exact (@cstate_only D h rows s2 i S2 Hf H1 H2 H3)]].
  pose proof S2 as (l & Hi & Hl' & _). pose proof (C26_field_names wd0_ok Hi) as R. destruct (cfits_limits Hfit) as (_ & L2 & _ & _ & L5 & L6).
  rewrite (@state_headers h rows l Hl' L2 L5 L6) in R. destruct rows; [congruence|exact R].
Qed.
(** The metadata afterwards: everything up to the last newline is consumed. The number of
    entries is still 0, whatever the number of rows. *)
Theorem C66_entries_stay_zero D s h rows tail r s' : clife D s -> cfits D h rows tail -> rows <> [] -> sync D s = (r, s') -> zlen (file s') < 2^60 ->
  reads s' (if_metadata file_slot) (FM 1 1 (zlen (row_text h ++ 10 :: rows_text rows)) 0).
Proof.
  intros Hl Hfit Hne E Hf. destruct (clife_sync Hl Hfit Hne) as (s2 & E2 & S2); [rewrite E; exact Hf|]. rewrite E in E2. injection E2 as -> ->.
  destruct S2 as (l & Hi & _). pose proof (C22_metadata wd0_ok Hi) as R. unfold offset_of in R. destruct rows; [congruence|]. rewrite zlen_app, zlen_cons. replace (zlen (row_text h) + (1 + zlen (rows_text (r :: rows)))) with (zlen (row_text h) + 1 + zlen (rows_text (r :: rows))) by lia. exact R.
Qed.

(** *** C44 *)
(** the entry [e] of the index [i] comes from a cell of the file: the text at its key's range
    is the text of that cell, and the text at its pointer is the text of the cell's row *)
Definition from_cell (D : bytes) (h : row) (rows : list row) (i : bytes * Z) (e : rv * mptr) : Prop :=
  exists r j v, In r rows /\ nth_error (cells h) j = Some (fst i) /\ nth_error (cells r) j = Some v /\ snd i = cell_type num v /\ rv_val (fst e) = cell_key num v /\
    slice D (mp_off (rv_dp (fst e))) (mp_len (rv_dp (fst e))) = v /\ slice D (mp_off (snd e)) (mp_len (snd e)) = row_text r.
Lemma occs_cell D line r0 hs0 : forall cs hs pos pre post (o : cocc), D = pre ++ commas cs ++ post -> zlen pre = pos -> In o (cell_occs num line pos hs cs) ->
  forall k, (forall j, nth_error hs j = nth_error hs0 (k + j)) -> (forall j, nth_error cs j = nth_error (cells r0) (k + j)) ->
  exists j v, nth_error hs0 j = Some (fst (fst o)) /\ nth_error (cells r0) j = Some v /\ snd (fst o) = cell_type num v /\ rv_val (fst (snd o)) = cell_key num v /\
    slice D (mp_off (rv_dp (fst (snd o)))) (mp_len (rv_dp (fst (snd o)))) = v /\ snd (snd o) = line.
Proof.
  induction cs as [|v cs IH]; intros hs pos pre post o HDe Hpos Ho k Hh Hc; [destruct hs; contradiction|]. destruct hs as [|h hs]; [contradiction|]. cbn [cell_occs] in Ho. destruct Ho as [<-|Ho].
  - exists k, v. cbn [fst snd rv_val rv_dp mp_off mp_len]. rewrite <- (Hh 0%nat), <- (Hc 0%nat) || (pose proof (Hh 0%nat) as X; pose proof (Hc 0%nat) as Y; rewrite Nat.add_0_r in X, Y; rewrite <- X, <- Y).
    split; [reflexivity|]. split; [reflexivity|]. split; [reflexivity|]. split; [reflexivity|]. split; [|reflexivity]. rewrite HDe. destruct cs as [|w cs].
    + cbn [commas]. apply slice_mid; auto.
    + change (commas (v :: w :: cs)) with (v ++ 44 :: commas (w :: cs)). replace (pre ++ (v ++ 44 :: commas (w :: cs)) ++ post) with (pre ++ v ++ (44 :: commas (w :: cs) ++ post)) by (rewrite <- app_assoc; reflexivity). apply slice_mid; auto.
  - destruct cs as [|w cs]; [destruct hs; contradiction|]. apply (IH hs (pos + zlen v + 1) (pre ++ v ++ [44]) post o) with (k := S k); auto.
    + rewrite HDe. change (commas (v :: w :: cs)) with (v ++ 44 :: commas (w :: cs)). repeat first [rewrite <- app_assoc|progress (cbn [app])]. reflexivity.
    + rewrite !zlen_app. change (zlen [44]) with 1. lia.
    + intros j. rewrite <- plus_n_Sm || idtac. pose proof (Hh (S j)) as X. cbn [nth_error] in X. rewrite X. f_equal. lia.
    + intros j. pose proof (Hc (S j)) as X. cbn [nth_error] in X. rewrite X. f_equal. lia.
Qed.
Lemma occs_rows D hs : forall rows at_ pre tail (o : cocc), D = pre ++ rows_text rows ++ tail -> zlen pre = at_ -> In o (row_occs num at_ hs rows) ->
  exists r j v, In r rows /\ nth_error hs j = Some (fst (fst o)) /\ nth_error (cells r) j = Some v /\ snd (fst o) = cell_type num v /\ rv_val (fst (snd o)) = cell_key num v /\
    slice D (mp_off (rv_dp (fst (snd o)))) (mp_len (rv_dp (fst (snd o)))) = v /\ slice D (mp_off (snd (snd o))) (mp_len (snd (snd o))) = row_text r.
Proof.
  induction rows as [|r rows IH]; intros at_ pre tail o HDe Hpre Ho; [contradiction|]. cbn [row_occs rows_text] in *. apply in_app_or in Ho. destruct Ho as [Ho|Ho].
  - destruct (@occs_cell D (MP at_ (zlen (row_text r))) r hs (cells r) hs at_ pre ((if cr r then [13] else []) ++ 10 :: rows_text rows ++ tail) o) with (k := 0%nat) as (j & v & A1 & A2 & A3 & A4 & A5 & A6); auto.
    { rewrite HDe. unfold row_text. repeat first [rewrite <- app_assoc|progress (cbn [app])]. reflexivity. }
    exists r, j, v. split; [left; auto|]. split; auto. split; auto. split; auto. split; auto. split; auto. rewrite A6. cbn [mp_off mp_len]. rewrite HDe.
    replace (pre ++ (row_text r ++ 10 :: rows_text rows) ++ tail) with (pre ++ row_text r ++ (10 :: rows_text rows ++ tail)) by (rewrite <- app_assoc; reflexivity). apply slice_mid; auto.
  - destruct (IH (at_ + zlen (row_text r) + 1) (pre ++ row_text r ++ [10]) tail o) as (r1 & j & v & A1 & A2); auto.
    { rewrite HDe. repeat first [rewrite <- app_assoc|progress (cbn [app])]. reflexivity. }
    { rewrite !zlen_app. change (zlen [10]) with 1. lia. }
    exists r1, j, v. split; [right; auto|auto].
Qed.
(** Every entry a walk of an index lists comes from a cell: its ranges hold the texts of the
    cell and of its row. What is missing: quoted cells, for which it is false (PCsvEx.v). *)
Theorem C44_ranges_hold_the_text_partial D s h rows tail r s' i m im n es : clife D s -> cfits D h rows tail -> rows <> [] -> sync D s = (r, s') -> zlen (file s') < 2^60 ->
  In i (map fst (csv_occs num h rows)) -> reads s' (find_or_create file_slot (fst i) (snd i)) (m, im) -> walk (mkCodec 0 D parse) m s' least n = Ok es ->
  Forall (from_cell D h rows i) es.
Proof.
  intros Hl Hfit Hne E Hf Hin R Hw. destruct (@C43_rows_under_header_names_partial D s h rows tail r s' Hl Hfit Hne E Hf) as (_ & _ & S & _). destruct (S i Hin) as (m' & im' & R' & es' & P & _ & W).
  assert (m = m'). { destruct R as (s1 & E1 & _). destruct R' as (s3 & E3 & _). rewrite E1 in E3. congruence. } subst m'. rewrite W in Hw. assert (Hes : es = firstn n es') by congruence. subst es.
  apply Forall_forall. intros e He. assert (He' : In e es') by (rewrite <- (firstn_skipn n es'); apply in_or_app; auto). apply (Permutation_in _ P) in He'.
  unfold centries in He'. apply in_map_iff in He'. destruct He' as (o & <- & Ho). apply filter_In in Ho. destruct Ho as [Ho Ei]. rewrite same_id in Ei. apply id_eqb_spec in Ei. subst i.
  destruct Hfit as (HDe & _). destruct (@occs_rows D (cells h) rows (zlen (row_text h) + 1) (row_text h ++ [10]) tail o) as (r1 & j & v & A1 & A2 & A3 & A4 & A5 & A6 & A7); auto.
  { rewrite HDe. rewrite <- app_assoc. reflexivity. }
  { rewrite zlen_app. reflexivity. }
  exists r1, j, v. auto 10.
Qed.
(** Conversely every cell has its entry. *)
Lemma cell_has line pos hs cs j name v : nth_error hs j = Some name -> nth_error cs j = Some v -> exists k, In ((name, cell_type num v), (k, line)) (cell_occs num line pos hs cs) /\ rv_val k = cell_key num v /\ mp_len (rv_dp k) = zlen v.
Proof.
  revert pos hs cs. induction j as [|j IH]; intros pos [|h hs] [|c cs] H1 H2; cbn [nth_error] in *; try discriminate.
  - injection H1 as ->. injection H2 as ->. eexists. split; [left; reflexivity|]. auto.
  - destruct (IH (pos + zlen c + 1) hs cs H1 H2) as (k & K1 & K2). exists k. split; [right; exact K1|exact K2].
Qed.
Theorem C43_every_cell_is_listed D s h rows tail r s' x j name v : clife D s -> cfits D h rows tail -> sync D s = (r, s') -> zlen (file s') < 2^60 ->
  In x rows -> nth_error (cells h) j = Some name -> nth_error (cells x) j = Some v ->
  exists m im n es e, reads s' (find_or_create file_slot name (cell_type num v)) (m, im) /\ walk (mkCodec 0 D parse) m s' least n = Ok es /\ In e es /\
    rv_val (fst e) = cell_key num v /\ mp_len (rv_dp (fst e)) = zlen v /\ slice D (mp_off (snd e)) (mp_len (snd e)) = row_text x.
Proof.
  intros Hl Hfit E Hf Hx Hn Hv. assert (Hne : rows <> []) by (intros ->; contradiction).
  destruct (@C43_rows_under_header_names_partial D s h rows tail r s' Hl Hfit Hne E Hf) as (_ & _ & S & _).
  assert (Ho : exists k p, In ((name, cell_type num v), (k, p)) (csv_occs num h rows) /\ rv_val k = cell_key num v /\ mp_len (rv_dp k) = zlen v /\ slice D (mp_off p) (mp_len p) = row_text x).
  { destruct Hfit as (HDe & _). clear - HDe Hx Hn Hv. unfold csv_occs. assert (G : forall rows at_ pre tail, D = pre ++ rows_text rows ++ tail -> zlen pre = at_ -> In x rows ->
      exists k p, In ((name, cell_type num v), (k, p)) (row_occs num at_ (cells h) rows) /\ rv_val k = cell_key num v /\ mp_len (rv_dp k) = zlen v /\ slice D (mp_off p) (mp_len p) = row_text x).
    { clear - Hn Hv. induction rows as [|y rows IH]; intros at_ pre tail HDe Hpre Hx; [contradiction|]. cbn [row_occs rows_text] in *. destruct Hx as [->|Hx].
      - destruct (@cell_has (MP at_ (zlen (row_text x))) at_ (cells h) (cells x) j name v Hn Hv) as (k & K1 & K2 & K3). exists k, (MP at_ (zlen (row_text x))). split; [apply in_or_app; auto|]. split; auto. split; auto.
        cbn [mp_off mp_len]. rewrite HDe. replace (pre ++ (row_text x ++ 10 :: rows_text rows) ++ tail) with (pre ++ row_text x ++ (10 :: rows_text rows ++ tail)) by (rewrite <- app_assoc; reflexivity). apply slice_mid; auto.
      - destruct (IH (at_ + zlen (row_text y) + 1) (pre ++ row_text y ++ [10]) tail) as (k & p & A1 & A2); auto.
        { rewrite HDe. repeat first [rewrite <- app_assoc|progress (cbn [app])]. reflexivity. }
        { rewrite !zlen_app. change (zlen [10]) with 1. lia. }
        exists k, p. split; [apply in_or_app; auto|auto]. }
    apply (G rows (zlen (row_text h) + 1) (row_text h ++ [10]) tail); auto; [rewrite HDe, <- app_assoc; reflexivity|rewrite zlen_app; reflexivity]. }
  destruct Ho as (k & p & Ho & K1 & K2 & K3). destruct (S (name, cell_type num v)) as (m & im & R & es & P & _ & W); [apply in_map_iff; exists ((name, cell_type num v), (k, p)); auto|].
  exists m, im, (length es), es, (k, p). split; [exact R|]. split; [rewrite W, firstn_all; reflexivity|]. split; [|auto].
  apply (Permutation_in _ (Permutation_sym P)). unfold centries. apply in_map_iff. exists ((name, cell_type num v), (k, p)). split; [reflexivity|]. apply filter_In. split; auto. rewrite same_id. apply id_eqb_refl.
Qed.

(** *** C62 *)
(** Text indexes can be read with the width their metadata declare. What is missing: the
    indexes of the other types, for which it is false (PCsvEx.v). *)
Theorem C62_text_indexes_have_the_declared_width_partial D s h rows tail r s' name m im : clife D s -> cfits D h rows tail -> rows <> [] -> sync D s = (r, s') -> zlen (file s') < 2^60 ->
  In (name, FTString) (map fst (csv_occs num h rows)) -> reads s' (find_or_create file_slot name FTString) (m, im) ->
  exists es, Permutation es (centries (csv_occs num h rows) (name, FTString)) /\ ascending es /\ forall n, walk (mkCodec (im_width im) D parse) m s' least n = Ok (firstn n es).
Proof.
  intros Hl Hfit Hne E Hf Hin R. destruct (clife_sync Hl Hfit Hne) as (s2 & E2 & S2); [rewrite E; exact Hf|]. rewrite E in E2. injection E2 as -> ->.
  destruct (@cstate_shows D h rows s2 (name, FTString) S2 Hin) as (m' & im' & R' & es & P & A & W).
  assert (X : m = m'). { destruct R as (s1 & E1 & _). destruct R' as (s3 & E3 & _). cbn [fst snd] in E3. rewrite E1 in E3. congruence. } subst m'.
  assert (Hw : im_width im = 0).
  { destruct S2 as (l & Hi & Hl' & _). assert (Y : In (cex (csv_occs num h rows) (name, FTString)) (map strip l)) by (rewrite Hl'; unfold cexpected; apply in_map_iff; exists (name, FTString); split; auto; apply firsts_in0; auto).
    apply in_map_iff in Y. destruct Y as (ix & Ex & Hix). unfold strip, cex in Ex. cbn [fst snd] in Ex. injection Ex as X1 X2 X3 X4.
    pose proof (@C23_existing_is_found wd0 parse D _ l s2 _ _ ix wd0_ok Hi Hix X1 X2) as (s4 & E4 & _). destruct R as (s1 & E1 & _). rewrite E1 in E4. injection E4 as _ -> _. reflexivity. }
  exists es. rewrite Hw. auto.
Qed.
End P.
