(** C87: from a CSV data file to the answer in the browser: the file is synchronized, then the
    browser queries a text column. The data handler converts key texts with Parse, the browser
    takes them as they are (parseValue, case CSV: src/bptree/node.ts:237-239): [Some]. *)
From Coq Require Import Permutation Sorted.
From Verif Require Import Base Varint Store PageFile PageHist RefValue Node LinkedPage BPTree BPRepr BPIter BPInsert BPLoop BPTop PTree Meta TsCodec Slots SlotAdd PSlots Cells IndexFile IFileInv PIndex Json Jsonl Grows JsonlRun JsonlSpec JsonlHist Csv CsvSpec CsvRun PCsv Query QTree TsFile PQuery PJsonlQuery JsParse PSelect.

Section P.
Variable num : bytes -> option bytes.
Notation sync := (csv_sync num file_slot).
Notation parse := (fun v => Some (csv_parse num v)).
Notation clife := (clife num).
Notation cstate := (cstate num).

(** ** Specification *)
(** the cell of row [r] in the column [name], if it is a text (not empty, not a number, not a truth value) *)
Definition text_cell (h : row) (name : bytes) (r : row) : list (row * bytes) :=
  map (fun x => (r, snd x)) (filter (fun x => text_in (fst x) [name] && (cell_type num (snd x) =? FTString)) (combine (cells h) (cells r))).
Definition text_column (h : row) (rows : list row) (name : bytes) : list (row * bytes) := flat_map (text_cell h name) rows.
Definition cell_hit (op : qop) (w : bytes) (x : row * bytes) : bool :=
  let c := bytes_cmp (snd x) w in
  match op with QLt => c <? 0 | QLe => c <=? 0 | QEq => c =? 0 | QGe => 0 <=? c | QGt => 0 <? c end.
Definition in_order (dir : qdir) (l : list (row * bytes)) : Prop :=
  StronglySorted (fun a b => match dir with Asc => bytes_cmp (snd a) (snd b) <= 0 | Desc => 0 <= bytes_cmp (snd a) (snd b) end) l.
(** the first [n] of the rows whose cell matches, each once, in the order of their cells *)
Definition rows_found (h : row) (rows : list row) (name : bytes) (op : qop) (dir : qdir) (w : bytes) (n : nat) (r : res (list bytes)) : Prop :=
  exists found, Permutation found (filter (cell_hit op w) (text_column h rows name)) /\ in_order dir found /\
    r = Ok (map (fun x => row_text (fst x)) (firstn n found)).
(** FindOrCreateIndex finds an index of texts for the column whose root page is a leaf: it fits in one page *)
Definition small_text_index (D : bytes) (s : st) (name : bytes) : Prop :=
  exists m im n, reads s (find_or_create file_slot name FTString) (m, im) /\
    ts_rd (mkCodec 0 D Some) (file s) (root_at (file s) m) = Ok n /\ is_leaf n = true.

(** ** Proofs *)
(** entry and cell *)
Definition stands (D : bytes) (rows : list row) (e : rv * mptr) (x : row * bytes) : Prop :=
  rv_val (fst e) = snd x /\ record_of D e = row_text (fst x) /\ mp_len (snd e) = zlen (row_text (fst x)) /\ In (fst x) rows /\
  slice D (mp_off (rv_dp (fst e))) (mp_len (rv_dp (fst e))) = rv_val (fst e) /\
  (0 <= mp_off (rv_dp (fst e)) /\ 0 <= mp_len (rv_dp (fst e)) /\ mp_off (rv_dp (fst e)) + mp_len (rv_dp (fst e)) <= zlen D) /\
  (0 <= mp_off (snd e) /\ 0 <= mp_len (snd e) /\ mp_off (snd e) + mp_len (snd e) <= zlen D).
Lemma text_key v : cell_type num v = FTString -> cell_key num v = v.
Proof.
  unfold cell_type, cell_key. destruct (text_in v [[]]); [discriminate|]. destruct (num v); [discriminate|]. unfold text_in. intros H.
  destruct (in_dec (list_eq_dec Z.eq_dec) v (yes ++ no)) as [X|X]; [discriminate|].
  destruct (in_dec (list_eq_dec Z.eq_dec) v yes) as [Y|_]; [exfalso; apply X, in_or_app; auto|].
  destruct (in_dec (list_eq_dec Z.eq_dec) v no) as [Y|_]; [exfalso; apply X, in_or_app; auto|]. reflexivity.
Qed.
Lemma cells_stand D rows r name a : forall cs hs pre post, D = pre ++ commas cs ++ post -> In r rows -> 0 <= a -> slice D a (zlen (row_text r)) = row_text r -> a + zlen (row_text r) <= zlen D ->
  Forall2 (stands D rows) (centries (cell_occs num (MP a (zlen (row_text r))) (zlen pre) hs cs) (name, FTString))
    (map (fun x => (r, snd x)) (filter (fun x => text_in (fst x) [name] && (cell_type num (snd x) =? FTString)) (combine hs cs))).
Proof.
  induction cs as [|v cs IH]; intros hs pre post HD Hr Ha Hs Hle; [destruct hs; constructor|]. destruct hs as [|n hs]; [constructor|]. cbn [cell_occs combine filter fst snd].
  unfold centries. cbn [filter]. fold (centries (cell_occs num (MP a (zlen (row_text r))) (zlen pre + zlen v + 1) hs cs) (name, FTString)).
  assert (Hrest : Forall2 (stands D rows) (centries (cell_occs num (MP a (zlen (row_text r))) (zlen pre + zlen v + 1) hs cs) (name, FTString))
    (map (fun x => (r, snd x)) (filter (fun x => text_in (fst x) [name] && (cell_type num (snd x) =? FTString)) (combine hs cs)))).
  { destruct cs as [|v2 cs]; [destruct hs; constructor|]. change (commas (v :: v2 :: cs)) with (v ++ 44 :: commas (v2 :: cs)) in HD.
    replace (zlen pre + zlen v + 1) with (zlen (pre ++ v ++ [44])) by (rewrite !zlen_app; change (zlen [44]) with 1; lia). apply IH with (post := post); auto.
    rewrite HD, <- !app_assoc. reflexivity. }
  assert (Ep : same_idb (n, cell_type num v) (name, FTString) = text_in n [name] && (cell_type num v =? FTString)).
  { unfold same_idb, text_in. cbn [fst snd]. f_equal. destruct (list_eq_dec Z.eq_dec n name) as [E|E]; destruct (in_dec (list_eq_dec Z.eq_dec) n [name]) as [I|I]; auto; exfalso; [apply I; left; auto|destruct I as [I|[]]; congruence]. }
  cbn [fst snd]. rewrite Ep. destruct (text_in n [name] && (cell_type num v =? FTString)) eqn:E; [|exact Hrest]. cbn [map snd]. constructor; [|exact Hrest].
  apply andb_true_iff in E. destruct E as [_ E]. apply Z.eqb_eq in E. rewrite (text_key _ E).
  assert (Hv : exists tl, D = pre ++ v ++ tl).
  { destruct cs as [|v2 cs]; [exists post; exact HD|]. exists (44 :: commas (v2 :: cs) ++ post). rewrite HD. change (commas (v :: v2 :: cs)) with (v ++ 44 :: commas (v2 :: cs)). rewrite <- app_assoc. reflexivity. }
  destruct Hv as (tl & HD2). unfold stands, record_of. cbn [fst snd rv_val rv_dp mp_off mp_len]. pose proof (zlen_nonneg v). pose proof (zlen_nonneg pre). pose proof (zlen_nonneg tl). pose proof (zlen_nonneg (row_text r)).
  split; auto. split; auto. split; auto. split; auto. split; [rewrite HD2; apply slice_mid; reflexivity|]. split; [|lia]. rewrite HD2, !zlen_app. lia.
Qed.
Lemma rows_stand D all name h : forall rows pre post, D = pre ++ rows_text rows ++ post -> (forall r, In r rows -> In r all) ->
  Forall2 (stands D all) (centries (row_occs num (zlen pre) (cells h) rows) (name, FTString)) (text_column h rows name).
Proof.
  induction rows as [|r rows IH]; intros pre post HD Hall; [constructor|]. cbn [row_occs text_column flat_map]. unfold centries. rewrite filter_app, map_app. apply Forall2_app.
  - unfold text_cell. cbn [rows_text] in HD. rewrite <- app_assoc in HD. cbn [app] in HD. rewrite app_comm_cons in HD.
    pose proof (zlen_nonneg pre). pose proof (zlen_nonneg post). pose proof (zlen_nonneg (rows_text rows)).
    apply (@cells_stand D all r name (zlen pre) (cells r) (cells h) pre ((if cr r then [13] else []) ++ 10 :: rows_text rows ++ post)).
    + rewrite HD. unfold row_text. rewrite <- !app_assoc. reflexivity.
    + apply Hall. left; auto.
    + lia.
    + rewrite HD. apply slice_mid; reflexivity.
    + rewrite HD, !zlen_app, (zlen_cons 10). lia.
  - replace (zlen pre + zlen (row_text r) + 1) with (zlen (pre ++ row_text r ++ [10])) by (rewrite !zlen_app; change (zlen [10]) with 1; lia). apply IH with (post := post).
    + rewrite HD. cbn [rows_text]. rewrite <- !app_assoc. reflexivity.
    + intros; apply Hall; right; auto.
Qed.
Lemma csv_stand D h rows tail name : D = row_text h ++ 10 :: rows_text rows ++ tail ->
  Forall2 (stands D rows) (centries (csv_occs num h rows) (name, FTString)) (text_column h rows name).
Proof.
  intros HD. unfold csv_occs. replace (zlen (row_text h) + 1) with (zlen (row_text h ++ [10])) by (rewrite zlen_app; reflexivity). apply rows_stand with (post := tail); auto. rewrite HD, <- app_assoc. reflexivity.
Qed.
Lemma f2_perm {A B} (R : A -> B -> Prop) a a' : Permutation a a' -> forall b, Forall2 R a b -> exists b', Permutation b b' /\ Forall2 R a' b'.
Proof.
  induction 1 as [|x l l' P IH|x y l|l1 l2 l3 P1 IH1 P2 IH2]; intros b F.
  - inversion F. exists []. split; auto.
  - inversion F as [|? y ? b2 H1 H2]; subst. destruct (IH _ H2) as (b' & Q & G). exists (y :: b'). split; auto.
  - inversion F as [|? u ? b2 H1 H2]; subst. inversion H2 as [|? w ? b3 H3 H4]; subst. exists (w :: u :: b3). split; [apply perm_swap|auto].
  - destruct (IH1 _ F) as (b' & Q & G). destruct (IH2 _ G) as (b2 & Q2 & G2). exists b2. split; [eapply perm_trans; eauto|auto].
Qed.
Lemma f2_filter {A B} (R : A -> B -> Prop) p q a b : (forall x y, R x y -> p x = q y) -> Forall2 R a b -> Forall2 R (filter p a) (filter q b).
Proof. intros H. induction 1 as [|x y a b Hr F IH]; [constructor|]. cbn [filter]. rewrite <- (H _ _ Hr). destruct (p x); auto. Qed.
Lemma f2_firstn {A B} (R : A -> B -> Prop) n : forall a b, Forall2 R a b -> Forall2 R (firstn n a) (firstn n b).
Proof. induction n as [|n IH]; intros a b F; [constructor|]. destruct F; cbn [firstn]; auto. Qed.
Lemma f2_sorted {A B} (R : A -> B -> Prop) (S : A -> A -> Prop) (T : B -> B -> Prop) : (forall x x' y y', R x y -> R x' y' -> S x x' -> T y y') -> forall a b, Forall2 R a b -> StronglySorted S a -> StronglySorted T b.
Proof.
  intros H. induction 1 as [|x y a b Hr F IH]; intros Hs; [constructor|]. inversion Hs as [|? ? H1 H2]; subst. constructor; [auto|]. clear IH Hs.
  induction F as [|x' y' a b Hr' F IH]; [constructor|]. inversion H2; subst. inversion H1; subst. constructor; [eapply H; eauto|auto].
Qed.
Lemma ss_swap {A} (R : A -> A -> Prop) l : StronglySorted R (rev l) -> StronglySorted (fun a b => R b a) l.
Proof. intros H. apply ss_rev in H. rewrite rev_involutive in H. exact H. Qed.
Lemma val_le (a b : rv) : rv_cmp a b < 0 -> bytes_cmp (rv_val a) (rv_val b) <= 0.
Proof. unfold rv_cmp. destruct (Z.eqb_spec (bytes_cmp (rv_val a) (rv_val b)) 0) as [E|E]; cbn [negb]; lia. Qed.
Lemma answer_stand D rows es col op dir w n r : Forall2 (stands D rows) es col -> answer D es op dir w n r ->
  exists found, Permutation found (filter (cell_hit op w) col) /\ in_order dir found /\ r = Ok (map (fun x => row_text (fst x)) (firstn n found)).
Proof.
  intros F (found & P & O & ->).
  assert (F2 : Forall2 (stands D rows) (filter (satisfies op w) es) (filter (cell_hit op w) col)).
  { apply f2_filter; auto. intros e x (Hv & _). unfold satisfies, cell_hit. rewrite Hv. reflexivity. }
  destruct (f2_perm (Permutation_sym P) F2) as (found' & Q & G). exists found'. split; [symmetry; exact Q|]. split.
  - unfold in_order. destruct dir; unfold ordered in O.
    + eapply (@f2_sorted _ _ (stands D rows) (fun a b => rv_cmp (fst a) (fst b) < 0)); [|exact G|exact O]. intros x x' y y' (E1 & _) (E2 & _). rewrite <- E1, <- E2. apply val_le.
    + eapply (@f2_sorted _ _ (stands D rows) (fun a b => rv_cmp (fst b) (fst a) < 0)); [|exact G|exact (@ss_swap _ (fun a b : rv * mptr => rv_cmp (fst a) (fst b) < 0) found O)]. intros x x' y y' (E1 & _) (E2 & _) X. rewrite <- E1, <- E2. apply val_le in X. rewrite bytes_cmp_anti in X. lia.
  - f_equal. pose proof (f2_firstn n G) as X. induction X as [|e x a b (_ & E & _) X IH]; [reflexivity|]. cbn [map]. rewrite IH, E. reflexivity.
Qed.

Section End_.
Variables (D : bytes) (s s' : st) (h : row) (rows : list row) (tail : bytes) (r0 : res unit) (name : bytes) (w : bytes) (fuel : nat).
Hypothesis Hlife : clife D s.
Hypothesis Hfits : cfits D h rows tail.
Hypothesis Hrows : rows <> [].
Hypothesis Hsync : sync D s = (r0, s').
(** the limits of the browser *)
Hypothesis Hfile : zlen (file s') <= 2^31.
Hypothesis Hdata : zlen D < 2^31.
Hypothesis Hlong : Forall (fun r => 2 <= zlen (row_text r)) rows.
(** the column has a text *)
Hypothesis Hcol : text_column h rows name <> [].
Hypothesis Hfuel : (fuel_of s' <= fuel)%nat.

Lemma cend_index : exists fm l ix, ifile wd0 parse D fm l s' /\ readable wd0 D fm l s' ix /\ ix_name ix = name /\ ix_type ix = FTString /\ ix_es ix = rev (centries (csv_occs num h rows) (name, FTString)).
Proof.
  destruct (@clife_sync num D s h rows tail Hlife Hfits Hrows) as (s2 & E2 & S2); [rewrite Hsync; cbn [snd]; lia|]. rewrite Hsync in E2. injection E2 as _ <-.
  destruct S2 as (l & Hif & Hl & _). pose proof (@csv_stand D h rows tail name (proj1 Hfits)) as F.
  assert (Hne : centries (csv_occs num h rows) (name, FTString) <> []) by (intros E; rewrite E in F; inversion F; congruence).
  assert (Hid : In (name, FTString) (map fst (csv_occs num h rows))).
  { unfold centries in Hne. destruct (filter (fun o => same_idb (fst o) (name, FTString)) (csv_occs num h rows)) as [|o os] eqn:E; [contradiction|].
    assert (X : In o (filter (fun o => same_idb (fst o) (name, FTString)) (csv_occs num h rows))) by (rewrite E; left; auto). apply filter_In in X. destruct X as [X1 X2]. rewrite same_id in X2. apply id_eqb_spec in X2. rewrite <- X2. apply in_map; auto. }
  assert (Y : In (cex (csv_occs num h rows) (name, FTString)) (map strip l)) by (rewrite Hl; unfold cexpected; apply in_map_iff; exists (name, FTString); split; auto; apply firsts_in0; auto).
  apply in_map_iff in Y. destruct Y as (ix & Ei & Hin). unfold strip, cex in Ei. cbn [fst snd] in Ei. injection Ei as En Et Eo Es.
  eexists _, l, ix. split; [exact Hif|]. split; [|auto].
  assert (Hall : forall ix', In ix' l -> ix_total ix' = 0 /\ exists v, ix_type ix' = cell_type num v).
  { intros ix' Hi'. assert (X : In (strip ix') (cexpected (csv_occs num h rows))) by (rewrite <- Hl; apply in_map; auto). unfold cexpected in X. apply in_map_iff in X. destruct X as (i & E & Hi). unfold strip in E. injection E as E1 E3 E4 E5.
    split; [auto|]. apply (proj1 (firsts_in0 _ _)) in Hi. apply in_map_iff in Hi. destruct Hi as (o & Eo' & Ho). unfold csv_occs in Ho.
    assert (G : forall rs a, In o (row_occs num a (cells h) rs) -> exists v, snd (fst o) = cell_type num v).
    { clear. induction rs as [|r rs IH]; intros a Ho; [destruct Ho|]. cbn [row_occs] in Ho. apply in_app_or in Ho. destruct Ho as [Ho|Ho]; [|eauto].
      revert Ho. generalize (MP a (zlen (row_text r))). generalize (cells h). generalize a. induction (cells r) as [|v cs IHc]; intros b [|n hs] m Ho; cbn [cell_occs] in Ho; try contradiction.
      destruct Ho as [<-|Ho]; [exists v; reflexivity|eauto]. }
    destruct (G _ _ Ho) as (v & Ev). exists v. rewrite <- Ev, Eo'. auto. }
  constructor; auto.
  - intros ix' Hi'. destruct (Hall ix' Hi') as (_ & v & ->). unfold cell_type. destruct (text_in v [[]]); [split; discriminate|]. destruct (num v); [split; discriminate|]. destruct (text_in v (yes ++ no)); split; discriminate.
  - rewrite Et. reflexivity.
  - cbn. lia.
  - apply Forall_forall. intros ix' Hi'. destruct (Hall ix' Hi') as (-> & _). lia.
  - rewrite Es. intros E. apply Hne. rewrite <- (rev_involutive (centries _ _)), E. reflexivity.
  - rewrite Es. apply Forall_rev. rewrite Forall_forall in *. clear - F Hdata Hlong. induction F as [|e x es col (_ & _ & El & Hin & _ & (B1 & B2 & B3) & (B4 & B5 & B6)) F IH]; intros y Hy; [destruct Hy|].
    destruct Hy as [<-|Hy]; [|auto]. split; [|rewrite El; apply Hlong; auto]. unfold entry_small, mptr_small. lia.
Qed.
Lemma csame ix : ix_type ix = FTString -> ix_es ix = rev (centries (csv_occs num h rows) (name, FTString)) ->
  forall e, In e (ix_es ix) -> key_ok (ix_codec wd0 parse D (ix_type ix)) (fst e) -> key_ok (ix_codec wd0 Some D (ix_type ix)) (fst e).
Proof.
  intros Et Es e He (K1 & K2). split; [exact K1|]. rewrite Et in *. cbn [ix_codec cwidth cdata cparse wd0] in *. change (wd0 FTString) with 0 in *. cbn [Z.eqb] in *. split; [tauto|].
  rewrite Es in He. apply in_rev in He. pose proof (@csv_stand D h rows tail name (proj1 Hfits)) as F. clear - F He. induction F as [|e0 x es col (_ & _ & _ & _ & Hs & _) F IH]; [destruct He|]. destruct He as [<-|He]; [rewrite Hs; reflexivity|auto].
Qed.

Notation query op dir limit n := (ts_query Some fuel (file s') D (QY [CW name op (WStr w)] [dir] limit) n).
(** Descending < and <=: exactly the rows whose cell matches, in descending order of the cell. *)
Theorem C87_rows_below_partial op limit n : op = QLt \/ op = QLe -> rows_found h rows name op Desc w n (query op Desc limit n).
Proof.
  intros Hop. destruct cend_index as (fm & l & ix & Hif & Hr & En & Et & Es).
  assert (Hv : value_type (WStr w) = Some (ix_type ix)) by (rewrite Et; reflexivity).
  pose proof (@ask_desc_low wd0 parse Some D fm l s' ix wd0_ok Hif Hr (@csame ix Et Es) (WStr w) fuel Hv Hfuel op limit n Hop) as A. unfold ask in A. rewrite En in A.
  rewrite Es in A. eapply answer_stand; [apply (@csv_stand D h rows tail name (proj1 Hfits))|]. eapply answer_perm; [|exact A]. symmetry. apply Permutation_rev.
Qed.
(** Ascending >, >= and ==: exactly the rows whose cell matches, in ascending order of the cell, or nothing at all. *)
Theorem C87_rows_above_partial op limit n : op = QGt \/ op = QGe \/ op = QEq ->
  rows_found h rows name op Asc w n (query op Asc limit n) \/ query op Asc limit n = Ok [].
Proof.
  intros Hop. destruct cend_index as (fm & l & ix & Hif & Hr & En & Et & Es).
  assert (Hv : value_type (WStr w) = Some (ix_type ix)) by (rewrite Et; reflexivity).
  pose proof (@ask_asc_high wd0 parse Some D fm l s' ix wd0_ok Hif Hr (@csame ix Et Es) (WStr w) fuel Hv Hfuel op limit n Hop) as A. unfold ask in A. rewrite En in A.
  destruct A as [A|A]; [left|right; exact A].
  rewrite Es in A. eapply answer_stand; [apply (@csv_stand D h rows tail name (proj1 Hfits))|]. eapply answer_perm; [|exact A]. symmetry. apply Permutation_rev.
Qed.
Lemma csmall_one fm l ix : ifile wd0 parse D fm l s' -> readable wd0 D fm l s' ix -> ix_name ix = name -> ix_type ix = FTString ->
  small_text_index D s' name <-> one_page wd0 Some D s' ix.
Proof.
  intros Hif Hr En Et. destruct (@C23_existing_is_found wd0 parse D _ l s' _ _ ix wd0_ok Hif (rb_in Hr) En Et) as (q & Eq & Eqf). unfold one_page. rewrite Et. split.
  - intros (m & im & nd & (q' & Eq' & _) & X1 & X2). rewrite Eq in Eq'. injection Eq' as <- _ _. exists nd. auto.
  - intros (nd & X1 & X2). do 2 eexists. exists nd. split; [exists q; split; [exact Eq|exact Eqf]|auto].
Qed.
(** ... and never nothing when the index fits in one page; == in either direction. *)
Theorem C87_one_page_partial op dir limit n : (op = QGt \/ op = QGe) /\ dir = Asc \/ op = QEq -> small_text_index D s' name ->
  rows_found h rows name op Asc w n (query op dir limit n).
Proof.
  intros Hop Hone. destruct cend_index as (fm & l & ix & Hif & Hr & En & Et & Es). apply (csmall_one Hif Hr En Et) in Hone.
  assert (Hv : value_type (WStr w) = Some (ix_type ix)) by (rewrite Et; reflexivity).
  assert (Hop' : op = QGt \/ op = QGe \/ op = QEq) by tauto.
  pose proof (@ask_one_page wd0 parse Some D fm l s' ix wd0_ok Hif Hr (@csame ix Et Es) (WStr w) fuel Hv Hfuel op limit n Hop' Hone) as A.
  pose proof (@ask_eq_direction wd0 parse Some D fm l s' ix wd0_ok Hif Hr (@csame ix Et Es) (WStr w) fuel Hv Hfuel limit n) as Q. unfold ask in A, Q. rewrite En in A, Q.
  assert (E : query op dir limit n = query op Asc limit n).
  { destruct Hop as [[_ ->]| ->]; [reflexivity|]. destruct dir; [reflexivity|]. exact Q. }
  rewrite E. rewrite Es in A. eapply answer_stand; [apply (@csv_stand D h rows tail name (proj1 Hfits))|]. eapply answer_perm; [|exact A]. symmetry. apply Permutation_rev.
Qed.
(** Ascending < and <=, when the index takes more than one page. *)
Theorem C87_ascending_below_partial op limit n : op = QLt \/ op = QLe -> ~ small_text_index D s' name ->
  rows_found h rows name op Asc w n (query op Asc limit n).
Proof.
  intros Hop Hone. destruct cend_index as (fm & l & ix & Hif & Hr & En & Et & Es). rewrite (csmall_one Hif Hr En Et) in Hone.
  assert (Hv : value_type (WStr w) = Some (ix_type ix)) by (rewrite Et; reflexivity).
  pose proof (@ask_asc_low wd0 parse Some D fm l s' ix wd0_ok Hif Hr (@csame ix Et Es) (WStr w) fuel Hv Hfuel op limit n Hop Hone) as A. unfold ask in A. rewrite En in A.
  rewrite Es in A. eapply answer_stand; [apply (@csv_stand D h rows tail name (proj1 Hfits))|]. eapply answer_perm; [|exact A]. symmetry. apply Permutation_rev.
Qed.
(** Descending > and >=, when the index takes more than one page: there is a row, with a cell not less
    than any other, that is never returned, and > returns what >= returns. *)
Theorem C87_descending_above_refuted op limit n : op = QGt \/ op = QGe -> ~ small_text_index D s' name ->
  exists last rest found, Permutation (last :: rest) (text_column h rows name) /\ (forall y, In y rest -> bytes_cmp (snd y) (snd last) <= 0) /\
    Permutation found (filter (cell_hit QGe w) rest) /\ in_order Desc found /\ query op Desc limit n = Ok (map (fun x => row_text (fst x)) (firstn n found)).
Proof.
  intros Hop Hone. destruct cend_index as (fm & l & ix & Hif & Hr & En & Et & Es). rewrite (csmall_one Hif Hr En Et) in Hone.
  assert (Hv : value_type (WStr w) = Some (ix_type ix)) by (rewrite Et; reflexivity).
  destruct (@ask_desc_high wd0 parse Some D fm l s' ix wd0_ok Hif Hr (@csame ix Et Es) (WStr w) fuel Hv Hfuel op limit n Hop Hone) as (es & e & P & A & An). unfold ask in An. rewrite En in An.
  rewrite Es in P. rewrite <- Permutation_rev in P. destruct (f2_perm (Permutation_sym P) (@csv_stand D h rows tail name (proj1 Hfits))) as (col & Q & F).
  apply Forall2_app_inv_l in F. destruct F as (rest & l2 & F1 & F2 & ->). inversion F2 as [|? last ? l3 S1 S2]; subst. inversion S2; subst.
  destruct (answer_stand F1 An) as (found & G1 & G2 & G3). exists last, rest, found. split; [rewrite Q; apply Permutation_cons_append|]. split; [|auto].
  intros y Hy. destruct S1 as (<- & _). assert (X : exists e', In e' es /\ rv_val (fst e') = snd y).
  { clear - F1 Hy. induction F1 as [|e' x a b (E & _) F IH]; [destruct Hy|]. destruct Hy as [<-|Hy]; [exists e'; split; [left; auto|auto]|]. destruct (IH Hy) as (e2 & H2 & E2). exists e2. split; [right; auto|auto]. }
  destruct X as (e' & He' & <-). apply val_le. clear - A He'. unfold ascending in A. induction es as [|a es IH]; [destruct He'|]. cbn [app] in A. inversion A as [|? ? H1 H2]; subst.
  destruct He' as [->|He']; [|auto]. rewrite Forall_forall in H2. apply H2, in_or_app. right. left. reflexivity.
Qed.
(** Whatever it finds, query() gives none of it to the caller when the rows have at least two cells and the first
    is free of quotes and brackets: each row is given to JSON.parse. *)
Theorem C87_query_raises_refuted ju jf op dir limit n select : (op = QLt \/ op = QLe) /\ dir = Desc \/ ((op = QGt \/ op = QGe) /\ dir = Asc \/ op = QEq) /\ small_text_index D s' name -> (0 < n)%nat ->
  (exists x, In x (text_column h rows name) /\ cell_hit op w x = true) ->
  (forall r, In r rows -> exists c1 c2 cs, cells r = c1 :: c2 :: cs /\ plain c1) ->
  db_query ju jf Some fuel (file s') D (QY [CW name op (WStr w)] [dir] limit) select n = Err (EMsg "SyntaxError").
Proof.
  intros Hop Hn (x & Hx & Hh) Hcell.
  assert (A : exists d, rows_found h rows name op d w n (query op dir limit n)).
  { destruct Hop as [[Ho ->]|[Ho Hone]]; [exists Desc; apply C87_rows_below_partial; auto|exists Asc; apply C87_one_page_partial; auto]. }
  destruct A as (d & found & P & _ & E). unfold db_query. rewrite E. cbn [rbind].
  assert (Hi : In x found) by (apply (Permutation_in _ (Permutation_sym P)), filter_In; auto).
  destruct found as [|x0 found]; [destruct Hi|]. destruct n as [|n]; [lia|]. cbn [firstn map select_all].
  rewrite C79_row_refuted; [reflexivity|]. assert (X : In x0 (text_column h rows name)) by (assert (Y : In x0 (filter (cell_hit op w) (text_column h rows name))) by (apply (Permutation_in _ P); left; auto); apply filter_In in Y; tauto).
  assert (Hr : In (fst x0) rows).
  { unfold text_column in X. apply in_flat_map in X. destruct X as (r & Hr & X). unfold text_cell in X. apply in_map_iff in X. destruct X as (y & <- & _). exact Hr. }
  destruct (Hcell _ Hr) as (c1 & c2 & cs & Ec & Hp). exists c1, (commas (c2 :: cs) ++ if cr (fst x0) then [13] else []). split; [exact Hp|]. unfold row_text. rewrite Ec. change (commas (c1 :: c2 :: cs)) with (c1 ++ 44 :: commas (c2 :: cs)). rewrite <- app_assoc. reflexivity.
Qed.
End End_.
End P.

(** ** Witnesses: the file of PCsvEx.v *)
From Verif Require Import PCsvEx.
(** the state after Synchronize, computed once *)
Definition synced : st := Eval vm_compute in sc KBuf.
Lemma synced_eq : sc KBuf = synced.
Proof. vm_compute. reflexivity. Qed.
Definition slot_b : lp := LP 4096 2.
Definition root_b : node := Eval vm_compute in match ts_rd (mkCodec 0 Dc Some) (file synced) (root_at (file synced) slot_b) with Ok n => n | _ => mkNode [] [] [] end.
Lemma synced_b : (zlen (file synced) <=? 2^31) = true /\ (exists s', find_or_create file_slot [98] FTString synced = (Ok (slot_b, IM [98] 0 0 0), s') /\ file s' = file synced) /\
  ts_rd (mkCodec 0 Dc Some) (file synced) (root_at (file synced) slot_b) = Ok root_b /\ is_leaf root_b = true.
Proof.
  split; [vm_compute; reflexivity|]. split; [|split; vm_compute; reflexivity].
  exists (snd (find_or_create file_slot [98] FTString synced)). split; vm_compute; reflexivity.
Qed.
Lemma hyps_met k : k = KBuf -> zlen (file (sc k)) <= 2^31 /\ zlen Dc < 2^31 /\ Forall (fun r => 2 <= zlen (row_text r)) [r1; r2] /\
  text_column nm hd [r1; r2] [98] = [(r1, [120]); (r2, [121])] /\ small_text_index Dc (sc k) [98] /\
  (forall r, In r [r1; r2] -> exists c1 c2 cs, cells r = c1 :: c2 :: cs /\ plain c1).
Proof.
  intros Hk. assert (Es : sc k = synced) by (subst k; exact synced_eq). rewrite Es. destruct synced_b as (B1 & B2 & B3 & B4).
  split; [apply Z.leb_le; exact B1|]. split; [reflexivity|]. split; [repeat apply Forall_cons; try apply Forall_nil; apply Z.leb_le; reflexivity|]. split; [reflexivity|]. split.
  - exists slot_b, (IM [98] 0 0 0), root_b. split; [exact B2|]. split; [exact B3|exact B4].
  - intros r [<-|[<-|[]]]; eexists _, _, _; (split; [reflexivity|]); [constructor; [lia|constructor]|constructor].
Qed.
(** b <= "x", descending; b > "x", ascending; and what the caller of query() gets *)
Theorem C87_example k fuel limit : k = KBuf -> (fuel_of (sc k) <= fuel)%nat ->
  rows_found nm hd [r1; r2] [98] QLe Desc [120] 5 (ts_query Some fuel (file (sc k)) Dc (QY [CW [98] QLe (WStr [120])] [Desc] limit) 5) /\
  rows_found nm hd [r1; r2] [98] QGt Asc [120] 5 (ts_query Some fuel (file (sc k)) Dc (QY [CW [98] QGt (WStr [120])] [Asc] limit) 5) /\
  forall ju jf select, db_query ju jf Some fuel (file (sc k)) Dc (QY [CW [98] QLe (WStr [120])] [Desc] limit) select 5 = Err (EMsg "SyntaxError").
Proof.
  intros Hk Hf. destruct (hyps_met Hk) as (H1 & H2 & H3 & H4 & H5 & H6). assert (Hc : text_column nm hd [r1; r2] [98] <> []) by (rewrite H4; discriminate).
  split; [|split].
  - apply (@C87_rows_below_partial nm Dc (cfresh k) (sc k) hd [r1; r2] [49] _ [98] [120] fuel (clife_of k Dc eq_refl) cfits_c ltac:(discriminate) (sync_c k)); auto.
  - apply (@C87_one_page_partial nm Dc (cfresh k) (sc k) hd [r1; r2] [49] _ [98] [120] fuel (clife_of k Dc eq_refl) cfits_c ltac:(discriminate) (sync_c k)); auto.
  - intros ju jf select. apply (@C87_query_raises_refuted nm Dc (cfresh k) (sc k) hd [r1; r2] [49] _ [98] [120] fuel (clife_of k Dc eq_refl) cfits_c ltac:(discriminate) (sync_c k)); auto; [lia|].
    rewrite H4. exists (r1, [120]). split; [left; reflexivity|reflexivity].
Qed.
Example C87_example_answer : ts_query Some (fuel_of (sc KBuf)) (file (sc KBuf)) Dc (QY [CW [98] QLe (WStr [120])] [Desc] None) 5 = Ok [[49; 44; 120]].
Proof. rewrite synced_eq. vm_compute. reflexivity. Qed.
(** Columns of numbers and truth values: their indexes are written with width 0 and declare another
    width (C62), which is the one the browser uses. Column a holds 1 in the row 1,x: a == 1 finds
    nothing, and no comparison with 1 finds that row. *)
Notation ask_one op dir := (ts_query Some (fuel_of (sc KBuf)) (file (sc KBuf)) Dc (QY [CW [97] op (WNum [63; 240; 0; 0; 0; 0; 0; 0])] [dir] None) 5).
Theorem C87_number_column_refuted : (forall dir, ask_one QEq dir = Ok []) /\ forall op dir, ask_one op dir = Ok [] \/ exists e, ask_one op dir = Err e.
Proof. rewrite synced_eq. split; [intros []; vm_compute; reflexivity|]. intros op dir. destruct op, dir; vm_compute; first [left; reflexivity|right; eexists; reflexivity]. Qed.
