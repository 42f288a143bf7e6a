(** C70: from the data file to the answer: a JSONL data file is synchronized, then the
    browser queries the index file and the data file. *)
From Coq Require Import Permutation Sorted.
From Verif Require Import Base Varint Store PageFile PageHist RefValue Node LinkedPage BPTree BPRepr BPIter BPInsert BPLoop BPTop PTree Meta TsCodec Slots SlotAdd PSlots Cells IndexFile IFileInv PIndex Json Jsonl Grows JsonlRun JsonDoc JsonlDoc JsonlSpec JsonlHist PJsonl Query QTree TsFile PQuery.

Section P.
Variables (unquote : bytes -> bytes) (to_float : bytes -> option bytes) (grams : bytes -> Z -> res (list (bytes * Z * Z))) (hdrs : list bytes).
Hypothesis float_8 : forall t f, to_float t = Some f -> zlen f = 8.
Notation sync := (jsonl_sync unquote to_float grams hdrs file_slot).
Notation parse := (jparse unquote to_float).
Notation occs := (occs unquote).
Notation mfields := (mfields unquote).
Notation vfields := (vfields unquote).
Notation entries_of := (entries_of unquote to_float grams hdrs).
Notation total_of := (total_of unquote to_float grams hdrs).
Notation ids := (ids unquote to_float grams hdrs).
Notation posts := (posts unquote to_float grams hdrs).
Notation key_bytes := (key_bytes unquote to_float).
Notation entry := (entry unquote to_float).
Notation life := (life unquote to_float grams hdrs).
Notation fits := (fits unquote to_float grams hdrs).

(** ** Specification *)
(** the fields of all lines, each with its line *)
Definition line_fields (x : line) : list (line * field) := map (fun f => (x, f)) (mfields [] 0 true (ln_members x)).
Definition all_fields (ls : list line) : list (line * field) := flat_map line_fields ls.
(** the value of a field as it is compared *)
Definition compared (f : field) : bytes := match key_bytes (fd_value f) with Some b => b | None => [] end.
(** the field is called [name] and its value, of the type of [v], satisfies the comparison *)
Definition hit (name : bytes) (op : qop) (v : wval) (x : line * field) : bool :=
  id_eqb (fd_name (snd x), type_of (fd_value (snd x))) (name, match value_type v with Some t => t | None => -1 end) &&
  let c := bytes_cmp (compared (snd x)) (value_key v) in
  match op with QLt => c <? 0 | QLe => c <=? 0 | QEq => c =? 0 | QGe => 0 <=? c | QGt => 0 <? c end.
(** the values of the fields ascend or descend *)
Definition arranged (dir : qdir) (l : list (line * field)) : Prop :=
  StronglySorted (fun a b => match dir with Asc => bytes_cmp (compared (snd a)) (compared (snd b)) <= 0 | Desc => 0 <= bytes_cmp (compared (snd a)) (compared (snd b)) end) l.
(** [lines_found]: the first [n] of the lines with a matching field, once for each such
    field (a line has one such field, unless it repeats a key), in order *)
Definition lines_found (ls : list line) (name : bytes) (op : qop) (dir : qdir) (v : wval) (n : nat) (r : res (list bytes)) : Prop :=
  exists found, Permutation found (filter (hit name op v) (all_fields ls)) /\ arranged dir found /\
    r = Ok (map (fun x => line_text (fst x)) (firstn n found)).

(** FindOrCreateIndex finds an index for the field whose root page is a leaf: it fits in one page *)
Definition small_index (D : bytes) (s : st) (name : bytes) (ty : Z) : Prop :=
  exists m im n, reads s (find_or_create file_slot name ty) (m, im) /\
    ts_rd (mkCodec (determine_type ty) D parse) (file s) (root_at (file s) m) = Ok n /\ is_leaf n = true.

(** ** Proofs *)
(** positions: shifting the start of a line shifts the ranges of its fields *)
Definition shift (d : Z) (f : field) : field := FD (fd_name f) (fd_value f) (fd_from f + d) (fd_to f + d).
Lemma vfields_obj path pos w l : vfields path pos (JObj w l) = mfields path (pos + 1 + zlen w) true l.
Proof. reflexivity. Qed.
Lemma mfields_cons path pos first w1 k w2 w3 v w4 t : mfields path pos first (MCons w1 k w2 w3 v w4 t) =
  let ke := pos + zlen (comma first) + zlen w1 + zlen k + 2 in let vs := ke + zlen w2 + 1 + zlen w3 in let ve := vs + zlen (vtext v) in
  FD (dotted (path ++ [unquote k])) v (ke + 1) ve :: vfields (path ++ [unquote k]) vs v ++ mfields path (ve + zlen w4) false t.
Proof. reflexivity. Qed.
Lemma vtext_obj w l : vtext (JObj w l) = 123 :: w ++ mtext true l ++ [125].
Proof. reflexivity. Qed.
Lemma mtext_cons first w1 k w2 w3 v w4 t : mtext first (MCons w1 k w2 w3 v w4 t) = comma first ++ w1 ++ (34 :: k ++ [34]) ++ w2 ++ 58 :: w3 ++ vtext v ++ w4 ++ mtext false t.
Proof. reflexivity. Qed.
Lemma shift_all : (forall v path pos d, vfields path (pos + d) v = map (shift d) (vfields path pos v)) /\ (forall l : jitems, True) /\
  (forall l path pos first d, mfields path (pos + d) first l = map (shift d) (mfields path pos first l)).
Proof.
  apply json_ind; try (intros; exact I); try (intros; reflexivity).
  - intros w l IH path pos d. rewrite !vfields_obj. rewrite <- IH.
    replace (pos + d + 1 + zlen w) with (pos + 1 + zlen w + d) by lia. reflexivity.
  - intros w1 k w2 w3 v IHv w4 t IHt path pos first d. rewrite !mfields_cons. cbv zeta. cbn [map]. rewrite map_app, <- IHv, <- IHt. unfold shift. cbn [fd_name fd_value fd_from fd_to].
    replace (pos + d + zlen (comma first) + zlen w1 + zlen k + 2) with (pos + zlen (comma first) + zlen w1 + zlen k + 2 + d) by lia.
    set (ke := pos + zlen (comma first) + zlen w1 + zlen k + 2).
    replace (ke + d + zlen w2 + 1 + zlen w3) with (ke + zlen w2 + 1 + zlen w3 + d) by lia. set (vs := ke + zlen w2 + 1 + zlen w3).
    replace (vs + d + zlen (vtext v)) with (vs + zlen (vtext v) + d) by lia. set (ve := vs + zlen (vtext v)).
    replace (ke + d + 1) with (ke + 1 + d) by lia. replace (ve + d + zlen w4) with (ve + zlen w4 + d) by lia. reflexivity.
Qed.
(** the ranges of the fields lie in the text, and the weights add up to at most its length *)
Definition wsum (l : list field) : Z := fold_right (fun f t => weight (f, MP 0 0) + t) 0 l.
Lemma wsum_app a b : wsum (a ++ b) = wsum a + wsum b.
Proof. unfold wsum. apply sum_app. Qed.
Definition within (pos len : Z) (l : list field) : Prop := Forall (fun f => pos <= fd_from f /\ fd_from f <= fd_to f /\ fd_to f <= pos + len) l.
Lemma within_all : (forall v path pos, within pos (zlen (vtext v)) (vfields path pos v) /\ 0 <= wsum (vfields path pos v) <= zlen (vtext v)) /\ (forall l : jitems, True) /\
  (forall l path pos first, within pos (zlen (mtext first l)) (mfields path pos first l) /\ 0 <= wsum (mfields path pos first l) <= zlen (mtext first l)).
Proof.
  apply json_ind; try (intros; exact I); try (intros; cbn [JsonlSpec.vfields JsonlSpec.mfields]; split; [constructor|]; change (wsum []) with 0; pose proof zlen_nonneg; auto with zarith; fail).
  - intros. split; [constructor|]. split; [reflexivity|apply zlen_nonneg].
  - intros. split; [constructor|]. split; [reflexivity|apply zlen_nonneg].
  - intros. split; [constructor|]. split; [reflexivity|apply zlen_nonneg].
  - intros. split; [constructor|]. split; [reflexivity|apply zlen_nonneg].
  - intros. split; [constructor|]. split; [reflexivity|apply zlen_nonneg].
  - intros w l IH path pos. rewrite vfields_obj, vtext_obj. rewrite !zlen_cons, !zlen_app. destruct (IH path (pos + 1 + zlen w) true) as [W1 W2].
    pose proof (zlen_nonneg w). change (zlen [125]) with 1. split; [|lia]. eapply Forall_impl; [|exact W1]. cbn beta. intros f. lia.
  - intros. split; [constructor|]. split; [reflexivity|apply zlen_nonneg].
  - intros w1 k w2 w3 v IHv w4 t IHt path pos first. rewrite mfields_cons, mtext_cons. cbv zeta.
    set (ke := pos + zlen (comma first) + zlen w1 + zlen k + 2). set (vs := ke + zlen w2 + 1 + zlen w3). set (ve := vs + zlen (vtext v)).
    destruct (IHv (path ++ [unquote k]) vs) as [V1 V2]. destruct (IHt path (ve + zlen w4) false) as [T1 T2].
    assert (El : zlen (comma first ++ w1 ++ (34 :: k ++ [34]) ++ w2 ++ 58 :: w3 ++ vtext v ++ w4 ++ mtext false t) = ve - pos + zlen w4 + zlen (mtext false t)).
    { rewrite !zlen_app, !zlen_cons, !zlen_app. change (zlen [34]) with 1. unfold ve, vs, ke. lia. }
    rewrite El. pose proof (zlen_nonneg (comma first)). pose proof (zlen_nonneg w1). pose proof (zlen_nonneg k). pose proof (zlen_nonneg w2). pose proof (zlen_nonneg w3). pose proof (zlen_nonneg w4). pose proof (zlen_nonneg (vtext v)). pose proof (zlen_nonneg (mtext false t)).
    split.
    + constructor; [cbn [fd_from fd_to]; unfold ve, vs, ke in *; lia|]. apply Forall_app. split.
      * eapply Forall_impl; [|exact V1]. cbn beta. unfold ve, vs, ke in *. intros f. lia.
      * eapply Forall_impl; [|exact T1]. cbn beta. unfold ve, vs, ke in *. intros f. lia.
    + unfold wsum at 1 2. cbn [fold_right]. fold (wsum (vfields (path ++ [unquote k]) vs v ++ mfields path (ve + zlen w4) false t)). rewrite wsum_app.
      assert (W : 0 <= weight (FD (dotted (path ++ [unquote k])) v (ke + 1) ve, MP 0 0) + wsum (vfields (path ++ [unquote k]) vs v) <= zlen w2 + zlen w3 + zlen (vtext v) + 1).
      { unfold weight. cbn [fst fd_value fd_from fd_to]. destruct v; cbn [JsonlSpec.vfields] in *; try (change (wsum []) with 0; unfold ve, vs, ke; lia). lia. }
      unfold ve, vs, ke in *. lia.
Qed.
(** the occurrences, with their lines *)
Fixpoint placed (at_ : Z) (ls : list line) : list ((line * field) * occ) :=
  match ls with
  | [] => []
  | x :: t =>
      map (fun f => ((x, f), (shift (at_ + zlen (ln_before x) + 1 + zlen (ln_ws x)) f, MP at_ (zlen (line_text x))))) (mfields [] 0 true (ln_members x))
      ++ placed (at_ + zlen (line_text x) + 1) t
  end.
Lemma placed_fst ls : forall at_, map fst (placed at_ ls) = all_fields ls.
Proof.
  induction ls as [|x ls IH]; intros at_; [reflexivity|]. cbn [placed all_fields flat_map]. rewrite map_app, map_map, IH. reflexivity.
Qed.
Lemma placed_snd ls : forall at_, map snd (placed at_ ls) = occs at_ ls.
Proof.
  induction ls as [|x ls IH]; intros at_; [reflexivity|]. cbn [placed JsonlSpec.occs]. rewrite map_app, map_map, IH. f_equal.
  set (d := at_ + zlen (ln_before x) + 1 + zlen (ln_ws x)).
  assert (E := proj2 (proj2 shift_all) (ln_members x) [] 0 true d). change (0 + d) with d in E. rewrite E, map_map. reflexivity.
Qed.
(** what is known of an occurrence in a data file *)
Lemma placed_ok D : forall ls at_ pre post, D = pre ++ lines_text ls ++ post -> zlen pre = at_ ->
  Forall (fun p => slice D (mp_off (snd (snd p))) (mp_len (snd (snd p))) = line_text (fst (fst p)) /\ at_ <= mp_off (snd (snd p)) /\ 2 <= mp_len (snd (snd p)) /\
    mp_off (snd (snd p)) + mp_len (snd (snd p)) <= zlen D /\ at_ <= fd_from (fst (snd p)) /\ fd_from (fst (snd p)) <= fd_to (fst (snd p)) /\ fd_to (fst (snd p)) <= zlen D /\
    1 <= fd_from (fst (snd p)) /\ fd_value (fst (snd p)) = fd_value (snd (fst p)) /\ fd_name (fst (snd p)) = fd_name (snd (fst p))) (placed at_ ls).
Proof.
  induction ls as [|x ls IH]; intros at_ pre post E El; [constructor|]. cbn [placed lines_text] in *.
  pose proof (zlen_nonneg pre) as Hp. pose proof (zlen_nonneg post) as Hpost. pose proof (zlen_nonneg (lines_text ls)) as Hls. pose proof (zlen_nonneg (ln_before x)). pose proof (zlen_nonneg (ln_ws x)). pose proof (zlen_nonneg (ln_after x)).
  assert (EL : zlen (line_text x) = zlen (ln_before x) + 1 + zlen (ln_ws x) + zlen (mtext true (ln_members x)) + 1 + zlen (ln_after x)).
  { unfold line_text. cbn [vtext]. rewrite !zlen_app, zlen_cons, !zlen_app. change (zlen [125]) with 1. lia. }
  assert (ED : zlen D = at_ + zlen (line_text x) + 1 + zlen (lines_text ls) + zlen post) by (rewrite E, !zlen_app, zlen_cons; lia).
  pose proof (zlen_nonneg (mtext true (ln_members x))).
  apply Forall_app. split.
  - apply Forall_map. destruct (proj2 (proj2 within_all) (ln_members x) [] 0 true) as [W _]. eapply Forall_impl; [|exact W]. cbn [fst snd mp_off mp_len shift fd_from fd_to fd_value fd_name].
    intros f Hf. split; [|repeat split; lia]. rewrite E. rewrite <- !app_assoc. apply slice_mid; [lia|reflexivity].
  - eapply Forall_impl; [|apply (IH (at_ + zlen (line_text x) + 1) (pre ++ line_text x ++ [10]) post)].
    + cbn beta. intros p Hx. pose proof (zlen_nonneg (line_text x)). intuition lia.
    + rewrite E. cbn [app]. rewrite <- !app_assoc. reflexivity.
    + rewrite !zlen_app. change (zlen [10]) with 1. lia.
Qed.
Lemma osum ls : forall at_, 0 <= fold_right (fun o t => weight o + t) 0 (occs at_ ls) <= zlen (lines_text ls).
Proof.
  induction ls as [|x ls IH]; intros at_; cbn [JsonlSpec.occs lines_text]; [change (zlen []) with 0; cbn [fold_right]; lia|]. rewrite sum_app, zlen_app, zlen_cons. specialize (IH (at_ + zlen (line_text x) + 1)).
  set (pos := at_ + zlen (ln_before x) + 1 + zlen (ln_ws x)). destruct (proj2 (proj2 within_all) (ln_members x) [] pos true) as [_ W].
  assert (Es : fold_right (fun o t => weight o + t) 0 (map (fun f => (f, MP at_ (zlen (line_text x)))) (mfields [] pos true (ln_members x))) = wsum (mfields [] pos true (ln_members x))).
  { unfold wsum. generalize (mfields [] pos true (ln_members x)). induction l as [|f l IHl]; [reflexivity|]. cbn [map fold_right]. rewrite IHl. reflexivity. }
  rewrite Es. assert (zlen (mtext true (ln_members x)) <= zlen (line_text x)).
  { unfold line_text. cbn [vtext]. rewrite !zlen_app, zlen_cons, !zlen_app. pose proof (zlen_nonneg (ln_before x)). pose proof (zlen_nonneg (ln_ws x)). pose proof (zlen_nonneg (ln_after x)). change (zlen [125]) with 1. lia. }
  lia.
Qed.
Lemma sum_filter_le p : forall l : list occ, Forall (fun o => 0 <= weight o) l ->
  0 <= fold_right (fun o t => weight o + t) 0 (filter p l) <= fold_right (fun o t => weight o + t) 0 l.
Proof.
  induction l as [|o l IH]; intros H; [cbn [filter fold_right]; lia|]. inversion H; subst. specialize (IH H3). cbn [filter fold_right]. destruct (p o); cbn [fold_right]; lia.
Qed.
Lemma occs_weight ls at_ D pre post : D = pre ++ lines_text ls ++ post -> zlen pre = at_ -> Forall (fun o => 0 <= weight o) (occs at_ ls).
Proof.
  intros E El. rewrite <- placed_snd. apply Forall_map. eapply Forall_impl; [|exact (@placed_ok D ls at_ pre post E El)]. cbn beta. intros p Hp.
  destruct Hp as (_ & _ & _ & _ & _ & Hp & _). unfold weight. destruct (fd_value (fst (snd p))); cbn beta iota; first [lia|apply Z.le_0_sub; exact Hp].
Qed.
(** the postings to an index that holds no n-grams *)
Lemma plain_posts (l : list occ) i : is_gram (snd i) = false -> filter (fun p => id_eqb (po_id p) i) (posts l) = map (base unquote to_float) (filter (fun o => id_eqb (occ_id o) i) l).
Proof.
  intros Hi. induction l as [|o l IH]; [reflexivity|]. unfold JsonlSpec.posts. cbn [flat_map]. fold (posts l). rewrite filter_app, IH. cbn [filter].
  assert (E : filter (fun p => id_eqb (po_id p) i) (postings unquote to_float grams hdrs o) = if id_eqb (occ_id o) i then [base unquote to_float o] else []).
  { unfold postings. cbn [filter po_id]. assert (G : filter (fun p => id_eqb (po_id p) i) (match fd_value (fst o) with JStr b => if searched hdrs (fd_name (fst o)) then gram_postings unquote grams o b else [] | _ => [] end) = []).
    { destruct (fd_value (fst o)); try reflexivity. destruct (searched hdrs (fd_name (fst o))); [|reflexivity]. unfold gram_postings, gram_posting. cbn [filter po_id].
      assert (N : forall g, is_gram g = true -> id_eqb (fd_name (fst o), g) i = false).
      { intros g Hg. destruct (id_eqb _ i) eqn:X; [|reflexivity]. apply id_eqb_spec in X. subst i. cbn [snd] in Hi. congruence. }
      rewrite !N by reflexivity. reflexivity. }
    rewrite G. destruct (id_eqb (occ_id o) i); reflexivity. }
  rewrite E. destruct (id_eqb (occ_id o) i); reflexivity.
Qed.
Lemma total_small ls D tail i : is_gram (snd i) = false -> D = data_of ls tail -> total_of (occs 0 ls) i <= zlen D.
Proof.
  intros Hi E. unfold JsonlSpec.total_of. rewrite plain_posts by exact Hi.
  replace (fold_right (fun p t => po_weight p + t) 0 (map (base unquote to_float) (filter (fun o => id_eqb (occ_id o) i) (occs 0 ls)))) with (fold_right (fun o t => weight o + t) 0 (filter (fun o => id_eqb (occ_id o) i) (occs 0 ls)))
    by (clear; induction (filter (fun o => id_eqb (occ_id o) i) (occs 0 ls)) as [|o l IH]; [reflexivity|cbn [map fold_right]; rewrite <- IH; reflexivity]).
  pose proof (osum ls 0) as Hs. pose proof (@occs_weight ls 0 D [] tail E eq_refl) as Hw.
  pose proof (sum_filter_le (fun o => id_eqb (occ_id o) i) Hw) as Hf.
  assert (zlen (lines_text ls) <= zlen D) by (rewrite E; unfold data_of; rewrite zlen_app; pose proof (zlen_nonneg tail); lia).
  pose proof (Z.mod_le (fold_right (fun o t => weight o + t) 0 (filter (fun o => id_eqb (occ_id o) i) (occs 0 ls))) (2^64) ltac:(lia) ltac:(lia)). lia.
Qed.

(** the entries of an index of scalars, one for each occurrence *)
Definition ent (o : occ) : rv * mptr := (RV (MP (fd_from (fst o)) (fd_to (fst o) - fd_from (fst o))) (compared (fst o)), snd o).
Lemma entries_map l i v : value_type v = Some (snd i) -> entries_of l i = map ent (filter (fun o => id_eqb (occ_id o) i) l).
Proof.
  intros Hv. assert (Hg : is_gram (snd i) = false) by (destruct v; cbn in Hv; try discriminate; injection Hv as <-; reflexivity).
  unfold JsonlSpec.entries_of. rewrite plain_posts by exact Hg. clear Hg. induction l as [|o l IH]; [reflexivity|]. cbn [filter]. destruct (id_eqb (occ_id o) i) eqn:E; [|exact IH].
  cbn [flat_map map]. rewrite IH. apply id_eqb_spec in E. unfold base. cbn [po_entries]. unfold JsonlSpec.entry, ent, compared.
  destruct (key_bytes (fd_value (fst o))) as [b|] eqn:Ek; [reflexivity|]. exfalso. subst i. cbn [occ_id snd] in Hv.
  destruct v, (fd_value (fst o)); cbn in *; discriminate.
Qed.
Lemma compared_shift d f : compared (shift d f) = compared f.
Proof. reflexivity. Qed.
Lemma map_filter {A B} (g : A -> B) p l : filter p (map g l) = map g (filter (fun x => p (g x)) l).
Proof. induction l as [|x l IH]; [reflexivity|]. cbn [map filter]. destruct (p (g x)); cbn [map]; rewrite IH; reflexivity. Qed.

Lemma answer_placed D ls tail name op dir v n r ft pl : D = data_of ls tail -> value_type v = Some ft ->
  (forall p, In p pl -> In p (placed 0 ls) /\ id_eqb (occ_id (snd p)) (name, ft) = true) ->
  answer D (map (fun p => ent (snd p)) pl) op dir (value_key v) n r ->
  exists found, Permutation found (filter (hit name op v) (map fst pl)) /\ arranged dir found /\ r = Ok (map (fun x => line_text (fst x)) (firstn n found)).
Proof.
  intros E Hv Hpl (found & P & O & Er). rewrite !map_filter in P.
  apply Permutation_map_inv in P. destruct P as (l3 & -> & P3).
  assert (Hok := @placed_ok D ls 0 [] tail E eq_refl). rewrite Forall_forall in Hok.
  assert (Hin : forall p, In p l3 -> In p (placed 0 ls)).
  { intros p Hp. apply (Permutation_in _ (Permutation_sym P3)) in Hp. apply filter_In in Hp. destruct Hp as [Hp _]. apply Hpl in Hp. tauto. }
  exists (map fst l3). split; [|split].
  - rewrite map_filter. apply Permutation_map. etransitivity; [symmetry; exact P3|].
    erewrite filter_ext_in; [reflexivity|]. intros p Hp. cbn beta. destruct (Hpl p Hp) as [Hp' Hid]. destruct (Hok p Hp') as (_ & _ & _ & _ & _ & _ & _ & _ & Ev & En).
    destruct p as [[x f] [g m]]. cbn [fst snd] in Ev, En. unfold hit, satisfies, occ_id, ent, compared. cbn [fst snd rv_val]. unfold occ_id in Hid. cbn [fst snd] in Hid. rewrite Hv, ?Ev; rewrite Ev, En in Hid; rewrite Hid. reflexivity.
  - assert (Hsub : forall p, In p l3 -> compared (fst (snd p)) = compared (snd (fst p))).
    { intros p Hp. destruct (Hok p (Hin p Hp)) as (_ & _ & _ & _ & _ & _ & _ & _ & Ev & _).
      destruct p as [[x f] [g m]]. cbn [fst snd] in Ev |- *. unfold compared. rewrite Ev. reflexivity. }
    unfold arranged. assert (G : forall (R : bytes -> bytes -> Prop) m, StronglySorted (fun a b => R (compared (fst (snd a))) (compared (fst (snd b)))) m -> (forall p, In p m -> In p l3) ->
      StronglySorted (fun a b : line * field => R (compared (snd a)) (compared (snd b))) (map fst m)).
    { intros R. induction 1 as [|a m Hs IH Ha]; intros Hm; [constructor|]. cbn [map]. constructor; [apply IH; intros; apply Hm; right; auto|].
      apply Forall_map. rewrite Forall_forall in *. intros b Hb. assert (X := Ha b Hb). assert (Ea := Hsub a (Hm a (or_introl eq_refl))). assert (Eb := Hsub b (Hm b (or_intror Hb))).
      destruct a as [[xa fa] [ga ma]], b as [[xb fb] [gb mb]]. cbn [fst snd] in X, Ea, Eb |- *. rewrite <- Ea, <- Eb. exact X. }
    assert (Hval : forall a b : rv, rv_cmp a b < 0 -> bytes_cmp (rv_val a) (rv_val b) <= 0).
    { intros a b H. unfold rv_cmp in H. destruct (Z.eqb_spec (bytes_cmp (rv_val a) (rv_val b)) 0) as [E0|E0]; cbn [negb] in H; lia. }
    destruct dir; cbn [ordered] in O.
    + apply (G (fun a b => bytes_cmp a b <= 0)); auto. clear -O Hval. unfold ascending in O. remember (map (fun x => ent (snd x)) l3) as m eqn:Em. revert l3 Em.
      induction O as [|a m Hs IH Ha]; intros [|p l3] Em; try discriminate; [constructor|]. cbn [map] in Em. injection Em as -> ->. constructor; [apply IH; auto|].
      rewrite Forall_map in Ha. eapply Forall_impl; [|exact Ha]. cbn beta. intros q Hq. apply Hval in Hq. exact Hq.
    + apply (G (fun a b => 0 <= bytes_cmp a b)); auto. clear -O Hval. unfold ascending in O. apply ss_rev in O. rewrite rev_involutive in O. remember (map (fun x => ent (snd x)) l3) as m eqn:Em. revert l3 Em.
      induction O as [|a m Hs IH Ha]; intros [|p l3] Em; try discriminate; [constructor|]. cbn [map] in Em. injection Em as -> ->. constructor; [apply IH; auto|].
      rewrite Forall_map in Ha. eapply Forall_impl; [|exact Ha]. cbn beta. intros q Hq. apply Hval in Hq. cbn [ent fst rv_val] in Hq.
      destruct p as [pa [pb pc]], q as [qa [qb qc]]. cbn [fst snd] in Hq |- *. rewrite (bytes_cmp_anti (compared qb) (compared pb)). lia.
  - rewrite Er. f_equal. rewrite !firstn_map, !map_map. apply map_ext_in. intros p Hp.
    assert (Hp' : In p l3) by (rewrite <- (firstn_skipn n l3); apply in_or_app; auto). destruct (Hok p (Hin p Hp')) as (Es & _). unfold record_of, ent. cbn [snd]. exact Es.
Qed.

(** the index a query needs, after Synchronize *)
Definition grams_small (ls : list line) : Prop := forall name ft, is_gram ft = true -> total_of (occs 0 ls) (name, ft) < 2^31.
Lemma answer_lines D ls tail name op dir v n r ft : D = data_of ls tail -> value_type v = Some ft ->
  answer D (entries_of (occs 0 ls) (name, ft)) op dir (value_key v) n r -> lines_found ls name op dir v n r.
Proof.
  intros E Hv A. rewrite (@entries_map _ (name, ft) v Hv), <- (placed_snd ls 0) in A. rewrite !map_filter, map_map in A.
  destruct (@answer_placed D ls tail name op dir v n r ft (filter (fun x => id_eqb (occ_id (snd x)) (name, ft)) (placed 0 ls)) E Hv) as (found & P & O & Er); [|exact A|].
  - intros p Hp. apply filter_In in Hp. exact Hp.
  - exists found. split; [|auto]. rewrite P. rewrite <- (placed_fst ls 0), !map_filter, filter_filter.
    assert (Hok := @placed_ok D ls 0 [] tail E eq_refl). rewrite Forall_forall in Hok. erewrite filter_ext_in; [reflexivity|]. intros p Hp. cbn beta.
    destruct (Hok p Hp) as (_ & _ & _ & _ & _ & _ & _ & _ & Ev & En). destruct p as [[x f] [g m]]. cbn [fst snd] in Ev, En. unfold hit, occ_id. cbn [fst snd]. rewrite Hv, Ev, En.
    destruct (id_eqb _ _); reflexivity.
Qed.
Lemma synced_readable D ls tail s v name ft : fits D ls tail -> grams_small ls -> state_of unquote to_float grams hdrs D ls s -> zlen (file s) <= 2^31 -> zlen D < 2^31 ->
  value_type v = Some ft -> In (name, ft) (ids (occs 0 ls)) ->
  exists fm l ix, ifile determine_type parse D fm l s /\ readable determine_type D fm l s ix /\ ix_name ix = name /\ ix_type ix = ft /\ ix_es ix = rev (entries_of (occs 0 ls) (name, ft)).
Proof.
  intros Hfit Hgs Hst Hf HD Hv Hin. destruct (@state_ids unquote to_float grams hdrs D ls s Hst) as (l & Hif & Hids & Hx).
  assert (E : D = data_of ls tail) by apply Hfit.
  pose proof Hin as Hin'. rewrite <- Hids in Hin. apply in_map_iff in Hin. destruct Hin as (ix & Ei & Hil). injection Ei as En Et.
  destruct (Hx ix Hil) as [T Es]. rewrite En, Et in T, Es.
  eexists _, l, ix. split; [exact Hif|]. split; [|auto].
  assert (Hty : forall ix', In ix' l -> is_gram (ix_type ix') = true \/ exists vv, ix_type ix' = type_of vv).
  { intros ix' Hi'. assert (X : In (ix_name ix', ix_type ix') (map (fun ix => (ix_name ix, ix_type ix)) l)) by (apply (in_map (fun ix => (ix_name ix, ix_type ix))); auto).
    rewrite Hids in X. unfold JsonlSpec.ids in X. apply (proj1 (firsts_in unquote to_float grams _ _)) in X. apply in_map_iff in X. destruct X as (p & Ep & Hp). unfold JsonlSpec.posts in Hp. apply in_flat_map in Hp. destruct Hp as (o & _ & Hp).
    unfold postings in Hp. destruct Hp as [<-|Hp]; [right; exists (fd_value (fst o)); cbn [po_id] in Ep; unfold occ_id in Ep; injection Ep as _ ->; reflexivity|].
    left. destruct (fd_value (fst o)); try contradiction. destruct (searched hdrs (fd_name (fst o))); [|contradiction].
    destruct Hp as [<-|[<-|[<-|[]]]]; cbn [gram_posting po_id] in Ep; injection Ep as _ <-; reflexivity. }
  assert (Hent : entries_of (occs 0 ls) (name, ft) = map ent (filter (fun o => id_eqb (occ_id o) (name, ft)) (occs 0 ls))) by (apply (@entries_map _ (name, ft) v Hv)).
  constructor; auto.
  - intros ix' Hi'. destruct (Hty ix' Hi') as [Hg|(vv & ->)]; [split; intros X; rewrite X in Hg; discriminate Hg|destruct vv; split; discriminate].
  - cbn [fm_entries]. pose proof (more_text ls). assert (zlen (lines_text ls) <= zlen D) by (rewrite E; unfold data_of; rewrite zlen_app; pose proof (zlen_nonneg tail); lia). lia.
  - rewrite Forall_forall. intros ix' Hi'. destruct (Hx ix' Hi') as [-> _]. destruct (is_gram (ix_type ix')) eqn:Hg; [apply Hgs; exact Hg|]. pose proof (@total_small ls D tail (ix_name ix', ix_type ix') Hg E). lia.
  - rewrite Es, Hent. intros X. apply (f_equal (@rev _)) in X. rewrite rev_involutive in X. cbn [rev] in X. apply map_eq_nil in X.
    assert (Hgf : is_gram ft = false) by (destruct v; cbn in Hv; try discriminate; injection Hv as <-; reflexivity).
    unfold JsonlSpec.ids in Hin'. apply (proj1 (firsts_in unquote to_float grams _ _)) in Hin'. apply in_map_iff in Hin'. destruct Hin' as (p & Ep & Hp).
    assert (Y : In p (filter (fun p => id_eqb (po_id p) (name, ft)) (posts (occs 0 ls)))) by (apply filter_In; split; auto; rewrite Ep; apply id_eqb_refl).
    rewrite plain_posts in Y by exact Hgf. rewrite X in Y. destruct Y.
  - rewrite Es. rewrite Forall_forall. intros e He. apply in_rev in He. rewrite Hent in He. apply in_map_iff in He. destruct He as (o & <- & Ho). apply filter_In in Ho. destruct Ho as [Ho _].
    rewrite <- (placed_snd ls 0) in Ho. apply in_map_iff in Ho. destruct Ho as (p & <- & Hp).
    pose proof (@placed_ok D ls 0 [] tail E eq_refl) as Hok. rewrite Forall_forall in Hok. specialize (Hok p Hp). cbn beta in Hok.
    destruct p as [[x f] [g m]]. unfold entry_small, mptr_small, ent. cbn [fst snd rv_dp mp_off mp_len] in Hok |- *. lia.
Qed.
Lemma answer_perm D es es' op dir v n r : Permutation es es' -> answer D es op dir v n r -> answer D es' op dir v n r.
Proof. intros P (found & A & B & C). exists found. split; [|auto]. etransitivity; [exact A|]. apply perm_filter; auto. Qed.

Section End.
  Variables (D : bytes) (s s' : st) (ls : list line) (tail : bytes) (r : res unit) (name : bytes) (v : wval) (ft : Z) (fuel : nat).
  (** after a successful Synchronize of a data file below 2 GiB whose index file is below 2 GiB *)
  Hypothesis Hlife : life D s.
  Hypothesis Hfits : fits D ls tail.
  Hypothesis Hsync : sync D s = (r, s').
  Hypothesis Hfile : zlen (file s') <= 2^31.
  Hypothesis Hdata : zlen D < 2^31.
  (** a field that some line has, with a value of the type of [v] *)
  Hypothesis Hv : value_type v = Some ft.
  Hypothesis Hname : exists x, In x (all_fields ls) /\ fd_name (snd x) = name /\ type_of (fd_value (snd x)) = ft.
  (** the total lengths of the n-grams of a searched field stay below 2 GiB *)
  Hypothesis Hgrams : forall field_name gram_type, In gram_type [FTUnigram; FTBigram; FTTrigram] -> total_of (occs 0 ls) (field_name, gram_type) < 2^31.
  Hypothesis Hfuel : (fuel_of s' <= fuel)%nat.

  Lemma end_index : exists fm l ix, ifile determine_type parse D fm l s' /\ readable determine_type D fm l s' ix /\ ix_name ix = name /\ ix_type ix = ft /\ ix_es ix = rev (entries_of (occs 0 ls) (name, ft)).
  Proof.
    destruct (@life_sync unquote to_float grams hdrs float_8 D s ls tail Hlife Hfits) as (s2 & E2 & S2); [rewrite Hsync; cbn [snd]; lia|].
    rewrite Hsync in E2. injection E2 as _ <-. eapply synced_readable; eauto; [intros gn gt Hgt; apply Hgrams; unfold is_gram in Hgt; rewrite !orb_true_iff, !Z.eqb_eq in Hgt; cbn [In]; destruct Hgt as [[->| ->]| ->]; auto|].
    destruct Hname as (x & Hx & En & Et). rewrite <- (placed_fst ls 0) in Hx. apply in_map_iff in Hx. destruct Hx as (p & <- & Hp).
    assert (Hok := @placed_ok D ls 0 [] tail (proj1 Hfits) eq_refl). rewrite Forall_forall in Hok. destruct (Hok p Hp) as (_ & _ & _ & _ & _ & _ & _ & _ & Ev & Enm).
    unfold JsonlSpec.ids. apply (proj2 (firsts_in unquote to_float grams _ _)). apply in_map_iff. exists (base unquote to_float (snd p)). split.
    - unfold base. cbn [po_id]. destruct p as [[x f] [g m]]; cbn [fst snd] in *; unfold occ_id; cbn [fst]; congruence.
    - unfold JsonlSpec.posts. apply in_flat_map. exists (snd p). split; [rewrite <- (placed_snd ls 0); apply in_map; auto|left; reflexivity].
  Qed.
  (** Descending < and <=: exactly the lines with a matching field, in descending order of the field. *)
  Theorem C70_lines_below_partial op limit n : op = QLt \/ op = QLe ->
    lines_found ls name op Desc v n (ts_query parse fuel (file s') D (QY [CW name op v] [Desc] limit) n).
  Proof.
    intros Hop. destruct end_index as (fm & l & ix & Hif & Hr & <- & Et & Es).
    eapply answer_lines; [exact (proj1 Hfits)|exact Hv|]. eapply answer_perm; [|eapply (C48_descending_lt_le_partial (wd_ok grams) Hif Hr); eauto; rewrite Et; exact Hv].
    rewrite Es. symmetry. apply Permutation_rev.
  Qed.
  (** Ascending >, >= and ==: exactly the lines with a matching field, in ascending order of the field, or nothing at all. *)
  Theorem C70_lines_above_partial op limit n : op = QGt \/ op = QGe \/ op = QEq ->
    lines_found ls name op Asc v n (ts_query parse fuel (file s') D (QY [CW name op v] [Asc] limit) n) \/
    ts_query parse fuel (file s') D (QY [CW name op v] [Asc] limit) n = Ok [].
  Proof.
    intros Hop. destruct end_index as (fm & l & ix & Hif & Hr & <- & Et & Es).
    assert (Hv' : value_type v = Some (ix_type ix)) by (rewrite Et; exact Hv).
    destruct (C48_ascending_gt_ge_eq_partial (wd_ok grams) Hif Hr v Hv' Hfuel limit n Hop) as [A|A]; [left|right; exact A].
    eapply answer_lines; [exact (proj1 Hfits)|exact Hv|]. eapply answer_perm; [|exact A]. rewrite Es. symmetry. apply Permutation_rev.
  Qed.
  Lemma small_one fm l ix : ifile determine_type parse D fm l s' -> readable determine_type D fm l s' ix -> ix_name ix = name -> ix_type ix = ft ->
    small_index D s' name ft <-> one_page determine_type parse D s' ix.
  Proof.
    intros Hif Hr En Et. destruct (@C23_existing_is_found determine_type parse D _ l s' _ _ ix (wd_ok grams) Hif (rb_in Hr) En Et) as (q & Eq & Eqf). split.
    - intros (m & im & nd & (q' & Eq' & _) & X1 & X2). rewrite Eq in Eq'. injection Eq' as <- _ _. exists nd. rewrite Et. auto.
    - intros (nd & X1 & X2). rewrite Et in X1. do 2 eexists. exists nd. split; [exists q; split; [exact Eq|exact Eqf]|auto].
  Qed.
  (** ... and never nothing when the index fits in one page; == in either direction. *)
  Theorem C70_one_page_partial op dir limit n : (op = QGt \/ op = QGe) /\ dir = Asc \/ op = QEq -> small_index D s' name ft ->
    lines_found ls name op Asc v n (ts_query parse fuel (file s') D (QY [CW name op v] [dir] limit) n).
  Proof.
    intros Hop Hone. destruct end_index as (fm & l & ix & Hif & Hr & En & Et & Es). apply (small_one Hif Hr En Et) in Hone. subst name.
    assert (Hv' : value_type v = Some (ix_type ix)) by (rewrite Et; exact Hv).
    assert (Hq : ts_query parse fuel (file s') D (QY [CW (ix_name ix) op v] [dir] limit) n = ts_query parse fuel (file s') D (ask ix op Asc v limit) n).
    { destruct Hop as [[_ ->]| ->]; [reflexivity|]. destruct dir; [reflexivity|]. exact (C48_eq_direction (wd_ok grams) Hif Hr v Hv' Hfuel limit n). }
    rewrite Hq. eapply answer_lines; [exact (proj1 Hfits)|exact Hv|]. eapply answer_perm; [|apply (C48_one_page_gt_ge_eq_partial (wd_ok grams) Hif Hr v Hv' Hfuel limit n); [tauto|exact Hone]].
    rewrite Es. symmetry. apply Permutation_rev.
  Qed.
  (** Ascending < and <=, when the index takes more than one page. *)
  Theorem C70_ascending_below_partial op limit n : op = QLt \/ op = QLe -> ~ small_index D s' name ft ->
    lines_found ls name op Asc v n (ts_query parse fuel (file s') D (QY [CW name op v] [Asc] limit) n).
  Proof.
    intros Hop Hone. destruct end_index as (fm & l & ix & Hif & Hr & En & Et & Es). rewrite (small_one Hif Hr En Et) in Hone. subst name.
    assert (Hv' : value_type v = Some (ix_type ix)) by (rewrite Et; exact Hv).
    eapply answer_lines; [exact (proj1 Hfits)|exact Hv|]. eapply answer_perm; [|apply (C48_ascending_lt_le_partial (wd_ok grams) Hif Hr v Hv' Hfuel limit n); [tauto|exact Hone]].
    rewrite Es. symmetry. apply Permutation_rev.
  Qed.
  (** Descending > and >=, when the index takes more than one page: there is a field, with a
      value not less than that of any other line, whose line is never returned, and > returns what >= returns. *)
  Theorem C70_descending_above_refuted op limit n : op = QGt \/ op = QGe -> ~ small_index D s' name ft ->
    exists last rest found, Permutation (last :: rest) (filter (fun x => id_eqb (fd_name (snd x), type_of (fd_value (snd x))) (name, ft)) (all_fields ls)) /\
      (forall y, In y rest -> bytes_cmp (compared (snd y)) (compared (snd last)) <= 0) /\
      Permutation found (filter (hit name QGe v) rest) /\ arranged Desc found /\
      ts_query parse fuel (file s') D (QY [CW name op v] [Desc] limit) n = Ok (map (fun x => line_text (fst x)) (firstn n found)).
  Proof.
    intros Hop Hone. destruct end_index as (fm & l & ix & Hif & Hr & En & Et & Es). rewrite (small_one Hif Hr En Et) in Hone. subst name.
    assert (Hv' : value_type v = Some (ix_type ix)) by (rewrite Et; exact Hv).
    destruct (C48_descending_gt_ge_refuted (wd_ok grams) Hif Hr v Hv' Hfuel limit n Hop Hone) as (es & e & P & A & An). rewrite Es in P.
    rewrite <- Permutation_rev in P. rewrite (@entries_map _ (ix_name ix, ft) v Hv), <- (placed_snd ls 0) in P. rewrite !map_filter, map_map in P.
    apply Permutation_map_inv in P. destruct P as (l3 & E3 & P3). symmetry in E3.
    destruct (@exists_last _ l3) as (l4 & p & ->); [intros ->; apply map_eq_nil in E3 || idtac; symmetry in E3; cbn in E3; apply app_eq_nil in E3; destruct E3; discriminate|].
    rewrite map_app in E3. cbn [map] in E3. apply app_inj_tail in E3. destruct E3 as [E3 E4].
    assert (Hpl : forall q, In q (l4 ++ [p]) -> In q (placed 0 ls) /\ id_eqb (occ_id (snd q)) (ix_name ix, ft) = true).
    { intros q Hq. apply (Permutation_in _ (Permutation_sym P3)) in Hq. apply filter_In in Hq. exact Hq. }
    rewrite <- E3 in An. destruct (@answer_placed D ls tail (ix_name ix) QGe Desc v n (ts_query parse fuel (file s') D (ask ix op Desc v limit) n) ft l4 (proj1 Hfits) Hv) as (found & F1 & F2 & F3); [intros q Hq; apply Hpl, in_or_app; auto|exact An|].
    assert (Hok := @placed_ok D ls 0 [] tail (proj1 Hfits) eq_refl). rewrite Forall_forall in Hok.
    assert (Hcmp : forall q, In q (l4 ++ [p]) -> compared (fst (snd q)) = compared (snd (fst q))).
    { intros q Hq. destruct (Hok q (proj1 (Hpl q Hq))) as (_ & _ & _ & _ & _ & _ & _ & _ & Ev & _). destruct q as [[x f] [g m]]. cbn [fst snd] in Ev |- *. unfold compared. rewrite Ev. reflexivity. }
    exists (fst p), (map fst l4), found. split; [|split; [|auto]].
    - transitivity (map fst (l4 ++ [p])); [rewrite map_app; cbn [map]; apply Permutation_cons_append|]. rewrite <- (placed_fst ls 0), map_filter. apply Permutation_map. rewrite <- P3.
      erewrite filter_ext_in; [reflexivity|]. intros q Hq. cbn beta. destruct (Hok q Hq) as (_ & _ & _ & _ & _ & _ & _ & _ & Ev & Enm). destruct q as [[x f] [g m]]. cbn [fst snd] in Ev, Enm |- *. unfold occ_id. cbn [fst]. rewrite Ev, Enm. reflexivity.
    - intros y Hy. apply in_map_iff in Hy. destruct Hy as (q & <- & Hq). rewrite <- (Hcmp q), <- (Hcmp p) by (apply in_or_app; cbn; auto).
      unfold ascending in A. assert (X : forall a b, StronglySorted (fun x y : rv * mptr => rv_cmp (fst x) (fst y) < 0) (a ++ [b]) -> forall c, In c a -> rv_cmp (fst c) (fst b) < 0).
      { clear. induction a as [|z a IH]; intros b Hs c Hc; [destruct Hc|]. cbn [app] in Hs. inversion Hs as [|? ? H1 H2]; subst. destruct Hc as [->|Hc]; [|apply (IH _ H1 c Hc)]. rewrite Forall_forall in H2. apply H2, in_or_app. right. left. reflexivity. }
      rewrite <- E3, <- E4 in A. specialize (X _ _ A (ent (snd q)) (in_map (fun p => ent (snd p)) _ _ Hq)). unfold rv_cmp, ent in X. cbn [fst rv_val] in X.
      destruct (Z.eqb_spec (bytes_cmp (compared (fst (snd q))) (compared (fst (snd p)))) 0) as [E0|E0]; cbn [negb] in X; lia.
  Qed.
End End.
End P.
