(** C48, C49, C68, C69: where queries in the browser. *)
From Coq Require Import Permutation.
From Verif Require Import Base Varint Store PageFile PageHist RefValue Node LinkedPage BPTree BPRepr BPIter BPInsert BPLoop BPTop PTree Meta TsCodec Slots SlotAdd PSlots Cells IndexFile IFileInv PIndex Query QTree TsFile.

(** ** Specification *)
(** the field type of a value, and the key it is compared as *)
Definition value_type (v : wval) : option Z :=
  match v with WNull => Some FTNull | WNum _ => Some FTFloat64 | WBool _ => Some FTBoolean | WStr _ => Some FTString | WOther => None end.
Definition value_key (v : wval) : bytes :=
  match v with WNull | WOther => [] | WNum b => b | WBool b => [if b then 1 else 0] | WStr b => b end.
(** does an entry satisfy the comparison? [bytes_cmp] is the lexicographic order of
    byte strings *)
Definition satisfies (op : qop) (v : bytes) (e : rv * mptr) : bool :=
  let c := bytes_cmp (rv_val (fst e)) v in
  match op with QLt => c <? 0 | QLe => c <=? 0 | QEq => c =? 0 | QGe => 0 <=? c | QGt => 0 <? c end.
(** the text of the record an entry points to *)
Definition record_of (D : bytes) (e : rv * mptr) : bytes := slice D (mp_off (snd e)) (mp_len (snd e)).
Definition ordered (dir : qdir) (es : smap) : Prop := match dir with Asc => ascending es | Desc => ascending (rev es) end.
(** [answer]: the first [n] records of the entries [es] that satisfy the comparison,
    each once, in the order of their keys *)
Definition answer (D : bytes) (es : smap) (op : qop) (dir : qdir) (v : bytes) (n : nat) (r : res (list bytes)) : Prop :=
  exists found, Permutation found (filter (satisfies op v) es) /\ ordered dir found /\ r = Ok (map (record_of D) (firstn n found)).

(** An index that the browser can read: every number it decodes as a varint or with
    32-bit operators is below 2^31 (C05, C09), the width in its metadata is the one the data
    handler uses (C62), records have at least two bytes (DataFile.get refuses
    others), and it is not empty. Numbers are looked up in the first index of type float64, int64 or
    uint64; the data handlers only make the first kind. *)
Record readable (wd : Z -> Z) (D : bytes) (fm : file_meta) (l : list ixr) (s : st) (ix : ixr) : Prop := mkReadable {
  rb_in : In ix l;
  rb_float : forall ix', In ix' l -> ix_type ix' <> FTInt64 /\ ix_type ix' <> FTUint64;
  rb_width : determine_type (ix_type ix) = wd (ix_type ix);
  rb_file : zlen (file s) <= 2^31;
  rb_entries : fm_entries fm < 2^31;
  rb_totals : Forall (fun ix => ix_total ix < 2^31) l;
  rb_some : ix_es ix <> [];
  rb_es : Forall (fun e => entry_small e /\ 2 <= mp_len (snd e)) (ix_es ix) }.
(** the root page of the index is a leaf (the index fits in one page) *)
Definition one_page (wd : Z -> Z) (parse : bytes -> option bytes) (D : bytes) (s : st) (ix : ixr) : Prop :=
  exists n, ts_rd (ix_codec wd parse D (ix_type ix)) (file s) (root_at (file s) (ix_at ix)) = Ok n /\ is_leaf n = true.
(** a query with one clause on the field of index [ix] *)
Definition ask (ix : ixr) (op : qop) (dir : qdir) (v : wval) (limit : option nat) : query := QY [CW (ix_name ix) op v] [dir] limit.

(** ** Proofs *)
Lemma find_only l (p : ixr -> bool) ix : In ix l -> p ix = true -> (forall x, In x l -> p x = true -> x = ix) -> NoDup l -> filter p l = [ix].
Proof.
  induction l as [|a l IH]; intros Hin Hp Hu Hnd; [destruct Hin|]. cbn [filter]. inversion Hnd; subst.
  destruct (p a) eqn:Ea.
  - assert (a = ix) by (apply Hu; auto; left; auto). subst a. f_equal.
    assert (G : forall m, (forall x, In x m -> p x = false) -> filter p m = []).
    { clear. induction m as [|y m IHm]; intros H; [reflexivity|]. cbn [filter]. rewrite (H y) by (left; auto). apply IHm. intros; apply H; right; auto. }
    apply G. intros x Hx. destruct (p x) eqn:Ex; auto. exfalso. assert (x = ix) by (apply Hu; auto; right; auto). subst. contradiction.
  - destruct Hin as [->|Hin]; [congruence|]. apply IH; auto. intros; apply Hu; auto. right; auto.
Qed.

(** The browser may convert key texts in its own way ([parse']), as it does for CSV files: what counts
    is that it reads the keys of the index alike. *)
Section Any.
  Variables (wd : Z -> Z) (parse parse' : bytes -> option bytes) (D : bytes) (fm : file_meta) (l : list ixr) (s : st) (ix : ixr).
  Hypothesis Hwd : widths_ok wd.
  Hypothesis Hif : ifile wd parse D fm l s.
  Hypothesis Hr : readable wd D fm l s ix.
  Hypothesis Hsame : forall e, In e (ix_es ix) -> key_ok (ix_codec wd parse D (ix_type ix)) (fst e) -> key_ok (ix_codec wd parse' D (ix_type ix)) (fst e).
  Variables (v : wval) (fuel : nat).
  Hypothesis Hv : value_type v = Some (ix_type ix).
  Hypothesis Hfuel : (fuel_of s <= fuel)%nat.

  Lemma pw : process_where v = Some (ix_type ix, value_key v).
  Proof. revert Hv. destruct v; cbn [value_type process_where value_key]; intros Hv; first [discriminate|injection Hv as Hv; rewrite <- Hv; reflexivity]. Qed.

  (** everything about the tree behind the index *)
  Lemma tree_of_index_as : exists es h pgs mp, Permutation es (ix_es ix) /\ ascending es /\
    repr (small_at (ix_codec wd parse' D (ix_type ix)) (file s)) h None None (mp_off mp) es pgs /\ mp_len mp <> 0 /\ (h < fuel)%nat /\
    root_at (file s) (ix_at ix) = mp /\ rd_ok (ts_rd (ix_codec wd parse' D (ix_type ix)) (file s)) (small_at (ix_codec wd parse' D (ix_type ix)) (file s)) /\
    Forall fetchable es /\ Forall key_small es /\
    forall op dir limit n, ts_query parse' fuel (file s) D (ask ix op dir v limit) n = where_tree fuel (ts_rd (ix_codec wd parse' D (ix_type ix)) (file s)) (Ok mp) D op dir (value_key v) n.
  Proof.
    destruct (ifile_holds Hwd Hif) as (HD & fl & ms & x0 & L & H). destruct Hr as [Hin Hfl Hw Hf He Ht Hne Hes].
    pose proof (In_nth_error _ _ Hin) as (k & Hk). destruct (holds_nth _ H Hk) as (x & Hx & (C1 & C2 & C3 & C4 & C5) & Ea).
    pose proof (cells_sys _ (ho_cells H) Hx) as Hsys. rewrite C4, <- Ea in Hsys.
    assert (Hne' : c_es x <> []) by (intros E; rewrite E in C5; apply Permutation_nil in C5; congruence).
    assert (Hes' : Forall (fun e => entry_small e /\ 2 <= mp_len (snd e)) (c_es x)) by (eapply Permutation_Forall; [symmetry; exact C5|exact Hes]).
    pose proof (sys_ascending Hsys) as Hasc. pose proof Hsys as (Hc & Hinv & Hb & Hslot & Htree & Hnd & Hlp).
    destruct Htree as [(X & _)|(h & root & rlen & Er & Hl & R)]; [congruence|].
    destruct (sys_tree Hsys Hne') as (h' & mp' & _ & _ & R' & _).
    assert (Hh : (h < fuel_of s)%nat).
    { pose proof (tree_at_pages (or_intror (ex_intro _ h (ex_intro _ root (ex_intro _ rlen (conj Er (conj Hl R))))) : tree_at _ _ _ _ _)) as Hok.
      eapply fuel_enough; [eapply NoDup_app_l; exact Hnd|exact Hok|]. eapply repr_height; eauto. }
    exists (c_es x), h, (c_pgs x), (MP root rlen). split; auto. split; auto. split.
    { cbn [mp_off]. apply repr_small; auto; [eapply Forall_impl; [|exact Hes']; intros a [X _]; auto|]. eapply repr_recode; [|intros e0 He0; apply Hsame; eapply Permutation_in; eassumption|exact R]. reflexivity. }
    split; [cbn; lia|]. split; [lia|]. split; auto. split; [apply ts_rd_ok; exact Hc|].
    split; [eapply Forall_impl; [|exact Hes']; intros a [_ X]; exact X|].
    split; [eapply Forall_impl; [|exact Hes']; intros a [[X _] _]; exact X|].
    intros op dir limit n. unfold ts_query, ask. cbn [qy_where qy_order map w_key first_appearances filter length Nat.ltb Nat.leb].
    rewrite (sees_metadata H He). cbn [rbind].
    assert (Hlne : l <> []) by (intros E; rewrite E in Hin; destruct Hin).
    assert (Hlen : (length l <= fuel)%nat) by (pose proof (cells_fuel (ho_cells H)) as X; cbn [length] in X; rewrite <- (holds_len H) in X; lia).
    rewrite (sees_headers H Ht Hlen Hlne). cbn [rbind ts_clauses]. unfold ts_clause. cbn [w_key w_val w_op].
    assert (existsb (name_eqb (ix_name ix)) (first_appearances (map ix_name l)) = true) as ->.
    { apply existsb_name. apply C26_first_appearances_spec. apply in_map; auto. }
    cbn [negb]. rewrite pw, (sees_seek H Ht _ _ Hlen Hlne). cbn [rbind].
    assert (Ef : filter (fun ix0 => ts_accepts (ix_name ix) (ix_type ix) (ix_meta ix0)) l = [ix]).
    { assert (NoDup l) as Hndl by (pose proof (ho_nd H) as X; eapply NoDup_map_inv; exact X).
      assert (Hacc : forall y, In y l -> ts_accepts (ix_name ix) (ix_type ix) (ix_meta y) = true -> y = ix).
      { intros y Hy Hacc. unfold ts_accepts in Hacc. cbn [ix_meta im_name im_type] in Hacc. apply andb_true_iff in Hacc. destruct Hacc as [A1 A2].
        assert (ix_name y = ix_name ix) by (unfold name_eqb in A1; destruct (list_eq_dec Z.eq_dec (ix_name y) (ix_name ix)); congruence).
        assert (ix_type y = ix_type ix).
        { destruct (Hfl y Hy) as [N1 N2]. destruct (Z.eqb_spec (ix_type ix) FTFloat64) as [E|E].
          - apply orb_true_iff in A2. destruct A2 as [A2|A2]; [apply orb_true_iff in A2; destruct A2 as [A2|A2]|]; apply Z.eqb_eq in A2; congruence.
          - apply Z.eqb_eq in A2. congruence. }
        apply (nodup_map_inj (fun ix => (ix_name ix, ix_type ix)) _ (ho_nd H)); auto. cbn beta. congruence. }
      apply find_only; auto. unfold ts_accepts. cbn [ix_meta im_name im_type]. apply andb_true_iff. split; [unfold name_eqb; destruct (list_eq_dec Z.eq_dec (ix_name ix) (ix_name ix)); congruence|].
      destruct (Z.eqb_spec (ix_type ix) FTFloat64) as [E|E]; [rewrite E; reflexivity|apply Z.eqb_refl]. }
    rewrite Ef. cbn [map]. rewrite (sees_meta H Ht _ Hk). cbn [rbind ix_meta im_width].
    destruct (sees_root H _ Hk) as [Eroot _]. rewrite Eroot, Er, Hw. fold (ix_codec wd parse' D (ix_type ix)).
    destruct (where_tree fuel (ts_rd (ix_codec wd parse' D (ix_type ix)) (file s)) (Ok (MP root rlen)) D op dir (value_key v) n) as [r| | | |]; cbn [rbind]; try reflexivity.
    destruct (length r <? n)%nat; cbn [rbind]; rewrite app_nil_r; reflexivity.
  Qed.

  Lemma perm_filter {A} (f : A -> bool) a b : Permutation a b -> Permutation (filter f a) (filter f b).
  Proof.
    induction 1; cbn [filter]; try (destruct (f x)); try (destruct (f y)); try constructor; auto. eapply perm_trans; eauto.
  Qed.
  Lemma asc_filter f es : ascending es -> ascending (filter f es).
  Proof. apply sorted_filter'. Qed.
  Lemma answer_asc es op n : Permutation es (ix_es ix) -> ascending es ->
    answer D (ix_es ix) op Asc (value_key v) n (Ok (texts D (firstn n (filter (sat op (value_key v)) es)))).
  Proof.
    intros Hp Ha. exists (filter (sat op (value_key v)) es). split; [|split; [apply asc_filter; auto|reflexivity]].
    change (satisfies op (value_key v)) with (sat op (value_key v)). apply perm_filter; auto.
  Qed.
  Lemma answer_desc es op n : Permutation es (ix_es ix) -> ascending es ->
    answer D (ix_es ix) op Desc (value_key v) n (Ok (texts D (firstn n (rev (filter (sat op (value_key v)) es))))).
  Proof.
    intros Hp Ha. exists (rev (filter (sat op (value_key v)) es)). split; [|split; [cbn; rewrite rev_involutive; apply asc_filter; auto|reflexivity]].
    change (satisfies op (value_key v)) with (sat op (value_key v)). etransitivity; [symmetry; apply Permutation_rev|apply perm_filter; auto].
  Qed.

  (** C48, descending < and <=: exactly the matching records, in descending order. *)
  Theorem ask_desc_low op limit n : op = QLt \/ op = QLe ->
    answer D (ix_es ix) op Desc (value_key v) n (ts_query parse' fuel (file s) D (ask ix op Desc v limit) n).
  Proof.
    intros Hop. destruct tree_of_index_as as (es & h & pgs & mp & P & A & R & Hl & Hh & _ & Hrd & Hfe & Hsm & E). rewrite E.
    rewrite (@where_desc_low _ _ Hrd es h mp pgs fuel D R Hl Hh Hfe Hsm) by auto. apply answer_desc; auto.
  Qed.
  (** C48, ascending < and <=, for an index of more than one page. *)
  Theorem ask_asc_low op limit n : op = QLt \/ op = QLe -> ~ one_page wd parse' D s ix ->
    answer D (ix_es ix) op Asc (value_key v) n (ts_query parse' fuel (file s) D (ask ix op Asc v limit) n).
  Proof.
    intros Hop Hone. destruct tree_of_index_as as (es & h & pgs & mp & P & A & R & Hl & Hh & Er & Hrd & Hfe & Hsm & E). rewrite E.
    assert (0 < h)%nat.
    { destruct h; [|lia]. exfalso. apply Hone. destruct R as (n0 & pg' & Hn & Hb & _). exists n0. rewrite Er. destruct mp as [o len]. split; [apply Hrd; exact Hn|exact (body_leaf_dec Hb)]. }
    rewrite (@where_asc_low _ _ Hrd es h mp pgs fuel D R Hl Hh Hfe) by auto. apply answer_asc; auto.
  Qed.
  (** C48, ascending >, >= and ==: exactly the matching records, or nothing at all. *)
  Theorem ask_asc_high op limit n : op = QGt \/ op = QGe \/ op = QEq ->
    answer D (ix_es ix) op Asc (value_key v) n (ts_query parse' fuel (file s) D (ask ix op Asc v limit) n) \/
    ts_query parse' fuel (file s) D (ask ix op Asc v limit) n = Ok [].
  Proof.
    intros Hop. destruct tree_of_index_as as (es & h & pgs & mp & P & A & R & Hl & Hh & Er & Hrd & Hfe & Hsm & E). rewrite E.
    destruct (@where_asc_high _ _ Hrd es h mp pgs fuel D R Hl Hh Hfe Hsm op Asc (value_key v) n ltac:(tauto)) as [(_ & ->)|(_ & -> & _)]; [left|right; reflexivity].
    apply answer_asc; auto.
  Qed.
  (** ... and never nothing on an index of one page. *)
  Theorem ask_one_page op limit n : op = QGt \/ op = QGe \/ op = QEq -> one_page wd parse' D s ix ->
    answer D (ix_es ix) op Asc (value_key v) n (ts_query parse' fuel (file s) D (ask ix op Asc v limit) n).
  Proof.
    intros Hop (nd & Hnd & Hlf). destruct tree_of_index_as as (es & h & pgs & mp & P & A & R & Hl & Hh & Er & Hrd & Hfe & Hsm & E). rewrite E.
    assert (h = 0%nat) as H0.
    { destruct h; auto. exfalso. destruct R as (n0 & pg' & Hn & Hb & _). rewrite Er in Hnd. destruct mp as [o len]. pose proof (Hrd _ len _ Hn) as X. cbn [mp_off] in X. rewrite X in Hnd.
      injection Hnd as <-. rewrite (body_leaf_dec Hb) in Hlf. discriminate. }
    destruct (@where_asc_high _ _ Hrd es h mp pgs fuel D R Hl Hh Hfe Hsm op Asc (value_key v) n ltac:(tauto)) as [(_ & ->)|(Hoff & -> & _)]; [apply answer_asc; auto|].
    pose proof (leaf_falls_off Hrd R Hl Hh H0 Hoff) as Hfrom.
    assert (Hnil : filter (sat op (value_key v)) es = []).
    { destruct Hop as [-> | [-> | ->]]; cbn [search_key] in Hfrom.
      - rewrite from_high in Hfrom by auto. exact Hfrom.
      - rewrite from_low in Hfrom by auto. exact Hfrom.
      - rewrite from_low in Hfrom by auto. clear -Hfrom. induction es as [|e es' IH]; [reflexivity|]. cbn [filter] in *. unfold sat at 1.
        destruct (Z.leb_spec 0 (vcmp (value_key v) e)); [discriminate|]. destruct (Z.eqb_spec (vcmp (value_key v) e) 0); [lia|auto]. }
    pose proof (@answer_asc es op n P A) as X. rewrite Hnil in X. destruct n; exact X.
  Qed.
  (** the direction makes no difference for == *)
  Theorem ask_eq_direction limit n : ts_query parse' fuel (file s) D (ask ix QEq Desc v limit) n = ts_query parse' fuel (file s) D (ask ix QEq Asc v limit) n.
  Proof. destruct tree_of_index_as as (es & h & pgs & mp & P & A & R & Hl & Hh & Er & Hrd & Hfe & Hsm & E). rewrite !E. reflexivity. Qed.

  (** C48 fails for descending > and >=, on every index of more than one page: the record with the
      greatest key is never returned, and > returns what >= returns. *)
  Theorem ask_desc_high op limit n : op = QGt \/ op = QGe -> ~ one_page wd parse' D s ix ->
    exists es last, Permutation (es ++ [last]) (ix_es ix) /\ ascending (es ++ [last]) /\
      answer D es QGe Desc (value_key v) n (ts_query parse' fuel (file s) D (ask ix op Desc v limit) n).
  Proof.
    intros Hop Hone. destruct tree_of_index_as as (es & h & pgs & mp & P & A & R & Hl & Hh & Er & Hrd & Hfe & Hsm & E). rewrite E.
    assert (0 < h)%nat.
    { destruct h; [|lia]. exfalso. apply Hone. destruct R as (n0 & pg' & Hn & Hb & _). exists n0. rewrite Er. destruct mp as [o len]. split; [apply Hrd; exact Hn|exact (body_leaf_dec Hb)]. }
    assert (Hne : es <> []) by (intros X; rewrite X in P; apply Permutation_nil in P; apply (rb_some Hr); auto).
    destruct (exists_last Hne) as (es1 & e & ->). exists es1, e. split; auto. split; auto.
    rewrite (@where_desc_high _ _ Hrd _ h mp pgs fuel D R Hl Hh Hfe Hsm) by auto. rewrite removelast_last.
    exists (rev (filter (sat QGe (value_key v)) es1)). split; [|split; [|reflexivity]].
    - change (satisfies QGe (value_key v)) with (sat QGe (value_key v)). symmetry. apply Permutation_rev.
    - cbn. rewrite rev_involutive. apply asc_filter. unfold ascending in *. clear -A. induction es1 as [|x t IH]; [constructor|]. cbn [app] in A. inversion A; subst.
      constructor; auto. apply Forall_app in H2. tauto.
  Qed.
End Any.

Section Main.
  Variables (wd : Z -> Z) (parse : bytes -> option bytes) (D : bytes) (fm : file_meta) (l : list ixr) (s : st) (ix : ixr).
  Hypothesis Hwd : widths_ok wd.
  Hypothesis Hif : ifile wd parse D fm l s.
  Hypothesis Hr : readable wd D fm l s ix.
  Variables (v : wval) (fuel : nat).
  Hypothesis Hv : value_type v = Some (ix_type ix).
  Hypothesis Hfuel : (fuel_of s <= fuel)%nat.

  (** everything about the tree behind the index *)
  Lemma tree_of_index : exists es h pgs mp, Permutation es (ix_es ix) /\ ascending es /\
    repr (small_at (ix_codec wd parse D (ix_type ix)) (file s)) h None None (mp_off mp) es pgs /\ mp_len mp <> 0 /\ (h < fuel)%nat /\
    root_at (file s) (ix_at ix) = mp /\ rd_ok (ts_rd (ix_codec wd parse D (ix_type ix)) (file s)) (small_at (ix_codec wd parse D (ix_type ix)) (file s)) /\
    Forall fetchable es /\ Forall key_small es /\
    forall op dir limit n, ts_query parse fuel (file s) D (ask ix op dir v limit) n = where_tree fuel (ts_rd (ix_codec wd parse D (ix_type ix)) (file s)) (Ok mp) D op dir (value_key v) n.
  Proof. exact (@tree_of_index_as wd parse parse D fm l s ix Hwd Hif Hr (fun e _ H => H) v fuel Hv Hfuel). Qed.
  (** C48, descending < and <=: exactly the matching records, in descending order. *)
  Theorem C48_descending_lt_le_partial op limit n : op = QLt \/ op = QLe ->
    answer D (ix_es ix) op Desc (value_key v) n (ts_query parse fuel (file s) D (ask ix op Desc v limit) n).
  Proof. exact (@ask_desc_low wd parse parse D fm l s ix Hwd Hif Hr (fun e _ H => H) v fuel Hv Hfuel op limit n). Qed.
  (** C48, ascending < and <=, for an index of more than one page. *)
  Theorem C48_ascending_lt_le_partial op limit n : op = QLt \/ op = QLe -> ~ one_page wd parse D s ix ->
    answer D (ix_es ix) op Asc (value_key v) n (ts_query parse fuel (file s) D (ask ix op Asc v limit) n).
  Proof. exact (@ask_asc_low wd parse parse D fm l s ix Hwd Hif Hr (fun e _ H => H) v fuel Hv Hfuel op limit n). Qed.
  (** C48, ascending >, >= and ==: exactly the matching records, or nothing at all. *)
  Theorem C48_ascending_gt_ge_eq_partial op limit n : op = QGt \/ op = QGe \/ op = QEq ->
    answer D (ix_es ix) op Asc (value_key v) n (ts_query parse fuel (file s) D (ask ix op Asc v limit) n) \/
    ts_query parse fuel (file s) D (ask ix op Asc v limit) n = Ok [].
  Proof. exact (@ask_asc_high wd parse parse D fm l s ix Hwd Hif Hr (fun e _ H => H) v fuel Hv Hfuel op limit n). Qed.
  (** ... and never nothing on an index of one page. *)
  Theorem C48_one_page_gt_ge_eq_partial op limit n : op = QGt \/ op = QGe \/ op = QEq -> one_page wd parse D s ix ->
    answer D (ix_es ix) op Asc (value_key v) n (ts_query parse fuel (file s) D (ask ix op Asc v limit) n).
  Proof. exact (@ask_one_page wd parse parse D fm l s ix Hwd Hif Hr (fun e _ H => H) v fuel Hv Hfuel op limit n). Qed.
  (** the direction makes no difference for == *)
  Theorem C48_eq_direction limit n : ts_query parse fuel (file s) D (ask ix QEq Desc v limit) n = ts_query parse fuel (file s) D (ask ix QEq Asc v limit) n.
  Proof. exact (@ask_eq_direction wd parse parse D fm l s ix Hwd Hif Hr (fun e _ H => H) v fuel Hv Hfuel limit n). Qed.
  (** C48 fails for descending > and >=, on every index of more than one page: the record with the
      greatest key is never returned, and > returns what >= returns. *)
  Theorem C48_descending_gt_ge_refuted op limit n : op = QGt \/ op = QGe -> ~ one_page wd parse D s ix ->
    exists es last, Permutation (es ++ [last]) (ix_es ix) /\ ascending (es ++ [last]) /\
      answer D es QGe Desc (value_key v) n (ts_query parse fuel (file s) D (ask ix op Desc v limit) n).
  Proof. exact (@ask_desc_high wd parse parse D fm l s ix Hwd Hif Hr (fun e _ H => H) v fuel Hv Hfuel op limit n). Qed.
End Main.

(** C48 fails for == and ascending >=, on every index of more than one page with distinct values whose
    keys do not come from the very first byte of the data: there is a record which neither
    == nor >= with its own value returns; they return nothing. *)
Theorem C48_eq_ge_refuted wd parse D fm l s ix fuel : widths_ok wd -> ifile wd parse D fm l s -> readable wd D fm l s ix -> (fuel_of s <= fuel)%nat ->
  ~ one_page wd parse D s ix -> NoDup (map (fun e => rv_val (fst e)) (ix_es ix)) -> Forall (fun e => rv_dp (fst e) <> MP 0 0) (ix_es ix) ->
  exists e, In e (ix_es ix) /\ forall v, value_type v = Some (ix_type ix) -> value_key v = rv_val (fst e) -> forall op limit n, op = QEq \/ op = QGe ->
    satisfies op (value_key v) e = true /\ ts_query parse fuel (file s) D (ask ix op Asc v limit) n = Ok [].
Proof.
  intros Hwd Hif Hr Hfu Hone Hnd Hdp.
  (* the tree does not depend on the value *)
  assert (Hany : forall v, value_type v = Some (ix_type ix) -> True) by auto.
  destruct (Z.eq_dec (ix_type ix) FTNull) as [Et|Et]; [|destruct (Z.eq_dec (ix_type ix) FTFloat64) as [Et2|Et2]; [|destruct (Z.eq_dec (ix_type ix) FTBoolean) as [Et3|Et3]; [|destruct (Z.eq_dec (ix_type ix) FTString) as [Et4|Et4]]]].
  5:{ assert (Hne := rb_some Hr). destruct (ix_es ix) as [|e es]; [congruence|]. exists e. split; [left; auto|]. intros [| | | |] Hv; cbn in Hv; congruence. }
  all: assert (Hv0 : exists v0, value_type v0 = Some (ix_type ix)) by (first [exists WNull; cbn; congruence|exists (WNum []); cbn; congruence|exists (WBool true); cbn; congruence|exists (WStr []); cbn; congruence]);
    clear Hany; destruct Hv0 as (v0 & Hv0);
    destruct (tree_of_index Hwd Hif Hr v0 Hv0 Hfu) as (es & h & pgs & mp & P & A & R & Hl & Hh & Er & Hrd & Hfe & Hsm & _);
    (assert (Hh0 : exists h', h = S h') by
      (destruct h as [|h']; [|exists h'; reflexivity]; exfalso; apply Hone; destruct R as (n0 & pg' & Hn & Hb & _); exists n0; rewrite Er; destruct mp as [o len]; split; [apply Hrd; exact Hn|exact (body_leaf_dec Hb)]));
    destruct Hh0 as (h' & ->);
    (destruct (@separator_falls_off _ _ Hrd h' fuel mp es pgs Hh R) as (e & He & Hoff);
     [eapply Permutation_NoDup; [|exact Hnd]; apply Permutation_map; symmetry; exact P|
      rewrite Forall_forall in *; intros x Hx; split; [apply Hsm; auto|apply Hdp; eapply Permutation_in; eauto]|]);
    exists e; (split; [eapply Permutation_in; eauto|]); intros v Hv Ev op limit n Hop;
    (split; [unfold satisfies; rewrite Ev, bytes_cmp_refl; destruct Hop as [-> | ->]; reflexivity|]);
    destruct (tree_of_index Hwd Hif Hr v Hv Hfu) as (es2 & h2 & pgs2 & mp2 & P2 & A2 & R2 & Hl2 & Hh2 & Er2 & Hrd2 & Hfe2 & Hsm2 & E);
    rewrite E; (assert (mp2 = mp) as -> by congruence);
    (destruct (@where_asc_high _ _ Hrd2 es2 h2 mp pgs2 fuel D R2 Hl2 Hh2 Hfe2 Hsm2 op Asc (value_key v) n ltac:(tauto)) as [(Hno & _)|(_ & -> & _)]; [|reflexivity]);
    exfalso; apply Hno; rewrite Ev; destruct Hop as [-> | ->]; exact Hoff.
Qed.

(** *** C49 *)
(** limit is ignored: with any limit, a query returns as many records as it is asked for, up to the
    number of matching records *)
Theorem C49_limit_refuted wd parse D fm l s ix v fuel limit n : widths_ok wd -> ifile wd parse D fm l s -> readable wd D fm l s ix ->
  value_type v = Some (ix_type ix) -> (fuel_of s <= fuel)%nat -> (n <= length (filter (satisfies QLe (value_key v)) (ix_es ix)))%nat ->
  exists r, ts_query parse fuel (file s) D (ask ix QLe Desc v limit) n = Ok r /\ length r = n.
Proof.
  intros Hwd Hif Hr Hv Hf Hn. destruct (C48_descending_lt_le_partial Hwd Hif Hr v Hv Hf limit n (or_intror eq_refl)) as (found & P & _ & E).
  eexists. split; [exact E|]. rewrite map_length, firstn_length, (Permutation_length P). lia.
Qed.

(** *** C68 *)
(** clauses on different fields are refused *)
Theorem C68_two_fields_refused parse fuel f D q n w1 w2 : In w1 (qy_where q) -> In w2 (qy_where q) -> w_key w1 <> w_key w2 ->
  exists e, ts_query parse fuel f D q n = Err e.
Proof.
  intros H1 H2 Hne. unfold ts_query.
  assert (Hl : (1 < length (first_appearances (map w_key (qy_where q))))%nat).
  { destruct (C26_first_appearances_spec (map w_key (qy_where q))) as [Hnd Hin].
    assert (I1 : In (w_key w1) (first_appearances (map w_key (qy_where q)))) by (apply Hin, in_map; auto).
    assert (I2 : In (w_key w2) (first_appearances (map w_key (qy_where q)))) by (apply Hin, in_map; auto).
    destruct (first_appearances (map w_key (qy_where q))) as [|a [|b t]]; cbn [length]; [destruct I1| |lia].
    destruct I1 as [I1|[]], I2 as [I2|[]]. exfalso. apply Hne. congruence. }
  destruct (Nat.ltb_spec 1 (length (first_appearances (map w_key (qy_where q))))); [|lia]. eexists; reflexivity.
Qed.
(** Several clauses on one field: the results of the clauses one after the other, so a
    record that satisfies both is returned twice, and one that satisfies only one is
    returned. *)
Theorem C68_clauses_on_one_field_refuted wd parse D fm l s ix v1 v2 fuel limit n : widths_ok wd -> ifile wd parse D fm l s -> readable wd D fm l s ix ->
  value_type v1 = Some (ix_type ix) -> value_type v2 = Some (ix_type ix) -> (fuel_of s <= fuel)%nat ->
  exists found1 found2, Permutation found1 (filter (satisfies QLe (value_key v1)) (ix_es ix)) /\ Permutation found2 (filter (satisfies QLt (value_key v2)) (ix_es ix)) /\
    ts_query parse fuel (file s) D (QY [CW (ix_name ix) QLe v1; CW (ix_name ix) QLt v2] [Desc] limit) n = Ok (map (record_of D) (firstn n (found1 ++ found2))).
Proof.
  intros Hwd Hif Hr Hv1 Hv2 Hf.
  assert (Hone : forall v op, (op = QLt \/ op = QLe) -> value_type v = Some (ix_type ix) -> exists found, Permutation found (filter (satisfies op (value_key v)) (ix_es ix)) /\
     forall m, ts_query parse fuel (file s) D (ask ix op Desc v limit) m = Ok (map (record_of D) (firstn m found))).
  { intros v op Hop Hv. destruct (tree_of_index Hwd Hif Hr v Hv Hf) as (es & h & pgs & mp & P & A & R & Hl & Hh & _ & Hrd & Hfe & Hsm & E).
    exists (rev (filter (sat op (value_key v)) es)). split.
    - change (satisfies op (value_key v)) with (sat op (value_key v)). etransitivity; [symmetry; apply Permutation_rev|apply perm_filter; auto].
    - intros m. rewrite E, (@where_desc_low _ _ Hrd es h mp pgs fuel D R Hl Hh Hfe Hsm) by auto. reflexivity. }
  destruct (Hone v1 QLe (or_intror eq_refl) Hv1) as (f1 & P1 & E1). destruct (Hone v2 QLt (or_introl eq_refl) Hv2) as (f2 & P2 & E2).
  exists f1, f2. split; auto. split; auto.
  unfold ts_query, ask in *. cbn [qy_where qy_order map w_key first_appearances filter length Nat.ltb Nat.leb] in *.
  destruct (list_eq_dec Z.eq_dec (ix_name ix) (ix_name ix)) as [_|X]; [|congruence]. cbn [length Nat.leb] in *.
  destruct (ts_if_metadata (file s)) as [m| | | |]; cbn [rbind] in *; try (specialize (E1 n); discriminate).
  destruct (ts_header_names fuel (file s)) as [hs| | | |]; cbn [rbind] in *; try (specialize (E1 n); discriminate).
  cbn [ts_clauses] in *.
  assert (G : forall v op f, (forall m0, rbind (ts_clause parse fuel (file s) D hs Desc (CW (ix_name ix) op v) m0)
        (fun r => rbind (if (length r <? m0)%nat then Ok [] else Ok []) (fun r' => Ok (r ++ r'))) = Ok (map (record_of D) (firstn m0 f))) ->
        forall m0, ts_clause parse fuel (file s) D hs Desc (CW (ix_name ix) op v) m0 = Ok (map (record_of D) (firstn m0 f))).
  { intros v op f E m0. specialize (E m0). destruct (ts_clause parse fuel (file s) D hs Desc (CW (ix_name ix) op v) m0) as [r| | | |]; cbn [rbind] in E; try discriminate.
    destruct (length r <? m0)%nat; cbn [rbind] in E; rewrite app_nil_r in E; exact E. }
  rewrite (G _ _ _ E1). cbn [rbind]. rewrite map_length, firstn_length. rewrite (G _ _ _ E2).
  destruct (Nat.ltb_spec (Nat.min n (length f1)) n).
  - cbn [rbind]. assert (length (firstn (n - Nat.min n (length f1)) f2) <= n - Nat.min n (length f1))%nat by apply firstn_le_length.
    destruct (length (map (record_of D) (firstn (n - Nat.min n (length f1)) f2)) <? n - Nat.min n (length f1))%nat; cbn [rbind]; rewrite app_nil_r, <- map_app;
      rewrite firstn_app, Nat.min_r by lia; reflexivity.
  - cbn [rbind]. rewrite app_nil_r. rewrite firstn_app. replace (n - length f1)%nat with 0%nat by lia. cbn [firstn]. rewrite app_nil_r. reflexivity.
Qed.

(** *** C69 *)
(** A field that is not indexed is refused; so is a value of a type for which the field has no index. *)
Theorem C69_unknown_field wd parse D fm l s fuel name op v dir limit n : widths_ok wd -> ifile wd parse D fm l s -> (fuel_of s <= fuel)%nat ->
  fm_entries fm < 2^31 -> Forall (fun ix => ix_total ix < 2^31) l -> ~ In name (map ix_name l) ->
  exists e, ts_query parse fuel (file s) D (QY [CW name op v] dir limit) n = Err e.
Proof.
  intros Hwd Hif Hf He Ht Hn. destruct (ifile_holds Hwd Hif) as (HD & fl & ms & x0 & L & H).
  unfold ts_query. cbn [qy_where qy_order map w_key first_appearances filter length Nat.ltb Nat.leb].
  rewrite (sees_metadata H He). cbn [rbind].
  destruct l as [|ix l'] eqn:El.
  - unfold ts_header_names, ts_index_pages. rewrite (sees_tree H). pose proof (cl_chain (ho_cells H)) as Hc. pose proof (holds_len H) as Hlen. cbn [length] in *.
    rewrite (ts_mp_next_ok (k := 0) Hc) by lia. rewrite <- Hlen. cbn [rbind Nat.ltb Nat.leb]. eexists; reflexivity.
  - rewrite <- El in *. assert (Hlne : l <> []) by congruence.
    assert (Hlen : (length l <= fuel)%nat) by (pose proof (cells_fuel (ho_cells H)) as X; cbn [length] in X; rewrite <- (holds_len H) in X; lia).
    rewrite (sees_headers H Ht Hlen Hlne). cbn [rbind ts_clauses]. unfold ts_clause. cbn [w_key].
    destruct (existsb (name_eqb name) (first_appearances (map ix_name l))) eqn:Ex.
    + exfalso. apply existsb_name in Ex. apply Hn. apply (proj2 (C26_first_appearances_spec (map ix_name l)) name). exact Ex.
    + eexists; reflexivity.
Qed.
Theorem C69_unindexed_type wd parse D fm l s fuel name op v dir limit n : widths_ok wd -> ifile wd parse D fm l s -> (fuel_of s <= fuel)%nat ->
  fm_entries fm < 2^31 -> Forall (fun ix => ix_total ix < 2^31) l ->
  (forall ix, In ix l -> ix_type ix <> FTInt64 /\ ix_type ix <> FTUint64) -> (forall ix, In ix l -> ix_name ix = name -> Some (ix_type ix) <> value_type v) ->
  exists e, ts_query parse fuel (file s) D (QY [CW name op v] dir limit) n = Err e.
Proof.
  intros Hwd Hif Hf He Ht Hfl Hn. destruct (in_dec (list_eq_dec Z.eq_dec) name (map ix_name l)) as [Hin|Hin]; [|eapply C69_unknown_field; eauto].
  destruct (ifile_holds Hwd Hif) as (HD & fl & ms & x0 & L & H).
  unfold ts_query. cbn [qy_where qy_order map w_key first_appearances filter length Nat.ltb Nat.leb].
  rewrite (sees_metadata H He). cbn [rbind]. assert (Hlne : l <> []) by (intros ->; destruct Hin).
  assert (Hlen : (length l <= fuel)%nat) by (pose proof (cells_fuel (ho_cells H)) as X; cbn [length] in X; rewrite <- (holds_len H) in X; lia).
  rewrite (sees_headers H Ht Hlen Hlne). cbn [rbind ts_clauses]. unfold ts_clause. cbn [w_key w_val].
  destruct (negb (existsb (name_eqb name) (first_appearances (map ix_name l)))); [eexists; reflexivity|].
  destruct (process_where v) as [[ft key]|] eqn:Ep; [|eexists; reflexivity].
  assert (Hvt : value_type v = Some ft) by (destruct v; cbn in *; congruence).
  rewrite (sees_seek H Ht _ _ Hlen Hlne). cbn [rbind].
  assert (filter (fun ix => ts_accepts name ft (ix_meta ix)) l = []) as ->; [|eexists; reflexivity].
  assert (G : forall m, (forall x, In x m -> In x l) -> filter (fun ix => ts_accepts name ft (ix_meta ix)) m = []).
  { induction m as [|x m IH]; intros Hm; [reflexivity|]. cbn [filter]. rewrite IH by (intros; apply Hm; right; auto).
    destruct (ts_accepts name ft (ix_meta x)) eqn:Ea; [|reflexivity]. exfalso. unfold ts_accepts in Ea. cbn [ix_meta im_name im_type] in Ea. apply andb_true_iff in Ea. destruct Ea as [A1 A2].
    assert (Hx : In x l) by (apply Hm; left; auto).
    assert (ix_name x = name) by (unfold name_eqb in A1; destruct (list_eq_dec Z.eq_dec (ix_name x) name); congruence).
    apply (Hn x Hx); auto. rewrite Hvt. f_equal. destruct (Hfl x Hx) as [N1 N2]. destruct (Z.eqb_spec ft FTFloat64) as [E|E].
    - apply orb_true_iff in A2. destruct A2 as [A2|A2]; [apply orb_true_iff in A2; destruct A2 as [A2|A2]|]; apply Z.eqb_eq in A2; congruence.
    - apply Z.eqb_eq in A2. congruence. }
  apply G; auto.
Qed.
