(** C71: the space an index file takes. *)
From Coq Require Import Permutation.
From Verif Require Import Base Varint Store PageFile PageHist RefValue Node LinkedPage BPTree BPRepr BPIter BPInsert BPLoop BPTop PTree Meta Slots SlotAdd PSlots Cells IndexFile IFileInv PIndex.

(** ** Specification *)
(** all entries of all indexes of a file *)
Definition total_entries (l : list ixr) : Z := fold_right (fun ix t => zlen (ix_es ix) + t) 0 l.

(** ** Proofs *)
(** every page of a tree but one has a sibling: there are fewer than twice as many pages as leaves *)
Lemma chain_pages (R : bound -> bound -> Z -> list (rv * mptr) -> list Z -> Prop) :
  (forall lo hi o es pg, R lo hi o es pg -> zlen pg <= 2 * zlen es - 1) ->
  forall b hi ks os es pg, rchain R b hi ks os es pg -> zlen pg <= 2 * zlen es - zlen ks.
Proof.
  intros HR. induction 1 as [d|k b d ks o os es1 es2 pg1 pg2 H1 H2 IH]; [change (zlen (@nil Z)) with 0; change (zlen (@nil (rv * mptr))) with 0; change (zlen (@nil rv)) with 0; lia|].
  apply HR in H1. rewrite !zlen_app, zlen_cons. lia.
Qed.
Lemma repr_space F h : forall lo hi off es pg, repr F h lo hi off es pg -> zlen pg <= 2 * zlen es - 1.
Proof.
  induction h as [|h IH]; intros lo hi off es pg (n & pg' & _ & Hb & ->).
  - destruct Hb as (Hne & _ & _ & _ & -> & _). change (zlen [off]) with 1. destruct es as [|e es]; [congruence|]. rewrite zlen_cons. pose proof (zlen_nonneg es). lia.
  - apply body_S in Hb. destruct Hb as (o & os & b & es1 & es2 & pg1 & pg2 & _ & Hk & _ & H1 & H2 & -> & ->).
    apply IH in H1. pose proof (@chain_pages _ IH _ _ _ _ _ _ H2) as H3. rewrite zlen_cons, !zlen_app.
    destruct (keys n) as [|k ks]; [congruence|]. rewrite zlen_cons in H3. pose proof (zlen_nonneg ks). lia.
Qed.
Lemma tree_space c f m es pgs : tree_at c f m es pgs -> zlen pgs <= 2 * zlen es.
Proof.
  intros [(-> & -> & _)|(h & root & rlen & _ & _ & R)]; [change (zlen (@nil Z)) with 0; change (zlen (@nil (rv * mptr))) with 0; lia|].
  apply repr_space in R. lia.
Qed.
Lemma mchain_space f ms n : mchain f ms n -> (15 * length ms <= n + 15)%nat.
Proof. intros H. pose proof (mc_n H). pose proof (mc_n' H). pose proof (mc_len H). lia. Qed.

Section Main.
  Variables (wd : Z -> Z) (parse : bytes -> option bytes) (D : bytes) (fm : file_meta) (l : list ixr) (s : st).
  Hypothesis Hwd : widths_ok wd.
  Hypothesis Hif : ifile wd parse D fm l s.

  (** No page is ever lost: the pages after the first are the pages of slots and
      the pages of the trees of the indexes, each page with one purpose. *)
  Theorem C71_every_page_has_a_use : exists slot_pages trees,
    mchain (file s) slot_pages (S (length l)) /\
    Forall2 (fun ix pgs => exists es, Permutation es (ix_es ix) /\ tree_at (ix_codec wd parse D (ix_type ix)) (file s) (ix_at ix) es pgs) l trees /\
    NoDup (slot_pages ++ concat trees) /\
    (forall p, In p (slot_pages ++ concat trees) <-> exists k, p = 4096 * k /\ 1 <= k /\ p < zlen (file s)).
  Proof.
    destruct (ifile_holds Hwd Hif) as (HD & fl & ms & x0 & L & H). pose proof (ho_cells H) as C.
    assert (E0 : c_pgs x0 = []).
    { destruct (@cl_at _ _ _ _ C 0%nat x0 eq_refl) as (_ & _ & _ & T). apply tree_space in T. rewrite (proj2 (ho_c0 H)) in T. change (zlen (@nil (rv * mptr))) with 0 in T.
      destruct (c_pgs x0) as [|a t]; [reflexivity|]. rewrite zlen_cons in T. pose proof (zlen_nonneg t). lia. }
    assert (Eall : ms ++ all_pages (x0 :: L) ++ fl = ms ++ concat (map c_pgs L)) by (rewrite (cl_free C), app_nil_r; cbn [all_pages map concat]; rewrite E0; reflexivity).
    pose proof (cl_size C) as Hsz. pose proof (cl_nd C) as Hnd. pose proof (cells_pages C) as Hok. rewrite Eall in Hsz, Hnd, Hok.
    exists ms, (map c_pgs L). split; [pose proof (cl_chain C) as X; cbn [length] in X; rewrite <- (holds_len H) in X; exact X|]. split; [|split; [exact Hnd|]].
    - assert (G : forall k ix x, nth_error l k = Some ix -> nth_error L k = Some x -> exists es, Permutation es (ix_es ix) /\ tree_at (ix_codec wd parse D (ix_type ix)) (file s) (ix_at ix) es (c_pgs x)).
      { intros k ix x Hk Hx. destruct (holds_nth _ H Hk) as (x' & Hx' & (C1 & C2 & C3 & C4 & C5) & Ea). assert (x' = x) by (cbn [nth_error] in Hx'; congruence). subst x'.
        exists (c_es x). split; auto. destruct (@cl_at _ _ _ _ C (S k) x Hx) as (_ & _ & _ & T). rewrite Ea, <- C4. exact T. }
      pose proof (ho_ix H) as F. clear - F G. revert G. induction F as [|ix x l L _ F IH]; intros G; [constructor|]. cbn [map]. constructor; [apply (G 0%nat); reflexivity|].
      apply IH. intros k ix' x' H1 H2. apply (G (S k)); auto.
    - set (P := ms ++ concat (map c_pgs L)) in *. intros p. rewrite Forall_forall in Hok. split.
      + intros Hp. destruct (Hok p Hp) as (A1 & A2 & A3 & A4). unfold pageSize in *. exists (p / 4096). lia.
      + intros (k & -> & Hk & Hlt). assert (Hin : incl (map (fun k => 4096 * Z.of_nat k) (seq 1 (length P))) P).
        { apply NoDup_length_incl; [exact Hnd|rewrite map_length, seq_length; lia|]. intros q Hq. destruct (Hok q Hq) as (A1 & A2 & A3 & A4). unfold pageSize, zlen in *.
          apply in_map_iff. exists (Z.to_nat (q / 4096)). split; [lia|]. apply in_seq. lia. }
        apply Hin. apply in_map_iff. exists (Z.to_nat k). split; [lia|]. apply in_seq. unfold pageSize, zlen in *. lia.
  Qed.
  (** The size of the file is bounded by the number of indexes and of entries. *)
  Theorem C71_space_bound : zlen (file s) <= 4096 * (2 + (zlen l + 1) / 15 + 2 * total_entries l).
  Proof.
    destruct (ifile_holds Hwd Hif) as (HD & fl & ms & x0 & L & H). pose proof (ho_cells H) as C.
    rewrite (cl_size C), (cl_free C), app_nil_r, zlen_app. change pageSize with 4096.
    assert (Hms : zlen ms <= 1 + (zlen l + 1) / 15).
    { pose proof (mchain_space (cl_chain C)) as X. cbn [length] in X. rewrite <- (holds_len H) in X. unfold zlen.
      assert (Z.of_nat (length ms) - 1 <= (Z.of_nat (length l) + 1) / 15); [|lia]. apply Z.div_le_lower_bound; lia. }
    assert (Hpg : zlen (all_pages (x0 :: L)) <= 2 * total_entries l); [|lia].
    cbn [all_pages map concat]. rewrite zlen_app.
    assert (E0 : zlen (c_pgs x0) = 0).
    { destruct (@cl_at _ _ _ _ C 0%nat x0 eq_refl) as (_ & _ & _ & T). apply tree_space in T. rewrite (proj2 (ho_c0 H)) in T. change (zlen (@nil (rv * mptr))) with 0 in T.
      pose proof (zlen_nonneg (c_pgs x0)). lia. }
    rewrite E0. assert (G : forall k x, nth_error L k = Some x -> zlen (c_pgs x) <= 2 * zlen (c_es x)).
    { intros k x Hx. destruct (@cl_at _ _ _ _ C (S k) x Hx) as (_ & _ & _ & T). apply tree_space in T. exact T. }
    pose proof (ho_ix H) as F. clear - F G. revert G. induction F as [|ix x l L (_ & _ & _ & _ & P) F IH]; intros G; [cbn [map concat total_entries fold_right]; change (zlen (@nil Z)) with 0; lia|].
    cbn [map concat total_entries fold_right]. rewrite zlen_app. pose proof (G 0%nat x eq_refl) as G0. specialize (IH (fun k y Hy => G (S k) y Hy)).
    assert (zlen (c_es x) = zlen (ix_es ix)) by (unfold zlen; rewrite (Permutation_length P); reflexivity). unfold all_pages in IH. unfold total_entries in IH. lia.
  Qed.
End Main.
