(** C86: the size of the index file of a CSV data file. *)
From Coq Require Import Permutation Sorted.
From Verif Require Import Base Varint Store PageFile PageHist RefValue Node LinkedPage BPTree BPRepr BPIter BPInsert BPLoop BPTop PTree Meta Slots SlotAdd PSlots Cells IndexFile IFileInv PIndex PSpace Json Jsonl Grows JsonlRun JsonlSpec JsonlHist Csv CsvSpec CsvRun PCsv.

Section P.
Variable num : bytes -> option bytes.
Notation sync := (csv_sync num file_slot).
Notation parse := (fun v => Some (csv_parse num v)).
Notation clife := (clife num).
Notation cstate := (cstate num).
Notation cshows := (cshows num).

(** ** Specification *)
(** A life of an index file of format CSV, as in C43, with nothing assumed about the
    size of the index file; the data file stays below 2^44 bytes. *)
Inductive chistory : bytes -> st -> Prop :=
| ch_new k s h s' : new_page_file (open_rws k []) = (Ok tt, s) -> new_index_file 1 s = (Ok h, s') -> chistory [] s'
| ch_data D t s : chistory D s -> zlen (D ++ t) < 2^44 -> chistory (D ++ t) s
| ch_sync D s r s' : chistory D s -> count_occ Z.eq_dec D 10 <> 1%nat -> sync D s = (r, s') -> chistory D s'
| ch_open D s k s1 h s2 : chistory D s -> new_page_file (open_rws k (file s)) = (Ok tt, s1) -> new_index_file 1 s1 = (Ok h, s2) -> chistory D s2.

(** ** Proofs *)
Lemma total_of_strip l : total_entries l = fold_right (fun c t => zlen (ci_es c) + t) 0 (map strip l).
Proof. unfold total_entries. induction l as [|x l IH]; cbn [map fold_right]; [reflexivity|]. rewrite IH. reflexivity. Qed.
Definition csum (l : list ci) : Z := fold_right (fun c t => zlen (ci_es c) + t) 0 l.
Lemma csum_snoc l c : csum (l ++ [c]) = csum l + zlen (ci_es c).
Proof. unfold csum. induction l as [|x l IH]; cbn [app fold_right]; [lia|]. rewrite IH. lia. Qed.
(** a new occurrence adds at most one index and one entry for every index of its name and type *)
Lemma csum_put n ft k v l : NoDup (map (fun c => (ci_name c, ci_type c)) l) -> csum (step (APut n ft k v) l) <= csum l + 1.
Proof.
  cbn [step]. induction l as [|c l IH]; cbn [map]; intros Hn; [cbn; lia|]. inversion Hn as [|? ? H1 H2]; subst. unfold csum in *. cbn [fold_right].
  destruct (ci_is n ft c) eqn:E; [|specialize (IH H2); lia].
  assert (X : map (fun c => if ci_is n ft c then CI (ci_name c) (ci_type c) (ci_total c) ((k, v) :: ci_es c) else c) l = l).
  { clear IH. rewrite ci_is_id in E. apply id_eqb_spec in E. rewrite E in H1. clear - H1. induction l as [|d l IH]; [reflexivity|]. cbn [map In] in *. rewrite IH by tauto.
    destruct (ci_is n ft d) eqn:F; [|reflexivity]. rewrite ci_is_id in F. apply id_eqb_spec in F. exfalso. apply H1. left. auto. }
  rewrite X. cbn [ci_es]. rewrite zlen_cons. lia.
Qed.
Lemma cexpected_nodup L : NoDup (map (fun c => (ci_name c, ci_type c)) (cexpected L)).
Proof. unfold cexpected. rewrite map_map. cbn [ci_name ci_type]. rewrite (map_ext _ (fun x => x)) by (intros []; reflexivity). rewrite map_id. apply firsts_nodup. Qed.
Lemma cexpected_size L : zlen (cexpected L) <= zlen L /\ csum (cexpected L) <= zlen L.
Proof.
  induction L as [|o L [IH1 IH2]] using rev_ind; [split; cbn; apply Z.le_refl|]. rewrite zlen_app. change (zlen [o]) with 1.
  rewrite <- cexpected_snoc. unfold facts2. cbn [run].
  assert (A : zlen (step (AFind (fst (fst o)) (snd (fst o))) (cexpected L)) <= zlen (cexpected L) + 1 /\ csum (step (AFind (fst (fst o)) (snd (fst o))) (cexpected L)) <= csum (cexpected L)).
  { cbn [step]. destruct (existsb _ _); [lia|]. rewrite zlen_app, csum_snoc. change (zlen [_]) with 1. cbn [ci_es]. change (zlen (@nil (rv * mptr))) with 0. lia. }
  assert (N : NoDup (map (fun c => (ci_name c, ci_type c)) (step (AFind (fst (fst o)) (snd (fst o))) (cexpected L)))).
  { cbn [step]. destruct (existsb (ci_is (fst (fst o)) (snd (fst o))) (cexpected L)) eqn:E; [apply cexpected_nodup|]. rewrite map_app. cbn [map ci_name ci_type].
    apply (Permutation_NoDup (l := (fst (fst o), snd (fst o)) :: map (fun c => (ci_name c, ci_type c)) (cexpected L))); [apply Permutation_cons_append|]. constructor; [|apply cexpected_nodup].
    intros X. apply in_map_iff in X. destruct X as (c & Ec & Hc). assert (Y : existsb (ci_is (fst (fst o)) (snd (fst o))) (cexpected L) = true); [|congruence].
    apply existsb_exists. exists c. split; auto. rewrite ci_is_id. apply id_eqb_spec. symmetry. exact (eq_sym Ec). }
  pose proof (@csum_put (fst (fst o)) (snd (fst o)) (fst (snd o)) (snd (snd o)) _ N) as P.
  assert (Q : zlen (step (APut (fst (fst o)) (snd (fst o)) (fst (snd o)) (snd (snd o))) (step (AFind (fst (fst o)) (snd (fst o))) (cexpected L))) = zlen (step (AFind (fst (fst o)) (snd (fst o))) (cexpected L))) by (cbn [step]; apply zlen_map).
  rewrite Q. lia.
Qed.
(** the cells are in the text *)
Lemma commas_size cs : zlen cs <= zlen (commas cs) + 1.
Proof.
  induction cs as [|v cs IH]; [cbn; change (zlen (@nil bytes)) with 0; change (zlen (@nil Z)) with 0; lia|]. rewrite zlen_cons. destruct cs as [|w cs]; [cbn [commas]|change (commas (v :: w :: cs)) with (v ++ 44 :: commas (w :: cs))].
  - change (zlen (@nil bytes)) with 0. pose proof (zlen_nonneg v). lia.
  - rewrite zlen_app, (zlen_cons 44). pose proof (zlen_nonneg v). lia.
Qed.
Lemma cell_occs_size line : forall cs pos hs, zlen (cell_occs num line pos hs cs) <= zlen cs.
Proof.
  induction cs as [|v cs IH]; intros pos [|h hs]; cbn [cell_occs]; try (change (zlen (@nil cocc)) with 0; apply zlen_nonneg). rewrite !zlen_cons. pose proof (IH (pos + zlen v + 1) hs). lia.
Qed.
Lemma row_occs_size hs : forall rows at_, zlen (row_occs num at_ hs rows) <= zlen (rows_text rows).
Proof.
  induction rows as [|r rows IH]; intros at_; cbn [row_occs rows_text]; [apply Z.le_refl|]. rewrite !zlen_app, zlen_cons.
  pose proof (cell_occs_size (MP at_ (zlen (row_text r))) (cells r) at_ hs). pose proof (commas_size (cells r)). pose proof (IH (at_ + zlen (row_text r) + 1)).
  assert (zlen (commas (cells r)) <= zlen (row_text r)) by (unfold row_text; rewrite zlen_app; pose proof (zlen_nonneg (if cr r then [13] else [])); lia). lia.
Qed.
Lemma cfits_size D h rows tail : cfits D h rows tail -> zlen (csv_occs num h rows) <= zlen D.
Proof. intros (HD & _). rewrite HD, zlen_app, zlen_cons, zlen_app. pose proof (row_occs_size (cells h) rows (zlen (row_text h) + 1)). unfold csv_occs. pose proof (zlen_nonneg (row_text h)). pose proof (zlen_nonneg tail). lia. Qed.
Lemma cfits_pot D h rows tail : cfits D h rows tail -> pot (cexpected (csv_occs num h rows)) <= 2 * zlen D.
Proof. intros H. pose proof (cfits_size H). pose proof (cexpected_size (csv_occs num h rows)) as [A B]. unfold pot. unfold csum in B. lia. Qed.
Lemma cstate_size D h rows tail s : cfits D h rows tail -> cstate D h rows s -> zlen (file s) <= 4096 * (3 + 3 * zlen D).
Proof.
  intros Hfit (l & Hi & Hl & _). pose proof (cfits_size Hfit). pose proof (cexpected_size (csv_occs num h rows)) as [A B]. rewrite <- Hl in A, B. rewrite zlen_map in A.
  pose proof (C71_space_bound wd0_ok Hi) as S. rewrite total_of_strip in S. unfold csum in B. pose proof (zlen_nonneg l).
  assert ((zlen l + 1) / 15 <= zlen l + 1) by (apply Z.div_le_upper_bound; lia). lia.
Qed.
Lemma clife_sync_small D s h rows tail : clife D s -> cfits D h rows tail -> rows <> [] -> zlen D < 2^44 -> exists s', sync D s = (Ok tt, s') /\ cstate D h rows s' /\ zlen (file s') < 2^60.
Proof.
  intros Hl Hfit Hne Hz. assert (Hfit' : cfits (D ++ []) h rows tail) by (rewrite app_nil_r; auto).
  destruct (@clife_state num D s Hl h rows tail [] Hfit') as (a & b & -> & Hs & _). pose proof Hfit as (HD & Ht & _).
  destruct (@csync_state num D h a b tail s HD Ht (cfits_limits Hfit) Hne Hs) as (s' & E & S'); [right; pose proof (cfits_pot Hfit); lia|].
  exists s'. split; [exact E|]. split; [exact S'|]. pose proof (cstate_size Hfit S'). lia.
Qed.
Lemma chistory_short D s : chistory D s -> zlen D < 2^44.
Proof. induction 1; auto. change (zlen (@nil Z)) with 0. lia. Qed.
Lemma chistory_life D s : chistory D s -> forall h rows tail t, cfits (D ++ t) h rows tail -> clife D s.
Proof.
  induction 1 as [k s h0 s' E1 E2|D t0 s H IH Hz|D s r s' H IH Hc E|D s k s1 h0 s2 H IH E1 E2]; intros h rows tail t Hfit.
  - eapply cl_new; eauto.
  - rewrite <- app_assoc in Hfit. apply cl_data; [eapply IH; eauto|lia].
  - pose proof (IH _ _ _ _ Hfit) as Hl. eapply cl_sync; eauto. pose proof (chistory_short H) as Hz.
    destruct (@clife_state num D s Hl h rows tail t Hfit) as (a & b & -> & Hs & Hu). pose proof (cfits_limits Hfit) as Hlim. pose proof Hfit as (HD & Ht & _). pose proof Hlim as (L1 & _ & _ & L4 & _).
    assert (Hcut : exists a2 b2 tail', h :: a ++ b = a2 ++ b2 /\ D = rows_text a2 ++ tail' /\ ~ In 10 tail').
    { apply (@ccut num (h :: a ++ b) tail D t); [constructor; auto|auto|]. rewrite HD. cbn [rows_text]. rewrite <- app_assoc. reflexivity. }
    destruct Hcut as (a2 & b2 & tail' & Eab & HD2 & Hn'). destruct a2 as [|h2 c].
    + cbn [rows_text app] in HD2. subst tail'. assert (a = []).
      { destruct a as [|r0 a]; auto. destruct (Hu ltac:(discriminate)) as (u & Eu). exfalso. apply Hn'. rewrite Eu. apply in_or_app. right. left. reflexivity. }
      subst a. destruct (@csync_idle num D h s Hn' Hs) as (s2 & E2 & S2). rewrite E in E2. injection E2 as -> ->.
      destruct S2 as (l & Hi & Hl' & _). apply (@pot_small wd0 parse D _ l s2 wd0_ok Hi). rewrite Hl'. vm_compute. reflexivity.
    + injection Eab as Eh Eab. subst h2. destruct c as [|r1 c].
      * exfalso. apply Hc. rewrite HD2. cbn [rows_text]. rewrite !count_occ_app. cbn [count_occ]. destruct (Z.eq_dec 10 10); [|contradiction].
        rewrite (proj1 (count_occ_not_In Z.eq_dec (row_text h) 10)) by (apply row_no10; auto). rewrite (proj1 (count_occ_not_In Z.eq_dec tail' 10)) by auto. reflexivity.
      * assert (Hfit2 : cfits D h (r1 :: c) tail').
        { split; [rewrite HD2; cbn [rows_text]; rewrite <- app_assoc; reflexivity|]. split; [exact Hn'|]. apply (@climits_part h (r1 :: c) b2). rewrite <- Eab. exact Hlim. }
        destruct (@clife_sync_small D s h (r1 :: c) tail' Hl Hfit2) as (s2 & E2 & _ & F2); [discriminate|exact Hz|]. rewrite E in E2. injection E2 as -> ->. exact F2.
  - eapply cl_open; eauto.
Qed.

(** With a data file of less than 2^44 bytes within the limits of C43, Synchronize succeeds and
    the index file takes at most 12288 bytes for each byte of the data file, three pages aside. *)
Theorem C86_index_file_size D s h rows tail r s' : chistory D s -> cfits D h rows tail -> rows <> [] -> sync D s = (r, s') ->
  r = Ok tt /\ zlen (file s') <= 4096 * (3 + 3 * zlen D).
Proof.
  intros H Hfit Hne E. assert (Hfit' : cfits (D ++ []) h rows tail) by (rewrite app_nil_r; auto).
  destruct (@clife_sync_small D s h rows tail (@chistory_life D s H h rows tail [] Hfit') Hfit Hne (chistory_short H)) as (s2 & E2 & S2 & _). rewrite E in E2. injection E2 as -> ->.
  split; [reflexivity|]. eapply cstate_size; eauto.
Qed.
(** ... so every such history is a life in the sense of C43. *)
Theorem C86_every_history_is_a_life D s h rows tail r s' : chistory D s -> cfits D h rows tail -> rows <> [] -> sync D s = (r, s') ->
  clife D s /\ zlen (file s') < 2^60.
Proof.
  intros H Hfit Hne E. assert (Hfit' : cfits (D ++ []) h rows tail) by (rewrite app_nil_r; auto).
  pose proof (@chistory_life D s H h rows tail [] Hfit') as Hl. destruct (@clife_sync_small D s h rows tail Hl Hfit Hne (chistory_short H)) as (s2 & E2 & S2 & F2). rewrite E in E2. injection E2 as -> ->.
  split; [exact Hl|exact F2].
Qed.
(** C43 and C66 with no hypothesis on sizes but that of the data file *)
Theorem C86_contents D s h rows tail r s' : chistory D s -> cfits D h rows tail -> rows <> [] -> sync D s = (r, s') ->
  r = Ok tt /\ reads s' (if_metadata file_slot) (FM 1 1 (zlen (row_text h ++ 10 :: rows_text rows)) 0) /\
  reads s' (if_field_names file_slot) (cells h) /\
  (forall i, In i (map fst (csv_occs num h rows)) -> cshows 0 D s' i (centries (csv_occs num h rows) i)) /\
  (forall i, zlen (fst i) <= 245 -> 0 <= snd i < 2^8 -> cexists s' i -> In i (map fst (csv_occs num h rows))).
Proof.
  intros H Hfit Hne E. destruct (C86_every_history_is_a_life H Hfit Hne E) as (Hl & F).
  destruct (@C43_rows_under_header_names_partial num D s h rows tail r s' Hl Hfit Hne E F) as (-> & A & B & C).
  pose proof (@C66_entries_stay_zero num D s h rows tail _ s' Hl Hfit Hne E F). auto.
Qed.
End P.

(** ** Witness: the file of PCsvEx.v, synchronized in two steps, reopened in between *)
From Verif Require Import PCsvEx.
Definition creopened (k : rws_kind) : st := snd (new_index_file 1 (snd (new_page_file (open_rws k (file (sc1 k)))))).
Theorem C86_example k : chistory nm Dc (creopened k) /\ cfits Dc hd [r1; r2] [49].
Proof.
  split; [|exact cfits_c]. replace Dc with (Dc1 ++ skipn (length Dc1) Dc) by reflexivity. apply ch_data; [|reflexivity].
  apply (@ch_open nm Dc1 (sc1 k) k (snd (new_page_file (open_rws k (file (sc1 k))))) file_slot (creopened k)).
  - apply (@ch_sync nm Dc1 (cfresh k) (fst (sync Dc1 (cfresh k))) (sc1 k)).
    + apply (@ch_data nm [] Dc1 (cfresh k)); [|reflexivity]. apply (@ch_new nm k (copened k) file_slot (cfresh k)); destruct k; vm_compute; reflexivity.
    + vm_compute. discriminate.
    + unfold sc1. destruct (sync Dc1 (cfresh k)). reflexivity.
  - destruct k; vm_compute; reflexivity.
  - destruct k; vm_compute; reflexivity.
Qed.
