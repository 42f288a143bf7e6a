(** C89: a browser session that stays open while the indexer runs again. *)
From Coq Require Import Permutation.
From Verif Require Import Base Varint Store PageFile PageHist RefValue Node LinkedPage BPTree BPRepr BPIter BPInsert BPLoop BPTop PTree Meta TsCodec Slots SlotAdd PSlots Cells IndexFile IFileInv PIndex Query QTree TsFile PQuery Crash PCrash Session PSpace PQueryEx.

(** ** Specification *)
(** [later D0 fm0 l0 s0 D fm l s]: an index file that was [s0], with the indexes [l0], over the data file [D0],
    is now [s], with the indexes [l], over [D], after any number of calls (see [ifile]). *)
Inductive later (wd : Z -> Z) (parse : bytes -> option bytes) (D0 : bytes) (fm0 : file_meta) (l0 : list ixr) (s0 : st) : bytes -> file_meta -> list ixr -> st -> Prop :=
| la_now : later wd parse D0 fm0 l0 s0 D0 fm0 l0 s0
| la_index D fm l s name ft m im s' : later wd parse D0 fm0 l0 s0 D fm l s -> zlen (file s) < 2^60 -> zlen name <= 245 -> 0 <= ft < 2^8 ->
    find_or_create file_slot name ft s = (Ok (m, im), s') ->
    later wd parse D0 fm0 l0 s0 D fm (if existsb (same_indexb name ft) l then l else l ++ [IX m name ft 0 []]) s'
| la_put D fm l s ix k v s' : later wd parse D0 fm0 l0 s0 D fm l s -> In ix l -> zlen (file s) < 2^60 ->
    op_ok (ix_codec wd parse D (ix_type ix)) (k, v) ->
    bp_insert (ix_codec wd parse D (ix_type ix)) (ix_at ix) k v s = (Ok tt, s') ->
    later wd parse D0 fm0 l0 s0 D fm (at_index (ix_at ix) (with_put k v) l) s'
| la_total D fm l s ix t s' : later wd parse D0 fm0 l0 s0 D fm l s -> In ix l -> 0 <= t < 2^64 ->
    6 + zlen (ix_name ix) + zlen (put_uvarint t) <= 252 ->
    save_index_meta (ix_at ix) (ix_meta (with_total t ix)) s = (Ok tt, s') ->
    later wd parse D0 fm0 l0 s0 D fm (at_index (ix_at ix) (with_total t) l) s'
| la_meta D fm fm' l s s' : later wd parse D0 fm0 l0 s0 D fm l s -> file_meta_ok fm' -> fm_format fm' <= 1 ->
    if_set_metadata file_slot fm' s = (Ok tt, s') -> later wd parse D0 fm0 l0 s0 D fm' l s'
| la_open D fm l s k fmt s1 h s' : later wd parse D0 fm0 l0 s0 D fm l s -> new_page_file (open_rws k (file s)) = (Ok tt, s1) ->
    new_index_file fmt s1 = (Ok h, s') -> later wd parse D0 fm0 l0 s0 D fm l s'
| la_more D t fm l s : later wd parse D0 fm0 l0 s0 D fm l s -> zlen (D ++ t) < 2^63 -> later wd parse D0 fm0 l0 s0 (D ++ t) fm l s
| la_read D fm l s p : later wd parse D0 fm0 l0 s0 D fm l s -> later wd parse D0 fm0 l0 s0 D fm l (set_pos s p).
(** the root pointer of an index *)
Definition root_of (s : st) (ix : ixr) : mptr := root_at (file s) (ix_at ix).
(** the page of the root has changed since [s0] *)
Definition moved (s0 s : st) (ix0 ix : ixr) : Prop := mp_off (root_of s ix) <> mp_off (root_of s0 ix0).

(** ** Proofs *)
Lemma later_ifile wd parse D0 fm0 l0 s0 D fm l s : ifile wd parse D0 fm0 l0 s0 -> later wd parse D0 fm0 l0 s0 D fm l s -> ifile wd parse D fm l s.
Proof. intros H0. induction 1; [exact H0|eapply if_index; eauto|eapply if_put; eauto|eapply if_total; eauto|eapply if_meta; eauto|eapply if_open; eauto|eapply if_more; eauto|eapply if_read; eauto]. Qed.
Definition ident (ix : ixr) : lp * bytes * Z := (ix_at ix, ix_name ix, ix_type ix).
Lemma ident_at m g l : (forall ix, ident (g ix) = ident ix) -> map ident (at_index m g l) = map ident l.
Proof. intros Hg. unfold at_index. rewrite map_map. apply map_ext. intros ix. destruct (lp_eqb (ix_at ix) m); auto. Qed.
Theorem later_holds wd parse D0 fm0 l0 s0 D fm l s fl0 ms0 x00 L0 : widths_ok wd -> holds (ix_codec wd parse D0) s0 fm0 l0 fl0 ms0 x00 L0 -> zlen D0 < 2^63 ->
  later wd parse D0 fm0 l0 s0 D fm l s ->
  zlen D < 2^63 /\ exists fl ms x0 L R, holds (ix_codec wd parse D) s fm l fl ms x0 L /\ grown L0 L /\ map ident l = map ident l0 ++ R.
Proof.
  intros Hwd H0 HD0. induction 1 as [
    | D fm l s name ft m im s' _ (HD & fl & ms & x0 & L & R & H & G & I) Hf Hname Hft E
    | D fm l s ix k v s' _ (HD & fl & ms & x0 & L & R & H & G & I) Hin Hf Hop E
    | D fm l s ix t s' _ (HD & fl & ms & x0 & L & R & H & G & I) Hin Ht Hlen E
    | D fm fm' l s s' _ (HD & fl & ms & x0 & L & R & H & G & I) Hok Hfmt E
    | D fm l s k fmt s1 h s' _ (HD & fl & ms & x0 & L & R & H & G & I) E1 E2
    | D t fm l s _ (HD & fl & ms & x0 & L & R & H & G & I) HD'
    | D fm l s p _ (HD & fl & ms & x0 & L & R & H & G & I)].
  - split; auto. exists fl0, ms0, x00, L0, []. split; auto. split; [apply grown_refl|rewrite app_nil_r; reflexivity].
  - split; auto. destruct (existsb (same_indexb name ft) l) eqn:Hex.
    + destruct (find_existing _ _ H Hex) as (p & ix & I1 & I2 & I3). rewrite E in I3. injection I3 as _ _ ->. exists fl, ms, x0, L, R. split; [apply holds_pos; auto|auto].
    + destruct (@find_new (ix_codec wd parse D) s fm l fl ms x0 L name ft) as (s2 & fl' & ms' & L' & F1 & F2 & F3 & F4 & F5); auto.
      { intros; apply ix_codec_ok; auto. }
      rewrite E in F1. injection F1 as Em _ Es. subst m s'. exists fl', ms', x0, L'. eexists. split; [exact F4|]. split; [eapply grown_trans; eauto|].
      rewrite map_app, I, <- app_assoc. reflexivity.
  - split; auto. apply In_nth_error in Hin. destruct Hin as (j & Hj).
    destruct (in_dec rv_eq_dec k (map fst (ix_es ix))) as [Hdup|Hnew]; [exfalso|].
    2:{ assert (Hw : cwidth (ix_codec wd parse D (ix_type ix)) = 0 \/ zlen (rv_val k) = cwidth (ix_codec wd parse D (ix_type ix)) - 1).
      { destruct (Z.eq_dec (cwidth (ix_codec wd parse D (ix_type ix))) 0) as [|Hne]; [auto|]. right.
        destruct (Z.eq_dec (zlen (rv_val k)) (cwidth (ix_codec wd parse D (ix_type ix)) - 1)) as [|Hne2]; [auto|]. exfalso.
        destruct Hop as (_ & _ & _ & _ & H5 & _). cbn [fst] in H5. specialize (H5 Hne). pose proof (Hwd (ix_type ix)). cbn [ix_codec cwidth] in *.
        rewrite insert_wrong_width in E; [discriminate|auto|]. cbn [ix_codec cwidth]. pose proof (zlen_nonneg (rv_val k)). rewrite !Z.mod_small by lia. auto. }
      destruct (op_key_ok Hop Hw) as [Hk Hv].
      destruct (@holds_put _ s fm l fl ms x0 L j ix k v H Hj (@ix_codec_kw wd parse D _ Hwd) Hf Hk Hv Hnew) as (s2 & fl' & L' & F1 & F2 & F3 & F4 & F5 & F6).
      rewrite E in F1. injection F1 as <-. rewrite <- (at_index_lset j _ H Hj) in F4. exists fl', ms, x0, L', R. split; [exact F4|]. split; [eapply grown_trans; eauto|].
      rewrite ident_at by reflexivity. exact I. }
    destruct (holds_nth _ H Hj) as (x & Hx & (C1 & C2 & C3 & C4 & C5) & Ea).
      pose proof (cells_sys _ (ho_cells H) Hx) as Hsys. rewrite C4, <- Ea in Hsys.
      destruct (@insert_step _ _ _ _ _ _ k v _ _ (@ix_codec_kw wd parse D _ Hwd) Hsys Hf Hop E) as [([_ X] & _)|(_ & (e & Ee) & _)]; [|discriminate].
      apply X. eapply Permutation_in; [apply Permutation_map, Permutation_sym; exact C5|exact Hdup].
  - split; auto. apply In_nth_error in Hin. destruct Hin as (j & Hj).
    destruct (@holds_total _ s fm l fl ms x0 L j ix t H Hj Ht Hlen) as (s2 & L' & F1 & F2 & F3 & F4 & F5). rewrite E in F1. injection F1 as <-.
    rewrite <- (at_index_lset j _ H Hj) in F4. exists fl, ms, x0, L', R. split; [exact F4|]. split; [eapply grown_trans; eauto|]. rewrite ident_at by reflexivity. exact I.
  - split; auto. destruct (@holds_set_meta _ s fm fm' l fl ms x0 L H Hok Hfmt) as (s2 & x' & F1 & F2 & F3 & F4). rewrite E in F1. injection F1 as <-. exists fl, ms, x', L, R. auto.
  - split; auto. destruct (@holds_open _ s fm l fl ms x0 L k fmt H) as (s2 & p & F1 & F2 & F3 & F4 & F5). rewrite E1 in F1. injection F1 as <-.
    rewrite E2 in F5. injection F5 as _ ->. exists fl, ms, x0, L, R. auto.
  - split; auto. destruct (@holds_more wd parse D t s fm l fl ms x0 L Hwd HD' H) as (x0' & L' & F & F2). exists fl, ms, x0', L', R. split; [exact F|]. split; [eapply grown_trans; eauto|auto].
  - split; auto. exists fl, ms, x0, L, R. split; [apply holds_pos; auto|auto].
Qed.

Lemma nodup_front {A} (a b : list A) : NoDup (a ++ b) -> NoDup a.
Proof. induction a as [|x a IH]; intros Hn; [constructor|]. cbn [app] in Hn. inversion Hn as [|? ? N1 N2]; subst. constructor; [intros X; apply N1, in_or_app; auto|auto]. Qed.
(** what an open session sees of the slots *)
Section Sees.
  Variables (c0 c : Z -> codec) (s0 s : st) (fm0 fm : file_meta) (l0 l : list ixr) (fl0 ms0 fl ms : list Z) (x00 x0 : cell) (L0 L : list cell) (R : list (lp * bytes * Z)).
  Hypothesis H0 : holds c0 s0 fm0 l0 fl0 ms0 x00 L0.
  Hypothesis H : holds c s fm l fl ms x0 L.
  Hypothesis Hid : map ident l = map ident l0 ++ R.
  Hypothesis Htot0 : Forall (fun ix => ix_total ix < 2^31) l0.
  Hypothesis Htot : Forall (fun ix => ix_total ix < 2^31) l.
  Notation f0 := (file s0).
  Notation f := (file s).

  Lemma id_len : (length l0 <= length l)%nat.
  Proof. apply (f_equal (@length _)) in Hid. rewrite app_length, !map_length in Hid. lia. Qed.
  Lemma id_nth k ix0 ix : nth_error l0 k = Some ix0 -> nth_error l k = Some ix -> ident ix0 = ident ix.
  Proof.
    intros E0 E. assert (A : nth_error (map ident l0 ++ R) k = Some (ident ix0)) by (rewrite nth_error_app1; [rewrite nth_error_map, E0; reflexivity|rewrite map_length; apply nth_error_Some; congruence]).
    rewrite <- Hid, nth_error_map, E in A. cbn in A. congruence.
  Qed.
  Lemma at_slot k ix : nth_error l k = Some ix -> ix_at ix = slot ms (S k).
  Proof. intros E. destruct (holds_nth _ H E) as (_ & _ & _ & ->). reflexivity. Qed.
  Lemma at_slot0 k ix : nth_error l0 k = Some ix -> ix_at ix = slot ms0 (S k).
  Proof. intros E. destruct (holds_nth _ H0 E) as (_ & _ & _ & ->). reflexivity. Qed.
  Lemma same_slot k : (k <= length l0)%nat -> slot ms0 k = slot ms k.
  Proof.
    intros Hk. destruct k as [|k]; [rewrite <- (sees_tree H0), <- (sees_tree H); reflexivity|].
    destruct (nth_error l0 k) as [ix0|] eqn:E0; [|apply nth_error_None in E0; lia].
    destruct (nth_error l k) as [ix|] eqn:E; [|apply nth_error_None in E; pose proof id_len; lia].
    rewrite <- (at_slot0 _ E0), <- (at_slot _ E). pose proof (id_nth _ E0 E) as X. unfold ident in X. congruence.
  Qed.
  Lemma src_low k : (k < 15)%nat -> src f0 f (slot ms k) = f0.
  Proof.
    intros Hk. unfold src. rewrite (sees_tree H). unfold slot. cbn [lp_off]. rewrite (Nat.div_small k 15) by lia. change (0 / 15)%nat with 0%nat. rewrite Z.eqb_refl. reflexivity.
  Qed.
  Lemma src_high k : (15 <= k <= length l)%nat -> src f0 f (slot ms k) = f.
  Proof.
    intros Hk. unfold src. pose proof (cl_chain (ho_cells H)) as Hc. pose proof (holds_len H) as Hlen. cbn [length] in Hc.
    assert (Hi : (k / 15 < length ms)%nat) by (eapply slot_idx; [exact Hc|lia]).
    assert (1 <= k / 15)%nat by (apply (Nat.div_le_mono 15 k 15); lia).
    rewrite (sees_tree H). unfold slot. cbn [lp_off]. change (0 / 15)%nat with 0%nat.
    destruct (Z.eqb_spec (nth (k / 15) ms 0) (nth 0 ms 0)) as [E|]; [exfalso|reflexivity].
    assert (0 < length ms)%nat by lia. apply (proj1 (NoDup_nth ms 0) (mc_nd Hc)) in E; lia.
  Qed.
  (** how many indexes it walks over *)
  Definition seen : nat := if (length l0 <=? 14)%nat then length l0 else length l.
  Lemma seen_le : (seen <= length l)%nat.
  Proof. unfold seen. pose proof id_len. destruct (length l0 <=? 14)%nat; lia. Qed.
  Lemma ss_next k : (k <= seen)%nat -> ts_mp_next (src f0 f (slot ms k)) (slot ms k) = Ok (if (k <? seen)%nat then Some (slot ms (S k)) else None).
  Proof.
    intros Hk. pose proof (cl_chain (ho_cells H)) as Hc. pose proof (holds_len H) as Hlen. cbn [length] in Hc.
    pose proof (cl_chain (ho_cells H0)) as Hc0. pose proof (holds_len H0) as Hlen0. cbn [length] in Hc0. pose proof id_len as Hle. unfold seen in *.
    destruct (Nat.lt_ge_cases k 15) as [Hlo|Hhi].
    - rewrite src_low by auto. assert (Hkl : (k <= length l0)%nat) by (destruct (Nat.leb_spec (length l0) 14); lia).
      rewrite <- (same_slot Hkl), (ts_mp_next_ok (k := k) Hc0) by lia. f_equal.
      destruct (Nat.leb_spec (length l0) 14).
      + destruct (Nat.ltb_spec (S k) (S (length L0))); destruct (Nat.ltb_spec k (length l0)); try lia; [|reflexivity]. rewrite same_slot by lia. reflexivity.
      + destruct (Nat.ltb_spec (S k) (S (length L0))); destruct (Nat.ltb_spec k (length l)); try lia. rewrite same_slot by lia. reflexivity.
    - assert (Hnl : (length l0 <=? 14)%nat = false) by (destruct (Nat.leb_spec (length l0) 14); [lia|reflexivity]). rewrite Hnl in *.
      rewrite src_high by lia. rewrite (ts_mp_next_ok (k := k) Hc) by lia. f_equal.
      destruct (Nat.ltb_spec (S k) (S (length L))); destruct (Nat.ltb_spec k (length l)); try lia; reflexivity.
  Qed.
  Lemma ss_pages_ok : forall d k fuel, (k + d = seen)%nat -> (d < fuel)%nat -> ss_pages fuel f0 f (slot ms k) = Ok (map (slot ms) (seq k (S d))).
  Proof.
    induction d as [|d IH]; intros k fuel Hk Hf; (destruct fuel as [|fuel]; [lia|]); cbn [ss_pages]; rewrite ss_next by lia; cbn [rbind].
    - destruct (Nat.ltb_spec k seen); [lia|]. reflexivity.
    - destruct (Nat.ltb_spec k seen); [|lia]. rewrite (IH (S k) fuel) by lia. reflexivity.
  Qed.
  (** the metadata it sees: those kept for the first page, the present ones for the others *)
  Definition kept_ix : list ixr := firstn 14 l0 ++ (if (length l0 <=? 14)%nat then [] else skipn 14 l).
  Lemma kept_nth k : nth_error kept_ix k = if (k <? 14)%nat then nth_error l0 k else if (length l0 <=? 14)%nat then None else nth_error l k.
  Proof.
    unfold kept_ix. destruct (Nat.ltb_spec k 14) as [Hk|Hk].
    - destruct (Nat.lt_ge_cases k (length l0)).
      + rewrite nth_error_app1 by (rewrite firstn_length; lia). rewrite nth_error_firstn'. destruct (Nat.ltb_spec k 14); [reflexivity|lia].
      + destruct (Nat.leb_spec (length l0) 14); [|lia]. rewrite app_nil_r, nth_error_firstn'. destruct (Nat.ltb_spec k 14); [reflexivity|lia].
    - destruct (Nat.leb_spec (length l0) 14).
      + rewrite app_nil_r, nth_error_firstn'. destruct (Nat.ltb_spec k 14); [lia|reflexivity].
      + rewrite nth_error_app2; rewrite firstn_length, Nat.min_l by lia; [|lia]. rewrite nth_error_skipn'. f_equal. lia.
  Qed.
  Lemma kept_ident : map ident kept_ix = firstn seen (map ident l).
  Proof.
    unfold kept_ix, seen. pose proof id_len. rewrite map_app, <- firstn_map. destruct (Nat.leb_spec (length l0) 14).
    - cbn [map]. rewrite app_nil_r, Hid, firstn_app_exact by (rewrite map_length; reflexivity). apply firstn_all2. rewrite map_length. lia.
    - rewrite <- skipn_map, Hid. rewrite (firstn_all2 (map ident l0 ++ R)) by (rewrite <- Hid, map_length; lia).
      rewrite skipn_app, map_length. replace (14 - length l0)%nat with 0%nat by lia. cbn [skipn]. rewrite app_assoc, firstn_skipn. reflexivity.
  Qed.
  Lemma kept_at : map ix_at kept_ix = map (slot ms) (seq 1 seen).
  Proof.
    assert (E : forall m, map ix_at m = map (fun i => fst (fst i)) (map ident m)) by (intros m; rewrite map_map; reflexivity).
    rewrite E, kept_ident, <- firstn_map, <- E, (ho_at H), firstn_map. f_equal.
    pose proof seen_le as Hle. replace (length l) with (seen + (length l - seen))%nat by lia. rewrite seq_app, firstn_app_exact by (rewrite seq_length; reflexivity). reflexivity.
  Qed.
  Lemma kept_src k ix : nth_error kept_ix k = Some ix -> src f0 f (ix_at ix) = if (k <? 14)%nat then f0 else f.
  Proof.
    intros E. rewrite kept_nth in E. destruct (Nat.ltb_spec k 14) as [Hk|Hk].
    - assert ((k < length l0)%nat) by (apply nth_error_Some; congruence). rewrite (at_slot0 _ E), same_slot by lia. apply src_low. lia.
    - destruct (Nat.leb_spec (length l0) 14); [discriminate|]. assert ((k < length l)%nat) by (apply nth_error_Some; congruence). rewrite (at_slot _ E). apply src_high. lia.
  Qed.
  Lemma kept_meta k ix : nth_error kept_ix k = Some ix -> ts_index_meta (src f0 f (ix_at ix)) (ix_at ix) = Ok (ix_meta ix).
  Proof.
    intros E. rewrite (kept_src _ E). rewrite kept_nth in E. destruct (k <? 14)%nat; [eapply (sees_meta H0); eauto|].
    destruct (length l0 <=? 14)%nat; [discriminate|]. eapply (sees_meta H); eauto.
  Qed.
  Lemma kept_metas : forall m, incl m kept_ix -> ss_metas f0 f (map ix_at m) = Ok (map ix_meta m).
  Proof.
    induction m as [|ix m IH]; intros Hin; [reflexivity|]. cbn [map ss_metas].
    destruct (In_nth_error kept_ix ix) as (k & Hk); [apply Hin; left; auto|]. rewrite (kept_meta _ Hk). cbn [rbind].
    rewrite IH by (intros y Hy; apply Hin; right; auto). reflexivity.
  Qed.
  Lemma ss_seek_ok fuel name ft : (length l <= fuel)%nat -> l0 <> [] ->
    ss_seek fuel f0 f name ft = Ok (map ix_at (filter (fun ix => ts_accepts name ft (ix_meta ix)) kept_ix)).
  Proof.
    intros Hf Hne. pose proof seen_le as Hle. assert (0 < length l0)%nat by (destruct l0; [congruence|cbn; lia]). pose proof id_len as Hll.
    assert (0 < seen)%nat by (unfold seen; destruct (length l0 <=? 14)%nat; lia).
    unfold ss_seek, ss_index_pages. rewrite (sees_tree H). rewrite ss_next by lia. cbn [rbind]. destruct (Nat.ltb_spec 0 seen); [|lia].
    rewrite (@ss_pages_ok (seen - 1) 1 fuel) by lia. cbn [rbind]. replace (S (seen - 1)) with seen by lia. rewrite <- kept_at.
    rewrite kept_metas by apply incl_refl. cbn [rbind]. f_equal.
    generalize kept_ix. intros l1. clear. induction l1 as [|ix l' IH]; [reflexivity|]. cbn [map combine filter fst snd]. destruct (ts_accepts name ft (ix_meta ix)); cbn [map fst]; rewrite IH; reflexivity.
  Qed.
  Lemma kept_in ix : In ix kept_ix -> exists ix', In ix' l /\ ident ix = ident ix'.
  Proof.
    intros Hin. assert (X : In (ident ix) (map ident kept_ix)) by (apply in_map; auto). rewrite kept_ident in X. apply in_firstn in X. apply in_map_iff in X. destruct X as (ix' & E & X). eauto.
  Qed.
  Lemma kept_nd : NoDup (map (fun ix => (ix_name ix, ix_type ix)) kept_ix).
  Proof.
    assert (E : forall m, map (fun ix => (ix_name ix, ix_type ix)) m = map (fun i => (snd (fst i), snd i)) (map ident m)) by (intros m; rewrite map_map; reflexivity).
    rewrite E, kept_ident, <- firstn_map, <- E. pose proof (ho_nd H) as X. rewrite <- (firstn_skipn seen (map (fun ix => (ix_name ix, ix_type ix)) l)) in X. eapply nodup_front; eauto.
  Qed.
End Sees.
Arguments kept_in {l0 l R} Hid.
Arguments kept_nd {c s fm l0 l fl ms x0 L R} H Hid.
Arguments ss_seek_ok {c0 c s0 s fm0 fm l0 l fl0 ms0 fl ms x00 x0 L0 L R}.
Arguments kept_meta {c0 c s0 s fm0 fm l0 l fl0 ms0 fl ms x00 x0 L0 L R} _ _ _ _ _ {k ix}.
Arguments kept_src {c0 c s0 s fm0 fm l0 l fl0 ms0 fl ms x00 x0 L0 L R} _ _ _ {k ix}.

(** ** The answer of an open session *)
Section Main.
  Variables (wd : Z -> Z) (parse : bytes -> option bytes) (D0 D : bytes) (fm0 fm : file_meta) (l0 l : list ixr) (s0 s : st) (k : nat) (ix0 ix : ixr).
  Hypothesis Hwd : widths_ok wd.
  Hypothesis Hif0 : ifile wd parse D0 fm0 l0 s0.
  Hypothesis Hlater : later wd parse D0 fm0 l0 s0 D fm l s.
  Hypothesis Hk0 : nth_error l0 k = Some ix0.
  Hypothesis Hk : nth_error l k = Some ix.
  Hypothesis Hr0 : readable wd D0 fm0 l0 s0 ix0.
  Hypothesis Hr : readable wd D fm l s ix.
  Variables (v : wval) (fuel : nat).
  Hypothesis Hv : value_type v = Some (ix_type ix).
  Hypothesis Hfuel : (fuel_of s <= fuel)%nat.

  Theorem session_query op dir limit n :
    ss_query parse fuel (file s0) (file s) D (ask ix op dir v limit) n =
    where_tree fuel (ts_rd (ix_codec wd parse D (ix_type ix)) (file s)) (Ok (root_at (if (k <? 14)%nat then file s0 else file s) (ix_at ix))) D op dir (value_key v) n.
  Proof.
    destruct (ifile_holds Hwd Hif0) as (HD0 & fl0 & ms0 & x00 & L0 & H0). destruct (later_holds Hwd H0 HD0 Hlater) as (HD & fl & ms & x0 & L & R & H & G & Hid).
    destruct Hr0 as [_ _ _ _ He0 Ht0 _ _]. destruct Hr as [Hin Hfl Hw Hf He Ht Hne Hes].
    assert (Hl0ne : l0 <> []) by (intros E; rewrite E in Hk0; destruct k; discriminate).
    assert (Hlen : (length l <= fuel)%nat) by (pose proof (cells_fuel (ho_cells H)) as X; cbn [length] in X; rewrite <- (holds_len H) in X; lia).
    pose proof (@id_len l0 l R Hid) as Hll. pose proof (@id_nth l0 l R Hid k ix0 ix Hk0 Hk) as Eid. unfold ident in Eid. injection Eid as Eat Enm Ety.
    unfold ss_query, ask. cbn [qy_where qy_order map w_key first_appearances filter length Nat.ltb Nat.leb].
    rewrite (sees_metadata H0 He0). cbn [rbind]. rewrite (sees_headers H0 Ht0 (fuel := fuel)) by (auto; lia). cbn [rbind ss_clauses]. unfold ss_clause. cbn [w_key w_val w_op].
    assert (existsb (name_eqb (ix_name ix)) (first_appearances (map ix_name l0)) = true) as ->.
    { apply existsb_name. apply C26_first_appearances_spec. rewrite <- Enm. apply in_map. eapply nth_error_In; eauto. }
    cbn [negb]. rewrite (pw ix v Hv), (ss_seek_ok H0 H Hid Ht0 Ht _ _ _ Hlen Hl0ne). cbn [rbind].
    set (ixk := if (k <? 14)%nat then ix0 else ix).
    assert (Ekk : nth_error (kept_ix l0 l) k = Some ixk).
    { rewrite (kept_nth l0 l k). unfold ixk. destruct (Nat.ltb_spec k 14); auto. destruct (Nat.leb_spec (length l0) 14); auto. assert (k < length l0)%nat by (apply nth_error_Some; congruence). lia. }
    assert (Eixk : ix_at ixk = ix_at ix /\ ix_name ixk = ix_name ix /\ ix_type ixk = ix_type ix) by (unfold ixk; destruct (k <? 14)%nat; auto).
    destruct Eixk as (Ea & En & Et).
    assert (Ef : filter (fun iy => ts_accepts (ix_name ix) (ix_type ix) (ix_meta iy)) (kept_ix l0 l) = [ixk]).
    { pose proof (kept_nd H Hid) as Hnd.
      assert (Hacc : forall y, In y (kept_ix l0 l) -> ts_accepts (ix_name ix) (ix_type ix) (ix_meta y) = true -> y = ixk).
      { intros y Hy Hacc. unfold ts_accepts in Hacc. cbn [ix_meta im_name im_type] in Hacc. apply andb_true_iff in Hacc. destruct Hacc as [A1 A2].
        assert (ix_name y = ix_name ix) by (unfold name_eqb in A1; destruct (list_eq_dec Z.eq_dec (ix_name y) (ix_name ix)); congruence).
        destruct (kept_in Hid _ Hy) as (y' & Hy' & Ey). unfold ident in Ey. injection Ey as _ _ Ey.
        assert (ix_type y = ix_type ix).
        { destruct (Hfl y' Hy') as [N1 N2]. rewrite <- Ey in N1, N2. destruct (Z.eqb_spec (ix_type ix) FTFloat64) as [E|E].
          - apply orb_true_iff in A2. destruct A2 as [A2|A2]; [apply orb_true_iff in A2; destruct A2 as [A2|A2]|]; apply Z.eqb_eq in A2; congruence.
          - apply Z.eqb_eq in A2. congruence. }
        apply (nodup_map_inj (fun ix => (ix_name ix, ix_type ix)) _ Hnd); auto; [eapply nth_error_In; eauto|]. cbn beta. congruence. }
      apply find_only; auto; [eapply nth_error_In; eauto| |eapply NoDup_map_inv; exact Hnd].
      unfold ts_accepts. cbn [ix_meta im_name im_type]. rewrite En, Et. apply andb_true_iff. split; [unfold name_eqb; destruct (list_eq_dec Z.eq_dec (ix_name ix) (ix_name ix)); congruence|].
      destruct (Z.eqb_spec (ix_type ix) FTFloat64) as [E|E]; [rewrite E; reflexivity|apply Z.eqb_refl]. }
    rewrite Ef. cbn [map]. rewrite (kept_meta H0 H Hid Ht0 Ht Ekk). cbn [rbind ix_meta im_width]. rewrite Et, Hw. fold (ix_codec wd parse D (ix_type ix)).
    assert (Eroot : ts_mp_root (src (file s0) (file s) (ix_at ixk)) (ix_at ixk) = Ok (root_at (if (k <? 14)%nat then file s0 else file s) (ix_at ix))).
    { rewrite (kept_src H0 H Hid Ekk). destruct (Nat.ltb_spec k 14); rewrite Ea; [rewrite <- Eat; exact (proj1 (sees_root H0 _ Hk0))|exact (proj1 (sees_root H _ Hk))]. }
    rewrite Eroot.
    change (k <=? 13)%nat with (k <? 14)%nat.
    match goal with |- context [rbind ?r _] => destruct r as [r1| | | |] end; cbn [rbind]; try reflexivity.
    destruct (length r1 <? n)%nat; cbn [rbind]; rewrite app_nil_r; reflexivity.
  Qed.

  (** C89: where the root pointer of the index has not changed since the session was opened, and for indexes that are
      not on the first page of slots, the session answers as a new one. *)
  Theorem C89_root_in_place_partial op dir limit n : (14 <= k)%nat \/ root_of s ix = root_of s0 ix0 ->
    ss_query parse fuel (file s0) (file s) D (ask ix op dir v limit) n = ts_query parse fuel (file s) D (ask ix op dir v limit) n.
  Proof.
    intros Hp. rewrite session_query.
    destruct (tree_of_index Hwd (later_ifile Hif0 Hlater) Hr v Hv Hfuel) as (es & h & pgs & mp & P & A & Rp & Hl & Hh & Er & Hrd & Hfe & Hsm & E). rewrite E.
    destruct (Nat.ltb_spec k 14); [|rewrite Er; reflexivity]. destruct Hp as [Hp|Hp]; [lia|].
    destruct (ifile_holds Hwd Hif0) as (HD0 & fl0 & ms0 & x00 & L0 & H0). destruct (later_holds Hwd H0 HD0 Hlater) as (HD & fl & ms & x0 & L & R & H' & G & Hid).
    pose proof (@id_nth l0 l R Hid k ix0 ix Hk0 Hk) as Eid. unfold ident in Eid. injection Eid as Eat Enm Ety.
    unfold root_of in Hp. rewrite Eat in Hp. rewrite <- Hp, Er. reflexivity.
  Qed.

  (** everything about the tree an open session reads *)
  Lemma session_tree : exists a run z h pg mp, mp = root_at (if (k <? 14)%nat then file s0 else file s) (ix_at ix) /\ Permutation (a ++ run ++ z) (ix_es ix) /\ ascending (a ++ run ++ z) /\ run <> [] /\
    ((14 <= k)%nat \/ ~ moved s0 s ix0 ix -> a = [] /\ z = []) /\ ((k < 14)%nat -> moved s0 s ix0 ix -> a ++ z <> []) /\
    repr (small_at (ix_codec wd parse D (ix_type ix)) (file s)) h None None (mp_off mp) run pg /\ mp_len mp <> 0 /\ (h < fuel)%nat /\
    rd_ok (ts_rd (ix_codec wd parse D (ix_type ix)) (file s)) (small_at (ix_codec wd parse D (ix_type ix)) (file s)) /\ Forall fetchable run /\ Forall key_small run /\
    forall op dir limit n, ss_query parse fuel (file s0) (file s) D (ask ix op dir v limit) n = where_tree fuel (ts_rd (ix_codec wd parse D (ix_type ix)) (file s)) (Ok mp) D op dir (value_key v) n.
  Proof.
    destruct (ifile_holds Hwd Hif0) as (HD0 & fl0 & ms0 & x00 & L0 & H0). destruct (later_holds Hwd H0 HD0 Hlater) as (HD & fl & ms & x0 & L & R & H & G & Hid).
    pose proof (@id_nth l0 l R Hid k ix0 ix Hk0 Hk) as Eid. unfold ident in Eid. injection Eid as Eat Enm Ety.
    destruct (holds_nth _ H0 Hk0) as (y & Hy & (_ & _ & _ & Y4 & Y5) & Ya). destruct (holds_nth _ H Hk) as (x & Hx & (C1 & C2 & C3 & C4 & C5) & Ea).
    pose proof (cells_sys _ (ho_cells H0) Hy) as Hsys0. rewrite Y4, <- Ya in Hsys0. pose proof (cells_sys _ (ho_cells H) Hx) as Hsys. rewrite C4, <- Ea in Hsys.
    pose proof (rb_some Hr0) as Hne0. pose proof (rb_some Hr) as Hne. pose proof (rb_es Hr) as Hes.
    assert (Hne0' : c_es y <> []) by (intros E; rewrite E in Y5; apply Permutation_nil in Y5; congruence).
    assert (Hne' : c_es x <> []) by (intros E; rewrite E in C5; apply Permutation_nil in C5; congruence).
    assert (Hes' : Forall (fun e => entry_small e /\ 2 <= mp_len (snd e)) (c_es x)) by (eapply Permutation_Forall; [symmetry; exact C5|exact Hes]).
    pose proof (sys_ascending Hsys) as Hasc. pose proof Hsys as (Hc & Hinv & Hb & Hslot & Htree & Hnd & Hlp). pose proof Hsys0 as (_ & _ & _ & _ & Htree0 & _ & _).
    destruct Htree as [(X & _)|(h & root & rlen & Er & Hl & Rp)]; [congruence|]. destruct Htree0 as [(X & _)|(h0 & root0 & rlen0 & Er0 & Hl0 & Rp0)]; [congruence|].
    assert (Hh : (h < fuel_of s)%nat).
    { pose proof (tree_at_pages (or_intror (ex_intro _ h (ex_intro _ root (ex_intro _ rlen (conj Er (conj Hl Rp))))) : tree_at _ _ _ _ _)) as Hok.
      eapply fuel_enough; [eapply NoDup_app_l; exact Hnd|exact Hok|]. eapply repr_height; eauto. }
    assert (Hpg : In root0 (c_pgs x)).
    { assert (In root0 (c_pgs y)) by (destruct Rp0 as (n0 & q0 & _ & _ & ->); left; auto).
      destruct (G k y) as (x' & Hx' & Hi); [exact Hy|]. cbn [nth_error] in Hx. rewrite Hx in Hx'. injection Hx' as <-. auto. }
    assert (Em : moved s0 s ix0 ix <-> root <> root0) by (unfold moved, root_of; rewrite Er, Er0; cbn [mp_off]; tauto).
    set (mp := root_at (if (k <? 14)%nat then file s0 else file s) (ix_at ix)).
    assert (Emp : mp = if (k <? 14)%nat then MP root0 rlen0 else MP root rlen) by (unfold mp; destruct (k <? 14)%nat; [rewrite <- Eat|]; auto).
    assert (G2 : exists h' a run z pg, repr (node_at (ix_codec wd parse D (ix_type ix)) (file s)) h' None None (mp_off mp) run pg /\ c_es x = a ++ run ++ z /\ (h' <= h)%nat /\ run <> [] /\
       ((14 <= k)%nat \/ ~ moved s0 s ix0 ix -> a = [] /\ z = []) /\ ((k < 14)%nat -> moved s0 s ix0 ix -> a ++ z <> [])).
    { rewrite Emp. destruct (Nat.ltb_spec k 14).
      - destruct (repr_sub _ Rp Hpg) as (h' & lo' & hi' & a & run & z & pg & Z1 & Z2 & Z3 & Z4 & Z5 & Z6 & Z7).
        exists h', a, run, z, pg. split; [eapply repr_open; exact Z1|]. split; auto. split; auto. split; auto. split.
        + intros [X|X]; [lia|]. rewrite Em in X. destruct (Z.eq_dec root0 root) as [E|E]; [apply Z6 in E; tauto|exfalso; apply X; congruence].
        + intros _ X. rewrite Em in X. apply Z7. congruence.
      - exists h, [], (c_es x), [], (c_pgs x). split; [exact Rp|]. split; [rewrite app_nil_r; reflexivity|]. split; auto. split; auto. split; [auto|]. intros; lia. }
    destruct G2 as (h' & a & run & z & pg & Z1 & Z2 & Z3 & Z4 & Z5 & Z6).
    assert (Hrun : Forall (fun e => entry_small e /\ 2 <= mp_len (snd e)) run) by (rewrite Z2 in Hes'; apply Forall_app in Hes'; destruct Hes' as [_ X]; apply Forall_app in X; tauto).
    exists a, run, z, h', pg, mp. split; [reflexivity|]. split; [rewrite <- Z2; exact C5|]. split; [rewrite <- Z2; exact Hasc|]. split; auto. split; auto. split; auto.
    split. { apply repr_small; [exact (rb_file Hr)| |exact Z1]. eapply Forall_impl; [|exact Hrun]. intros e [X _]; auto. }
    split. { rewrite Emp. destruct (k <? 14)%nat; cbn [mp_len]; lia. }
    split; [lia|]. split; [apply ts_rd_ok; exact Hc|].
    split; [eapply Forall_impl; [|exact Hrun]; intros e [_ X]; exact X|].
    split; [eapply Forall_impl; [|exact Hrun]; intros e [[X _] _]; exact X|].
    intros. apply session_query.
  Qed.

  (** C89: in any later state, a session answers from one unbroken run of the present entries of the index: all of
      them if the root has not moved, not all of them if it has. Within the run answers are as in C48. *)
  Theorem C89_session_sees_a_run_partial : exists a run z, Permutation (a ++ run ++ z) (ix_es ix) /\ ascending (a ++ run ++ z) /\ run <> [] /\
    ((14 <= k)%nat \/ ~ moved s0 s ix0 ix -> a = [] /\ z = []) /\ ((k < 14)%nat -> moved s0 s ix0 ix -> a ++ z <> []) /\
    (forall op limit n, op = QLt \/ op = QLe -> answer D run op Desc (value_key v) n (ss_query parse fuel (file s0) (file s) D (ask ix op Desc v limit) n)) /\
    (forall op limit n, op = QGt \/ op = QGe \/ op = QEq ->
       answer D run op Asc (value_key v) n (ss_query parse fuel (file s0) (file s) D (ask ix op Asc v limit) n) \/
       ss_query parse fuel (file s0) (file s) D (ask ix op Asc v limit) n = Ok []).
  Proof.
    destruct session_tree as (a & run & z & h & pg & mp & _ & P & A & Ne & S1 & S2 & Rp & Hl & Hh & Hrd & Hfe & Hsm & E). exists a, run, z.
    split; auto. split; auto. split; auto. split; auto. split; auto.
    assert (Ar : ascending run). { pose proof (repr_good Rp) as (_ & X & _). destruct Rp as (n & q & Hn & Hb & _). clear -A. unfold ascending in *. induction a as [|e a IH]; [|inversion A; auto]. cbn [app] in A. clear -A. induction run as [|e run IH]; [constructor|]. cbn [app] in A. inversion A; subst. constructor; auto. apply Forall_app in H2. tauto. }
    split.
    - intros op limit n Hop. rewrite E, (@where_desc_low _ _ Hrd run h mp pg fuel D Rp Hl Hh Hfe Hsm) by auto.
      exists (rev (filter (sat op (value_key v)) run)). split; [|split; [cbn; rewrite rev_involutive; apply asc_filter; auto|reflexivity]].
      change (satisfies op (value_key v)) with (sat op (value_key v)). symmetry. apply Permutation_rev.
    - intros op limit n Hop. rewrite E.
      destruct (@where_asc_high _ _ Hrd run h mp pg fuel D Rp Hl Hh Hfe Hsm op Asc (value_key v) n ltac:(tauto)) as [(_ & ->)|(_ & -> & _)]; [left|right; reflexivity].
      exists (filter (sat op (value_key v)) run). split; [apply Permutation_refl|split; [apply asc_filter; auto|reflexivity]].
  Qed.
End Main.

(** C89 fails for new fields: a field indexed for the first time after a session was opened is never found by it. *)
Theorem C89_new_field_refuted wd parse D0 fm0 l0 s0 f D name op v dir limit fuel n : widths_ok wd -> ifile wd parse D0 fm0 l0 s0 -> (fuel_of s0 <= fuel)%nat ->
  fm_entries fm0 < 2^31 -> Forall (fun ix => ix_total ix < 2^31) l0 -> ~ In name (map ix_name l0) ->
  exists e, ss_query parse fuel (file s0) f D (QY [CW name op v] dir limit) n = Err e.
Proof.
  intros Hwd Hif Hf He Ht Hn. destruct (ifile_holds Hwd Hif) as (HD & fl & ms & x0 & L & H).
  unfold ss_query. cbn [qy_where qy_order map w_key first_appearances filter length Nat.ltb Nat.leb].
  rewrite (sees_metadata H He). cbn [rbind].
  destruct l0 as [|ix l'] eqn:El.
  - unfold ts_header_names, ts_index_pages. rewrite (sees_tree H). pose proof (cl_chain (ho_cells H)) as Hc. pose proof (holds_len H) as Hlen. cbn [length] in *.
    rewrite (ts_mp_next_ok (k := 0) Hc) by lia. rewrite <- Hlen. cbn [rbind Nat.ltb Nat.leb]. eexists; reflexivity.
  - rewrite <- El in *. assert (Hlne : l0 <> []) by congruence.
    assert (Hlen : (length l0 <= fuel)%nat) by (pose proof (cells_fuel (ho_cells H)) as X; cbn [length] in X; rewrite <- (holds_len H) in X; lia).
    rewrite (sees_headers H Ht Hlen Hlne). cbn [rbind ss_clauses]. unfold ss_clause. cbn [w_key].
    destruct (existsb (name_eqb name) (first_appearances (map ix_name l0))) eqn:Ex.
    + exfalso. apply existsb_name in Ex. apply Hn. apply (proj2 (C26_first_appearances_spec (map ix_name l0)) name). exact Ex.
    + eexists; reflexivity.
Qed.

(** C89 fails for the records a session has seen already: one insert that moves the root of an index on the first page of slots
    makes records vanish that were there when the session was opened. *)
Theorem C89_records_vanish_refuted wd parse D fm l s s' k ix key val v fuel : widths_ok wd -> ifile wd parse D fm l s -> nth_error l k = Some ix -> (k < 14)%nat ->
  readable wd D fm l s ix -> zlen (file s) < 2^60 -> op_ok (ix_codec wd parse D (ix_type ix)) (key, val) ->
  bp_insert (ix_codec wd parse D (ix_type ix)) (ix_at ix) key val s = (Ok tt, s') ->
  readable wd D fm (at_index (ix_at ix) (with_put key val) l) s' (with_put key val ix) ->
  moved s s' ix ix -> value_type v = Some (ix_type ix) -> (fuel_of s' <= fuel)%nat ->
  exists left lost, Permutation (left ++ lost) ((key, val) :: ix_es ix) /\ (exists e, In e lost /\ In e (ix_es ix)) /\
    forall op limit n, op = QLt \/ op = QLe -> answer D left op Desc (value_key v) n (ss_query parse fuel (file s) (file s') D (ask ix op Desc v limit) n).
Proof.
  intros Hwd Hif Hk Hk14 Hr Hf Hop E Hr' Hmv Hv Hfuel.
  assert (Hin : In ix l) by (eapply nth_error_In; eauto).
  assert (Hlat : later wd parse D fm l s D fm (at_index (ix_at ix) (with_put key val) l) s') by (eapply la_put; eauto; apply la_now).
  assert (Hk' : nth_error (at_index (ix_at ix) (with_put key val) l) k = Some (with_put key val ix)).
  { unfold at_index. rewrite nth_error_map, Hk. cbn [option_map]. rewrite lp_eqb_refl. reflexivity. }
  destruct (ifile_holds Hwd Hif) as (HD & fl & ms & x0 & L & H). destruct (holds_nth _ H Hk) as (x & Hx & (C1 & C2 & C3 & C4 & C5) & Ea).
  pose proof (cells_sys _ (ho_cells H) Hx) as Hsys. rewrite C4, <- Ea in Hsys.
  assert (Hne : c_es x <> []) by (intros X; rewrite X in C5; apply Permutation_nil in C5; apply (rb_some Hr); auto).
  destruct (@insert_step _ _ _ _ _ _ key val _ _ (@ix_codec_kw wd parse D _ Hwd) Hsys Hf Hop E) as [([Hw Hnew] & _ & fl1 & pgs1 & Hsys1)|(_ & (e & Ee) & _)]; [|discriminate].
  destruct (op_key_ok Hop Hw) as [Hkey Hval].
  destruct (insert_root (@ix_codec_kw wd parse D _ Hwd) Hsys Hf Hkey Hval Hnew Hne E) as [(Er & _)|(h & esA & esB & pgA & Ees & Hlb & RA)]; [exfalso; apply Hmv; unfold root_of; congruence|].
  pose proof (insert_entry_perm key val (c_es x)) as Hpm.
  assert (Hperm : Permutation (esA ++ esB) ((key, val) :: ix_es ix)) by (rewrite <- Ees; etransitivity; [exact Hpm|]; constructor; exact C5).
  exists esA, esB. split; auto. split.
  - destruct esB as [|e1 [|e2 esB]]; cbn [length] in Hlb; try lia.
    assert (Hnd : NoDup (map fst (esA ++ e1 :: e2 :: esB))).
    { eapply Permutation_NoDup; [apply Permutation_map, Permutation_sym; exact Hperm|]. cbn [map fst]. constructor.
      - intros X. apply Hnew. eapply Permutation_in; [apply Permutation_map, Permutation_sym; exact C5|exact X].
      - eapply Permutation_NoDup; [apply Permutation_map; exact C5|]. apply sorted_NoDup. destruct Hsys as (_ & _ & _ & _ & Ht & _). eapply tree_at_sorted; eauto. }
    assert (Hne12 : fst e1 <> fst e2).
    { rewrite map_app in Hnd. cbn [map] in Hnd. apply NoDup_remove_2 in Hnd. intros X. apply Hnd, in_or_app. right. left. auto. }
    assert (Hall : forall e, In e (e1 :: e2 :: esB) -> fst e <> key -> In e (ix_es ix)).
    { intros e He Hk2. assert (X : In e ((key, val) :: ix_es ix)) by (eapply Permutation_in; [exact Hperm|apply in_or_app; auto]). destruct X as [<-|X]; [exfalso; apply Hk2; reflexivity|exact X]. }
    destruct (rv_eq_dec (fst e1) key) as [E1|E1].
    + exists e2. split; [right; left; auto|]. apply Hall; [right; left; auto|congruence].
    + exists e1. split; [left; auto|]. apply Hall; [left; auto|auto].
  - intros op limit n Hop'.
    destruct (@session_tree wd parse D D fm fm l _ s s' k ix (with_put key val ix) Hwd Hif Hlat Hk Hk' Hr Hr' v fuel Hv Hfuel) as (a & run & z & h2 & pg & mp & Emp & _ & _ & _ & _ & _ & Rp & Hl & Hh & Hrd & _ & _ & Eq).
    cbn [with_put ix_at ix_type] in *. destruct (Nat.ltb_spec k 14) as [_|]; [|lia].
    assert (Hes : Forall (fun e => entry_small e /\ 2 <= mp_len (snd e)) esA).
    { pose proof (rb_es Hr') as X. cbn [with_put ix_es] in X. assert (Y : Forall (fun e => entry_small e /\ 2 <= mp_len (snd e)) (esA ++ esB)) by (eapply Permutation_Forall; [symmetry; exact Hperm|]; exact X). apply Forall_app in Y; tauto. }
    assert (RS : repr (small_at (ix_codec wd parse D (ix_type ix)) (file s')) h None None (mp_off mp) esA pgA).
    { rewrite Emp. apply repr_small; [exact (rb_file Hr')| |exact RA]. eapply Forall_impl; [|exact Hes]. intros e0 [X _]; auto. }
    assert (Eh : h = h2) by (eapply height_unique; [exact Hrd|exact RS|exact Rp]). subst h2.
    change (ask ix op Desc v limit) with (ask (with_put key val ix) op Desc v limit). rewrite Eq.
    rewrite (@where_desc_low _ _ Hrd esA h mp pgA fuel D RS Hl Hh) by (solve [auto] || (eapply Forall_impl; [|exact Hes]; intros e0 [[X1 X2] X3]; auto)).
    assert (Ar : ascending esA).
    { pose proof (sys_ascending Hsys1) as Ai. rewrite Ees in Ai. clear -Ai. unfold ascending in *. induction esA as [|e0 esA IH]; [constructor|]. cbn [app] in Ai. inversion Ai as [|? ? A1 A2]; subst. constructor; auto. apply Forall_app in A2. tauto. }
    exists (rev (filter (sat op (value_key v)) esA)). split; [|split; [cbn; rewrite rev_involutive; apply asc_filter; auto|reflexivity]].
    change (satisfies op (value_key v)) with (sat op (value_key v)). symmetry. apply Permutation_rev.
Qed.

(** ** Such an insert exists *)
Lemma fst_snd_eq (a b : list (rv * mptr)) : map fst a = map fst b -> map snd a = map snd b -> a = b.
Proof.
  revert b. induction a as [|[x y] a IH]; intros [|[x' y'] b] H1 H2; cbn [map fst snd] in *; try discriminate; auto.
  injection H1 as -> H1. injection H2 as -> H2. f_equal. auto.
Qed.
Lemma repr_unique F rd h : rd_ok rd F -> forall off lo hi es pg lo' hi' es' pg', repr F h lo hi off es pg -> repr F h lo' hi' off es' pg' -> es = es'.
Proof.
  intros Hrd. induction h as [|h IH]; intros off lo hi es pg lo' hi' es' pg' (n & q & X1 & X2 & _) (n' & q' & Y1 & Y2 & _).
  all: pose proof (Hrd off 0 _ X1) as E; rewrite (Hrd off 0 _ Y1) in E; injection E as <-.
  - cbn in X2, Y2. destruct X2 as (_ & A1 & A2 & _). destruct Y2 as (_ & B1 & B2 & _). apply fst_snd_eq; congruence.
  - rewrite body_S in X2, Y2.
    destruct X2 as (o & os & b & e1 & e2 & p1 & p2 & _ & _ & B3 & B4 & B5 & -> & _). destruct Y2 as (o' & os' & b' & e1' & e2' & p1' & p2' & _ & _ & B3' & B4' & B5' & -> & _).
    rewrite B3 in B3'. injection B3' as <- <-. f_equal; [eapply IH; eauto|].
    assert (G : forall ks os a b es pg a' b' es' pg', rchain (repr F h) a b ks os es pg -> rchain (repr F h) a' b' ks os es' pg' -> es = es').
    { clear -IH. induction ks as [|k ks IHk]; intros os a b es pg a' b' es' pg' C1 C2; inversion C1; subst; inversion C2; subst; [reflexivity|]. f_equal; [eapply IH; eauto|eapply IHk; eauto]. }
    eapply G; eauto.
Qed.
Lemma leaf_kept c m s fl es pgs key value s' : kw c <= 2016 ->
  sys c s m fl es pgs -> zlen (file s) < 2^60 -> op_ok c (key, value) -> es <> [] ->
  bp_insert c m key value s = (Ok tt, s') -> mp_off (root_at (file s') m) = mp_off (root_at (file s) m) ->
  (exists pg, repr (node_at c (file s)) 0 None None (mp_off (root_at (file s) m)) es pg) ->
  exists pg, repr (node_at c (file s')) 0 None None (mp_off (root_at (file s') m)) (insert_entry key value es) pg.
Proof.
  intros Hkw Hsys Hf Hop Hne E Hroot (pg0 & R0).
  destruct (@insert_step _ _ _ _ _ _ key value _ _ Hkw Hsys Hf Hop E) as [([Hw Hnew] & _ & fl1 & pgs1 & Hsys1)|(_ & (e & Ee) & _)]; [|discriminate].
  destruct (op_key_ok Hop Hw) as [Hkey Hval].
  destruct (insert_root Hkw Hsys Hf Hkey Hval Hnew Hne E) as [(Er & h & pg & R & Hh)|(h & esA & esB & pgA & Ees & Hlb & RA)].
  - rewrite Hroot. rewrite (Hh _ _ R0) in R. eauto.
  - exfalso. pose proof Hsys1 as (Hc & _ & _ & _ & Ht & _). destruct Ht as [(X & _)|(h1 & root & rlen & Er1 & _ & R1)].
    + rewrite Ees in X. destruct esA; [|discriminate]. cbn [app] in X. subst esB. cbn [length] in Hlb. lia.
    + rewrite Er1 in Hroot. cbn [mp_off] in Hroot. rewrite <- Hroot in RA. pose proof (@go_rd_ok c s' Hc) as Hrd.
      assert (h = h1) by (eapply height_unique; eauto). subst h1. pose proof (repr_unique Hrd RA R1) as U. rewrite Ees in U. apply (f_equal (@length _)) in U. rewrite app_length in U. lia.
Qed.
(** the tree of the index is a leaf *)
Definition leaf_index (s : st) (ix : ixr) : Prop :=
  let c := ix_codec determine_type (fun b => Some b) [] (ix_type ix) in
  exists es fl pgs pg, sys c s (ix_at ix) fl es pgs /\ Permutation es (ix_es ix) /\ repr (node_at c (file s)) 0 None None (mp_off (root_at (file s) (ix_at ix))) es pg.
Definition chain (n : nat) (m : lp) (s : st) : Prop := ifile determine_type (fun b => Some b) [] (FM 1 0 0 0) [ixn m n] s.
Definition jump (n : nat) (m : lp) (s s' : st) : Prop :=
  bp_insert (ix_codec determine_type (fun b => Some b) [] FTFloat64) m (fst (num_entry (S n))) (snd (num_entry (S n))) s = (Ok tt, s') /\
  chain (S n) m s' /\ mp_off (root_at (file s') m) <> mp_off (root_at (file s) m).
Lemma chain_size n m s : chain n m s -> Z.of_nat n <= 5000 -> zlen (file s) <= 4096 * 10002.
Proof.
  assert (Hwd : widths_ok determine_type) by (intros ft; pose proof (determine_type_range ft); lia).
  intros H Hn. pose proof (C71_space_bound Hwd H) as Hb. unfold total_entries, ixn in Hb. cbn [fold_right ix_es] in Hb. unfold zlen at 2 3 in Hb. rewrite map_length, rev_length, seq_length in Hb.
  cbn [length] in Hb. change ((Z.of_nat 1 + 1) / 15) with 0 in Hb. lia.
Qed.
Lemma num_op_ok n : Z.of_nat n < 5000 -> op_ok (ix_codec determine_type (fun b => Some b) [] FTFloat64) (num_entry (S n)).
Proof. intros Hn. unfold op_ok, num_entry. cbn [fst snd mp_off mp_len rv_dp rv_val ix_type ix_codec cwidth]. rewrite zlen_le. change (determine_type FTFloat64) with 9. repeat split; intros; lia. Qed.
Lemma chain_step n m s : chain n m s -> Z.of_nat n < 5000 -> exists s', 
  bp_insert (ix_codec determine_type (fun b => Some b) [] FTFloat64) m (fst (num_entry (S n))) (snd (num_entry (S n))) s = (Ok tt, s') /\ chain (S n) m s'.
Proof.
  assert (Hwd : widths_ok determine_type) by (intros ft; pose proof (determine_type_range ft); lia).
  intros H Hn. pose proof (chain_size H ltac:(lia)) as Hz.
  destruct (@C33_insert_into_an_index_of_a_file _ _ _ _ _ _ (ixn m n) (fst (num_entry (S n))) (snd (num_entry (S n))) Hwd H) as (s' & E & H').
  { left; auto. } { lia. } { apply num_op_ok; auto. }
  { right. cbn [num_entry fst rv_val]. rewrite zlen_le. reflexivity. }
  { intros X. apply num_in in X. lia. }
  exists s'. split; [exact E|]. cbn [at_index map ixn ix_at] in H'. rewrite lp_eqb_refl in H'. unfold with_put in H'. cbn [ix_at ix_name ix_type ix_total ix_es] in H'.
  unfold chain, ixn. rewrite seq_S, rev_app_distr. cbn [rev app map]. exact H'.
Qed.
Lemma chain_cells n m s : chain n m s -> exists fl es pgs, sys (ix_codec determine_type (fun b => Some b) [] FTFloat64) s m fl es pgs /\ Permutation es (ix_es (ixn m n)).
Proof.
  assert (Hwd : widths_ok determine_type) by (intros ft; pose proof (determine_type_range ft); lia).
  intros H. destruct (ifile_holds Hwd H) as (HD & fl & ms & x0 & L & Hh). destruct (@holds_nth _ _ _ _ _ _ _ _ 0 (ixn m n) Hh eq_refl) as (x & Hx & (C1 & C2 & C3 & C4 & C5) & Ea).
  pose proof (cells_sys _ (ho_cells Hh) Hx) as Hsys. rewrite C4, <- Ea in Hsys. exists fl, (c_es x), (c_pgs x). split; [exact Hsys|exact C5].
Qed.
(** either the tree of [n] numbers is a leaf, or the root has moved before *)
Lemma leaf_or_jump n : (1 <= n)%nat -> Z.of_nat n <= 5000 -> (exists m s, chain n m s /\ leaf_index s (ixn m n)) \/ exists n' m s s', (1 <= n' < n)%nat /\ chain n' m s /\ jump n' m s s'.
Proof.
  intros Hn1. induction n as [|n IH]; [lia|]. intros Hn. destruct n as [|n].
  - left. destruct (@many 1 ltac:(lia)) as (s & m & H & _). exists m, s. split; auto. destruct (chain_cells H) as (fl & es & pgs & Hsys & P).
    change (ix_es (ixn m 1)) with [num_entry 1] in P. apply Permutation_sym, Permutation_length_1_inv in P. subst es.
    pose proof Hsys as (_ & _ & _ & _ & Ht & _). destruct Ht as [(X & _)|(h & root & rlen & Er & _ & R)]; [discriminate|].
    destruct h as [|h].
    + exists [num_entry 1], fl, pgs, pgs. split; [exact Hsys|]. split; [reflexivity|]. cbn [ixn ix_at]. rewrite Er. exact R.
    + exfalso. destruct R as (nd & q & _ & Hb & _). apply body_two in Hb. cbn [length] in Hb. lia.
  - destruct IH as [(m & s & H & es & fl & pgs & pg & Hsys & P & R)|(n' & m & s & s' & X1 & X2 & X3)]; [lia|lia| |right; exists n', m, s, s'; split; [lia|auto]].
    destruct (@chain_step (S n) m s H ltac:(lia)) as (s' & E & H'). cbn [ixn ix_at ix_type] in *.
    destruct (Z.eq_dec (mp_off (root_at (file s') m)) (mp_off (root_at (file s) m))) as [Eq|Ne].
    + left. exists m, s'. split; auto. pose proof (chain_size H ltac:(lia)) as Hz.
      assert (Hwd : widths_ok determine_type) by (intros ft; pose proof (determine_type_range ft); lia).
      pose proof (@ix_codec_kw determine_type (fun b => Some b) [] FTFloat64 Hwd) as Hkw.
      pose proof (@num_op_ok (S n) ltac:(lia)) as Hop. rewrite (surjective_pairing (num_entry (S (S n)))) in Hop.
      assert (Hne : es <> []). { intros ->. apply Permutation_nil in P. cbn [ixn ix_es] in P. rewrite seq_S, rev_app_distr in P. discriminate. }
      destruct (@leaf_kept _ m s fl es pgs _ _ s' Hkw Hsys ltac:(lia) Hop Hne E Eq (ex_intro _ pg R)) as (pg' & R').
      destruct (@insert_step _ _ _ _ _ _ _ _ _ _ Hkw Hsys ltac:(lia) Hop E) as [([Hw Hnew] & _ & fl1 & pgs1 & Hsys1)|(_ & (e & Ee) & _)]; [|discriminate].
      exists (insert_entry (fst (num_entry (S (S n)))) (snd (num_entry (S (S n)))) es), fl1, pgs1, pg'. split; [exact Hsys1|]. split; [|exact R'].
      etransitivity; [apply insert_entry_perm|]. cbn [ixn ix_es]. rewrite (seq_S (S n)), rev_app_distr. cbn [rev app map]. rewrite <- surjective_pairing. constructor. exact P.
    + right. exists (S n), m, s, s'. split; [lia|]. split; auto. split; auto.
Qed.
Lemma chain_readable n m s : chain n m s -> (1 <= n)%nat -> Z.of_nat n <= 5000 -> readable determine_type [] (FM 1 0 0 0) [ixn m n] s (ixn m n).
Proof.
  intros H H1 Hn. pose proof (chain_size H Hn) as Hz. constructor.
  - left; reflexivity.
  - intros ix [<-|[]]. split; discriminate.
  - reflexivity.
  - lia.
  - cbn [fm_entries]. lia.
  - constructor; [cbn [ixn ix_total]; lia|constructor].
  - intros X. apply (f_equal (@length _)) in X. cbn [ixn ix_es] in X. rewrite map_length, rev_length, seq_length in X. cbn [length] in X. lia.
  - cbn [ixn ix_es]. apply Forall_map, Forall_rev. apply Forall_forall. intros k Hk. apply in_seq in Hk. unfold entry_small, mptr_small, num_entry. cbn [fst snd rv_dp mp_off mp_len]. lia.
Qed.
(** the hypotheses of [C89_records_vanish_refuted] are met *)
Theorem C89_hypotheses_met : exists n m s s', (1 <= n)%nat /\ Z.of_nat n < 5000 /\ let ix := ixn m n in let (key, val) := num_entry (S n) in
  ifile determine_type (fun b => Some b) [] (FM 1 0 0 0) [ix] s /\ readable determine_type [] (FM 1 0 0 0) [ix] s ix /\ zlen (file s) < 2^60 /\
  op_ok (ix_codec determine_type (fun b => Some b) [] (ix_type ix)) (key, val) /\
  bp_insert (ix_codec determine_type (fun b => Some b) [] (ix_type ix)) (ix_at ix) key val s = (Ok tt, s') /\
  readable determine_type [] (FM 1 0 0 0) (at_index (ix_at ix) (with_put key val) [ix]) s' (with_put key val ix) /\
  moved s s' ix ix /\ value_type (WNum (le 8 17)) = Some (ix_type ix).
Proof.
  assert (G : forall n, Z.of_nat n = 4097 -> exists n' m s s', (1 <= n' < n)%nat /\ chain n' m s /\ jump n' m s s').
  { intros n Hn. destruct (@leaf_or_jump n ltac:(lia) ltac:(lia)) as [(m & s & H & es & fl & pgs & pg & Hsys & P & R)|X]; [exfalso|exact X].
    assert (Hwd : widths_ok determine_type) by (intros ft; pose proof (determine_type_range ft); lia).
    pose proof (chain_readable H ltac:(lia) ltac:(lia)) as Hr.
    apply (@many_entries_many_pages _ _ _ _ _ _ (ixn m n) (WNum (le 8 17)) Hwd H Hr); [reflexivity| |].
    - cbn [ixn ix_es]. unfold zlen. rewrite map_length, rev_length, seq_length. lia.
    - pose proof Hsys as (Hc & _). assert (Rs : repr (small_at (ix_codec determine_type (fun b => Some b) [] FTFloat64) (file s)) 0 None None (mp_off (root_at (file s) m)) es pg).
      { apply repr_small; [exact (rb_file Hr)| |exact R]. eapply Permutation_Forall; [symmetry; exact P|]. eapply Forall_impl; [|exact (rb_es Hr)]. intros e [X _]. exact X. }
      destruct Rs as (nd & q & N1 & N2 & _). exists nd. split; [|exact (body_leaf_dec N2)].
      pose proof (@ts_rd_ok _ (file s) Hc) as Hrd. cbn [ixn ix_at ix_type]. destruct (root_at (file s) m) as [o len]. exact (Hrd o len _ N1). }
  destruct (G (Z.to_nat 4097) ltac:(lia)) as (n & m & s & s' & Hn & H & E & H' & Hm). exists n, m, s, s'. split; [lia|]. split; [lia|]. cbv zeta.
  rewrite (surjective_pairing (num_entry (S n))).
  pose proof (chain_size H ltac:(lia)) as Hz. split; [exact H|]. split; [apply chain_readable; auto; lia|]. split; [lia|].
  split; [rewrite <- surjective_pairing; apply num_op_ok; lia|]. split; [exact E|]. split; [|split; [exact Hm|reflexivity]].
  pose proof (chain_readable H' ltac:(lia) ltac:(lia)) as X. unfold ixn in X. rewrite seq_S, rev_app_distr in X. cbn [rev app map] in X.
  cbn [at_index map ixn ix_at]. rewrite lp_eqb_refl. unfold with_put. cbn [ix_at ix_name ix_type ix_total ix_es]. rewrite <- surjective_pairing. exact X.
Qed.
(** C89 as stated is false: a session does not answer as a new one. *)
Definition C89_statement : Prop := forall wd parse D0 D fm0 fm l0 l s0 s k ix0 ix v fuel op dir limit n, widths_ok wd ->
  ifile wd parse D0 fm0 l0 s0 -> later wd parse D0 fm0 l0 s0 D fm l s -> nth_error l0 k = Some ix0 -> nth_error l k = Some ix ->
  readable wd D0 fm0 l0 s0 ix0 -> readable wd D fm l s ix -> value_type v = Some (ix_type ix) -> (fuel_of s <= fuel)%nat ->
  ss_query parse fuel (file s0) (file s) D (ask ix op dir v limit) n = ts_query parse fuel (file s) D (ask ix op dir v limit) n.
Lemma all_below n m : Z.of_nat n <= 5000 -> filter (satisfies QLe (repeat 255 8%nat)) (ix_es (ixn m n)) = ix_es (ixn m n).
Proof.
  intros Hn. cbn [ixn ix_es]. assert (G : forall l : list (rv * mptr), (forall e, In e l -> satisfies QLe (repeat 255 8%nat) e = true) -> filter (satisfies QLe (repeat 255 8%nat)) l = l).
  { induction l as [|e l IH]; intros H; [reflexivity|]. cbn [filter]. rewrite (H e (or_introl eq_refl)). f_equal. apply IH. intros; apply H; right; auto. }
  apply G. intros e He. apply in_map_iff in He. destruct He as (k & <- & Hk). apply in_rev, in_seq in Hk.
  unfold satisfies, num_entry. cbn [fst rv_val]. apply Z.leb_le. change (repeat 255 8%nat) with ([255; 255] ++ repeat 255 6%nat).
  change (le 8 (Z.of_nat k)) with (Z.of_nat k mod 256 :: (Z.of_nat k / 256) mod 256 :: le 6 (Z.of_nat k / 256 / 256)). cbn [app bytes_cmp].
  pose proof (Z.mod_pos_bound (Z.of_nat k) 256 ltac:(lia)). assert (Z.of_nat k / 256 < 20) by (apply Z.div_lt_upper_bound; lia). assert (0 <= Z.of_nat k / 256) by (apply Z.div_pos; lia).
  rewrite (Z.mod_small (Z.of_nat k / 256)) by lia.
  repeat match goal with |- context [?a <? ?b] => destruct (Z.ltb_spec a b) end; lia.
Qed.
Theorem C89_session_refuted : ~ C89_statement.
Proof.
  intros S. destruct C89_hypotheses_met as (n & m & s & s' & H1 & Hn & W). cbv zeta in W. rewrite (surjective_pairing (num_entry (Datatypes.S n))) in W.
  set (key := fst (num_entry (Datatypes.S n))) in *. set (val := snd (num_entry (Datatypes.S n))) in *. destruct W as (W1 & W2 & W3 & W4 & W5 & W6 & W7 & W8).
  assert (Hwd : widths_ok determine_type) by (intros ft; pose proof (determine_type_range ft); lia).
  set (ix := ixn m n) in *. set (v := WNum (repeat 255 8%nat)).
  assert (Hlat : later determine_type (fun b => Some b) [] (FM 1 0 0 0) [ix] s [] (FM 1 0 0 0) (at_index (ix_at ix) (with_put key val) [ix]) s') by (eapply la_put; eauto; [apply la_now|left; auto]).
  assert (Hk' : nth_error (at_index (ix_at ix) (with_put key val) [ix]) 0 = Some (with_put key val ix)) by (cbn [at_index map]; rewrite lp_eqb_refl; reflexivity).
  pose proof (later_ifile W1 Hlat) as Hif'.
  destruct (@C89_records_vanish_refuted determine_type (fun b => Some b) [] (FM 1 0 0 0) [ix] s s' 0 ix key val v (fuel_of s') Hwd W1 eq_refl ltac:(lia) W2 W3 W4 W5 W6 W7 eq_refl (le_n _)) as (left & lost & P & (e & He & _) & A).
  specialize (A QLe None (Datatypes.S n) (or_intror eq_refl)).
  pose proof (@C48_descending_lt_le_partial determine_type (fun b => Some b) [] _ _ s' (with_put key val ix) Hwd Hif' W6 v (fuel_of s') eq_refl (le_n _) QLe None (Datatypes.S n) (or_intror eq_refl)) as B.
  pose proof (S determine_type (fun b => Some b) [] [] (FM 1 0 0 0) (FM 1 0 0 0) [ix] _ s s' 0%nat ix (with_put key val ix) v (fuel_of s') QLe Desc None (Datatypes.S n) Hwd W1 Hlat eq_refl Hk' W2 W6 eq_refl (le_n _)) as E.
  change (ask (with_put key val ix) QLe Desc v None) with (ask ix QLe Desc v None) in E, B. rewrite E in A.
  destruct A as (f1 & A1 & _ & A2). destruct B as (f2 & B1 & _ & B2). rewrite B2 in A2. assert (A3 : map (record_of []) (firstn (Datatypes.S n) f2) = map (record_of []) (firstn (Datatypes.S n) f1)) by congruence. clear A2. rename A3 into A2. apply (f_equal (@length _)) in A2. rewrite !map_length, !firstn_length in A2.
  apply Permutation_length in A1, B1, P.
  assert (Hf1 : (length (filter (satisfies QLe (value_key v)) left) <= length left)%nat).
  { clear. induction left as [|x l IH]; [auto|]. cbn [filter length]. destruct (satisfies QLe (value_key v) x); cbn [length]; lia. }
  assert (Hf2 : ix_es (with_put key val ix) = ix_es (ixn m (Datatypes.S n))) by (cbn [with_put ixn ix ix_es]; rewrite seq_S, rev_app_distr; cbn [rev app map]; unfold key, val; rewrite <- surjective_pairing; reflexivity).
  change (value_key v) with (repeat 255 8%nat) in B1. rewrite Hf2, all_below in B1 by lia. cbn [ixn ix_es] in B1. rewrite map_length, rev_length, seq_length in B1.
  cbn [length] in P. unfold ix in P. cbn [ixn ix_es] in P. rewrite app_length, map_length, rev_length, seq_length in P.
  destruct lost as [|e' lost]; [destruct He|]. cbn [length] in P. lia.
Qed.
