(** What the death of the process in the middle of FindOrCreateIndex, Insert or
    SetMetadata leaves of an index file: every index of the file is still an index, its
    entries are among those it had or was getting, and the file metadata are the old ones.
    Nothing in this file models code. *)
From Coq Require Import Permutation.
From Verif Require Import Base Varint Store PageFile PageHist RefValue Node LinkedPage BPTree BPRepr BPIter BPInsert BPLoop BPTop PTree Meta Slots SlotAdd PSlots Cells IndexFile IFileInv PIndex Json Jsonl Grows JsonlRun Crash PCrash SyncCrash PSyncCrash.

(** ** Crash points of programs *)
Lemma crashes_bind_cw {A B} (m : M st A) (g : A -> M st B) s (P : bytes -> Prop) : budget s = None -> cw m -> fst (m s) <> Crash -> crashes m s P ->
  (forall a s1, m s = (Ok a, s1) -> crashes (g a) s1 P) -> crashes (bind m g) s P.
Proof. intros Hb Hw Hn Hm Hg. apply crashes_bind; auto. intros _. apply Hw; auto. Qed.
Lemma crashes_bind_nb {A B} (m : M st A) (g : A -> M st B) s a s1 (P : bytes -> Prop) : nb m -> m s = (Ok a, s1) -> crashes (g a) s1 P -> crashes (bind m g) s P.
Proof. intros Hn E Hg k s' X. unfold bind in X. rewrite Hn, E in X. cbn [fst snd] in X. exact (Hg k s' X). Qed.
Lemma crashes_mono {A} (m : M st A) s (P Q : bytes -> Prop) : (forall f, P f -> Q f) -> crashes m s P -> crashes m s Q.
Proof. intros H Hm k s' E. apply H. eapply Hm; eauto. Qed.
(** a program that seeks and writes once *)
Lemma crashes_write_at {A} o b (x : A) s (P : bytes -> Prop) : budget s = None -> P (file s) -> crashes (seek_start o ;;; pf_write b ;;; ret x) s P.
Proof.
  intros Hb H. apply crashes_bind; auto; [apply writes_seek_start|apply crashes_seek_abs|]. intros a s1 E.
  apply seek_abs_file in E. destruct E as [E1 E2]. rewrite Hb in E2. apply crashes_bind; auto; [apply writes_pf_write|apply crashes_pf_write; congruence|]. intros; apply crashes_ret.
Qed.
Lemma crashes_set_metadata m d s (P : bytes -> Prop) : budget s = None -> P (file s) -> crashes (lp_set_metadata m d) s P.
Proof.
  intros Hb H. unfold lp_set_metadata. destruct (_ =? _); [intros k s'; discriminate|]. destruct (_ || _); [intros k s'; discriminate|]. apply crashes_write_at; auto.
Qed.
Lemma index_marshal_nc m : index_meta_marshal m <> Crash.
Proof. unfold index_meta_marshal. repeat match goal with |- context [if ?b then _ else _] => destruct b end; discriminate. Qed.
Lemma file_marshal_nc m : file_meta_marshal m <> Crash.
Proof. unfold file_meta_marshal. repeat match goal with |- context [if ?b then _ else _] => destruct b end; discriminate. Qed.
Lemma crashes_save m im s (P : bytes -> Prop) : budget s = None -> P (file s) -> crashes (save_index_meta m im) s P.
Proof.
  intros Hb H. unfold save_index_meta. apply crashes_bind; auto; [apply writes_lift, index_marshal_nc|apply crashes_lift, index_marshal_nc|].
  intros b s1 E. assert (s1 = s) as -> by (unfold lift in E; congruence). apply crashes_set_metadata; auto.
Qed.
Lemma crashes_if_set m fm s (P : bytes -> Prop) : budget s = None -> P (file s) -> crashes (if_set_metadata m fm) s P.
Proof.
  intros Hb H. unfold if_set_metadata. apply crashes_bind; auto; [apply writes_lift, file_marshal_nc|apply crashes_lift, file_marshal_nc|].
  intros b s1 E. assert (s1 = s) as -> by (unfold lift in E; congruence). apply crashes_set_metadata; auto.
Qed.
(** the programs that only read *)
Lemma nb_ret {A} (a : A) : nb (ret a). Proof. intros s b. reflexivity. Qed.
Lemma nb_fail {A} e : nb (@fail st A e). Proof. intros s b. reflexivity. Qed.
Lemma nb_panic {A} : nb (@panic st A). Proof. intros s b. reflexivity. Qed.
Lemma nb_lift {A} (r : res A) : nb (lift r). Proof. intros s b. reflexivity. Qed.
Lemma nb_read_full l : nb (read_full l).
Proof. unfold read_full. apply nb_bind; [apply nb_pf_read|]. intros [d e]. repeat match goal with |- context [if ?b then _ else _] => destruct b end; first [apply nb_ret|apply nb_fail]. Qed.
Lemma nb_lp_count m : nb (lp_count m).
Proof. unfold lp_count. apply nb_bind; [apply nb_seek|intros _]. apply nb_bind; [apply nb_read_full|intros; apply nb_ret]. Qed.
Lemma nb_lp_npo m : nb (lp_next_page_offset m).
Proof. unfold lp_next_page_offset. apply nb_bind; [apply nb_seek|intros _]. apply nb_bind; [apply nb_read_full|intros; apply nb_ret]. Qed.
Lemma nb_lp_next m : nb (lp_next m).
Proof.
  unfold lp_next. apply nb_bind; [apply nb_lp_count|intros c]. destruct (_ <? _); [apply nb_ret|]. apply nb_bind; [apply nb_lp_npo|intros o]. destruct (_ =? _); [apply nb_fail|apply nb_ret].
Qed.
Lemma nb_lp_metadata m : nb (lp_metadata m).
Proof.
  unfold lp_metadata. destruct (_ =? _); [apply nb_fail|]. apply nb_bind; [apply nb_seek|intros _]. apply nb_bind; [apply nb_pf_read|]. intros [d [e|]]; [apply nb_fail|].
  cbv zeta. destruct (_ <? _); [apply nb_panic|apply nb_ret].
Qed.

(** ** What is left *)
(** The slots of the file can be walked; each has metadata and a B+ tree. *)
Definition wc (s : st) (fl ms : list Z) (X : list cell) : Prop :=
  pf_inv s fl /\ budget s = None /\ mchain (file s) ms (length X) /\ nth 0 ms 0 = pageSize /\ NoDup (ms ++ fl) /\
  forall k x, nth_error X k = Some x -> meta_is (file s) (slot ms k) (c_meta x) /\ zlen (c_meta x) <= 252 /\ sys (c_codec x) s (slot ms k) fl (c_es x) (c_pgs x).
Lemma cells_wc s fl ms X : cells s fl ms X -> wc s fl ms X.
Proof.
  intros H. split; [apply (cl_inv H)|]. split; [apply (cl_bud H)|]. split; [apply (cl_chain H)|]. split; [apply (cl_first H)|]. split.
  - rewrite (cl_free H), app_nil_r. apply (mc_nd (cl_chain H)).
  - intros k x Hx. destruct (cl_at H _ Hx) as (M1 & M2 & _). split; auto. split; auto. apply (cells_sys _ H Hx).
Qed.
Lemma wc_same s fl ms X s' : wc s fl ms X -> pf_inv s' fl -> budget s' = None -> file s' = file s -> wc s' fl ms X.
Proof.
  intros (H1 & H2 & H3 & H4 & H5 & H6) I B E. unfold wc. rewrite E. split; auto. split; auto. split; auto. split; auto. split; auto.
  intros k x Hx. destruct (H6 _ _ Hx) as (M1 & M2 & (S1 & S2 & S3 & S4 & S5 & S6 & S7)). split; auto. split; auto. unfold sys. rewrite E. auto 10.
Qed.
(** the file only grew *)
Lemma wc_ext s ms X s' t : wc s [] ms X -> pf_inv s' [] -> budget s' = None -> file s' = file s ++ t -> wc s' [] ms X.
Proof.
  intros (H1 & H2 & H3 & H4 & H5 & H6) I B E. pose proof (zlen_nonneg t) as Ht.
  assert (Hz : zlen (file s) <= zlen (file s')) by (rewrite E, zlen_app; lia).
  assert (Hsl : forall o l, 0 <= o -> 0 <= l -> o + l <= zlen (file s) -> slice (file s') o l = slice (file s) o l).
  { intros o l Ho Hl Hol. rewrite E. unfold slice. rewrite skipn_app, firstn_app.
    replace (Z.to_nat l - length (skipn (Z.to_nat o) (file s)))%nat with 0%nat by (rewrite skipn_length; unfold zlen in *; lia). cbn [firstn]. apply app_nil_r. }
  split; auto. split; auto. split; [|split; [auto|split; [auto|]]].
  - apply (@mchain_frame _ _ _ _ H3 Hz). intros j Hj. destruct (nth_ok H3 Hj) as [(Q1 & Q2 & Q3 & Q4) _]. apply Hsl; unfold pageSize in *; lia.
  - intros k x Hx. destruct (H6 _ _ Hx) as (M1 & M2 & (S1 & S2 & S3 & S4 & S5 & S6 & S7)). pose proof (root_off_bounds S4) as (B1 & B3 & B4 & B5 & B6). pose proof S4 as ((P1 & P2 & P3 & P4) & _).
    pose proof (zlen_nonneg (c_meta x)).
    split; [|split; [auto|]].
    + unfold meta_is. rewrite Hsl; [exact M1|unfold pageSize in *; lia..].
    + split; auto. split; auto. split; auto. split; [eapply slot_ok_mono; eauto|]. split; auto. eapply tree_at_frame; [exact Hz| | |exact S5].
      * unfold root_at. rewrite Hsl; [reflexivity|unfold pageSize in *; lia..].
      * intros p Hp. apply tree_at_pages in S5. rewrite Forall_forall in S5. destruct (S5 _ Hp) as (Q1 & Q2 & Q3 & Q4). unfold page. apply Hsl; unfold pageSize in *; lia.
Qed.

Section G.
Variables (wd : Z -> Z) (parse : bytes -> option bytes) (D : bytes).
Hypothesis Hwd : widths_ok wd.
Notation ifile := (ifile wd parse D).
Notation ixc := (ix_codec wd parse D).
(** a slot left behind is an index with entries among those of [E], or has no metadata yet *)
Definition left_cell (E : list ci) (x : cell) : Prop :=
  (c_meta x = [] /\ c_es x = []) \/
  exists c, In c E /\ (exists t, let m := IM (ci_name c) (ci_type c) (determine_type (ci_type c)) t in index_meta_marshal m = Ok (c_meta x) /\ index_meta_ok m /\ zlen (ci_name c) < 2^16 - 6) /\
    c_codec x = ixc (ci_type c) /\ incl (c_es x) (ci_es c).
Definition dead (fm : file_meta) (E : list ci) (f : bytes) : Prop :=
  exists s ms x0 L, file s = f /\ wc s [] ms (x0 :: L) /\ file_meta_unmarshal (c_meta x0) = Ok fm /\ Forall (left_cell E) L.
Definition subs (E E' : list ci) : Prop := forall c, In c E -> exists c', In c' E' /\ ci_name c' = ci_name c /\ ci_type c' = ci_type c /\ incl (ci_es c) (ci_es c').
Lemma subs_refl E : subs E E.
Proof. intros c Hc. exists c. split; auto. split; auto. split; auto. apply incl_refl. Qed.
Lemma subs_trans A B C : subs A B -> subs B C -> subs A C.
Proof. intros H1 H2 c Hc. destruct (H1 _ Hc) as (c1 & I1 & N1 & T1 & S1). destruct (H2 _ I1) as (c2 & I2 & N2 & T2 & S2). exists c2. split; auto. split; [congruence|]. split; [congruence|]. eapply incl_tran; eauto. Qed.
Lemma subs_step a E : subs E (step a E).
Proof.
  intros c Hc. destruct a as [n ft|n ft k v|n ft t]; cbn [step].
  - exists c. destruct (existsb _ _); [|split; [apply in_or_app; auto|]]; auto using incl_refl.
  - eexists. split; [apply in_map; exact Hc|]. cbv beta. destruct (ci_is n ft c); cbn [ci_name ci_type ci_es]; auto using incl_refl, incl_tl.
  - eexists. split; [apply in_map; exact Hc|]. cbv beta. destruct (ci_is n ft c); cbn [ci_name ci_type ci_es]; auto using incl_refl.
Qed.
Lemma subs_run acts : forall E, subs E (run acts E).
Proof. induction acts as [|a acts IH]; intros E; cbn [run]; [apply subs_refl|]. eapply subs_trans; [apply (subs_step a)|apply IH]. Qed.
Lemma dead_mono fm E E' f : subs E E' -> dead fm E f -> dead fm E' f.
Proof.
  intros Hs (s & ms & x0 & L & H1 & H2 & H3 & H4). exists s, ms, x0, L. split; auto. split; auto. split; auto.
  eapply Forall_impl; [|exact H4]. intros x [Hx|(c & Hc & (t & Et) & Ec & Hi)]; [left; auto|]. right. destruct (Hs _ Hc) as (c' & I' & N' & T' & S').
  exists c'. split; auto. rewrite N', T'. split; [eauto|]. split; auto. eapply incl_tran; eauto.
Qed.
Lemma holds_left s fm l fl ms x0 L : holds ixc s fm l fl ms x0 L -> file_meta_unmarshal (c_meta x0) = Ok fm /\ Forall (left_cell (map strip l)) L.
Proof.
  intros H. split; [destruct (ho_fm H) as (F1 & F2 & F3); apply (file_unmarshal_exact F2 F3 F1)|].
  apply Forall_forall. intros x Hx. apply In_nth_error in Hx. destruct Hx as (j & Hj). destruct (forall2_nth_r (ho_ix H) _ Hj) as (ix & Hix & (C1 & C2 & C3 & C4 & C5)).
  right. exists (strip ix). split; [apply in_map; eapply nth_error_In; eauto|]. cbn [strip ci_name ci_type ci_es]. split; [exists (ix_total ix); exact (conj C1 (conj C2 C3))|].
  split; auto. intros e He. eapply Permutation_in; eauto.
Qed.
Lemma holds_dead s fm l fl ms x0 L : holds ixc s fm l fl ms x0 L -> dead fm (map strip l) (file s).
Proof. intros H. destruct (holds_left H) as [H1 H2]. exists s, ms, x0, L. split; auto. split; [pose proof (cells_wc (ho_cells H)) as W; rewrite (cl_free (ho_cells H)) in W; exact W|]. auto. Qed.
Lemma ifile_dead fm l s : ifile fm l s -> dead fm (map strip l) (file s).
Proof. intros Hi. destruct (ifile_holds Hwd Hi) as (_ & fl & ms & x0 & L & H). eapply holds_dead; eauto. Qed.

(** ** Insert *)
Lemma put_dead fm l s m name ft t k v : ifile fm l s -> zlen (file s) < 2^60 -> has m name ft t l -> op_ok (ixc ft) (k, v) ->
  crashes (bp_insert (ixc ft) m k v) s (dead fm (step (APut name ft k v) (map strip l))).
Proof.
  intros Hi Hf (ix & Hin & E1 & E2 & E3 & E4) Hop. destruct (ifile_holds Hwd Hi) as (HD & fl & ms & x0 & L & H).
  apply In_nth_error in Hin. destruct Hin as (j & Hj). destruct (holds_nth _ H Hj) as (x & Hx & (C1 & C2 & C3 & C4 & C5) & Ea).
  pose proof (cells_sys _ (ho_cells H) Hx) as Hsys. rewrite C4, <- Ea, E1, E3 in Hsys. pose proof (cells_pages (ho_cells H)) as Hok. rewrite Forall_forall in Hok.
  assert (HQ : accepts (cwidth (ixc ft)) (c_es x) k -> incl (c_es x) ((k, v) :: ix_es ix) /\ (c_es x <> [] -> forall a b z, insert_entry k v (c_es x) = a ++ b ++ z -> incl (a ++ z) ((k, v) :: ix_es ix))).
  { intros _. assert (X : incl (c_es x) ((k, v) :: ix_es ix)) by (intros e He; right; eapply Permutation_in; eauto). split; auto.
    intros _ a b z E e He. assert (Y : In e (insert_entry k v (c_es x))) by (rewrite E; apply in_app_iff in He; rewrite !in_app_iff; tauto).
    apply insert_entry_in in Y. destruct Y as [->|Y]; [left; reflexivity|apply X; exact Y]. }
  intros n s' Es. destruct (@insert_crash _ _ _ _ _ _ _ _ (fun es => incl es ((k, v) :: ix_es ix)) (@ix_codec_kw wd parse D _ Hwd) Hsys Hf Hop HQ _ _ Es) as (s2 & fl2 & es2 & pgs2 & F & Hs2 & Q2 & U & Hfl2 & Hz2).
  pose proof Hs2 as (_ & I2 & B2 & Hso2 & _). rewrite <- F in U. assert (Em : m = slot ms (S j)) by congruence. subst m.
  pose proof (cells_lt _ (ho_cells H) Hx) as Hlt. pose proof (cells_slot _ (ho_cells H) Hx) as Hso. pose proof (root_off_bounds Hso) as (B1 & B3 & B4 & B5 & B6). pose proof Hso as ((P1 & P2 & P3 & P4) & _).
  pose proof (ho_cells H) as [H1 H2 H3 H4 H5 H6 Hfree H6' H7]. subst fl. rewrite !app_nil_r in *. pose proof U as [Lz Hun]. rewrite Em in U, Hun.
  assert (Hxp : forall p, In p (c_pgs x) -> ~ In p ms).
  { intros p Hp Hm. eapply nd_disj; [exact H6|exact Hm|]. eapply in_all_pages; eauto. }
  assert (Hslots : forall i o n0, (i < length ms)%nat -> nth i ms 0 <= o -> 0 <= n0 -> o + n0 <= nth i ms 0 + pageSize -> o + n0 <= root_off (slot ms (S j)) \/ root_off (slot ms (S j)) + 12 <= o -> slice (file s2) o n0 = slice (file s) o n0).
  { intros i o n0 Hii Ho Hn0 Hon Hr. destruct (nth_ok H3 Hii) as [(Q1 & R2 & R3 & R4) _]. apply Hun; try (unfold pageSize in *; lia).
    intros p Hp. assert (Hne : nth i ms 0 <> p) by (intros <-; eapply Hxp; [exact Hp|apply nth_In; auto]).
    destruct (Hok p) as (W1 & W2 & W3 & W4); [apply in_or_app; right; eapply in_all_pages; eauto|]. destruct (aligned_disj R2 W2 Hne) as [A|A]; [left; clear -A Hon; lia|right; clear -A Ho; lia]. }
  specialize (Hz2 (pi_page0 H1)). subst fl2.
  exists s2, ms, x0, (lset L j (Cell (c_meta x) (ixc ft) es2 pgs2)). split; auto.
  assert (HjL : (j < length L)%nat) by (cbn [length] in Hlt; lia).
  split; [|split; [apply (holds_left H)|]].
  - split; auto. split; auto. split; [|split; [auto|split]].
    + cbn [length]. rewrite length_lset by auto. apply (@mchain_frame _ _ _ _ H3 Lz). intros i Hii. apply (Hslots i); auto; [lia|lia|unfold pageSize; lia|].
      destruct (nth_ok H3 Hii) as [(Q1 & R2 & R3 & R4) _].
      destruct (Z.eq_dec (nth i ms 0) (lp_off (slot ms (S j)))) as [Eq|Hne]; [rewrite Eq; left; unfold pageSize in *; lia|].
      destruct (aligned_disj R2 P2 Hne); unfold pageSize in *; lia.
    + apply NoDup_app_intro; [apply (mc_nd H3)|apply (pi_nodup I2)|]. intros p Y1 Y2. destruct (Hfl2 _ Y2) as [X|X]; [eapply Hxp; eauto|].
      destruct (Hok p) as (W1 & W2 & W3 & W4); [apply in_or_app; auto|]. unfold pageSize in *; lia.
    + intros i y Hy. change (x0 :: lset L j ?z) with (lset (x0 :: L) (S j) z) in Hy. rewrite nth_lset in Hy by auto. destruct (Nat.eq_dec i (S j)) as [->|Hne].
      * injection Hy as <-. cbn [c_meta c_codec c_es c_pgs]. destruct (H7 _ _ Hx) as (M1 & M2 & _). split; [|split; [auto|]].
        -- unfold meta_is in *. pose proof (zlen_nonneg (c_meta x)). rewrite <- M1. apply (Hslots (S j / 15)%nat); try lia; [eapply slot_idx; eauto|cbn [slot lp_off] in *; lia|cbn [slot lp_off] in *; unfold pageSize in *; lia].
        -- rewrite <- Em. exact Hs2.
      * destruct (H7 _ _ Hy) as (M1 & M2 & _). split; [|split; [auto|]].
        -- pose proof (cells_lt _ (ho_cells H) Hy) as Hil. pose proof (cells_slot _ (ho_cells H) Hy) as Hsi. pose proof (root_off_bounds Hsi) as (D1 & D2 & D3 & D4 & D5).
           unfold meta_is in *. pose proof (zlen_nonneg (c_meta y)). rewrite <- M1. apply (Hslots (i / 15)%nat); try lia; [eapply slot_idx; eauto|cbn [slot lp_off] in *; lia|cbn [slot lp_off] in *; unfold pageSize in *; lia|].
           destruct (slot_disj H3 Hil Hlt Hne); lia.
        -- eapply (@cells_crash s [] ms (x0 :: L) (S j) x i y s2 [] (ho_cells H) Hx Hy Hne); auto; rewrite ?app_nil_r; auto.
  - destruct (holds_left H) as [_ HL]. apply Forall_forall. intros y Hy. apply In_nth_error in Hy. destruct Hy as (i & Hy). rewrite nth_lset in Hy by auto. destruct (Nat.eq_dec i j) as [->|Hne].
    + injection Hy as <-. right. cbn [c_meta c_codec c_es]. exists (CI name ft (ix_total ix) ((k, v) :: ix_es ix)). cbn [ci_name ci_type ci_es]. split; [|split; [|split; auto]].
      * cbn [step]. apply in_map_iff. exists (strip ix). split; [|apply in_map; eapply nth_error_In; eauto].
        assert (X : ci_is name ft (strip ix) = true) by (apply same_indexb_spec; split; auto). rewrite X. cbn [strip ci_name ci_type ci_total ci_es]. rewrite E2, E3. reflexivity.
      * exists (ix_total ix). unfold ix_meta in *. rewrite E2, E3 in *. exact (conj C1 (conj C2 C3)).
    + rewrite Forall_forall in HL. destruct (HL y (nth_error_In _ _ Hy)) as [X|(c & Hc & (t0 & Et) & Ec & Hic)]; [left; exact X|]. right.
      destruct (@subs_step (APut name ft k v) (map strip l) c Hc) as (c' & I' & N' & T' & S'). exists c'. split; auto. rewrite N', T'. split; [eauto|]. split; auto. eapply incl_tran; eauto.
Qed.

(** ** FindOrCreateIndex *)
Lemma add_next_dead s ms X : cells s [] ms X -> zlen (file s) < 2^60 -> crashes (lp_add_next (tail_of ms (length X))) s (fun f => exists s', file s' = f /\ wc s' [] ms X).
Proof.
  intros HC Hf. pose proof (cells_wc HC) as HW. pose proof (cl_inv HC) as Hi. pose proof (cl_bud HC) as Hb. pose proof (cl_chain HC) as H. set (n := length X) in *.
  pose proof (mc_len H) as Hlen. pose proof (mc_n H) as Hn. pose proof (mc_n' H) as Hn'.
  assert (Hll : (length ms - 1 < length ms)%nat) by lia.
  destruct (nth_ok H Hll) as [Hp Hp62]. pose proof Hp as (P1 & P2 & P3 & P4).
  pose proof (mc_hdr H Hll) as Hh. pose proof (count_bounds H) as Hcb.
  set (c := count_of ms n (length ms - 1)) in *.
  assert (Hceq : c = Z.of_nat n - 15 * Z.of_nat (length ms - 1)).
  { unfold c, count_of. destruct (Nat.ltb_spec (S (length ms - 1)) (length ms)); lia. }
  assert (Htoff : lp_off (tail_of ms n) = last_page ms /\ (lp_idx (tail_of ms n) + 1) mod 256 = c).
  { destruct n as [|k]; cbn [tail_of].
    - unfold head_of, last_page; cbn [lp_off lp_idx]. split; [f_equal; lia|]. change ((255 + 1) mod 256) with 0. lia.
    - unfold slot, last_page; cbn [lp_off lp_idx]. rewrite Z.mod_small by lia. split; [f_equal; lia | lia]. }
  destruct Htoff as [Hto Hti]. set (m := tail_of ms n) in *.
  unfold last_page in *. set (o := nth (length ms - 1) ms 0) in *.
  assert (H0 : exists s', file s' = file s /\ wc s' [] ms X) by (exists s; auto).
  unfold lp_add_next.
  destruct (@lp_count_ok s m (next_of ms (length ms - 1)) c) as (p1 & E1); [rewrite Hto; auto | rewrite Hto; auto |].
  apply (@crashes_bind_nb _ _ (lp_count m) _ s c (set_pos s p1)); [apply nb_lp_count|exact E1|]. rewrite Hti.
  destruct (Z.ltb_spec c c); [lia|]. unfold numSlots.
  destruct (Z.eqb_spec c 15) as [E15|N15]; cbn [negb].
  2:{ apply (@crashes_write_at lp _ _ _ (set_pos s p1)); auto. }
  assert (Hnx : next_of ms (length ms - 1) = 2^64 - 1).
  { unfold next_of. rewrite (proj2 (nth_error_None ms (S (length ms - 1)))) by lia. reflexivity. }
  rewrite Hnx in Hh.
  destruct (@lp_next_page_offset_ok (set_pos s p1) m (2^64 - 1) c) as (p2 & E2); [rewrite Hto; auto | rewrite Hto; auto | lia |].
  apply (@crashes_bind_nb _ _ (lp_next_page_offset m) _ (set_pos s p1) (2^64 - 1) (set_pos (set_pos s p1) p2)); [apply nb_lp_npo|exact E2|]. rewrite Z.eqb_refl. cbn [negb].
  set (s2 := set_pos (set_pos s p1) p2).
  assert (Hi2 : pf_inv s2 []) by (unfold s2; repeat apply pf_inv_pos; auto).
  assert (Hzb : zlen (@nil Z) <= pageSize) by (unfold pageSize, zlen; cbn [length]; lia).
  apply crashes_bind; [exact Hb|apply writes_new_page|eapply crashes_new_page; [exact Hb|exact Hi2|exact H0|discriminate]|].
  intros no s3 E3. destruct (@new_page_ok s2 [] [] Hi2 Hb Hzb) as (s3' & E3' & Hfile3 & Hi3 & Hk3 & Hb3 & _).
  rewrite E3 in E3'. injection E3' as -> <-. cbn [tl] in Hi3. set (no := np_off s2 []) in *.
  assert (Hno : no = zlen (file s)) by reflexivity.
  assert (Hf3 : file s3 = file s ++ zeros pageSize).
  { rewrite Hfile3. unfold np_file. fold no. rewrite Hno. rewrite upd_end. reflexivity. }
  assert (W3 : wc s3 [] ms X) by (eapply wc_ext; eauto).
  pose proof (pi_len Hi) as Hmod. pose proof (pi_min Hi) as Hmin. change (zlen (file s) mod pageSize = 0) in Hmod.
  assert (Hz3 : zlen (file s3) = zlen (file s) + pageSize) by (rewrite Hf3, zlen_app, zlen_zeros by (unfold pageSize; lia); reflexivity).
  cbv zeta. rewrite (Z.mod_small (zlen (file s)) (2^64)) by (unfold pageSize in *; lia).
  apply crashes_bind_cw; auto; [apply cw_lp_reset| | |].
  - unfold lp_reset. cbn [lp_off]. rewrite s64_small by (unfold pageSize in *; lia). destruct (@seek_pf_write s3 (zlen (file s)) (lp_empty_page 1) Hb3) as (n4 & p4 & E4); [unfold pageSize in *; lia | rewrite zlen_empty_page, Hmod; lia |].
    revert E4. unfold bind. destruct (seek_start (zlen (file s)) s3) as [[?| | | |] ?]; try discriminate. intros ->. discriminate.
  - unfold lp_reset. apply crashes_write_at; eauto.
  - intros [] s4 E4. unfold lp_reset in E4. cbn [lp_off] in E4. rewrite s64_small in E4 by (unfold pageSize in *; lia).
    destruct (@seek_pf_write s3 (zlen (file s)) (lp_empty_page 1) Hb3) as (n4 & p4 & E4'); [unfold pageSize in *; lia | rewrite zlen_empty_page, Hmod; lia |].
    assert (Es4 : s4 = set_pos (set_file s3 (upd (file s3) (zlen (file s)) (lp_empty_page 1))) p4).
    { revert E4 E4'. unfold bind. destruct (seek_start (zlen (file s)) s3) as [[?| | | |] ?]; try discriminate. intros E4 E4'. rewrite E4' in E4. injection E4 as <-. reflexivity. }
    subst s4. apply crashes_write_at; [exact Hb3|]. eexists. split; [reflexivity|].
    apply (@wc_ext s ms X _ (lp_empty_page 1) HW).
    + apply pf_inv_write; [exact Hi3|unfold pageSize in *; lia|rewrite zlen_empty_page; lia].
    + exact Hb3.
    + cbn [file set_pos set_file]. rewrite Hf3. unfold upd. rewrite firstn_app_exact by (unfold zlen; lia). f_equal.
      rewrite zlen_empty_page, skipn_all2; [apply app_nil_r|]. rewrite <- Hf3. clear -Hz3. unfold zlen, pageSize in *. lia.
Qed.
Lemma find_from_dead name ft (P : bytes -> Prop) : forall d k fuel s fm l fl ms x0 L, holds ixc s fm l fl ms x0 L -> (k + d = length l)%nat ->
  (existsb (same_indexb name ft) l = false -> forall p, crashes (next <- lp_add_next (slot ms (length l)) ;; let m := IM name ft (determine_type ft) 0 in
     buf <- lift (index_meta_marshal m) ;; lp_set_metadata next buf ;;; ret (next, m)) (set_pos s p) P) ->
  (forall j ix, (j < k)%nat -> nth_error l j = Some ix -> ~ same_index name ft ix) ->
  crashes (find_or_create_from fuel (slot ms k) name ft) s P.
Proof.
  induction d as [|d IH]; intros k fuel s fm l fl ms x0 L H Hk Hc Hno; (destruct fuel as [|fuel]; [intros j s'; discriminate|]); intros n s' E; cbn [find_or_create_from] in E; rewrite nb_lp_next in E.
  - rewrite Nat.add_0_r in *. subst k. destruct (@holds_next _ s fm l fl ms x0 L (length l) H ltac:(lia)) as (p & Ep). rewrite Ep in E. cbn [fst snd] in E.
    destruct (Nat.ltb_spec (length l) (length l)); [lia|]. eapply (Hc _ p). exact E.
    Unshelve. destruct (existsb (same_indexb name ft) l) eqn:Ex; [|reflexivity]. exfalso. destruct (exists_first _ _ Ex) as (j & ix & Hj & Hs & _). apply (Hno j ix); auto; [|apply same_indexb_spec; exact Hs].
    apply nth_error_Some. congruence.
  - destruct (@holds_next _ s fm l fl ms x0 L k H ltac:(lia)) as (p & Ep). rewrite Ep in E. cbn [fst snd] in E. destruct (Nat.ltb_spec k (length l)); [|lia].
    destruct (nth_error l k) as [iy|] eqn:Ey; [|apply nth_error_None in Ey; lia].
    destruct (holds_metadata _ (holds_pos p H) Ey) as (b & q & Em & Eu). revert n s' E.
    change (crashes (buf <- lp_metadata (slot ms (S k)) ;; m <- lift (index_meta_unmarshal buf) ;;
       if name_eqb (im_name m) name && (im_type m =? ft) then ret (slot ms (S k), m) else find_or_create_from fuel (slot ms (S k)) name ft) (set_pos s p) P).
    eapply crashes_bind_nb; [apply nb_lp_metadata|exact Em|]. rewrite Eu. eapply crashes_bind_nb; [apply nb_lift|reflexivity|].
    cbn [ix_meta im_name im_type]. destruct (name_eqb (ix_name iy) name && (ix_type iy =? ft)) eqn:Eb; [apply crashes_ret|].
    apply (IH (S k) fuel (set_pos (set_pos s p) q) fm l fl ms x0 L); [apply holds_pos, holds_pos; auto|lia| |].
    + intros Hex r. exact (Hc Hex r).
    + intros j ix Hj Hix X. destruct (Nat.eq_dec j k) as [->|Hne]; [|apply (Hno j ix); auto; lia]. rewrite Ey in Hix. injection Hix as <-. apply same_indexb_spec in X. unfold same_indexb in X. congruence.
Qed.
Lemma find_dead fm l s name ft : ifile fm l s -> zlen (file s) < 2^60 -> zlen name <= 245 -> 0 <= ft < 2^8 ->
  crashes (find_or_create file_slot name ft) s (dead fm (map strip l)).
Proof.
  intros Hi Hf Hn Hft. destruct (ifile_holds Hwd Hi) as (HD & fl & ms & x0 & L & H). pose proof (holds_left H) as [Hl1 Hl2].
  change (crashes (find_or_create_from (fuel_of s) file_slot name ft) s (dead fm (map strip l))). rewrite <- (holds_slot0 H).
  apply (@find_from_dead name ft _ (length l) 0%nat (fuel_of s) s fm l fl ms x0 L H eq_refl); [|intros; lia].
  intros Hex p. pose proof (holds_len H) as Hlen. pose proof (ho_cells H) as HC. pose proof (cl_free HC). subst fl. cbv zeta.
  pose proof (@add_next_dead (set_pos s p) ms (x0 :: L) (cells_pos p HC) Hf) as AD. cbn [length] in AD. rewrite tail_is_slot, <- Hlen in AD.
  destruct (@cells_add (set_pos s p) [] ms (x0 :: L) (ixc ft) (cells_pos p HC) (@ix_codec_ok wd parse D ft Hwd HD) Hf) as (s1 & ms' & fl' & E1 & C1 & K1 & S1 & Z1).
  cbn [length] in E1. rewrite tail_is_slot in E1. rewrite <- Hlen in E1.
  apply crashes_bind_cw; [exact (cl_bud HC)|apply cw_lp_add_next|rewrite E1; discriminate| |].
  - eapply crashes_mono; [|exact AD]. intros f (s2 & <- & W2). exists s2, ms, x0, L. auto.
  - intros a s2 E2. rewrite E1 in E2. injection E2 as <- <-.
    apply crashes_bind; [exact (cl_bud C1)|apply writes_lift, index_marshal_nc|apply crashes_lift, index_marshal_nc|].
    intros b s2 E2. assert (s2 = s1) as -> by (unfold lift in E2; congruence).
    assert (X : dead fm (map strip l) (file s1)).
    { exists s1, ms', x0, (L ++ [Cell [] (ixc ft) [] []]). split; auto. split; [pose proof (cells_wc C1) as W; rewrite (cl_free C1) in W; exact W|]. split; auto. apply Forall_app. split; auto. constructor; [left; auto|constructor]. }
    apply crashes_bind_cw; [exact (cl_bud C1)|apply cw_lp_set_metadata| |apply crashes_set_metadata; [exact (cl_bud C1)|exact X]|intros; apply crashes_ret].
    destruct (marshal_new_len name ft ltac:(lia)) as [Em Lb]. unfold lift in E2. rewrite Em in E2. injection E2 as <-. set (b := le 2 ft ++ _) in *.
    assert (Hx : nth_error ((x0 :: L) ++ [Cell [] (ixc ft) [] []]) (S (length l)) = Some (Cell [] (ixc ft) [] [])).
    { cbn [app nth_error]. rewrite nth_error_app2 by lia. replace (length l - length L)%nat with 0%nat by lia. reflexivity. }
    destruct (@cells_set s1 fl' ms' _ (S (length l)) _ b C1 Hx ltac:(lia)) as (q & E2 & _).
    change (fst (lp_set_metadata (slot ms' (S (length l))) b s1) <> Crash). rewrite E2. discriminate.
Qed.
End G.
