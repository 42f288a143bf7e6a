(** C18-C21: the list of index slots, over whole histories of an index file. *)
From Coq Require Import Permutation.
From Verif Require Import Base Store PageFile PageHist RefValue LinkedPage BPLoop Slots SlotAdd TsCodec.

(** ** Histories *)
(** What a client did, with the answers it got:
    - [SAdd m]: AddNext on the last slot (or on the empty list) returned slot [m];
    - [SMeta m d], [SRoot m p]: SetMetadata(d), SetRoot(p) on [m] succeeded;
    - [SNew o], [SFree o]: NewPage returned [o], FreePage(o) succeeded;
    - [SPut o b]: a write of [b] at [o] inside a page obtained from NewPage;
    - [SRefused]: AddNext, SetMetadata or NewPage returned an error;
    - [SReopen]: the file was closed and opened again. *)
Inductive sev := SAdd (m : lp) | SMeta (m : lp) (d : bytes) | SRoot (m : lp) (p : mptr)
  | SNew (o : Z) | SFree (o : Z) | SPut (o : Z) (b : bytes) | SRefused | SReopen.
(** the slots added so far, in order *)
Definition added (tr : list sev) : list lp := flat_map (fun e => match e with SAdd m => [m] | _ => [] end) tr.
(** pages obtained from NewPage and not given back *)
Definition owned (tr : list sev) : list Z :=
  fold_left (fun l e => match e with SNew o => o :: l | SFree o => remove Z.eq_dec o l | _ => l end) tr [].
(** the list head NewMultiBPTree(t, 0) returns *)
Definition list_head : lp := LP 4096 255.
(** [slots tr s]: a file created empty and used as [tr] says is in state [s] *)
Inductive slots : list sev -> st -> Prop :=
| sl_create k s h s' : new_page_file (open_rws k []) = (Ok tt, s) -> new_multi s = (Ok h, s') -> slots [] s'
| sl_add tr s m s' : slots tr s -> zlen (file s) < 2^60 -> lp_add_next (last (added tr) list_head) s = (Ok m, s') ->
    slots (tr ++ [SAdd m]) s'
| sl_meta tr s m d s' : slots tr s -> In m (added tr) -> lp_set_metadata m d s = (Ok tt, s') -> slots (tr ++ [SMeta m d]) s'
| sl_root tr s m p s' : slots tr s -> In m (added tr) -> 0 <= mp_off p < 2^64 -> 0 <= mp_len p < 2^32 ->
    lp_set_root m p s = (Ok tt, s') -> slots (tr ++ [SRoot m p]) s'
| sl_new tr s buf o s' : slots tr s -> zlen (file s) < 2^60 -> new_page buf s = (Ok o, s') -> slots (tr ++ [SNew o]) s'
| sl_free tr s o s' : slots tr s -> In o (owned tr) -> free_page o s = (Ok tt, s') -> slots (tr ++ [SFree o]) s'
| sl_put tr s pg o b n s' : slots tr s -> In pg (owned tr) -> pg <= o -> o + zlen b <= pg + pageSize ->
    (seek_start o ;;; pf_write b) s = (Ok n, s') -> slots (tr ++ [SPut o b]) s'
| sl_no_add tr s m e s' : slots tr s -> zlen (file s) < 2^60 -> In m (list_head :: added tr) -> lp_add_next m s = (Err e, s') -> slots (tr ++ [SRefused]) s'
| sl_no_meta tr s m d e s' : slots tr s -> In m (list_head :: added tr) -> lp_set_metadata m d s = (Err e, s') -> slots (tr ++ [SRefused]) s'
| sl_no_new tr s buf e s' : slots tr s -> new_page buf s = (Err e, s') -> slots (tr ++ [SRefused]) s'
| sl_reopen tr s k s1 h s' : slots tr s -> new_page_file (open_rws k (file s)) = (Ok tt, s1) -> new_multi s1 = (Ok h, s') ->
    slots (tr ++ [SReopen]) s'.

(** ** Specification: what a slot should hold *)
Definition lp_eqb (a b : lp) : bool := (lp_off a =? lp_off b) && (lp_idx a =? lp_idx b).
(** the metadata last set, initially empty; the root last set, initially zero *)
Definition meta_of (tr : list sev) (m : lp) : bytes :=
  fold_left (fun d e => match e with SMeta m' d' => if lp_eqb m m' then d' else d | _ => d end) tr [].
Definition last_root (tr : list sev) (m : lp) : mptr :=
  fold_left (fun p e => match e with SRoot m' p' => if lp_eqb m m' then p' else p | _ => p end) tr (MP 0 0).
(** no metadata longer than 252 bytes was set *)
Definition short (tr : list sev) : Prop := forall m d, In (SMeta m d) tr -> zlen d <= 252.

(** ** Invariant *)
Definition known (tr : list sev) : Prop := forall m, (exists d, In (SMeta m d) tr) \/ (exists p, In (SRoot m p) tr) -> In m (added tr).
Definition SInv (tr : list sev) (s : st) (ms fl : list Z) : Prop :=
  pf_inv s fl /\ budget s = None /\ mchain (file s) ms (length (added tr)) /\ nth 0 ms 0 = pageSize /\
  added tr = map (slot ms) (seq 0 (length (added tr))) /\
  NoDup (ms ++ owned tr ++ fl) /\ Forall (page_ok (file s)) (owned tr) /\
  known tr /\
  (short tr -> unused_zero (file s) ms (length (added tr)) /\
     forall m, In m (added tr) -> root_at (file s) m = last_root tr m /\ meta_is (file s) m (meta_of tr m) /\ zlen (meta_of tr m) <= 252).

Lemma lp_eqb_spec a b : lp_eqb a b = true <-> a = b.
Proof.
  destruct a as [ao ai], b as [bo bi]; unfold lp_eqb; cbn [lp_off lp_idx]. rewrite andb_true_iff, !Z.eqb_eq. split; [intros [-> ->]; auto | intros E; inversion E; auto].
Qed.
Lemma lp_eqb_refl a : lp_eqb a a = true. Proof. apply lp_eqb_spec; auto. Qed.
Lemma lp_eqb_neq a b : a <> b -> lp_eqb a b = false.
Proof. intros H. destruct (lp_eqb a b) eqn:E; auto. apply lp_eqb_spec in E; contradiction. Qed.
Lemma added_snoc tr e : added (tr ++ [e]) = added tr ++ match e with SAdd m => [m] | _ => [] end.
Proof. unfold added. rewrite flat_map_app. cbn [flat_map]. rewrite app_nil_r. reflexivity. Qed.
Lemma short_snoc tr e : short (tr ++ [e]) -> short tr /\ (forall m d, e = SMeta m d -> zlen d <= 252).
Proof. intros H. split; intros m d X; apply (H m d), in_or_app; [left; auto|right; left; auto]. Qed.
Lemma in_added_slot tr ms m : added tr = map (slot ms) (seq 0 (length (added tr))) -> In m (added tr) ->
  exists k, (k < length (added tr))%nat /\ m = slot ms k.
Proof.
  intros E H. rewrite E in H. apply in_map_iff in H. destruct H as (k & <- & Hk). apply in_seq in Hk. exists k. split; [lia|auto].
Qed.
Lemma last_added tr ms : added tr = map (slot ms) (seq 0 (length (added tr))) -> nth 0 ms 0 = pageSize ->
  last (added tr) list_head = tail_of ms (length (added tr)).
Proof.
  intros E E0. remember (length (added tr)) as n eqn:En. rewrite E. destruct n as [|n].
  - cbn. unfold head_of. rewrite E0. reflexivity.
  - rewrite seq_S, map_app. cbn [map]. rewrite last_last. reflexivity.
Qed.
Lemma slot_app ms o k : (k / 15 < length ms)%nat -> slot (ms ++ [o]) k = slot ms k.
Proof. intros H. unfold slot. rewrite app_nth1 by auto. reflexivity. Qed.
Lemma fold_const {A B} (f : A -> B -> A) l x : (forall e, In e l -> f x e = x) -> fold_left f l x = x.
Proof.
  induction l as [|e l IH]; intros H; cbn [fold_left]; auto. rewrite H by (left; auto). apply IH. intros; apply H; right; auto.
Qed.
Lemma meta_fresh tr m : (forall d, ~ In (SMeta m d) tr) -> meta_of tr m = [].
Proof.
  intros H. apply fold_const. intros [] He; auto. destruct (lp_eqb m m0) eqn:E; auto. apply lp_eqb_spec in E. subst. exfalso; eapply H; eauto.
Qed.
Lemma root_fresh tr m : (forall d, ~ In (SRoot m d) tr) -> last_root tr m = MP 0 0.
Proof.
  intros H. apply fold_const. intros [] He; auto. destruct (lp_eqb m m0) eqn:E; auto. apply lp_eqb_spec in E. subst. exfalso; eapply H; eauto.
Qed.
Lemma known_snoc tr e : known tr -> (forall m d, e = SMeta m d -> In m (added tr)) -> (forall m d, e = SRoot m d -> In m (added tr)) -> known (tr ++ [e]).
Proof.
  intros H Hm Hr m [[d X]|[p X]]; rewrite added_snoc; apply in_or_app; left; apply in_app_iff in X; destruct X as [X|[X|[]]]; eauto.
Qed.
Lemma sinv_pos tr s ms fl p : SInv tr s ms fl -> SInv tr (set_pos s p) ms fl.
Proof. intros (H1 & H2 & H3). split; [apply pf_inv_pos; auto|]. split; auto. Qed.
Lemma sinv_noop tr e s ms fl : added (tr ++ [e]) = added tr -> owned (tr ++ [e]) = owned tr ->
  (forall m d, e <> SMeta m d) -> (forall m d, e <> SRoot m d) -> SInv tr s ms fl -> SInv (tr ++ [e]) s ms fl.
Proof.
  intros Ea Eo Em Er (H1 & H2 & H3 & H4 & H5 & H6 & H7 & Hkn & H8). unfold SInv. rewrite Ea, Eo.
  repeat (split; [assumption|]). split; [apply known_snoc; auto; intros m d X; exfalso; [eapply Em|eapply Er]; eauto|]. intros Hs. apply short_snoc in Hs. destruct Hs as [Hs _]. destruct (H8 Hs) as [U V].
  split; auto. intros m Hm. destruct (V m Hm) as (V1 & V2 & V3).
  assert (A : meta_of (tr ++ [e]) m = meta_of tr m) by (unfold meta_of; rewrite fold_left_app; cbn [fold_left]; destruct e; try reflexivity; exfalso; eapply Em; eauto).
  assert (B : last_root (tr ++ [e]) m = last_root tr m) by (unfold last_root; rewrite fold_left_app; cbn [fold_left]; destruct e; try reflexivity; exfalso; eapply Er; eauto).
  rewrite A, B. auto.
Qed.
Lemma NoDup_app_l (a b : list Z) : NoDup (a ++ b) -> NoDup a.
Proof.
  intros H. induction a as [|x a IH]; [constructor|]. cbn [app] in H. inversion H as [|? ? Hn Hd]; subst. constructor; auto.
  intros X; apply Hn, in_or_app; auto.
Qed.
Lemma NoDup_app_r (a b : list Z) : NoDup (a ++ b) -> NoDup b.
Proof. intros H. induction a as [|x a IH]; [auto|]. inversion H; auto. Qed.
Lemma NoDup_app_disj (a b : list Z) x : NoDup (a ++ b) -> In x a -> In x b -> False.
Proof.
  induction a as [|y a IH]; intros H Ha Hb; [destruct Ha|]. cbn [app] in H. inversion H as [|? ? Hn Hd]; subst. destruct Ha as [->|Ha]; auto.
  apply Hn, in_or_app; auto.
Qed.
Lemma NoDup_app_intro (a b : list Z) : NoDup a -> NoDup b -> (forall x, In x a -> In x b -> False) -> NoDup (a ++ b).
Proof.
  induction a as [|x a IH]; intros Ha Hb Hd; [auto|]. inversion Ha; subst. cbn [app]. constructor.
  - rewrite in_app_iff. intros [X|X]; [auto|]. eapply Hd; [left; reflexivity|exact X].
  - apply IH; auto. intros y Y1 Y2. eapply Hd; [right; exact Y1|exact Y2].
Qed.

(** an update of the file that leaves all meta pages alone *)
Lemma sinv_frame tr s s' ms fl fl' e : SInv tr s ms fl -> pf_inv s' fl' -> budget s' = None ->
  added (tr ++ [e]) = added tr -> (forall m d, e <> SMeta m d) -> (forall m d, e <> SRoot m d) ->
  zlen (file s) <= zlen (file s') -> (forall o l j, (j < length ms)%nat -> nth j ms 0 <= o -> o + l <= nth j ms 0 + pageSize -> slice (file s') o l = slice (file s) o l) ->
  NoDup (ms ++ owned (tr ++ [e]) ++ fl') -> Forall (page_ok (file s')) (owned (tr ++ [e])) ->
  SInv (tr ++ [e]) s' ms fl'.
Proof.
  intros (H1 & H2 & H3 & H4 & H5 & H6 & H7 & Hkn & H8) Hi Hb Ea Em Er Hz Hfr Hnd Hok. unfold SInv. rewrite Ea.
  split; auto. split; auto. split.
  { apply (@mchain_frame _ _ _ _ H3 Hz). intros j Hj. apply (Hfr _ _ j); auto; unfold pageSize; lia. }
  split; auto. split; auto. split; auto. split; auto.
  split; [apply known_snoc; auto; intros m d X; exfalso; [eapply Em|eapply Er]; eauto|].
  intros Hs. apply short_snoc in Hs. destruct Hs as [Hs _]. destruct (H8 Hs) as [U V]. pose proof (count_bounds H3) as Hc. split.
  - unfold unused_zero in *. cbv zeta in *. rewrite <- U. unfold last_page. pose proof (mc_len H3). apply (Hfr _ _ (length ms - 1)%nat); unfold pageSize; lia.
  - intros m Hm. destruct (V m Hm) as (V1 & V2 & V3).
    assert (A : meta_of (tr ++ [e]) m = meta_of tr m) by (unfold meta_of; rewrite fold_left_app; cbn [fold_left]; destruct e; try reflexivity; exfalso; eapply Em; eauto).
    assert (B : last_root (tr ++ [e]) m = last_root tr m) by (unfold last_root; rewrite fold_left_app; cbn [fold_left]; destruct e; try reflexivity; exfalso; eapply Er; eauto).
    rewrite A, B. destruct (@in_added_slot _ _ _ H5 Hm) as (k & Hk & ->).
    assert (Hsame : slot_same (file s) (file s') (slot ms k)).
    { unfold slot_same. pose proof (root_off_bounds (slot_okk H3 Hk)) as (B1 & B2 & _). cbn [slot lp_off] in *.
      apply (Hfr _ _ (k / 15)%nat); [eapply slot_idx; eauto | lia | unfold pageSize; lia]. }
    split; [rewrite (slot_same_root (slot_okk H3 Hk) Hsame); auto|]. split; [|auto].
    eapply slot_same_meta; eauto. eapply slot_okk; eauto.
Qed.

Lemma slots_inv tr s : slots tr s -> exists ms fl, SInv tr s ms fl.
Proof.
  induction 1 as [k s h s' E1 E2
    | tr s m s' _ (ms & fl & HI) Hf E
    | tr s m d s' _ (ms & fl & HI) Hm E
    | tr s m p s' _ (ms & fl & HI) Hm Ho Hl E
    | tr s buf o s' _ (ms & fl & HI) Hf E
    | tr s o s' _ (ms & fl & HI) Ho E
    | tr s pg o b n s' _ (ms & fl & HI) Hp Hlo Hhi E
    | tr s m e s' _ (ms & fl & HI) Hf Hm E
    | tr s m d e s' _ (ms & fl & HI) Hm E
    | tr s buf e s' _ (ms & fl & HI) E
    | tr s k s1 h s' _ (ms & fl & HI) E1 E2].
  - (* create *)
    destruct (new_page_file_fresh k) as (s0 & F1 & F2 & F3 & F4 & F5 & F6 & F7). rewrite E1 in F1. inversion F1; subst s0.
    destruct (@new_multi_fresh s F2 F6 F4) as (s2 & G1 & G2 & G3 & G4 & G5 & G6 & G7 & G8). rewrite E2 in G1. inversion G1; subst s2 h.
    exists [pageSize], []. unfold SInv. cbn [added owned flat_map fold_left length seq map app].
    split; auto. split; auto. split; auto. split; auto. split; auto.
    split; [constructor; [intros []|constructor]|]. split; [constructor|]. split; [intros m [[d []]|[p []]]|]. intros _. split; auto. intros m [].
  - (* AddNext at the tail *)
    destruct HI as (H1 & H2 & H3 & H4 & H5 & H6 & H7 & Hkn & H8).
    assert (Hnd : NoDup (ms ++ fl)).
    { apply NoDup_app_intro; [eapply NoDup_app_l; eauto | eapply NoDup_app_r, NoDup_app_r; eauto |].
      intros x X Y. eapply NoDup_app_disj; [exact H6|exact X|apply in_or_app; auto]. }
    rewrite (@last_added _ _ H5 H4) in E.
    destruct (@lp_add_next_ok s fl ms _ H1 H2 H3 Hnd Hf) as (s2 & ms' & fl' & E' & G1 & G2 & G3 & G4 & G5 & G6 & (G7 & G8) & _).
    rewrite E in E'. inversion E'; subst s2 m. clear E'.
    exists ms', fl'. unfold SInv. rewrite added_snoc, app_length. cbn [length]. rewrite Nat.add_1_r.
    assert (Hown : owned (tr ++ [SAdd (slot ms' (length (added tr)))]) = owned tr) by (unfold owned; rewrite fold_left_app; reflexivity).
    rewrite Hown. set (n := length (added tr)) in *.
    assert (Hkeep : forall k, (k < n)%nat -> slot ms' k = slot ms k).
    { intros k Hk. destruct G5 as [[-> _]|[-> _]]; auto. apply slot_app. eapply slot_idx; eauto. }
    split; auto. split; auto. split; auto. split.
    { destruct G5 as [[-> _]|[-> _]]; auto. rewrite app_nth1; auto. pose proof (mc_len H3). lia. }
    split.
    { rewrite seq_S, map_app. cbn [map]. rewrite Nat.add_0_l. f_equal. rewrite H5. fold n. apply map_ext_in. intros k Hk. apply in_seq in Hk. symmetry. apply Hkeep. lia. }
    split.
    { destruct G5 as [[-> ->]|[-> ->]]; auto.
      assert (Hmsok : Forall (page_ok (file s)) ms).
      { pose proof (mc_ok H3) as Hx. eapply Forall_impl; [|exact Hx]. intros a [X _]; auto. }
      destruct (@np_fresh s fl (ms ++ owned tr) H1) as [N1 N2]; [apply Forall_app; auto | rewrite <- app_assoc; auto |].
      inversion N2 as [|? ? N3 N4]; subst.
      rewrite <- app_assoc. cbn [app]. rewrite <- !app_assoc in *.
      apply NoDup_app_intro; [eapply NoDup_app_l; eauto | constructor |].
      - intros X. apply N3. apply in_or_app; right; auto.
      - eapply NoDup_app_r; eauto.
      - intros x X [Y|Y]; [subst x; apply N3, in_or_app; auto | eapply NoDup_app_disj; eauto]. }
    split.
    { eapply Forall_impl; [|exact H7]. intros a Ha. eapply page_ok_mono; [|exact Ha]. exact G7. }
    split; [apply known_snoc; auto; discriminate|].
    intros Hs. apply short_snoc in Hs. destruct Hs as [Hs _]. destruct (H8 Hs) as [U V]. destruct (G6 U) as [U' Z']. split; auto.
    intros m Hm.
    assert (A : meta_of (tr ++ [SAdd (slot ms' n)]) m = meta_of tr m) by (unfold meta_of; rewrite fold_left_app; reflexivity).
    assert (B : last_root (tr ++ [SAdd (slot ms' n)]) m = last_root tr m) by (unfold last_root; rewrite fold_left_app; reflexivity).
    rewrite A, B. apply in_app_iff in Hm. destruct Hm as [Hm|[<-|[]]].
    + destruct (V m Hm) as (V1 & V2 & V3). destruct (@in_added_slot _ _ _ H5 Hm) as (k & Hk & ->). fold n in Hk.
      assert (Hsame : slot_same (file s) (file s') (slot ms k)).
      { unfold slot_same. pose proof (root_off_bounds (slot_okk H3 Hk)) as (B1 & B2 & B3 & B4 & B5).
        pose proof (slot_idx H3 Hk) as Hj. destruct (nth_ok H3 Hj) as [(P1 & P2 & P3 & P4) _]. cbn [slot lp_off] in *.
        apply G8; [lia | lia | unfold pageSize in *; lia | |].
        - intros pg Hpg. pose proof (pi_ok H1) as Hfl. rewrite Forall_forall in Hfl. destruct (Hfl _ Hpg) as (Q1 & Q2 & Q3 & Q4).
          assert (Hne : nth (k / 15) ms 0 <> pg).
          { intros X. eapply NoDup_app_disj; [exact Hnd| |exact Hpg]. rewrite <- X. apply nth_In; auto. }
          destruct (aligned_disj P2 Q2 Hne); unfold pageSize in *; lia.
        - unfold last_page. pose proof (mc_len H3) as Hlen. assert (Hll : (length ms - 1 < length ms)%nat) by lia.
          destruct (nth_ok H3 Hll) as [(Q1 & Q2 & Q3 & Q4) _].
          destruct (Nat.eq_dec (k / 15) (length ms - 1)) as [Eq|Hne]; [rewrite <- Eq; lia|].
          assert (Hn : nth (k / 15) ms 0 <> nth (length ms - 1) ms 0) by (intros X; apply Hne, (nth_inj (mc_nd H3)); auto).
          destruct (aligned_disj P2 Q2 Hn); unfold pageSize in *; lia. }
      split; [rewrite (slot_same_root (slot_okk H3 Hk) Hsame); auto|]. split; [|auto].
      eapply slot_same_meta; eauto. eapply slot_okk; eauto.
    + (* the new slot *)
      assert (Hout : ~ In (slot ms' n) (added tr)).
      { rewrite H5. fold n. intros X. apply in_map_iff in X. destruct X as (k & Ek & Hk). apply in_seq in Hk.
        rewrite <- Hkeep in Ek by lia. apply (slot_inj G4) in Ek; lia. }
      rewrite meta_fresh by (intros d X; apply Hout, Hkn; eauto). rewrite root_fresh by (intros d X; apply Hout, Hkn; eauto).
      assert (Hso : slot_ok (file s') (slot ms' n)) by (apply (slot_okk G4); lia).
      pose proof (root_off_bounds Hso) as (B1 & B2 & B3 & B4 & B5).
      split; [|split; [|unfold zlen; cbn [length]; lia]].
      * unfold root_at. replace (root_off (slot ms' n)) with (root_off (slot ms' n) + 0) by lia.
        rewrite <- (@slice_slice _ (file s') (root_off (slot ms' n)) 265 0 12) by (unfold pageSize in *; lia).
        rewrite Z'. vm_compute. reflexivity.
      * unfold meta_is. change (1 + zlen (@nil Z)) with 1.
        rewrite <- (@slice_slice _ (file s') (root_off (slot ms' n)) 265 12 1) by (unfold pageSize in *; lia).
        rewrite Z'. vm_compute. reflexivity.
  - (* SetMetadata *)
    destruct HI as (H1 & H2 & H3 & H4 & H5 & H6 & H7 & Hkn & H8).
    destruct (@in_added_slot _ _ _ H5 Hm) as (k & Hk & ->). pose proof (slot_okk H3 Hk) as Hso.
    pose proof (root_off_bounds Hso) as (B1 & B2 & B3 & B4 & B5). pose proof Hso as ((P1 & P2 & P3 & P4) & P5 & P6).
    destruct (Z.le_gt_cases (zlen d) 255) as [Hd|Hd].
    2:{ rewrite lp_set_metadata_err in E; [discriminate | unfold numSlots in *; lia | lia]. }
    destruct (@lp_set_metadata_ok s _ d Hso H2 Hd) as (p & E'). rewrite E in E'. inversion E'; subst s'. clear E'.
    exists ms, fl. unfold SInv. rewrite added_snoc, app_nil_r.
    assert (Hown : owned (tr ++ [SMeta (slot ms k) d]) = owned tr) by (unfold owned; rewrite fold_left_app; reflexivity).
    rewrite Hown. cbn [file set_pos set_file budget]. pose proof (zlen_nonneg d).
    assert (Lz : zlen (zlen d :: d) = 1 + zlen d) by apply zlen_cons.
    destruct (@mchain_slot_write _ ms _ k (root_off (slot ms k) + 12) (zlen d :: d) H3 Hk ltac:(lia) ltac:(lia)) as [Hmc Hmz].
    split; [apply pf_inv_write; auto; unfold pageSize in *; lia|]. split; auto. split; [exact Hmc|].
    split; auto. split; auto. split; auto. split.
    { eapply Forall_impl; [|exact H7]. intros a Ha. eapply page_ok_mono; [|exact Ha]. rewrite zlen_upd by (unfold pageSize in *; lia). lia. }
    split; [apply known_snoc; auto; intros ? ? X; inversion X; subst; auto|].
    intros Hs. apply short_snoc in Hs. destruct Hs as [Hs Hd2]. specialize (Hd2 _ _ eq_refl). destruct (H8 Hs) as [U V].
    split; [apply Hmz; auto; lia|]. intros m' Hm'. destruct (V m' Hm') as (V1 & V2 & V3). destruct (@in_added_slot _ _ _ H5 Hm') as (k' & Hk' & ->).
    unfold meta_of, last_root. rewrite !fold_left_app. cbn [fold_left]. fold (meta_of tr (slot ms k')). fold (last_root tr (slot ms k')).
    destruct (Nat.eq_dec k' k) as [->|Hne].
    + rewrite lp_eqb_refl. split; [|split; [apply meta_is_upd; auto | auto]].
      rewrite <- V1. unfold root_at. f_equal. apply slice_upd_disj; [unfold pageSize in *; lia | unfold pageSize in *; lia | lia].
    + rewrite lp_eqb_neq by (intros X; apply Hne, (slot_inj H3 Hk' Hk X)).
      assert (Hsame : slot_same (file s) (upd (file s) (root_off (slot ms k) + 12) (zlen d :: d)) (slot ms k')).
      { apply (@slot_write_other (file s) ms (length (added tr)) k k' _ _ H3 Hk Hk'); [auto | lia | lia]. }
      split; [rewrite (slot_same_root (slot_okk H3 Hk') Hsame); auto|]. split; [|auto].
      eapply slot_same_meta; eauto. eapply slot_okk; eauto.
  - (* SetRoot *)
    destruct HI as (H1 & H2 & H3 & H4 & H5 & H6 & H7 & Hkn & H8).
    destruct (@in_added_slot _ _ _ H5 Hm) as (k & Hk & ->). pose proof (slot_okk H3 Hk) as Hso.
    pose proof (root_off_bounds Hso) as (B1 & B2 & B3 & B4 & B5). pose proof Hso as ((P1 & P2 & P3 & P4) & P5 & P6).
    destruct (@lp_set_root_ok s _ p Hso H2) as (q & E'). rewrite E in E'. inversion E'; subst s'. clear E'.
    exists ms, fl. unfold SInv. rewrite added_snoc, app_nil_r.
    assert (Hown : owned (tr ++ [SRoot (slot ms k) p]) = owned tr) by (unfold owned; rewrite fold_left_app; reflexivity).
    rewrite Hown. cbn [file set_pos set_file budget].
    pose proof (zlen_enc_mptr p) as Lz.
    destruct (@mchain_slot_write _ ms _ k (root_off (slot ms k)) (enc_mptr p) H3 Hk ltac:(lia) ltac:(lia)) as [Hmc Hmz].
    split; [apply pf_inv_write; auto; unfold pageSize in *; lia|]. split; auto. split; [exact Hmc|].
    split; auto. split; auto. split; auto. split.
    { eapply Forall_impl; [|exact H7]. intros a Ha. eapply page_ok_mono; [|exact Ha]. rewrite zlen_upd by (unfold pageSize in *; lia). lia. }
    split; [apply known_snoc; auto; intros ? ? X; inversion X; subst; auto|].
    intros Hs. apply short_snoc in Hs. destruct Hs as [Hs _]. destruct (H8 Hs) as [U V].
    split; [apply Hmz; auto; lia|]. intros m' Hm'. destruct (V m' Hm') as (V1 & V2 & V3). destruct (@in_added_slot _ _ _ H5 Hm') as (k' & Hk' & ->).
    unfold meta_of, last_root. rewrite !fold_left_app. cbn [fold_left]. fold (meta_of tr (slot ms k')). fold (last_root tr (slot ms k')).
    destruct (Nat.eq_dec k' k) as [->|Hne].
    + rewrite lp_eqb_refl. split; [apply root_at_set; auto|]. split; [|auto].
      unfold meta_is in *. rewrite <- V2. apply slice_upd_disj; [unfold pageSize in *; lia | unfold pageSize in *; lia | lia].
    + rewrite lp_eqb_neq by (intros X; apply Hne, (slot_inj H3 Hk' Hk X)).
      assert (Hsame : slot_same (file s) (upd (file s) (root_off (slot ms k)) (enc_mptr p)) (slot ms k')).
      { apply (@slot_write_other (file s) ms (length (added tr)) k k' _ _ H3 Hk Hk'); [auto | lia | lia]. }
      split; [rewrite (slot_same_root (slot_okk H3 Hk') Hsame); auto|]. split; [|auto].
      eapply slot_same_meta; eauto. eapply slot_okk; eauto.
  - (* NewPage *)
    pose proof HI as (H1 & H2 & H3 & H4 & H5 & H6 & H7 & Hkn & H8).
    destruct (Z.le_gt_cases (zlen buf) pageSize) as [Hl|Hl].
    2:{ rewrite new_page_too_large in E by lia. discriminate. }
    destruct (@new_page_ok s fl buf H1 H2 Hl) as (s2 & E2 & F1 & F2 & F3 & F4 & F5 & F6). rewrite E in E2. inversion E2; subst s2 o. clear E2.
    assert (Hmsok : Forall (page_ok (file s)) ms).
    { pose proof (mc_ok H3) as Hx. eapply Forall_impl; [|exact Hx]. intros a [X _]; auto. }
    destruct (@np_fresh s fl (ms ++ owned tr) H1) as [N1 N2]; [apply Forall_app; auto | rewrite <- app_assoc; auto |].
    destruct (np_off_ok H1) as (O1 & O2 & O3).
    assert (Hown : owned (tr ++ [SNew (np_off s fl)]) = np_off s fl :: owned tr) by (unfold owned; rewrite fold_left_app; reflexivity).
    pose proof (@zlen_np_file _ _ _ H1 Hl) as Hz. rewrite <- F1 in Hz.
    assert (Hzle : zlen (file s) <= zlen (file s')) by (rewrite Hz; destruct fl; unfold pageSize; lia).
    exists ms, (tl fl). eapply sinv_frame; eauto; try discriminate.
    + rewrite added_snoc. apply app_nil_r.
    + intros a l j Hj Ha Hal. rewrite F1. destruct (nth_ok H3 Hj) as [(P1 & P2 & P3 & P4) _]. apply np_frame; auto; [unfold pageSize in *; lia|].
      assert (Hn : nth j ms 0 <> np_off s fl) by (intros X; apply N1; rewrite <- X; apply in_or_app; left; apply nth_In; auto).
      destruct (aligned_disj P2 O2 Hn); lia.
    + rewrite Hown. inversion N2 as [|? ? N3 N4]; subst. rewrite <- app_assoc in *. cbn [app]. apply NoDup_app_intro; [eapply NoDup_app_l; eauto | constructor |].
      * intros X. apply N3. apply in_or_app; right; auto.
      * eapply NoDup_app_r; eauto.
      * intros x X [Y|Y]; [subst x; apply N3, in_or_app; auto | eapply NoDup_app_disj; eauto].
    + rewrite Hown. constructor.
      * unfold page_ok. rewrite Hz. unfold np_off in *. destruct fl as [|x fl0]; [unfold pageSize in *; lia|].
        pose proof (pi_ok H1) as Hfl. inversion Hfl as [|? ? (Q1 & Q2 & Q3 & Q4) _]; subst. unfold pageSize in *; lia.
      * eapply Forall_impl; [|exact H7]. intros a Ha. eapply page_ok_mono; eauto.
  - (* FreePage *)
    pose proof HI as (H1 & H2 & H3 & H4 & H5 & H6 & H7 & Hkn & H8).
    destruct (pf_inv_ring H1) as (tail & Hring).
    assert (Hpo : page_ok (file s) o) by (rewrite Forall_forall in H7; auto). destruct Hpo as (P1 & P2 & P3 & P4).
    assert (Hown : owned (tr ++ [SFree o]) = remove Z.eq_dec o (owned tr)) by (unfold owned; rewrite fold_left_app; reflexivity).
    destruct (@free_page_ok_inv s fl tail o s' H1 Hring H2 P1 P3 P4 E) as (Q1 & Q2 & Q3).
    destruct (@free_page_ok s fl tail o H1 Hring H2 Q1 Q2 Q3) as (s2 & E2 & F1 & F2 & F3 & F4 & F5 & F6). rewrite E in E2. inversion E2; subst s2. clear E2.
    assert (Henc : zlen (enc_free (fl ++ [o])) = pageSize).
    { apply zlen_enc_free. rewrite zlen_app. change (zlen [o]) with 1. destruct Hring as (Ht & _). lia. }
    assert (Hz : zlen (file s') = zlen (file s)).
    { rewrite F3, zlen_upd by (pose proof (zlen_nonneg (file s)); lia). unfold pageSize in *; lia. }
    exists ms, (fl ++ [o]). eapply sinv_frame; eauto; try discriminate.
    + rewrite added_snoc. apply app_nil_r.
    + lia.
    + intros a l j Hj Ha Hal. rewrite F3. destruct (nth_ok H3 Hj) as [(R1 & R2 & R3 & R4) _]. apply slice_upd_disj; unfold pageSize in *; lia.
    + rewrite Hown. apply NoDup_app_intro; [eapply NoDup_app_l; eauto | apply NoDup_app_intro |].
      * apply NoDup_app_r, NoDup_app_l in H6. clear - H6. induction (owned tr) as [|x l IH]; cbn [remove]; [constructor|]. inversion H6; subst.
        destruct (Z.eq_dec o x); [auto|]. constructor; [|auto]. intros X. apply in_remove in X. tauto.
      * exact (pi_nodup F1).
      * intros x X Y. apply in_remove in X. destruct X as [X1 X2]. apply in_app_iff in Y. destruct Y as [Y|[Y|[]]]; [|auto].
        apply NoDup_app_r in H6. eapply NoDup_app_disj; eauto.
      * intros x X Y. eapply (NoDup_app_disj _ _ _ H6); [exact X|]. apply in_or_app. apply in_app_iff in Y. destruct Y as [Y|Y].
        -- left. apply in_remove in Y. tauto.
        -- apply in_app_iff in Y. destruct Y as [Y|[Y|[]]]; [auto|subst; auto].
    + rewrite Hown. apply Forall_forall. intros x X. apply in_remove in X. destruct X as [X _]. rewrite Forall_forall in H7.
      eapply page_ok_mono; [|apply H7; auto]. lia.
  - (* a write into an owned page *)
    pose proof HI as (H1 & H2 & H3 & H4 & H5 & H6 & H7 & Hkn & H8). pose proof (zlen_nonneg b).
    assert (Hpo : page_ok (file s) pg) by (rewrite Forall_forall in H7; auto). destruct Hpo as (P1 & P2 & P3 & P4).
    assert (Hown : owned (tr ++ [SPut o b]) = owned tr) by (unfold owned; rewrite fold_left_app; reflexivity).
    destruct (@seek_pf_write s o b H2) as (n' & q & E'); [unfold pageSize in *; lia | unfold pageSize in *; lia |].
    rewrite E in E'. inversion E'; subst s'. clear E'.
    assert (Hz : zlen (upd (file s) o b) = zlen (file s)) by (rewrite zlen_upd by (unfold pageSize in *; lia); unfold pageSize in *; lia).
    exists ms, fl. eapply sinv_frame; eauto; try discriminate.
    + apply pf_inv_write; auto; unfold pageSize in *; lia.
    + rewrite added_snoc. apply app_nil_r.
    + cbn [file set_pos set_file]. lia.
    + cbn [file set_pos set_file]. intros a l j Hj Ha Hal. destruct (nth_ok H3 Hj) as [(R1 & R2 & R3 & R4) _].
      assert (Hn : nth j ms 0 <> pg).
      { intros X. eapply NoDup_app_disj; [exact H6| |apply in_or_app; left; exact Hp]. rewrite <- X. apply nth_In; auto. }
      apply slice_upd_disj; [unfold pageSize in *; lia | unfold pageSize in *; lia |]. destruct (aligned_disj R2 P2 Hn); lia.
    + rewrite Hown. auto.
    + rewrite Hown. cbn [file set_pos set_file]. eapply Forall_impl; [|exact H7]. intros x X. eapply page_ok_mono; [|exact X]. lia.
  - (* AddNext refused *)
    pose proof HI as (H1 & H2 & H3 & H4 & H5 & H6 & H7 & Hkn & H8).
    assert (Hpos : exists p, s' = set_pos s p).
    { assert (Hnd : NoDup (ms ++ fl)).
      { apply NoDup_app_intro; [eapply NoDup_app_l; eauto | eapply NoDup_app_r, NoDup_app_r; eauto |].
        intros x X Y. eapply NoDup_app_disj; [exact H6|exact X|apply in_or_app; auto]. }
      destruct (@lp_add_next_ok s fl ms _ H1 H2 H3 Hnd Hf) as (s2 & ms' & fl' & E' & _).
      assert (Hh : list_head = head_of ms) by (unfold head_of; rewrite H4; reflexivity).
      destruct Hm as [Hm|Hm].
      - rewrite <- Hm, Hh in E. destruct (Nat.eq_dec (length (added tr)) 0) as [E0|N0].
        + rewrite E0 in E'. cbn [tail_of] in E'. congruence.
        + destruct (@lp_add_next_head_err s ms _ H3) as (p & E2); [lia|]. exists p. congruence.
      - destruct (@in_added_slot _ _ _ H5 Hm) as (k & Hk & ->).
        destruct (Nat.eq_dec (S k) (length (added tr))) as [Ek|Nk].
        + rewrite <- Ek in E'. cbn [tail_of] in E'. congruence.
        + destruct (@lp_add_next_err s ms _ k H3) as (p & E2); [lia|]. exists p. congruence. }
    destruct Hpos as (p & ->). exists ms, fl. apply sinv_pos. apply sinv_noop; auto; try discriminate.
    + rewrite added_snoc. apply app_nil_r.
    + unfold owned. rewrite fold_left_app. reflexivity.
  - (* SetMetadata refused *)
    pose proof HI as (H1 & H2 & H3 & H4 & H5 & H6 & H7 & Hkn & H8).
    assert (Hs : s' = s).
    { destruct Hm as [<-|Hm].
      - unfold lp_set_metadata in E. change (lp_idx list_head =? 255) with true in E. cbv iota in E. inversion E; auto.
      - destruct (@in_added_slot _ _ _ H5 Hm) as (k & Hk & ->). pose proof (slot_okk H3 Hk) as Hso.
        destruct (Z.le_gt_cases (zlen d) 255) as [Hd|Hd].
        + destruct (@lp_set_metadata_ok s _ d Hso H2 Hd) as (p & E'). congruence.
        + rewrite lp_set_metadata_err in E; [inversion E; auto | destruct Hso as (_ & X & _); unfold numSlots in *; lia | lia]. }
    subst s'. exists ms, fl. apply sinv_noop; auto; try discriminate.
    + rewrite added_snoc. apply app_nil_r.
    + unfold owned. rewrite fold_left_app. reflexivity.
  - (* NewPage refused *)
    pose proof HI as (H1 & H2 & H3 & H4 & H5 & H6 & H7 & Hkn & H8).
    assert (Hs : s' = s).
    { destruct (Z.le_gt_cases (zlen buf) pageSize) as [Hl|Hl].
      - destruct (@new_page_ok s fl buf H1 H2 Hl) as (s2 & E2 & _). congruence.
      - rewrite new_page_too_large in E by lia. inversion E; auto. }
    subst s'. exists ms, fl. apply sinv_noop; auto; try discriminate.
    + rewrite added_snoc. apply app_nil_r.
    + unfold owned. rewrite fold_left_app. reflexivity.
  - (* reopen *)
    pose proof HI as (H1 & H2 & H3 & H4 & H5 & H6 & H7 & Hkn & H8).
    destruct (@new_page_file_reopen s fl k H1) as (s2 & F1 & F2 & F3 & F4 & F5 & F6 & F7). rewrite E1 in F1. inversion F1; subst s2.
    assert (H3' : mchain (file s1) ms (length (added tr))) by (rewrite F4; auto).
    destruct (@new_multi_reopen s1 ms _ H3' H4) as (p & E3). rewrite E2 in E3. inversion E3; subst s' h. clear E3.
    exists ms, fl. apply sinv_pos.
    assert (Hown : owned (tr ++ [SReopen]) = owned tr) by (unfold owned; rewrite fold_left_app; reflexivity).
    eapply sinv_frame; eauto; try discriminate.
    + rewrite added_snoc. apply app_nil_r.
    + rewrite F4. lia.
    + intros. rewrite F4. reflexivity.
    + rewrite Hown. auto.
    + rewrite Hown, F4. auto.
Qed.

(** ** C20 *)
(** [Collect] from the list head (given enough fuel for its loop) *)
Definition collected (s : st) (l : list lp) : Prop :=
  forall fuel, (length l < fuel)%nat -> exists s', lp_collect fuel list_head s = (Ok l, s') /\ file s' = file s.
(** Collect returns the slots added, in order, all different. *)
Theorem C20_collect tr s : slots tr s -> collected s (added tr) /\ NoDup (added tr).
Proof.
  intros H. destruct (slots_inv H) as (ms & fl & (H1 & H2 & H3 & H4 & H5 & H6 & H7 & Hkn & H8)).
  assert (Hh : list_head = head_of ms) by (unfold head_of; rewrite H4; reflexivity).
  split.
  - intros fuel Hf. destruct (@lp_collect_ok s ms _ fuel H3 Hf) as (p & E). rewrite Hh, E, <- H5. eexists. split; reflexivity.
  - rewrite H5. remember (length (added tr)) as n eqn:En. clear En H5. 
    assert (G : forall j, (j <= n)%nat -> NoDup (map (slot ms) (seq 0 j))).
    { induction j as [|j IH]; intros Hj; [constructor|]. rewrite seq_S, map_app. cbn [map]. rewrite Nat.add_0_l.
      apply (Permutation_NoDup (Permutation_cons_append _ _)). constructor; [|apply IH; lia].
      intros X. apply in_map_iff in X. destruct X as (i & Ei & Hi). apply in_seq in Hi. apply (slot_inj H3) in Ei; lia. }
    apply G; auto.
Qed.
(** AddNext on the last slot (or on the empty list) always succeeds... *)
Theorem C20_add_at_tail tr s : slots tr s -> zlen (file s) < 2^60 ->
  exists m s', lp_add_next (last (added tr) list_head) s = (Ok m, s') /\ ~ In m (list_head :: added tr).
Proof.
  intros H Hf. destruct (slots_inv H) as (ms & fl & (H1 & H2 & H3 & H4 & H5 & H6 & H7 & Hkn & H8)).
  assert (Hnd : NoDup (ms ++ fl)).
  { apply NoDup_app_intro; [eapply NoDup_app_l; eauto | eapply NoDup_app_r, NoDup_app_r; eauto |].
    intros x X Y. eapply NoDup_app_disj; [exact H6|exact X|apply in_or_app; auto]. }
  rewrite (@last_added _ _ H5 H4).
  destruct (@lp_add_next_ok s fl ms _ H1 H2 H3 Hnd Hf) as (s2 & ms' & fl' & E' & G1 & G2 & G3 & G4 & G5 & _).
  eexists _, _. split; [exact E'|]. intros [X|X].
  - unfold list_head, slot in X. assert (255 = Z.of_nat (length (added tr) mod 15)) by congruence. lia.
  - rewrite H5 in X. apply in_map_iff in X. destruct X as (k & Ek & Hk). apply in_seq in Hk.
    assert (Hkeep : slot ms' k = slot ms k).
    { destruct G5 as [[-> _]|[-> _]]; auto. apply slot_app. eapply slot_idx; [exact H3|]. lia. }
    rewrite map_length, seq_length in Ek. rewrite <- Hkeep in Ek. apply (slot_inj G4) in Ek; lia.
Qed.
(** ... and anywhere else it is an error that changes nothing. *)
Theorem C20_add_elsewhere tr s m : slots tr s -> In m (list_head :: added tr) -> m <> last (added tr) list_head ->
  exists e s', lp_add_next m s = (Err e, s') /\ file s' = file s.
Proof.
  intros H Hm Hne. destruct (slots_inv H) as (ms & fl & (H1 & H2 & H3 & H4 & H5 & H6 & H7 & Hkn & H8)).
  rewrite (@last_added _ _ H5 H4) in Hne.
  assert (Hh : list_head = head_of ms) by (unfold head_of; rewrite H4; reflexivity).
  destruct Hm as [<-|Hm].
  - rewrite Hh in *. destruct (Nat.eq_dec (length (added tr)) 0) as [E0|N0]; [rewrite E0 in Hne; cbn [tail_of] in Hne; congruence|].
    destruct (@lp_add_next_head_err s ms _ H3) as (p & E2); [lia|]. rewrite E2. eexists _, _. split; reflexivity.
  - destruct (@in_added_slot _ _ _ H5 Hm) as (k & Hk & ->).
    destruct (Nat.eq_dec (S k) (length (added tr))) as [Ek|Nk]; [rewrite <- Ek in Hne; cbn [tail_of] in Hne; congruence|].
    destruct (@lp_add_next_err s ms _ k H3) as (p & E2); [lia|]. rewrite E2. eexists _, _. split; reflexivity.
Qed.

(** ** C18, C19: every slot holds what was last set on it *)
(** Whatever happened to the file, as long as no metadata was longer than 252
    bytes: each slot's Metadata and Root return what was last set on that slot. *)
Theorem C19_slots_hold_partial tr s m : slots tr s -> short tr -> In m (added tr) ->
  (exists s', lp_metadata m s = (Ok (meta_of tr m), s') /\ file s' = file s) /\
  (exists s', lp_root m s = (Ok (last_root tr m), s') /\ file s' = file s).
Proof.
  intros H Hs Hm. destruct (slots_inv H) as (ms & fl & (H1 & H2 & H3 & H4 & H5 & H6 & H7 & Hkn & H8)).
  destruct (H8 Hs) as [_ V]. destruct (V m Hm) as (V1 & V2 & V3). destruct (@in_added_slot _ _ _ H5 Hm) as (k & Hk & ->).
  pose proof (slot_okk H3 Hk) as Hso. split.
  - destruct (@lp_metadata_ok s _ _ Hso V2) as (p & E); [lia|]. eexists. split; [exact E|reflexivity].
  - destruct (@lp_root_ok s _ Hso) as (p & E). rewrite V1 in E. eexists. split; [exact E|reflexivity].
Qed.
(** Metadata of up to 254 bytes is returned right after it was set, whatever the history. *)
Theorem C18_metadata_round_trip_partial tr s m d s' : slots tr s -> In m (added tr) -> zlen d <= 254 ->
  lp_set_metadata m d s = (Ok tt, s') -> exists s'', lp_metadata m s' = (Ok d, s'') /\ file s'' = file s'.
Proof.
  intros H Hm Hd E. destruct (slots_inv H) as (ms & fl & (H1 & H2 & H3 & H4 & H5 & H6 & H7 & Hkn & H8)).
  destruct (@in_added_slot _ _ _ H5 Hm) as (k & Hk & ->). pose proof (slot_okk H3 Hk) as Hso.
  pose proof (root_off_bounds Hso) as (B1 & B2 & B3 & B4 & B5). pose proof Hso as ((P1 & P2 & P3 & P4) & P5 & P6).
  destruct (@lp_set_metadata_ok s _ d Hso H2) as (p & E'); [lia|]. rewrite E in E'. inversion E'; subst s'.
  pose proof (zlen_nonneg d).
  assert (Hso' : slot_ok (upd (file s) (root_off (slot ms k) + 12) (zlen d :: d)) (slot ms k)).
  { eapply slot_ok_mono; [|exact Hso]. rewrite zlen_upd by (unfold pageSize in *; lia). lia. }
  destruct (@lp_metadata_ok (set_pos (set_file s (upd (file s) (root_off (slot ms k) + 12) (zlen d :: d))) p) (slot ms k) d) as (q & E2);
    [exact Hso' | apply meta_is_upd; auto; lia | auto |].
  eexists. split; [exact E2|reflexivity].
Qed.
(** Longer than 255 bytes is refused and changes nothing. *)
Theorem C18_too_long_refused tr s m d : slots tr s -> In m (added tr) -> 255 < zlen d ->
  exists e, lp_set_metadata m d s = (Err e, s).
Proof.
  intros H Hm Hd. destruct (slots_inv H) as (ms & fl & (H1 & H2 & H3 & H4 & H5 & H6 & H7 & Hkn & H8)).
  destruct (@in_added_slot _ _ _ H5 Hm) as (k & Hk & ->). pose proof (slot_okk H3 Hk) as (_ & P5 & _).
  rewrite lp_set_metadata_err; [eauto | unfold numSlots in *; lia | lia].
Qed.
(** C18 fails at 255 bytes: SetMetadata accepts them and Metadata panics, in every history. *)
Theorem C18_metadata_round_trip_refuted tr s m d : slots tr s -> In m (added tr) -> zlen d = 255 ->
  exists s' s'', lp_set_metadata m d s = (Ok tt, s') /\ lp_metadata m s' = (Panic, s'').
Proof.
  intros H Hm Hd. destruct (slots_inv H) as (ms & fl & (H1 & H2 & H3 & H4 & H5 & H6 & H7 & Hkn & H8)).
  destruct (@in_added_slot _ _ _ H5 Hm) as (k & Hk & ->). pose proof (slot_okk H3 Hk) as Hso.
  pose proof (root_off_bounds Hso) as (B1 & B2 & B3 & B4 & B5). pose proof Hso as ((P1 & P2 & P3 & P4) & P5 & P6).
  destruct (@lp_set_metadata_ok s _ d Hso H2) as (p & E'); [lia|].
  assert (Hso' : slot_ok (upd (file s) (root_off (slot ms k) + 12) (zlen d :: d)) (slot ms k)).
  { eapply slot_ok_mono; [|exact Hso]. rewrite zlen_upd by (unfold pageSize in *; lia). lia. }
  destruct (@lp_metadata_gen (set_pos (set_file s (upd (file s) (root_off (slot ms k) + 12) (zlen d :: d))) p) (slot ms k) d) as (q & E2);
    [exact Hso' | apply meta_is_upd; auto; lia | lia |].
  rewrite E'. eexists _, _. split; [reflexivity|]. rewrite E2. destruct (Z.leb_spec (zlen d) 254); [lia|reflexivity].
Qed.

(** C19 fails for metadata of 253 bytes (accepted by SetMetadata): the last byte
    lands in the root pointer of the next slot of the same page, in every history. *)
Theorem C19_isolation_refuted tr s m m' d b s' : slots tr s -> In m (added tr) -> In m' (added tr) ->
  lp_off m' = lp_off m -> lp_idx m' = lp_idx m + 1 -> zlen d = 252 -> is_byte b ->
  lp_set_metadata m (d ++ [b]) s = (Ok tt, s') ->
  exists r s'', lp_root m' s' = (Ok r, s'') /\ mp_off r mod 256 = b.
Proof.
  intros H Hm Hm' Eo Ei Hd Hb E. destruct (slots_inv H) as (ms & fl & (H1 & H2 & H3 & H4 & H5 & H6 & H7 & Hkn & H8)).
  destruct (@in_added_slot _ _ _ H5 Hm) as (k & Hk & ->). pose proof (slot_okk H3 Hk) as Hso.
  destruct (@in_added_slot _ _ _ H5 Hm') as (k' & Hk' & ->). pose proof (slot_okk H3 Hk') as Hso'.
  pose proof (root_off_bounds Hso) as (B1 & B2 & B3 & B4 & B5). pose proof Hso as ((P1 & P2 & P3 & P4) & P5 & P6).
  assert (Ld : zlen (d ++ [b]) = 253) by (rewrite zlen_app; change (zlen [b]) with 1; lia).
  destruct (@lp_set_metadata_ok s _ (d ++ [b]) Hso H2) as (p & E'); [lia|]. rewrite E in E'. inversion E'; subst s'. clear E'.
  rewrite Ld. set (f' := upd (file s) (root_off (slot ms k) + 12) (253 :: d ++ [b])).
  assert (L254 : zlen (253 :: d ++ [b]) = 254) by (rewrite zlen_cons; lia).
  assert (Lf : zlen f' = zlen (file s)) by (unfold f'; rewrite zlen_upd by (unfold pageSize in *; lia); unfold pageSize in *; lia).
  assert (Hso2 : slot_ok f' (slot ms k')) by (eapply slot_ok_mono; [|exact Hso']; lia).
  destruct (@lp_root_ok (set_pos (set_file s f') p) (slot ms k')) as (q & E2); [exact Hso2|].
  eexists _, _. split; [exact E2|]. cbn [file set_pos set_file].
  assert (Er : root_off (slot ms k') = root_off (slot ms k) + 265) by (rewrite (root_off_eq Hso), (root_off_eq Hso'); lia).
  pose proof (root_off_bounds Hso2) as (C1 & C2 & C3 & C4 & C5). pose proof Hso2 as ((Q1 & Q2 & Q3 & Q4) & Q5 & Q6).
  unfold root_at.
  assert (E1 : slice f' (root_off (slot ms k')) 1 = [b]).
  { rewrite Er. replace (root_off (slot ms k) + 265) with (root_off (slot ms k) + 12 + 253) by lia. unfold f'.
    rewrite slice_upd_in by (unfold pageSize in *; lia).
    change (253 :: d ++ [b]) with ([253] ++ d ++ [b]). rewrite app_assoc.
    replace ([253] ++ d) with ([253] ++ d) by reflexivity. rewrite <- (app_nil_r (([253] ++ d) ++ [b])), <- app_assoc.
    apply slice_app_mid; [rewrite zlen_app; change (zlen [253]) with 1; lia | reflexivity]. }
  replace 12 with (1 + 11) by lia. rewrite slice_split by (unfold pageSize in *; lia). rewrite E1. cbn [app].
  unfold dec_mptr. cbn [firstn mp_off unle].
  set (x := unle _). clearbody x. unfold is_byte in Hb. rewrite Z.mul_comm. rewrite Z_mod_plus_full. apply Z.mod_small. lia.
Qed.

(** Histories with any number of slots (up to 2^40) exist: AddNext, n times. *)
Theorem C20_histories_exist (n : nat) : Z.of_nat n <= 2^40 ->
  exists tr s, slots tr s /\ length (added tr) = n /\ tr = map SAdd (added tr).
Proof.
  intros Hn. assert (G : exists tr s, slots tr s /\ length (added tr) = n /\ tr = map SAdd (added tr) /\ zlen (file s) <= pageSize * (2 + Z.of_nat n)).
  2:{ destruct G as (tr & s & A & B & C & _). eauto. }
  induction n as [|n IH].
  - destruct (new_page_file_fresh KMmap) as (s0 & F1 & F2 & F3 & F4 & F5 & F6 & F7).
    destruct (@new_multi_fresh s0 F2 F6 F4) as (s2 & G1 & G2 & G3 & G4 & G5 & G6 & G7 & G8).
    exists [], s2. split; [eapply sl_create; eauto|]. split; [reflexivity|]. split; [reflexivity|]. lia.
  - destruct IH as (tr & s & A & B & C & D); [lia|].
    assert (Hf : zlen (file s) < 2^60) by (unfold pageSize in *; lia).
    destruct (slots_inv A) as (ms & fl & (H1 & H2 & H3 & H4 & H5 & H6 & H7 & Hkn & H8)).
    assert (Hnd : NoDup (ms ++ fl)).
    { apply NoDup_app_intro; [eapply NoDup_app_l; eauto | eapply NoDup_app_r, NoDup_app_r; eauto |].
      intros x X Y. eapply NoDup_app_disj; [exact H6|exact X|apply in_or_app; auto]. }
    destruct (@lp_add_next_ok s fl ms _ H1 H2 H3 Hnd Hf) as (s2 & ms' & fl' & E' & G1 & G2 & G3 & G4 & G5 & G6 & G7 & (G8 & _)).
    rewrite <- (@last_added _ _ H5 H4) in E'.
    eexists _, s2. split; [eapply sl_add; eauto|]. rewrite added_snoc, app_length. cbn [length].
    split; [lia|]. split; [rewrite map_app; cbn [map]; congruence|].
    unfold pageSize in *; lia.
Qed.

(** ** C21: the browser client *)
(** The resolver returns the bytes asked for (clipped at the end of the file);
    [Number(offset)] is exact for files up to 2^53 bytes, which the theorems assume. *)
(** getMetaPage(): src/file/multi.ts:59-73 *)
Definition ts_meta_page (f : bytes) (m : lp) : bytes := slice f (lp_off m) pageSize.
(** rootMemoryPointerPageOffset(): src/file/multi.ts:99-105 *)
Definition ts_root_off (m : lp) : Z := 8 + 1 + lp_idx m * (8 + 1 + 256).
(** root(): src/file/multi.ts:21-45 *)
Definition ts_root (f : bytes) (m : lp) : res mptr :=
  let data := js_slice (ts_meta_page f m) (ts_root_off m) (ts_root_off m + 8 + 4) in
  if zlen data =? 12 then Ok (MP (unle (slice data 0 8)) (unle (slice data 8 4))) else Err (EMsg "failed to properly fetch root node").
(** metadata(): src/file/multi.ts:47-57; getUint8 of an empty view throws *)
Definition ts_metadata (f : bytes) (m : lp) : res bytes :=
  let metadata := js_slice_from (ts_meta_page f m) (ts_root_off m + (8 + 4)) in
  match metadata with
  | [] => Err (EMsg "RangeError")
  | l :: _ => Ok (js_slice metadata 1 (1 + l))
  end.
(** next(): src/file/multi.ts:75-97; [null] is [None] *)
Definition ts_next (f : bytes) (m : lp) : res (option lp) :=
  let page := ts_meta_page f m in
  if zlen page <? 9 then Err (EMsg "RangeError") else
  let count := nth 8 page 0 in
  if lp_idx m <? count - 1 then Ok (Some (LP (lp_off m) (lp_idx m + 1)))
  else
    let nextOffset := unle (slice page 0 8) in
    if nextOffset =? 2^64 - 1 then Ok None else Ok (Some (LP nextOffset 0)).
(** the caller's loop: next() until null (src/file/index-file.ts:72-109 walks the
    list this way); [fuel] bounds the loop, running out is [Hang] *)
Fixpoint ts_walk (fuel : nat) (f : bytes) (m : lp) : res (list lp) :=
  match fuel with
  | O => Hang
  | S fuel' => rbind (ts_next f m) (fun n => match n with None => Ok [m] | Some m' => rbind (ts_walk fuel' f m') (fun l => Ok (m :: l)) end)
  end.
(** ReadMultiBPTree(resolver, 0): src/file/multi.ts:108-114 *)
Definition ts_first : lp := LP 4096 0.

Lemma js_slice_in (b : bytes) i j : 0 <= i <= j -> j <= zlen b -> js_slice b i j = slice b i (j - i).
Proof.
  intros Hi Hj. unfold js_slice, js_pos. destruct (Z.ltb_spec i 0); [lia|]. destruct (Z.ltb_spec j 0); [lia|].
  rewrite !Z.min_l by lia. destruct (Z.ltb_spec j i); [lia|]. reflexivity.
Qed.
Lemma ts_root_same f m : slot_ok f m -> ts_root f m = Ok (root_at f m).
Proof.
  intros H. pose proof (root_off_bounds H) as (B1 & B2 & B3 & B4 & B5). pose proof (root_off_eq H) as Er.
  destruct H as ((P1 & P2 & P3 & P4) & P5 & P6). unfold numSlots, pageSize in *.
  unfold ts_root, ts_root_off, ts_meta_page. unfold pageSize.
  assert (Lp : zlen (slice f (lp_off m) 4096) = 4096) by (apply zlen_slice; lia).
  rewrite js_slice_in by lia. rewrite slice_slice by lia.
  replace (lp_off m + (8 + 1 + lp_idx m * (8 + 1 + 256))) with (root_off m) by lia.
  replace (8 + 1 + lp_idx m * (8 + 1 + 256) + 8 + 4 - (8 + 1 + lp_idx m * (8 + 1 + 256))) with 12 by lia.
  rewrite zlen_slice by lia. rewrite Z.eqb_refl. reflexivity.
Qed.
Lemma ts_metadata_same f m d : slot_ok f m -> meta_is f m d -> zlen d <= 255 -> ts_metadata f m = Ok d.
Proof.
  intros H Hm Hd. pose proof (root_off_bounds H) as (B1 & B2 & B3 & B4 & B5). pose proof (root_off_eq H) as Er. pose proof (zlen_nonneg d).
  destruct H as ((P1 & P2 & P3 & P4) & P5 & P6). unfold numSlots, pageSize in *.
  unfold ts_metadata, ts_root_off, ts_meta_page. unfold pageSize.
  assert (Lp : zlen (slice f (lp_off m) 4096) = 4096) by (apply zlen_slice; lia).
  set (i := 8 + 1 + lp_idx m * (8 + 1 + 256) + (8 + 4)).
  assert (Hi : 0 <= i /\ i + 256 <= 4096 /\ lp_off m + i = root_off m + 12) by (unfold i; lia). clearbody i.
  assert (Ej : js_slice_from (slice f (lp_off m) 4096) i = slice f (lp_off m + i) (4096 - i)).
  { unfold js_slice_from, js_pos. rewrite Lp. destruct (Z.ltb_spec i 0); [lia|]. rewrite Z.min_l by lia.
    rewrite <- (@slice_slice _ f (lp_off m) 4096 i (4096 - i)) by lia. unfold slice at 2.
    symmetry. apply firstn_all2. rewrite skipn_length. unfold zlen in Lp. lia. }
  rewrite Ej. replace (lp_off m + i) with (root_off m + 12) by lia.
  set (b := slice f (root_off m + 12) (4096 - i)).
  assert (Lb : zlen b = 4096 - i) by (apply zlen_slice; lia).
  assert (Eb : slice b 0 (1 + zlen d) = zlen d :: d).
  { unfold b. rewrite slice_slice by lia. rewrite <- Hm. f_equal. lia. }
  destruct b as [|x b0]; [unfold zlen in Lb; cbn [length] in Lb; lia|].
  assert (Ex : x = zlen d).
  { unfold slice in Eb. change (Z.to_nat 0) with 0%nat in Eb. cbn [skipn] in Eb.
    replace (Z.to_nat (1 + zlen d)) with (S (Z.to_nat (zlen d))) in Eb by lia. cbn [firstn] in Eb. congruence. }
  rewrite Ex at 2. rewrite js_slice_in by lia. f_equal.
  replace (1 + zlen d - 1) with (zlen d) by lia.
  replace (slice (x :: b0) 1 (zlen d)) with (slice (slice (x :: b0) 0 (1 + zlen d)) 1 (zlen d)) by (rewrite slice_slice by lia; reflexivity).
  rewrite Eb. unfold slice. change (Z.to_nat 1) with 1%nat. cbn [skipn]. unfold zlen. rewrite Nat2Z.id. apply firstn_all.
Qed.
Lemma ts_next_same f ms n k : mchain f ms n -> (k < n)%nat ->
  ts_next f (slot ms k) = Ok (if Nat.ltb (S k) n then Some (slot ms (S k)) else None).
Proof.
  intros H Hk. pose proof (slot_idx H Hk) as Hj. destruct (nth_ok H Hj) as [(P1 & P2 & P3 & P4) _].
  pose proof (mc_hdr H Hj) as Hh. pose proof (mc_n H) as Hn. pose proof (mc_n' H) as Hn'.
  unfold ts_next, ts_meta_page. cbn [lp_off lp_idx slot].
  assert (Lp : zlen (slice f (nth (k / 15) ms 0) pageSize) = pageSize) by (apply zlen_slice; unfold pageSize in *; lia).
  rewrite Lp. change (pageSize <? 9) with false. cbv iota.
  assert (E9 : slice (slice f (nth (k / 15) ms 0) pageSize) 0 9 = le 8 (next_of ms (k / 15)) ++ [count_of ms n (k / 15)]).
  { rewrite slice_slice by (unfold pageSize in *; lia). rewrite <- Hh. f_equal. lia. }
  set (pg := slice f (nth (k / 15) ms 0) pageSize) in *.
  assert (E8 : slice pg 0 8 = le 8 (next_of ms (k / 15))).
  { replace (slice pg 0 8) with (slice (slice pg 0 9) 0 8) by (rewrite slice_slice by lia; reflexivity).
    rewrite E9. change 8 with (zlen (le 8 (next_of ms (k / 15)))). apply slice_app_exact. }
  assert (Ec : nth 8 pg 0 = count_of ms n (k / 15)).
  { assert (X : nth_error pg 8 = Some (count_of ms n (k / 15))).
    { assert (Y : nth_error (slice pg 0 9) 8 = Some (count_of ms n (k / 15))).
      { rewrite E9. rewrite nth_error_app2 by (rewrite length_le; lia). rewrite length_le. reflexivity. }
      rewrite nth_error_slice in Y by lia. change (Z.of_nat 8 <? 9) with true in Y. cbv iota in Y. exact Y. }
    apply nth_error_nth. exact X. }
  rewrite E8, Ec. rewrite unle_le by (change (256 ^ Z.of_nat 8) with (2^64); exact (@next_of_range f ms n (k / 15) H)).
  unfold count_of. destruct (Nat.ltb_spec (S (k / 15)) (length ms)) as [Hl|Hl].
  - destruct (Z.ltb_spec (Z.of_nat (k mod 15)) (15 - 1)) as [Hi|Hi].
    + destruct (Nat.ltb_spec (S k) n); [|lia]. f_equal. f_equal. unfold slot. f_equal; [f_equal; lia|lia].
    + assert (Hnx : next_of ms (k / 15) = nth (S (k / 15)) ms 0).
      { unfold next_of. rewrite (nth_error_nth' ms 0 Hl). reflexivity. }
      rewrite Hnx. destruct (nth_ok H Hl) as [(X & _) Y].
      destruct (Z.eqb_spec (nth (S (k / 15)) ms 0) (2^64 - 1)); [lia|].
      destruct (Nat.ltb_spec (S k) n); [|lia]. f_equal. f_equal. unfold slot. f_equal; [f_equal; lia|lia].
  - destruct (Z.ltb_spec (Z.of_nat (k mod 15)) (Z.of_nat n - 15 * Z.of_nat (k / 15) - 1)) as [Hi|Hi].
    + destruct (Nat.ltb_spec (S k) n); [|lia]. f_equal. f_equal. unfold slot. f_equal; [f_equal; lia|lia].
    + assert (Hnx : next_of ms (k / 15) = 2^64 - 1).
      { unfold next_of. rewrite (proj2 (nth_error_None ms (S (k / 15)))) by lia. reflexivity. }
      rewrite Hnx, Z.eqb_refl. destruct (Nat.ltb_spec (S k) n); [lia|]. reflexivity.
Qed.
Lemma ts_walk_slots f ms n : mchain f ms n -> forall d k fuel, (k + d = n)%nat -> (0 < d)%nat -> (d <= fuel)%nat ->
  ts_walk fuel f (slot ms k) = Ok (map (slot ms) (seq k d)).
Proof.
  intros H. induction d as [|d IH]; intros k fuel Hkd Hd Hfuel; [lia|].
  destruct fuel as [|fuel]; [lia|]. cbn [ts_walk]. rewrite (@ts_next_same f ms n k H) by lia. cbn [rbind].
  destruct (Nat.ltb_spec (S k) n) as [Hlt|Hge].
  - rewrite (IH (S k) fuel) by lia. reflexivity.
  - assert (d = 0%nat) by lia. subst d. reflexivity.
Qed.

(** The browser's walk over the slots of any file with at least one slot (in a
    database slot 0 always exists: it holds the file metadata) visits exactly the
    slots Go added, in order, and reads the same root from each. *)
Theorem C21_same_slots_and_roots tr s : slots tr s -> added tr <> [] -> zlen (file s) <= 2^53 ->
  (forall fuel, (length (added tr) <= fuel)%nat -> ts_walk fuel (file s) ts_first = Ok (added tr)) /\
  (forall m, In m (added tr) -> exists r s', lp_root m s = (Ok r, s') /\ ts_root (file s) m = Ok r).
Proof.
  intros H Hne _. destruct (slots_inv H) as (ms & fl & (H1 & H2 & H3 & H4 & H5 & H6 & H7 & Hkn & H8)). split.
  - intros fuel Hf. assert (Hl : (0 < length (added tr))%nat) by (destruct (added tr); [contradiction|cbn [length]; lia]).
    assert (E0 : ts_first = slot ms 0) by (change (slot ms 0) with (LP (nth 0 ms 0) 0); rewrite H4; reflexivity).
    rewrite E0. rewrite (@ts_walk_slots (file s) ms _ H3 (length (added tr)) 0 fuel) by lia. f_equal. auto.
  - intros m Hm. destruct (@in_added_slot _ _ _ H5 Hm) as (k & Hk & ->). pose proof (slot_okk H3 Hk) as Hso.
    destruct (@lp_root_ok s _ Hso) as (p & E). eexists _, _. split; [exact E|]. apply ts_root_same; auto.
Qed.
(** ... and the metadata, as long as none was longer than 252 bytes; then both
    readers return what was last set. *)
Theorem C21_same_metadata tr s m : slots tr s -> short tr -> In m (added tr) -> zlen (file s) <= 2^53 ->
  ts_metadata (file s) m = Ok (meta_of tr m) /\ exists s', lp_metadata m s = (Ok (meta_of tr m), s').
Proof.
  intros H Hs Hm _. destruct (slots_inv H) as (ms & fl & (H1 & H2 & H3 & H4 & H5 & H6 & H7 & Hkn & H8)).
  destruct (H8 Hs) as [_ V]. destruct (V m Hm) as (V1 & V2 & V3). destruct (@in_added_slot _ _ _ H5 Hm) as (k & Hk & ->).
  pose proof (slot_okk H3 Hk) as Hso. split; [apply ts_metadata_same; auto; lia|].
  destruct (@lp_metadata_ok s _ _ Hso V2) as (p & E); [lia|]. eauto.
Qed.
(** Without that limit: whenever Go's Metadata returns something, the browser
    reads the same (a file consists of bytes). *)
Theorem C21_same_metadata_any tr s m d s' : slots tr s -> In m (added tr) -> zlen (file s) <= 2^53 -> is_bytes (file s) ->
  lp_metadata m s = (Ok d, s') -> ts_metadata (file s) m = Ok d.
Proof.
  intros H Hm _ Hby E. destruct (slots_inv H) as (ms & fl & (H1 & H2 & H3 & H4 & H5 & H6 & H7 & Hkn & H8)).
  destruct (@in_added_slot _ _ _ H5 Hm) as (k & Hk & ->). pose proof (slot_okk H3 Hk) as Hso.
  pose proof (root_off_bounds Hso) as (B1 & B2 & B3 & B4 & B5). pose proof Hso as ((P1 & P2 & P3 & P4) & P5 & P6).
  set (o := root_off (slot ms k) + 12) in *.
  assert (Lb : zlen (slice (file s) o 1) = 1) by (apply zlen_slice; unfold o, pageSize in *; lia).
  destruct (slice (file s) o 1) as [|L [|? ?]] eqn:EL; [discriminate| |rewrite !zlen_cons in Lb; pose proof (zlen_nonneg l); lia].
  assert (HL : is_byte L).
  { pose proof (@is_bytes_slice (file s) o 1 Hby) as X. rewrite EL in X. inversion X; auto. }
  unfold is_byte in HL.
  set (e := slice (file s) (o + 1) L).
  assert (Le : zlen e = L) by (apply zlen_slice; unfold o, pageSize in *; lia).
  assert (Hmeta : meta_is (file s) (slot ms k) e).
  { unfold meta_is. rewrite Le. fold o. rewrite slice_split by (unfold o, pageSize in *; lia). rewrite EL. reflexivity. }
  destruct (@lp_metadata_gen s _ _ Hso Hmeta) as (p & E2); [lia|]. rewrite E in E2.
  destruct (zlen e <=? 254); [|discriminate]. assert (d = e) by congruence. subst d. apply ts_metadata_same; auto. lia.
Qed.
(** At 255 bytes the two differ: Go panics (C18), the browser returns the bytes. *)
Theorem C21_metadata_255_refuted tr s m d s' : slots tr s -> In m (added tr) -> zlen d = 255 ->
  lp_set_metadata m d s = (Ok tt, s') -> ts_metadata (file s') m = Ok d /\ exists s'', lp_metadata m s' = (Panic, s'').
Proof.
  intros H Hm Hd E. destruct (@C18_metadata_round_trip_refuted tr s m d H Hm Hd) as (s1 & s2 & E1 & E2).
  rewrite E in E1. inversion E1; subst s1. split; [|eauto].
  destruct (slots_inv H) as (ms & fl & (H1 & H2 & H3 & H4 & H5 & H6 & H7 & Hkn & H8)).
  destruct (@in_added_slot _ _ _ H5 Hm) as (k & Hk & ->). pose proof (slot_okk H3 Hk) as Hso.
  pose proof (root_off_bounds Hso) as (B1 & B2 & B3 & B4 & B5). pose proof Hso as ((P1 & P2 & P3 & P4) & P5 & P6).
  destruct (@lp_set_metadata_ok s _ d Hso H2) as (p & E'); [lia|]. rewrite E in E'. inversion E'; subst s'.
  apply ts_metadata_same; [|apply meta_is_upd; auto; lia | lia].
  cbn [file set_pos set_file]. eapply slot_ok_mono; [|exact Hso]. rewrite zlen_upd by (unfold pageSize in *; lia). lia.
Qed.
(** the hypotheses above are met: a history with 40 slots (three meta pages) *)
Example slots_example : exists tr s, slots tr s /\ length (added tr) = 40%nat /\ short tr.
Proof.
  destruct (@C20_histories_exist 40 ltac:(lia)) as (tr & s & A & B & C). exists tr, s. split; auto. split; auto.
  intros m d X. rewrite C in X. apply in_map_iff in X. destruct X as (? & X & _). discriminate.
Qed.
