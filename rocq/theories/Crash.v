(** What a run leaves on disk when the process dies between two writes. Nothing
    in this file models code: the programs are those of Store.v, PageFile.v,
    LinkedPage.v and BPTree.v, run with a write budget (Store.v, [budget]). *)
From Verif Require Import Base Varint Store PageFile RefValue Node LinkedPage BPTree BPRepr BPInsert.

(** the last file of a run *)
Fixpoint fin (f : bytes) (fs : list bytes) : bytes := match fs with [] => f | g :: r => fin g r end.
(** [m] started in [s] makes the successive files [fs], one per write: with a
    budget of fewer writes it dies, leaving the file of that moment; with more
    it does what it does without a budget. *)
Definition writes_to {A} (m : M st A) (s : st) (fs : list bytes) : Prop :=
  fst (m s) <> Crash /\ budget (snd (m s)) = None /\ file (snd (m s)) = fin (file s) fs /\
  forall k, ((k < length fs)%nat -> exists s', m (set_budget s (Some k)) = (Crash, s') /\ file s' = nth k (file s :: fs) []) /\
    ((length fs <= k)%nat -> m (set_budget s (Some k)) = (fst (m s), set_budget (snd (m s)) (Some (k - length fs)%nat))).
Definition writes {A} (m : M st A) (s : st) : Prop := budget s = None -> exists fs, writes_to m s fs.

Lemma budget_none s : budget s = None -> set_budget s None = s.
Proof. destruct s; cbn; intros ->; reflexivity. Qed.
Lemma fin_app a b : forall f, fin f (a ++ b) = fin (fin f a) b.
Proof. induction a as [|x a IH]; intros f; cbn; auto. Qed.
Lemma nth_fin (a b : list bytes) : forall f k, (k < length a)%nat -> nth k (f :: a ++ b) ([] : bytes) = nth k (f :: a) [].
Proof. induction a as [|x a IH]; intros f k H; cbn in H; [lia|]. destruct k; [reflexivity|]. cbn [app nth]. apply (IH x k). lia. Qed.
Lemma nth_fin_r (a b : list bytes) : forall f k, (length a <= k)%nat -> nth k (f :: a ++ b) ([] : bytes) = nth (k - length a) (fin f a :: b) [].
Proof. induction a as [|x a IH]; intros f k H; cbn [length] in *. { rewrite Nat.sub_0_r. reflexivity. }
  destruct k; [lia|]. cbn [app fin]. change (nth (S k) (f :: x :: a ++ b) []) with (nth k (x :: a ++ b) []). rewrite IH by lia. reflexivity. Qed.

Lemma writes_bind {A B} (m : M st A) (g : A -> M st B) s : writes m s -> (forall a s1, m s = (Ok a, s1) -> budget s1 = None -> writes (g a) s1) -> writes (bind m g) s.
Proof.
  intros Hm Hg Hb. destruct (Hm Hb) as (fs & H1 & H2 & H3 & H4). destruct (m s) as [r s1] eqn:E. cbn [fst snd] in *.
  destruct r as [a|e| | |]; [|exists fs; unfold writes_to, bind; rewrite E; cbn [fst snd]; repeat split; auto; try discriminate;
    intros Hk; destruct (H4 k) as [H5 H6]; [destruct (H5 Hk) as (s' & E' & F'); rewrite E'; eauto|rewrite (H6 Hk); auto]..].
  destruct (Hg a s1 eq_refl H2 H2) as (fs2 & G1 & G2 & G3 & G4). exists (fs ++ fs2). unfold writes_to, bind. rewrite E.
  split; [auto|]. split; [auto|]. split; [rewrite fin_app, <- H3; auto|]. intros k. rewrite app_length. destruct (H4 k) as [H5 H6]. split; intros Hk.
  - destruct (Nat.lt_ge_cases k (length fs)) as [L|L].
    + destruct (H5 L) as (s' & E' & F'). rewrite E'. exists s'. split; auto. rewrite nth_fin; auto.
    + rewrite (H6 L). destruct (G4 (k - length fs)%nat) as [G5 _]. destruct G5 as (s' & E' & F'); [lia|]. exists s'. split; auto.
      rewrite nth_fin_r by auto. rewrite <- H3. auto.
  - rewrite (H6 ltac:(lia)). destruct (G4 (k - length fs)%nat) as [_ G6]. rewrite G6 by lia. f_equal. f_equal. f_equal. lia.
Qed.
(** a program that does not write *)
Lemma writes_none {A} (m : M st A) s : (forall b, m (set_budget s b) = (fst (m s), set_budget (snd (m s)) b)) -> fst (m s) <> Crash -> file (snd (m s)) = file s -> writes m s.
Proof.
  intros H1 H2 H3 Hb. exists []. split; auto. split.
  { specialize (H1 None). rewrite (budget_none _ Hb) in H1. rewrite H1. reflexivity. }
  split; [auto|]. intros k. split; [cbn; lia|]. intros _. rewrite H1. cbn [length]. rewrite Nat.sub_0_r. reflexivity.
Qed.
Lemma writes_ret {A} (a : A) s : writes (ret a) s.
Proof. apply writes_none; [reflexivity|discriminate|reflexivity]. Qed.
Lemma writes_lift {A} (r : res A) s : r <> Crash -> writes (lift r) s.
Proof. intros H. apply writes_none; [reflexivity|exact H|reflexivity]. Qed.
Lemma writes_fail {A} e s : writes (@fail st A e) s.
Proof. apply writes_none; [reflexivity|discriminate|reflexivity]. Qed.
Lemma writes_panic {A} s : writes (@panic st A) s.
Proof. apply writes_none; [reflexivity|discriminate|reflexivity]. Qed.
(** computing on the state without touching the file *)
Lemma writes_pre {A} (m m' : M st A) g s : (forall b, m (set_budget s b) = m' (set_budget (g s) b)) -> file (g s) = file s -> budget (g s) = budget s ->
  writes m' (g s) -> writes m s.
Proof.
  intros H1 H2 H3 H Hb. destruct H as (fs & W1 & W2 & W3 & W4); [congruence|]. exists fs. unfold writes_to.
  assert (E : m s = m' (g s)). { rewrite <- (budget_none _ Hb) at 1. rewrite H1. f_equal. apply budget_none. congruence. }
  rewrite E. split; auto. split; auto. rewrite <- H2. split; auto. intros k. rewrite H1. auto.
Qed.
Lemma writes_seek_abs a s : writes (seek_abs a) s.
Proof.
  apply writes_none; unfold seek_abs; cbn [kind file set_budget]; destruct (kind s);
    repeat match goal with |- context [if ?b then _ else _] => destruct b end; try discriminate; reflexivity.
Qed.
Lemma writes_seek_start a s : writes (seek_start a) s. Proof. apply writes_seek_abs. Qed.
Lemma writes_seek_cur s : writes seek_cur s.
Proof. eapply writes_pre with (g := fun s => s) (m' := seek_abs (pos s)); auto. apply writes_seek_abs. Qed.
Lemma writes_seek_end s : writes seek_end s.
Proof. eapply writes_pre with (g := fun s => s) (m' := seek_abs (zlen (file s))); auto. apply writes_seek_abs. Qed.
Lemma writes_rws_read l s : writes (rws_read l) s.
Proof.
  apply writes_none; unfold rws_read; cbn [kind file set_budget pos]; destruct (kind s);
    repeat match goal with |- context [if ?b then _ else _] => destruct b end; try discriminate; reflexivity.
Qed.
Lemma writes_pf_read l s : writes (pf_read l) s.
Proof. apply writes_bind; [apply writes_seek_cur|]. intros a s1 _ _. destruct (_ <? _); [apply writes_panic|apply writes_rws_read]. Qed.
Lemma writes_read_full l s : writes (read_full l) s.
Proof. apply writes_bind; [apply writes_pf_read|]. intros [d e] s1 _ _. destruct (_ =? _); [apply writes_ret|]. destruct (_ =? _); apply writes_fail. Qed.
(** a write *)
Lemma writes_rws_write b s : writes (rws_write b) s.
Proof.
  intros Hb. exists (match fst (rws_write b s) with Panic => [file s] | _ => [file (snd (rws_write b s))] end).
  unfold writes_to, rws_write. rewrite Hb. rewrite (budget_none _ Hb). cbn [budget set_budget].
  destruct (kind s) eqn:Ek; cbn [kind file set_budget pos]; rewrite Ek;
    repeat match goal with |- context [if ?b then _ else _] => destruct b end; cbn [fst snd fin file set_pos set_file length];
    (split; [discriminate|]); (split; [exact Hb|]); (split; [reflexivity|]); intros k; (split; intros Hk; [assert (k = 0)%nat by lia; subst k; eexists; split; reflexivity|]);
    (destruct k as [|k]; [lia|]); cbn [budget set_budget]; rewrite Nat.sub_succ, Nat.sub_0_r; reflexivity.
Qed.
Lemma writes_pf_write b s : writes (pf_write b) s.
Proof. apply writes_bind; [apply writes_seek_cur|]. intros a s1 _ _. destruct (_ <? _); [apply writes_panic|apply writes_rws_write]. Qed.

Ltac writes_step :=
  first [apply writes_seek_abs | apply writes_seek_start | apply writes_seek_cur | apply writes_seek_end | apply writes_rws_read | apply writes_pf_read
       | apply writes_read_full | apply writes_rws_write | apply writes_pf_write | apply writes_ret | apply writes_fail | apply writes_panic
       | (apply writes_bind; [|intros ? ? _ _])].

(** the programs of the index *)
Lemma writes_wfpi s : writes write_free_page_indices s.
Proof.
  unfold write_free_page_indices. destruct ((0 <? fcount s) && (ringSize <? ring_tail s + fcount s)) eqn:E.
  - apply writes_pre with (g := fun s => s) (m' := panic); auto; [|apply writes_panic]. intros b. cbn [fcount set_budget]. unfold ring_tail in *. cbn [fhead fcount set_budget]. rewrite E. reflexivity.
  - apply writes_pre with (g := fun s => s) (m' := seek_start 0 ;;; rws_write (enc_free (slice (ring s) (ring_tail s) (fcount s))) ;;; ret tt); auto.
    + intros b. cbn [fcount set_budget]. unfold ring_tail in *. cbn [fhead fcount set_budget]. rewrite E. reflexivity.
    + repeat writes_step.
Qed.
Lemma writes_fpi s : writes free_page_index s.
Proof.
  unfold free_page_index. destruct (fcount s =? 0) eqn:E.
  - apply writes_pre with (g := fun s => s) (m' := ret (-1)); auto; [|apply writes_ret]. intros b. cbn [fcount set_budget]. rewrite E. reflexivity.
  - destruct (znth (ring s) (ring_tail s)) as [o|] eqn:Eo.
    + apply writes_pre with (g := fun s => set_free s (zset (ring s) (ring_tail s) 0) (fhead s) (fcount s - 1)) (m' := write_free_page_indices ;;; ret o); auto.
      * intros b. cbn [fcount set_budget ring]. rewrite E. unfold ring_tail in *. cbn [fhead fcount set_budget]. rewrite Eo. reflexivity.
      * apply writes_bind; [apply writes_wfpi|]. intros ? ? _ _. apply writes_ret.
    + apply writes_pre with (g := fun s => s) (m' := panic); auto; [|apply writes_panic]. intros b. cbn [fcount set_budget ring]. rewrite E. unfold ring_tail in *. cbn [fhead fcount set_budget]. rewrite Eo. reflexivity.
Qed.
Lemma writes_new_page buf s : writes (new_page buf) s.
Proof.
  unfold new_page. destruct (_ <? _); [apply writes_fail|]. apply writes_bind; [apply writes_fpi|]. intros o0 s1 _ _.
  apply writes_bind. { destruct (negb _); [repeat writes_step|]. apply writes_bind; [apply writes_seek_end|]. intros n s2 _ _.
    apply writes_none; [reflexivity|discriminate|reflexivity]. }
  intros o s2 _ _. apply writes_bind. { destruct (negb _); repeat writes_step. } intros p s3 _ _. repeat writes_step.
Qed.
Lemma marshal_nc w n : marshal w n <> Crash.
Proof. unfold marshal. repeat match goal with |- context [if ?b then _ else _] => destruct b end; discriminate. Qed.
Lemma writes_write_node c o n s : writes (write_node c o n) s.
Proof. unfold write_node. apply writes_bind; [apply writes_seek_start|]. intros ? ? _ _. apply writes_bind; [apply writes_lift, marshal_nc|]. intros ? ? _ _. repeat writes_step. Qed.
Lemma writes_lp_set_root m p s : writes (lp_set_root m p) s.
Proof. unfold lp_set_root. destruct (_ =? _); repeat writes_step. Qed.
Lemma writes_ins_loop c m rest : forall tr s, writes (ins_loop c m tr rest) s.
Proof.
  induction rest as [|p rest IH]; intros tr s; cbn [ins_loop]; (destruct (_ <? _); [|apply writes_write_node]);
    (destruct (nth_error _ _); [|apply writes_panic]); (apply writes_bind; [apply writes_lift, marshal_nc|]); intros ? ? _ _;
    (apply writes_bind; [apply writes_new_page|]); intros ? ? _ _; (apply writes_bind; [apply writes_write_node|]); intros ? ? _ _.
  - apply writes_bind; [apply writes_lift, marshal_nc|]. intros ? ? _ _. apply writes_bind; [apply writes_new_page|]. intros ? ? _ _. apply writes_lp_set_root.
  - apply IH.
Qed.

(** ** Crashes *)
(** every crash of [m] from [s] leaves a file with [P] *)
Definition crashes {A} (m : M st A) (s : st) (P : bytes -> Prop) : Prop :=
  forall k s', m (set_budget s (Some k)) = (Crash, s') -> P (file s').
(** some crash of [m] from [s] leaves the file [f] *)
Definition crash_at {A} (m : M st A) (s : st) (f : bytes) : Prop :=
  exists k s', m (set_budget s (Some k)) = (Crash, s') /\ file s' = f.

Lemma crashes_bind {A B} (m : M st A) (g : A -> M st B) s (P : bytes -> Prop) : budget s = None -> writes m s -> crashes m s P ->
  (forall a s1, m s = (Ok a, s1) -> crashes (g a) s1 P) -> crashes (bind m g) s P.
Proof.
  intros Hb Hw Hm Hg k s'. destruct (Hw Hb) as (fs & W1 & W2 & W3 & W4). destruct (W4 k) as [W5 W6]. unfold bind.
  destruct (Nat.lt_ge_cases k (length fs)) as [L|L].
  - destruct (W5 L) as (s1 & E & F). rewrite E. intros X. injection X as <-. eapply Hm; eauto.
  - rewrite (W6 L). destruct (m s) as [r s1] eqn:E. cbn [fst snd] in *. destruct r as [a|e| | |]; try discriminate; [|congruence].
    intros X. eapply Hg; eauto.
Qed.
Lemma crashes_none {A} (m : M st A) s P : (forall b, m (set_budget s b) = (fst (m s), set_budget (snd (m s)) b)) -> fst (m s) <> Crash -> crashes m s P.
Proof. intros H H0 k s' E. rewrite H in E. destruct (m s) as [r s1]; cbn [fst snd] in *. congruence. Qed.
Lemma crashes_lift {A} (r : res A) s P : r <> Crash -> crashes (lift r) s P.
Proof. intros H k s' E. unfold lift in E. congruence. Qed.
Lemma crashes_ret {A} (a : A) s P : crashes (ret a) s P.
Proof. intros k s' E. discriminate. Qed.
Lemma crashes_seek_abs a s P : crashes (seek_abs a) s P.
Proof. intros k s'. unfold seek_abs. destruct (kind _); repeat match goal with |- context [if ?b then _ else _] => destruct b end; discriminate. Qed.
Lemma crashes_rws_write b s (P : bytes -> Prop) : P (file s) -> crashes (rws_write b) s P.
Proof.
  intros H k s'. unfold rws_write. cbn [budget set_budget]. destruct k; [intros X; injection X as <-; exact H|].
  destruct (kind _); repeat match goal with |- context [if ?b then _ else _] => destruct b end; discriminate.
Qed.
Lemma crashes_pf_write b s (P : bytes -> Prop) : budget s = None -> P (file s) -> crashes (pf_write b) s P.
Proof.
  intros Hb H. apply crashes_bind; auto; [apply writes_seek_cur|intros k s'; apply (@crashes_seek_abs (pos s) s P k s')|]. intros a s1 E.
  destruct (_ <? _); [intros k s'; discriminate|]. apply crashes_rws_write.
  unfold seek_cur, seek_abs in E. destruct (kind s); repeat match goal with H : context [if ?b then _ else _] |- _ => destruct b end; try discriminate; injection E as _ <-; exact H.
Qed.
Lemma seek_abs_file a s n s1 : seek_abs a s = (Ok n, s1) -> file s1 = file s /\ budget s1 = budget s.
Proof. unfold seek_abs. intros E. destruct (kind s); repeat match goal with H : context [if ?b then _ else _] |- _ => destruct b end; try discriminate; injection E as _ <-; auto. Qed.
Lemma crashes_write_node c o n s (P : bytes -> Prop) : budget s = None -> P (file s) -> crashes (write_node c o n) s P.
Proof.
  intros Hb H. unfold write_node. apply crashes_bind; auto; [apply writes_seek_start|apply crashes_seek_abs|]. intros a s1 E.
  apply seek_abs_file in E. destruct E as [E1 E2]. rewrite Hb in E2. apply crashes_bind; auto; [apply writes_lift, marshal_nc|apply crashes_lift, marshal_nc|].
  intros buf s2 E. injection E as _ <-. apply crashes_bind; auto; [apply writes_pf_write|apply crashes_pf_write; congruence|]. intros; apply crashes_ret.
Qed.
Lemma crashes_set_root m p s (P : bytes -> Prop) : budget s = None -> P (file s) -> crashes (lp_set_root m p) s P.
Proof.
  intros Hb H. unfold lp_set_root. destruct (_ =? _); [intros k s'; discriminate|]. apply crashes_bind; auto; [apply writes_seek_start|apply crashes_seek_abs|]. intros a s1 E.
  apply seek_abs_file in E. destruct E as [E1 E2]. rewrite Hb in E2. apply crashes_bind; auto; [apply writes_pf_write|apply crashes_pf_write; congruence|]. intros; apply crashes_ret.
Qed.
(** NewPage first takes the page from the free list, then writes it *)
Lemma crashes_new_page buf s fl (P : bytes -> Prop) : budget s = None -> pf_inv s fl -> P (file s) ->
  (forall o r, fl = o :: r -> P (upd (file s) 0 (enc_free r))) -> crashes (new_page buf) s P.
Proof.
  intros Hb Hi H H0. unfold new_page. destruct (_ <? _); [intros k s'; discriminate|].
  apply crashes_bind; auto; [apply writes_fpi| |].
  - intros k s'. unfold free_page_index. cbn [fcount set_budget]. destruct (fcount s =? 0); [discriminate|].
    unfold ring_tail; cbn [fhead fcount set_budget ring]. destruct (znth _ _); [|discriminate].
    unfold bind. unfold write_free_page_indices. cbn [fcount set_free set_budget]. destruct (_ && _); [discriminate|].
    unfold bind at 1. unfold seek_start, seek_abs. cbn [kind set_free set_budget file].
    intros E. assert (X : file s' = file s); [|rewrite X; auto]. revert E.
    destruct (kind s); repeat match goal with |- context [if ?b then _ else _] => destruct b end; try discriminate;
      unfold bind, rws_write; cbn [budget set_budget set_pos set_free]; destruct k; try discriminate; try (intros X; injection X as <-; reflexivity);
      cbn [kind set_budget set_pos set_free file pos]; destruct (kind s); repeat match goal with |- context [if ?b then _ else _] => destruct b end; discriminate.
  - intros o0 s1 E0.
    assert (B1 : budget s1 = None /\ P (file s1) /\ (o0 = -1 \/ o0 mod pageSize = 0) /\ zlen (file s1) mod pageSize = 0).
    { destruct fl as [|o r].
      - rewrite (free_page_index_nil Hi) in E0. injection E0 as <- <-. split; auto. split; auto. split; auto. apply (pi_len Hi).
      - destruct (free_page_index_cons Hi Hb) as (h & tail & p0 & E & _). rewrite E in E0. injection E0 as <- <-. cbn [budget file set_pos set_file set_free].
        split; auto. split; [eauto|]. split; [right; pose proof (pi_ok Hi) as Q; inversion Q as [|? ? (Y1 & Y2 & _) _]; auto|].
        pose proof (pi_min Hi) as M. destruct (pi_ring Hi) as (t & T1 & T2 & _). rewrite zlen_cons in T2. pose proof (@zlen_enc_free r ltac:(lia)) as Z. rewrite zlen_upd by (unfold pageSize in *; lia).
        rewrite Z, Z.max_l by (unfold pageSize in *; lia). apply (pi_len Hi). }
    destruct B1 as (B1 & P1 & A1 & A2).
    apply crashes_bind; auto.
    { destruct (negb _); [repeat writes_step|]. apply writes_bind; [apply writes_seek_end|]. intros n s2 _ _. apply writes_none; [reflexivity|discriminate|reflexivity]. }
    { destruct (negb _).
      - apply crashes_bind; auto; [apply writes_seek_start|apply crashes_seek_abs|]. intros; apply crashes_ret.
      - apply crashes_bind; auto; [apply writes_seek_end| |].
        + intros k s' E. rewrite seek_end_ok in E. discriminate.
        + intros a s2 E k s'. discriminate. }
    intros o s2 E2.
    assert (B2 : budget s2 = None /\ file s2 = file s1 /\ o mod pageSize = 0).
    { destruct (Z.eqb_spec o0 (-1)) as [->|Hn]; cbn [negb] in E2.
      - unfold bind in E2. rewrite seek_end_ok in E2. injection E2 as <- <-. auto.
      - unfold bind in E2. destruct (seek_start o0 s1) as [[z|e| | |] s3] eqn:Es; try discriminate. injection E2 as <- <-.
        apply seek_abs_file in Es. destruct Es as [-> ->]. repeat split; auto. destruct A1; [contradiction|auto]. }
    destruct B2 as (B2 & F2 & A3). rewrite A3. cbn [Z.eqb negb].
    apply crashes_bind; auto; [apply writes_ret|apply crashes_ret|]. intros p s3 E3. injection E3 as _ <-.
    apply crashes_bind; auto; [apply writes_rws_write|apply crashes_rws_write; congruence|]. intros n s4 E4.
    assert (B4 : budget s4 = None). { destruct (@writes_rws_write (buf ++ zeros (pageSize - zlen buf)) s2 B2) as (fs & _ & W & _). rewrite E4 in W. exact W. }
    apply crashes_bind; auto; [apply writes_seek_start|apply crashes_seek_abs|]. intros; apply crashes_ret.
Qed.

(** a crash point of the rest is one of the whole *)
Lemma crash_at_bind {A B} (m : M st A) (g : A -> M st B) s a s1 f : budget s = None -> writes m s -> m s = (Ok a, s1) -> crash_at (g a) s1 f -> crash_at (bind m g) s f.
Proof.
  intros Hb Hw E (k & s' & Ec & Ef). destruct (Hw Hb) as (fs & W1 & W2 & W3 & W4). exists (length fs + k)%nat, s'. split; auto.
  destruct (W4 (length fs + k)%nat) as [_ W6]. unfold bind. rewrite W6 by lia. rewrite E. cbn [fst snd].
  replace (length fs + k - length fs)%nat with k by lia. exact Ec.
Qed.
(** a program that changes the file can die before it does *)
Lemma crash_at_once {A} (m : M st A) s : budget s = None -> writes m s -> file (snd (m s)) <> file s -> crash_at m s (file s).
Proof.
  intros Hb Hw Hf. destruct (Hw Hb) as (fs & W1 & W2 & W3 & W4). destruct fs as [|f fs]; [contradiction|].
  destruct (W4 0%nat) as [W5 _]. destruct W5 as (s' & E & F); [cbn; lia|]. exists 0%nat, s'. auto.
Qed.
