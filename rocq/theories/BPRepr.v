(** What it means for nodes to form a B+ tree with given entries, and the
    correctness of descent and iteration over such a tree. Nothing in this file
    models code; the model is in BPTree.v. *)
From Coq Require Export Permutation.
From Verif Require Import Base RefValue Node BPTree.

(** permutations of page lists, by counting *)
Lemma perm_count (a b : list Z) : Permutation a b <-> forall x, count_occ Z.eq_dec a x = count_occ Z.eq_dec b x.
Proof. apply Permutation_count_occ. Qed.
Ltac perm_lia :=
  repeat match goal with H : @Permutation Z _ _ |- _ => rewrite perm_count in H end;
  rewrite perm_count; let x := fresh "x" in intros x;
  repeat match goal with H : forall _, count_occ _ _ _ = count_occ _ _ _ |- _ => specialize (H x) end;
  repeat (rewrite ?count_occ_app in *; cbn [count_occ app] in *);
  repeat match goal with |- context [Z.eq_dec ?a ?b] => destruct (Z.eq_dec a b)
                    | H : context [Z.eq_dec ?a ?b] |- _ => destruct (Z.eq_dec a b) end; lia.

Notation entry := (rv * mptr)%type (only parsing).
Definition bound := option rv.
Definition lo_le (lo : bound) (k : rv) : Prop := match lo with None => True | Some l => rle l k end.
Definition hi_gt (k : rv) (hi : bound) : Prop := match hi with None => True | Some h => rlt k h end.
Definition in_bnd (lo hi : bound) (k : rv) : Prop := lo_le lo k /\ hi_gt k hi.
(** a lower bound (a separator of an ancestor) is itself one of the keys *)
Definition lo_in (lo : bound) (ks : list rv) : Prop := match lo with None => True | Some l => In l ks end.

(** children left of a hole, each followed by its separator *)
Inductive lchain (R : bound -> bound -> Z -> list entry -> list Z -> Prop)
  : bound -> bound -> list rv -> list Z -> list entry -> list Z -> Prop :=
| lc_nil a : lchain R a a [] [] [] []
| lc_cons a b k ks o os es1 es2 pg1 pg2 :
    R a (Some k) o es1 pg1 -> lchain R (Some k) b ks os es2 pg2 ->
    lchain R a b (k :: ks) (o :: os) (es1 ++ es2) (pg1 ++ pg2).
(** children right of a hole, each preceded by its separator *)
Inductive rchain (R : bound -> bound -> Z -> list entry -> list Z -> Prop)
  : bound -> bound -> list rv -> list Z -> list entry -> list Z -> Prop :=
| rc_nil d : rchain R d d [] [] [] []
| rc_cons k b d ks o os es1 es2 pg1 pg2 :
    R (Some k) b o es1 pg1 -> rchain R b d ks os es2 pg2 ->
    rchain R (Some k) d (k :: ks) (o :: os) (es1 ++ es2) (pg1 ++ pg2).

(** [body F h lo hi n es pg]: node [n] (in memory) is the root of a tree of height
    [h] with entries [es], whose other nodes are stored (according to [F]) in the
    pages [pg]; all keys are in [lo, hi). *)
Fixpoint body (F : Z -> node -> Prop) (h : nat) (lo hi : bound) (n : node) (es : list entry) (pg : list Z) : Prop :=
  match h with
  | O => es <> [] /\ keys n = map fst es /\ lptrs n = map snd es /\ iptrs n = [] /\ pg = [] /\
         sorted (map fst es) /\ Forall (in_bnd lo hi) (map fst es) /\ lo_in lo (map fst es)
  | S h' =>
      let R := fun lo hi off es pg => exists n pg', F off n /\ body F h' lo hi n es pg' /\ pg = off :: pg' in
      exists o os b es1 es2 pg1 pg2,
        lptrs n = [] /\ keys n <> [] /\ iptrs n = o :: os /\
        R lo b o es1 pg1 /\ rchain R b hi (keys n) os es2 pg2 /\ es = es1 ++ es2 /\ pg = pg1 ++ pg2
  end.
(** the same for a node stored in page [off] *)
Definition repr (F : Z -> node -> Prop) (h : nat) (lo hi : bound) (off : Z) (es : list entry) (pg : list Z) : Prop :=
  exists n pg', F off n /\ body F h lo hi n es pg' /\ pg = off :: pg'.

Lemma body_S F h lo hi n es pg : body F (S h) lo hi n es pg <->
  exists o os b es1 es2 pg1 pg2,
    lptrs n = [] /\ keys n <> [] /\ iptrs n = o :: os /\
    repr F h lo b o es1 pg1 /\ rchain (repr F h) b hi (keys n) os es2 pg2 /\ es = es1 ++ es2 /\ pg = pg1 ++ pg2.
Proof. reflexivity. Qed.

(** a node split at child [length ol] *)
Definition holed F h lo hi (kl kr : list rv) (ol or : list Z) a b esl esr pgl pgr : Prop :=
  lchain (repr F h) lo a kl ol esl pgl /\ rchain (repr F h) b hi kr or esr pgr.

Lemma lchain_len R a b ks os es pg : lchain R a b ks os es pg -> length ks = length os.
Proof. induction 1; cbn; auto. Qed.
Lemma rchain_len R a b ks os es pg : rchain R a b ks os es pg -> length ks = length os.
Proof. induction 1; cbn; auto. Qed.

Lemma lchain_app R a b d ks1 os1 es1 pg1 ks2 os2 es2 pg2 :
  lchain R a b ks1 os1 es1 pg1 -> lchain R b d ks2 os2 es2 pg2 ->
  lchain R a d (ks1 ++ ks2) (os1 ++ os2) (es1 ++ es2) (pg1 ++ pg2).
Proof.
  induction 1; cbn [app]; auto. intros H1. rewrite <- !app_assoc. econstructor; eauto.
Qed.

(** every node can be split at every child *)
Lemma split_at (R : bound -> bound -> Z -> list entry -> list Z -> Prop) i : forall lo hi o os b ks es1 es2 pg1 pg2,
  R lo b o es1 pg1 -> rchain R b hi ks os es2 pg2 -> (i <= length ks)%nat ->
  exists kl kr ol x or a b' esl esx esr pgl pgx pgr,
    ks = kl ++ kr /\ o :: os = ol ++ x :: or /\ length ol = i /\ length kl = i /\
    lchain R lo a kl ol esl pgl /\ R a b' x esx pgx /\ rchain R b' hi kr or esr pgr /\
    es1 ++ es2 = esl ++ esx ++ esr /\ pg1 ++ pg2 = pgl ++ pgx ++ pgr.
Proof.
  induction i as [|i IH]; intros lo hi o os b ks es1 es2 pg1 pg2 HR Hc Hi.
  - exists [], ks, [], o, os, lo, b, [], es1, es2, [], pg1, pg2. repeat split; auto. constructor.
  - inversion Hc as [|k b0 d ks' o' os' e1 e2 p1 p2 HR' Hc']; subst.
    + cbn in Hi; lia.
    + destruct (IH _ _ _ _ _ _ _ _ _ _ HR' Hc') as (kl & kr & ol & x & or & a & b' & esl & esx & esr & pgl & pgx & pgr & E1 & E2 & E3 & E4 & E5 & E6 & E7 & E8 & E9).
      { cbn in Hi; lia. }
      exists (k :: kl), kr, (o :: ol), x, or, a, b', (es1 ++ esl), esx, esr, (pg1 ++ pgl), pgx, pgr.
      split; [cbn; rewrite E1; auto|]. split; [cbn; rewrite E2; auto|].
      split; [cbn; auto|]. split; [cbn; auto|].
      split; [econstructor; eauto|]. split; auto. split; auto.
      rewrite E8, E9, <- !app_assoc. auto.
Qed.
Lemma join_at (R : bound -> bound -> Z -> list entry -> list Z -> Prop) lo a kl ol esl pgl : lchain R lo a kl ol esl pgl ->
  forall hi x esx pgx b kr or esr pgr, R a b x esx pgx -> rchain R b hi kr or esr pgr ->
  exists o os b0 es1 es2 pg1 pg2,
    ol ++ x :: or = o :: os /\ R lo b0 o es1 pg1 /\ rchain R b0 hi (kl ++ kr) os es2 pg2 /\
    es1 ++ es2 = esl ++ esx ++ esr /\ pg1 ++ pg2 = pgl ++ pgx ++ pgr.
Proof.
  induction 1 as [a|a b k ks o os es1 es2 pg1 pg2 HR Hl IH]; intros hi x esx pgx b' kr or esr pgr Hx Hr.
  - exists x, or, b', esx, esr, pgx, pgr. cbn. repeat split; auto.
  - destruct (IH _ _ _ _ _ _ _ _ _ Hx Hr) as (o' & os' & b0 & e1 & e2 & p1 & p2 & E1 & E2 & E3 & E4 & E5).
    exists o, (o' :: os'), (Some k), es1, (e1 ++ e2), pg1, (p1 ++ p2).
    split; [cbn; rewrite E1; auto|]. split; auto. split; [cbn; econstructor; eauto|].
    rewrite E4, E5, <- !app_assoc. auto.
Qed.

Lemma body_split F h lo hi n es pg i : body F (S h) lo hi n es pg -> (i <= length (keys n))%nat ->
  exists kl kr ol x or a b' esl esx esr pgl pgx pgr,
    keys n = kl ++ kr /\ iptrs n = ol ++ x :: or /\ length ol = i /\ length kl = i /\
    lchain (repr F h) lo a kl ol esl pgl /\ repr F h a b' x esx pgx /\ rchain (repr F h) b' hi kr or esr pgr /\
    es = esl ++ esx ++ esr /\ pg = pgl ++ pgx ++ pgr.
Proof.
  rewrite body_S. intros (o & os & b & es1 & es2 & pg1 & pg2 & Hl & Hk & Hi & HR & Hc & -> & ->) Hle.
  destruct (@split_at (repr F h) i _ _ _ _ _ _ _ _ _ _ HR Hc Hle) as (kl & kr & ol & x & or & a & b' & esl & esx & esr & pgl & pgx & pgr & E1 & E2 & E3 & E4 & E5 & E6 & E7 & E8 & E9).
  rewrite Hi, E1, E2, E8, E9.
  exists kl, kr, ol, x, or, a, b', esl, esx, esr, pgl, pgx, pgr. repeat split; auto.
Qed.
Lemma body_join F h lo hi n kl kr ol x or a b esl esx esr pgl pgx pgr :
  lptrs n = [] -> keys n = kl ++ kr -> keys n <> [] -> iptrs n = ol ++ x :: or ->
  lchain (repr F h) lo a kl ol esl pgl -> repr F h a b x esx pgx -> rchain (repr F h) b hi kr or esr pgr ->
  body F (S h) lo hi n (esl ++ esx ++ esr) (pgl ++ pgx ++ pgr).
Proof.
  intros Hl Hk Hne Hi H1 H2 H3. rewrite body_S.
  edestruct join_at as (o & os & b0 & e1 & e2 & p1 & p2 & E1 & E2 & E3 & E4 & E5); [exact H1|exact H2|exact H3|].
  exists o, os, b0, e1, e2, p1, p2. rewrite Hi, E1, Hk. repeat split; auto. rewrite <- Hk; auto.
Qed.

(** ** Induction over the structure: bounds, order, nonemptiness *)
Definition bnd_lt (a b : bound) : Prop :=
  match a, b with Some x, Some y => rlt x y | _, _ => True end.
Definition good (lo hi : bound) (es : list entry) : Prop :=
  es <> [] /\ sorted (map fst es) /\ Forall (in_bnd lo hi) (map fst es).

Lemma good_bnd lo hi es : good lo hi es -> bnd_lt lo hi.
Proof.
  intros (Hne & _ & Hf). destruct es as [|[k v] es]; [congruence|].
  cbn in Hf. inversion Hf as [|? ? [H1 H2] _]; subst.
  destruct lo as [l|]; destruct hi as [u|]; cbn in *; auto. eapply rle_rlt_trans; eauto.
Qed.

Lemma lo_le_trans lo a k : (match lo, a with Some l, Some x => rle l x | Some _, None => False | None, _ => True end) -> lo_le a k -> lo_le lo k.
Proof. destruct lo, a; cbn; auto; try tauto. intros; eapply rle_trans; eauto. Qed.

Definition lo_mono (a b : bound) : Prop := match a, b with None, _ => True | Some _, None => False | Some x, Some y => rle x y end.
Definition hi_mono (a b : bound) : Prop := match a, b with _, None => True | None, Some _ => False | Some x, Some y => rle x y end.
Lemma lo_mono_refl a : lo_mono a a. Proof. destruct a; cbn; auto. apply rle_refl. Qed.
Lemma hi_mono_refl a : hi_mono a a. Proof. destruct a; cbn; auto. apply rle_refl. Qed.
Lemma lo_mono_trans a b d : lo_mono a b -> lo_mono b d -> lo_mono a d.
Proof. destruct a, b, d; cbn; auto; try tauto. apply rle_trans. Qed.
Lemma hi_mono_trans a b d : hi_mono a b -> hi_mono b d -> hi_mono a d.
Proof. destruct a, b, d; cbn; auto; try tauto. apply rle_trans. Qed.
Lemma in_bnd_mono lo hi lo' hi' k : lo_mono lo' lo -> hi_mono hi hi' -> in_bnd lo hi k -> in_bnd lo' hi' k.
Proof.
  unfold in_bnd. intros H1 H2 [H3 H4]. split.
  - destruct lo', lo; cbn in *; auto; try tauto. eapply rle_trans; eauto.
  - destruct hi', hi; cbn in *; auto; try tauto. eapply rlt_rle_trans; eauto.
Qed.
Lemma good_app lo x hi es1 es2 : good lo (Some x) es1 -> good (Some x) hi es2 -> good lo hi (es1 ++ es2).
Proof.
  intros G1 G2. pose proof (good_bnd G1) as B1. pose proof (good_bnd G2) as B2.
  destruct G1 as (N1 & S1 & F1). destruct G2 as (N2 & S2 & F2).
  split; [destruct es1; cbn; congruence|]. rewrite map_app. split.
  - apply sorted_app. repeat split; auto. intros p q Hp Hq.
    rewrite Forall_forall in F1, F2. destruct (F1 _ Hp) as [_ H1]. destruct (F2 _ Hq) as [H2 _].
    cbn in H1, H2. eapply rlt_rle_trans; eauto.
  - apply Forall_app. split.
    + eapply Forall_impl; [|exact F1]. intros k. apply in_bnd_mono; [apply lo_mono_refl|].
      destruct hi; cbn; auto. apply rlt_rle; auto.
    + eapply Forall_impl; [|exact F2]. intros k. apply in_bnd_mono; [|apply hi_mono_refl].
      destruct lo; cbn in *; auto. apply rlt_rle; auto.
Qed.

Definition Rgood (R : bound -> bound -> Z -> list entry -> list Z -> Prop) : Prop :=
  forall lo hi o es pg, R lo hi o es pg -> good lo hi es.
(** right chain: nonempty unless trivial, sorted, separators in order *)
Lemma rchain_good R b hi ks os es pg : Rgood R -> rchain R b hi ks os es pg ->
  (ks = [] /\ b = hi /\ es = []) \/
  (ks <> [] /\ good b hi es /\ sorted ks /\
   (forall k, In k ks -> lo_le b k /\ hi_gt k hi) /\ (exists k, b = Some k /\ In k ks)).
Proof.
  intros HR. induction 1 as [d|k b d ks o os es1 es2 pg1 pg2 HR1 Hc IH].
  - left; auto.
  - right. pose proof (HR _ _ _ _ _ HR1) as G1. pose proof (good_bnd G1) as B1.
    split; [congruence|]. destruct IH as [(E1 & E2 & E3)|(E1 & E2 & E3 & E4 & k' & E5 & E6)].
    + subst. rewrite app_nil_r. split; auto. split; [apply sorted_one|]. split.
      * intros k' [<-|[]]. cbn. split; [apply rle_refl|]. destruct d; cbn in *; auto.
      * exists k; cbn; auto.
    + subst b. split; [eapply good_app; eauto|].
      pose proof (good_bnd E2) as B2. cbn in B1.
      split; [|split].
      * apply sorted_cons. split; auto. intros q Hq. destruct (E4 _ Hq) as [H _]. cbn in H. eapply rlt_rle_trans; eauto.
      * intros q [<-|Hq].
        -- cbn. split; [apply rle_refl|]. destruct d; cbn in *; auto. eapply rlt_trans; eauto.
        -- destruct (E4 _ Hq) as [H H']. split; auto. cbn in *. apply rlt_rle. eapply rlt_rle_trans; eauto.
      * exists k; cbn; auto.
Qed.
Lemma lchain_good R lo a ks os es pg : Rgood R -> lchain R lo a ks os es pg ->
  (ks = [] /\ lo = a /\ es = []) \/
  (ks <> [] /\ good lo a es /\ sorted ks /\ (exists k, a = Some k /\ In k ks /\ forall k', In k' ks -> rle k' k) ).
Proof.
  intros HR. induction 1 as [d|a b k ks o os es1 es2 pg1 pg2 HR1 Hc IH].
  - left; auto.
  - right. pose proof (HR _ _ _ _ _ HR1) as G1. pose proof (good_bnd G1) as B1.
    split; [congruence|]. destruct IH as [(E1 & E2 & E3)|(E1 & E2 & E3 & k' & E4 & E5 & E6)].
    + subst. rewrite app_nil_r. split; auto. split; [apply sorted_one|].
      exists k. cbn. repeat split; auto. intros k' [<-|[]]. apply rle_refl.
    + subst b. split; [eapply good_app; eauto|].
      pose proof (good_bnd E2) as B2. cbn in B2.
      split.
      * apply sorted_cons. split; auto. intros q Hq. destruct ks as [|k0 ks]; [congruence|].
        (* keys of the tail lie above k: by goodness of each child *)
        inversion Hc as [|? ? ? ? ? ? e1 e2 p1 p2 HR2 Hc2]; subst.
        pose proof (good_bnd (HR _ _ _ _ _ HR2)) as B3. cbn in B3.
        destruct Hq as [<-|Hq]; auto.
        apply sorted_cons in E3. destruct E3 as [_ E3]. eapply rlt_trans; [exact B3|]. auto.
      * exists k'. repeat split; cbn; auto. intros q [<-|Hq]; auto. apply rlt_rle; auto.
Qed.

Lemma body_good F h : forall lo hi n es pg, body F h lo hi n es pg -> good lo hi es.
Proof.
  induction h as [|h IH]; intros lo hi n es pg H.
  - cbn in H. destruct H as (H1 & H2 & H3 & H4 & H5 & H6 & H7 & _). split; auto.
  - rewrite body_S in H. destruct H as (o & os & b & es1 & es2 & pg1 & pg2 & Hl & Hk & Hi & HR & Hc & -> & ->).
    assert (RG : Rgood (repr F h)).
    { intros lo' hi' o' es' pg' (n' & p' & _ & Hb & _). eapply IH; eauto. }
    pose proof (RG _ _ _ _ _ HR) as G1.
    destruct (rchain_good RG Hc) as [(E1 & _ & _)|(E1 & E2 & E3 & E4 & k & E5 & E6)]; [congruence|].
    subst b. eapply good_app; eauto.
Qed.
Lemma repr_good F h lo hi o es pg : repr F h lo hi o es pg -> good lo hi es.
Proof. intros (n & p & _ & Hb & _). eapply body_good; eauto. Qed.
Lemma repr_Rgood F h : Rgood (repr F h).
Proof. intros lo hi o es pg. apply repr_good. Qed.

Lemma body_keys_sorted F h lo hi n es pg : body F h lo hi n es pg -> sorted (keys n).
Proof.
  destruct h as [|h]; intros H.
  - cbn in H. destruct H as (H1 & H2 & H3 & H4 & H5 & H6 & H7). rewrite H2; auto.
  - rewrite body_S in H. destruct H as (o & os & b & es1 & es2 & pg1 & pg2 & Hl & Hk & Hi & HR & Hc & -> & ->).
    destruct (rchain_good (@repr_Rgood F h) Hc) as [(E1 & _ & _)|(E1 & E2 & E3 & E4 & k & E5 & E6)]; [congruence|auto].
Qed.

Lemma body_leaf_dec F h lo hi n es pg : body F h lo hi n es pg ->
  is_leaf n = match h with O => true | _ => false end.
Proof.
  destruct h as [|h]; intros H; unfold is_leaf.
  - cbn in H. destruct H as (H1 & H2 & H3 & _). rewrite H3. destruct es; [congruence|reflexivity].
  - rewrite body_S in H. destruct H as (o & os & b & es1 & es2 & pg1 & pg2 & Hl & _). rewrite Hl. reflexivity.
Qed.

Arguments body_good {F h lo hi n es pg}.
Arguments body_keys_sorted {F h lo hi n es pg}.
Arguments body_leaf_dec {F h lo hi n es pg}.
(** every separator, and every lower bound, is a key of the tree *)
Lemma body_lo_in F h : forall lo hi n es pg, body F h lo hi n es pg -> lo_in lo (map fst es).
Proof.
  induction h as [|h IH]; intros lo hi n es pg H.
  - cbn in H. tauto.
  - rewrite body_S in H. destruct H as (o & os & b & es1 & es2 & pg1 & pg2 & Hl & Hk & Hi & HR & Hc & -> & ->).
    destruct HR as (m & p & _ & Hb & _). specialize (IH _ _ _ _ _ Hb).
    destruct lo as [l|]; cbn in *; auto. rewrite map_app. apply in_or_app; auto.
Qed.
Lemma rchain_seps F h b hi ks os es pg : rchain (repr F h) b hi ks os es pg -> forall k, In k ks -> In k (map fst es).
Proof.
  induction 1 as [|k b d ks o os e1 e2 p1 p2 (m & p & _ & Hb & _) Hc IH]; intros x Hx; [destruct Hx|].
  rewrite map_app. apply in_or_app. destruct Hx as [<-|Hx]; auto. left. exact (@body_lo_in F h _ _ _ _ _ Hb).
Qed.
Lemma body_keys_in F h lo hi n es pg : body F h lo hi n es pg -> forall k, In k (keys n) -> In k (map fst es).
Proof.
  destruct h as [|h]; intros H k Hk.
  - cbn in H. destruct H as (_ & E & _). rewrite <- E. exact Hk.
  - rewrite body_S in H. destruct H as (o & os & b & es1 & es2 & pg1 & pg2 & Hl & _ & Hi & HR & Hc & -> & ->).
    rewrite map_app. apply in_or_app. right. eapply rchain_seps; eauto.
Qed.
(** changing the storage outside the pages of the tree *)
Lemma body_frame (F F' : Z -> node -> Prop) h : forall lo hi n es pg, body F h lo hi n es pg ->
  (forall o m, In o pg -> F o m -> F' o m) -> body F' h lo hi n es pg.
Proof.
  induction h as [|h IH]; intros lo hi n es pg H HF; [exact H|].
  rewrite body_S in *. destruct H as (o & os & b & es1 & es2 & pg1 & pg2 & Hl & Hk & Hi & HR & Hc & -> & ->).
  exists o, os, b, es1, es2, pg1, pg2. repeat split; auto.
  - destruct HR as (m & p' & Hm & Hb & ->). exists m, p'. repeat split; auto.
    + apply HF; auto. cbn; auto.
    + eapply IH; eauto. intros; apply HF; auto. cbn. right. apply in_or_app; auto.
  - assert (HF2 : forall o m, In o pg2 -> F o m -> F' o m) by (intros; apply HF; auto; apply in_or_app; auto).
    clear -Hc HF2 IH. induction Hc as [|k b d ks o os e1 e2 p1 p2 HR Hc IHc]; [constructor|].
    econstructor.
    + destruct HR as (m & p' & Hm & Hb & ->). exists m, p'. repeat split; auto.
      * apply HF2; auto. cbn; auto.
      * eapply IH; eauto. intros; apply HF2; auto. cbn. right. apply in_or_app; auto.
    + apply IHc. intros; apply HF2; auto. apply in_or_app; auto.
Qed.
Lemma repr_frame (F F' : Z -> node -> Prop) h lo hi o es pg : repr F h lo hi o es pg ->
  (forall o m, In o pg -> F o m -> F' o m) -> repr F' h lo hi o es pg.
Proof.
  intros (n & p & Hn & Hb & ->) HF. exists n, p. repeat split; auto.
  - apply HF; cbn; auto.
  - eapply body_frame; eauto. intros; apply HF; cbn; auto.
Qed.
Lemma lchain_frame (F F' : Z -> node -> Prop) h lo a ks os es pg : lchain (repr F h) lo a ks os es pg ->
  (forall o m, In o pg -> F o m -> F' o m) -> lchain (repr F' h) lo a ks os es pg.
Proof.
  induction 1; intros HF; econstructor.
  - eapply repr_frame; eauto. intros; apply HF; auto. apply in_or_app; auto.
  - apply IHlchain. intros; apply HF; auto. apply in_or_app; auto.
Qed.
Lemma rchain_frame (F F' : Z -> node -> Prop) h lo a ks os es pg : rchain (repr F h) lo a ks os es pg ->
  (forall o m, In o pg -> F o m -> F' o m) -> rchain (repr F' h) lo a ks os es pg.
Proof.
  induction 1; intros HF; econstructor.
  - eapply repr_frame; eauto. intros; apply HF; auto. apply in_or_app; auto.
  - apply IHrchain. intros; apply HF; auto. apply in_or_app; auto.
Qed.
(** every page of the tree holds a node *)
Lemma body_pages F h : forall lo hi n es pg, body F h lo hi n es pg -> Forall (fun o => exists m, F o m) pg.
Proof.
  induction h as [|h IH]; intros lo hi n es pg H.
  - cbn in H. destruct H as (_ & _ & _ & _ & -> & _). constructor.
  - rewrite body_S in H. destruct H as (o & os & b & es1 & es2 & pg1 & pg2 & Hl & Hk & Hi & HR & Hc & -> & ->).
    apply Forall_app. split.
    + destruct HR as (m & p' & Hm & Hb & ->). constructor; eauto.
    + clear -Hc IH. induction Hc as [|k b d ks o os e1 e2 p1 p2 HR Hc IHc]; [constructor|].
      apply Forall_app. split; auto. destruct HR as (m & p' & Hm & Hb & ->). constructor; eauto.
Qed.
Lemma repr_pages F h lo hi o es pg : repr F h lo hi o es pg -> Forall (fun o => exists m, F o m) pg.
Proof. intros (n & p & Hn & Hb & ->). constructor; eauto. eapply body_pages; eauto. Qed.
Lemma body_height F h : forall lo hi n es pg, body F h lo hi n es pg -> (h <= length pg)%nat.
Proof.
  induction h as [|h IH]; intros lo hi n es pg H; [lia|].
  rewrite body_S in H. destruct H as (o & os & b & es1 & es2 & pg1 & pg2 & Hl & Hk & Hi & HR & Hc & -> & ->).
  destruct HR as (m & p' & Hm & Hb & ->). specialize (IH _ _ _ _ _ Hb). rewrite app_length; cbn. lia.
Qed.
Lemma repr_height F h lo hi o es pg : repr F h lo hi o es pg -> (h < length pg)%nat.
Proof. intros (n & p & Hn & Hb & ->). apply body_height in Hb. cbn; lia. Qed.

(** ** Contexts: the path above a subtree *)
Inductive ctx (F : Z -> node -> Prop) (strict : bool)
  : nat -> bound -> bound -> Z -> list trec -> list entry -> list entry -> list Z -> nat -> Z -> Prop :=
| ctx_top h off : ctx F strict h None None off [] [] [] [] h off
| ctx_up h lo hi off lo' hi' kl ol kr or esl esr pgl pgr p poff ptr rest esL esR pgs H root :
    F poff p -> (strict = true -> mp_off ptr = poff) ->
    lptrs p = [] -> keys p = kl ++ kr -> keys p <> [] -> iptrs p = ol ++ off :: or ->
    lchain (repr F h) lo' lo kl ol esl pgl -> rchain (repr F h) hi hi' kr or esr pgr ->
    ctx F strict (S h) lo' hi' poff rest esL esR pgs H root ->
    ctx F strict h lo hi off (TR p (zlen ol) ptr :: rest) (esL ++ esl) (esr ++ esR)
        (poff :: (pgl ++ pgr) ++ pgs) H root.

Lemma ctx_plug F st h lo hi off rest esL esR pgs H root :
  ctx F st h lo hi off rest esL esR pgs H root ->
  forall es pg, repr F h lo hi off es pg ->
  exists pgs', repr F H None None root (esL ++ es ++ esR) pgs' /\ Permutation pgs' (pg ++ pgs).
Proof.
  induction 1 as [h off|h lo hi off lo' hi' kl ol kr or esl esr pgl pgr p poff ptr rest esL esR pgs H root HF Hs Hlp Hk Hne Hi Hlc Hrc Hctx IH];
    intros es pg Hr.
  - exists pg. rewrite app_nil_r. cbn. rewrite !app_nil_r. split; auto.
  - pose proof (body_join _ Hlp Hk Hne Hi Hlc Hr Hrc) as Hb.
    destruct (IH (esl ++ es ++ esr) (poff :: pgl ++ pg ++ pgr)) as (pgs' & H1 & H2).
    { exists p, (pgl ++ pg ++ pgr). auto. }
    exists pgs'. rewrite <- !app_assoc in *. split; auto.
    perm_lia.
Qed.

Lemma ctx_frame (F F' : Z -> node -> Prop) st h lo hi off rest esL esR pgs H root :
  ctx F st h lo hi off rest esL esR pgs H root ->
  (forall o m, In o pgs -> F o m -> F' o m) ->
  ctx F' st h lo hi off rest esL esR pgs H root.
Proof.
  induction 1 as [h off|h lo hi off lo' hi' kl ol kr or esl esr pgl pgr p poff ptr rest esL esR pgs H root HF Hs Hlp Hk Hne Hi Hlc Hrc Hctx IH];
    intros HFF; econstructor; eauto.
  - apply HFF; cbn; auto.
  - eapply lchain_frame; eauto. intros; apply HFF; auto. cbn. right. apply in_or_app; left; apply in_or_app; auto.
  - eapply rchain_frame; eauto. intros; apply HFF; auto. cbn. right. apply in_or_app; left; apply in_or_app; auto.
  - apply IH. intros; apply HFF; auto. cbn. right. apply in_or_app; auto.
Qed.
Lemma ctx_pages F st h lo hi off rest esL esR pgs H root :
  ctx F st h lo hi off rest esL esR pgs H root -> Forall (fun o => exists m, F o m) pgs.
Proof.
  induction 1 as [h off|h lo hi off lo' hi' kl ol kr or esl esr pgl pgr p poff ptr rest esL esR pgs H root HF Hs Hlp Hk Hne Hi Hlc Hrc Hctx IH]; [constructor|].
  constructor; eauto. apply Forall_app; split; auto. apply Forall_app; split.
  - clear -Hlc. induction Hlc; [constructor|]. apply Forall_app; split; auto. eapply repr_pages; eauto.
  - clear -Hrc. induction Hrc; [constructor|]. apply Forall_app; split; auto. eapply repr_pages; eauto.
Qed.
Lemma ctx_weak F st h lo hi off rest esL esR pgs H root :
  ctx F st h lo hi off rest esL esR pgs H root -> ctx F false h lo hi off rest esL esR pgs H root.
Proof. induction 1; econstructor; eauto. discriminate. Qed.
Lemma ctx_len F st h lo hi off rest esL esR pgs H root :
  ctx F st h lo hi off rest esL esR pgs H root -> (h + length rest = H)%nat /\ (length rest <= length pgs)%nat.
Proof.
  induction 1; cbn [length]; [lia|]. rewrite !app_length. lia.
Qed.

(** keys outside the hole are outside its bounds *)
Lemma ctx_bounds F st h lo hi off rest esL esR pgs H root :
  ctx F st h lo hi off rest esL esR pgs H root ->
  (match lo with None => esL = [] | Some l => forall k, In k (map fst esL) -> rlt k l end) /\
  (match hi with None => esR = [] | Some u => forall k, In k (map fst esR) -> rle u k end) /\
  (lo = None -> esL = []) /\ (hi = None -> esR = []).
Proof.
  induction 1 as [h off|h lo hi off lo' hi' kl ol kr or esl esr pgl pgr p poff ptr rest esL esR pgs H root HF Hs Hlp Hk Hne Hi Hlc Hrc Hctx IH].
  - cbn. auto.
  - destruct IH as (I1 & I2 & I3 & I4).
    assert (A : match lo with None => esL ++ esl = [] | Some l => forall k, In k (map fst (esL ++ esl)) -> rlt k l end).
    { destruct (lchain_good (@repr_Rgood F h) Hlc) as [(E1 & E2 & E3)|(E1 & G & E3 & k & E4 & E5 & E6)].
      - subst. rewrite app_nil_r. exact I1.
      - subst lo. pose proof (good_bnd G) as B. destruct G as (_ & _ & G). rewrite Forall_forall in G.
        rewrite map_app. intros q Hq. apply in_app_or in Hq. destruct Hq as [Hq|Hq].
        + destruct lo' as [l'|]; [|rewrite I1 in Hq; destruct Hq]. cbn in B. eapply rlt_trans; [apply I1; auto|auto].
        + destruct (G _ Hq) as [_ Hh]. exact Hh. }
    assert (B : match hi with None => esr ++ esR = [] | Some u => forall k, In k (map fst (esr ++ esR)) -> rle u k end).
    { destruct (rchain_good (@repr_Rgood F h) Hrc) as [(E1 & E2 & E3)|(E1 & G & E3 & E4 & k & E5 & E6)].
      - subst. exact I2.
      - subst hi. pose proof (good_bnd G) as B. destruct G as (_ & _ & G). rewrite Forall_forall in G.
        rewrite map_app. intros q Hq. apply in_app_or in Hq. destruct Hq as [Hq|Hq].
        + destruct (G _ Hq) as [Hh _]. exact Hh.
        + destruct hi' as [u'|]; [|rewrite I2 in Hq; destruct Hq]. cbn in B. apply rlt_rle. eapply rlt_rle_trans; [exact B|]. auto. }
    repeat split; auto; intros ->; auto.
Qed.

(** ** Descent *)
(** the number of separators not above the key is the child to follow *)
Definition ub (l : list rv) (k : rv) : nat := (lb l k + (if in_dec rv_eq_dec k l then 1 else 0))%nat.
Lemma ub_split kl kr k : sorted (kl ++ kr) -> length kl = ub (kl ++ kr) k ->
  (forall x, In x kl -> rle x k) /\ (forall x, In x kr -> rlt k x).
Proof.
  intros Hs Hl. destruct (lb_split k Hs) as [H1 H2].
  unfold ub in Hl. destruct (in_dec rv_eq_dec k (kl ++ kr)) as [Hin|Hin].
  - (* position of k is lb *)
    assert (Hn : nth_error (kl ++ kr) (lb (kl ++ kr) k) = Some k).
    { apply In_nth_error in Hin. destruct Hin as [n Hn].
      assert (n = lb (kl ++ kr) k).
      { destruct (Nat.lt_trichotomy n (lb (kl ++ kr) k)) as [H|[H|H]]; auto; exfalso.
        - apply (lb_nth k n Hs Hn) in H. eapply rlt_irrefl; eauto.
        - assert (exists y, nth_error (kl ++ kr) (lb (kl ++ kr) k) = Some y) as [y Hy].
          { assert (lb (kl ++ kr) k < length (kl ++ kr))%nat by (assert (n < length (kl ++ kr))%nat by (apply nth_error_Some; congruence); lia).
            destruct (nth_error (kl ++ kr) (lb (kl ++ kr) k)) eqn:E; eauto. apply nth_error_None in E. lia. }
          assert (rle k y) by (apply rle_not_rlt; intros Hy'; apply (lb_nth k _ Hs Hy) in Hy'; lia).
          (* y before k in sorted list, so y < k *)
          assert (rlt y k).
          { apply nth_error_split in Hy. destruct Hy as (a & d & Ea & La). rewrite Ea in Hn, Hs.
            apply sorted_app in Hs. destruct Hs as (_ & Hs & _). apply sorted_cons in Hs. destruct Hs as [_ Hs].
            apply Hs. rewrite nth_error_app2 in Hn by lia.
            destruct (n - length a)%nat as [|q] eqn:Eq; [lia|]. cbn in Hn. eapply nth_error_In; eauto. }
          apply (@rlt_irrefl y). eapply rlt_rle_trans; eauto. }
      congruence. }
    split.
    + intros x Hx. apply In_nth_error in Hx. destruct Hx as [n Hx].
      assert (n < length kl)%nat by (apply nth_error_Some; congruence).
      assert (Hx' : nth_error (kl ++ kr) n = Some x) by (rewrite nth_error_app1 by lia; auto).
      destruct (Nat.eq_dec n (lb (kl ++ kr) k)) as [->|Hne].
      * assert (x = k) by congruence. subst; apply rle_refl.
      * apply rlt_rle. apply (lb_nth k n Hs Hx'). lia.
    + intros x Hx. apply sorted_app in Hs. destruct Hs as (_ & _ & Hs). apply Hs; auto.
      rewrite nth_error_app1 in Hn by lia. eapply nth_error_In; eauto.
  - assert (El : firstn (lb (kl ++ kr) k) (kl ++ kr) = kl) by (rewrite firstn_app_exact; auto; lia).
    assert (Er : skipn (lb (kl ++ kr) k) (kl ++ kr) = kr) by (rewrite skipn_app_exact; auto; lia).
    rewrite El in H1. rewrite Er in H2. split.
    + intros; apply rlt_rle; auto.
    + intros x Hx. specialize (H2 x Hx). apply rle_iff in H2. destruct H2 as [H2|H2]; auto.
      subst. exfalso. apply Hin. apply in_or_app; auto.
Qed.
Lemma ub_le l k : (ub l k <= length l)%nat.
Proof.
  unfold ub. pose proof (lb_le l k). destruct (in_dec rv_eq_dec k l) as [Hi|]; [|lia].
  enough (lb l k < length l)%nat by lia.
  clear H. unfold lb. induction l as [|x l IH]; [destruct Hi|]. cbn [filter length].
  destruct Hi as [->|Hi].
  - rewrite rv_cmp_refl. cbn. pose proof (lb_le l k) as H. unfold lb in H. lia.
  - specialize (IH Hi). destruct (_ <? 0); cbn [length]; lia.
Qed.

Lemma znth_nat {A} (l : list A) n : znth l (Z.of_nat n) = nth_error l n.
Proof. unfold znth. destruct (Z.ltb_spec (Z.of_nat n) 0); [lia|]. rewrite Nat2Z.id. reflexivity. Qed.

(** [rd] reads the stored nodes *)
Definition rd_ok (rd : mptr -> res node) (F : Z -> node -> Prop) : Prop :=
  forall o l n, F o n -> rd (MP o l) = Ok n.

Theorem traverse_ok F rd key : rd_ok rd F -> forall h fuel lo hi n es pg off ptr rest esL esR pgs H root,
  (h < fuel)%nat ->
  F off n -> mp_off ptr = off ->
  body F h lo hi n es pg -> in_bnd lo hi key ->
  ctx F true h lo hi off rest esL esR pgs H root ->
  exists leaf mids lo' hi' off' les lpg esL' esR' pgs',
    traverse fuel rd key n ptr = Ok (leaf :: mids) /\
    F off' (tnode leaf) /\ mp_off (tptr leaf) = off' /\
    tidx leaf = Z.of_nat (lb (map fst les) key) /\
    body F 0 lo' hi' (tnode leaf) les lpg /\ in_bnd lo' hi' key /\
    ctx F true 0 lo' hi' off' (mids ++ rest) esL' esR' pgs' H root /\
    esL' ++ les ++ esR' = esL ++ es ++ esR /\
    Permutation (off' :: pgs') (off :: pg ++ pgs).
Proof.
  intros Hrd. induction h as [|h IH]; intros fuel lo hi n es pg off ptr rest esL esR pgs H root Hfuel HF Hptr Hb Hin Hctx;
    (destruct fuel as [|fuel]; [lia|]); cbn [traverse]; rewrite (bsearch_spec key (body_keys_sorted Hb));
    rewrite (body_leaf_dec Hb).
  - exists (TR n (Z.of_nat (lb (keys n) key)) ptr), [], lo, hi, off, es, pg, esL, esR, pgs.
    cbn [app tnode tptr tidx]. pose proof Hb as Hb'. cbn in Hb'. destruct Hb' as (B1 & B2 & B3 & B4 & B5 & B6 & B7 & B8).
    subst pg. rewrite B2. repeat split; auto; apply Hin.
  - set (ix := Z.of_nat (lb (keys n) key) + (if (if in_dec rv_eq_dec key (keys n) then true else false) then 1 else 0)).
    assert (Eix : ix = Z.of_nat (ub (keys n) key)).
    { unfold ix, ub. destruct (in_dec rv_eq_dec key (keys n)); lia. }
    destruct (@body_split F h lo hi n es pg (ub (keys n) key) Hb (ub_le _ _))
      as (kl & kr & ol & x & or & a & b' & esl & esx & esr & pgl & pgx & pgr & E1 & E2 & E3 & E4 & E5 & E6 & E7 & E8 & E9).
    assert (Hp : node_pointer n ix = Some (MP x 0)).
    { unfold node_pointer. rewrite (body_leaf_dec Hb). rewrite Eix, znth_nat, E2, nth_error_app2 by lia.
      rewrite E3, Nat.sub_diag. reflexivity. }
    rewrite Hp. destruct E6 as (cn & cpg & HFc & Hcb & ->).
    rewrite (Hrd x 0 cn HFc). cbn [rbind].
    pose proof (body_keys_sorted Hb) as Hks. rewrite E1 in Hks.
    destruct (@ub_split kl kr key Hks) as [U1 U2]; [rewrite <- E1; auto|].
    assert (Hin' : in_bnd a b' key).
    { destruct Hin as [Hlo Hhi]. split.
      - destruct (lchain_good (@repr_Rgood F h) E5) as [(F1 & F2 & F3)|(F1 & F2 & F3 & k & F4 & F5 & F6)].
        + subst; auto.
        + subst a. cbn. auto.
      - destruct (rchain_good (@repr_Rgood F h) E7) as [(F1 & F2 & F3)|(F1 & F2 & F3 & F4 & k & F5 & F6)].
        + subst; auto.
        + subst b'. cbn. auto. }
    pose proof Hb as Hb'. rewrite body_S in Hb'. destruct Hb' as (o1 & os1 & b1 & e1 & e2 & p1 & p2 & Hlp & Hkne & _).
    assert (Hctx' : ctx F true h a b' x (TR n ix ptr :: rest) (esL ++ esl) (esr ++ esR) (off :: (pgl ++ pgr) ++ pgs) H root).
    { replace ix with (zlen ol) by (unfold zlen; lia).
      eapply ctx_up; eauto. }
    destruct (IH fuel a b' cn esx cpg x (MP x 0) (TR n ix ptr :: rest) (esL ++ esl) (esr ++ esR) (off :: (pgl ++ pgr) ++ pgs) H root)
      as (leaf & mids & lo' & hi' & off' & les & lpg & esL' & esR' & pgs' & T1 & T2 & T3 & T3' & T4 & T5 & T6 & T7 & T8); auto; [lia|].
    rewrite T1. cbn [rbind app].
    exists leaf, (mids ++ [TR n ix ptr]), lo', hi', off', les, lpg, esL', esR', pgs'.
    split; [reflexivity|]. rewrite <- app_assoc. cbn [app]. do 5 (split; auto).
    split; auto. split.
    + rewrite T7, E8. rewrite <- !app_assoc. reflexivity.
    + subst pg. perm_lia.
Qed.

(** ** Moving through the leaves *)
Lemma chain_last R lo a ks os es pg : lchain R lo a ks os es pg -> ks <> [] ->
  exists ks0 k os0 o b es1 es2 pg1 pg2, ks = ks0 ++ [k] /\ os = os0 ++ [o] /\ a = Some k /\
    lchain R lo b ks0 os0 es1 pg1 /\ R b (Some k) o es2 pg2 /\ es = es1 ++ es2 /\ pg = pg1 ++ pg2.
Proof.
  induction 1 as [|a b k ks o os es1 es2 pg1 pg2 HR Hc IH]; intros Hne; [congruence|].
  destruct ks as [|k' ks].
  - inversion Hc; subst. exists [], k, [], o, a, [], es1, [], pg1. cbn. rewrite !app_nil_r.
    repeat split; auto. constructor.
  - destruct IH as (ks0 & k0 & os0 & o0 & b0 & e1 & e2 & p1 & p2 & A1 & A2 & A3 & A4 & A5 & A6 & A7); [congruence|].
    exists (k :: ks0), k0, (o :: os0), o0, b0, (es1 ++ e1), e2, (pg1 ++ p1), p2.
    rewrite A1, A2, A6, A7, <- !app_assoc. repeat split; auto. econstructor; eauto.
Qed.

(** moving the path above a subtree to the next subtree *)
Lemma incr_ctx_next F rd : rd_ok rd F -> forall rest h lo hi off esL esR pgs H root es pg,
  ctx F false h lo hi off rest esL esR pgs H root -> repr F h lo hi off es pg ->
  (esR = [] /\ exists recs, incr rd rest 1 = Ok (false, recs, None)) \/
  (exists rest' lo' hi' off' es' pg' esL' esR' pgs' q tl,
     incr rd rest 1 = Ok (true, rest', None) /\ rest' = q :: tl /\
     node_pointer (tnode q) (tidx q) = Some (MP off' 0) /\
     ctx F false h lo' hi' off' rest' esL' esR' pgs' H root /\ repr F h lo' hi' off' es' pg' /\
     esL' = esL ++ es /\ esR = es' ++ esR').
Proof.
  intros Hrd. induction rest as [|r rest IH]; intros h lo hi off esL esR pgs H root es pg Hctx Hr.
  - inversion Hctx; subst. left. split; auto. exists []. reflexivity.
  - inversion Hctx as [|? ? ? ? lo' hi' kl ol kr or esl esr pgl pgr p poff ptr ? esL0 esR0 pgs0 ? ? HF Hs Hlp Hk Hne Hi Hlc Hrc Hctx']; subst.
    cbn [incr tidx tnode tptr].
    assert (Hnum : num_pointers p = zlen ol + 1 + zlen or).
    { unfold num_pointers. rewrite Hi, Hlp, zlen_app, zlen_cons. change (zlen (@nil mptr)) with 0. lia. }
    pose proof (zlen_nonneg ol). pose proof (zlen_nonneg or).
    destruct (Z.ltb_spec (zlen ol + 1) 0); [lia|]. rewrite Hnum. cbn [orb].
    destruct (Z.leb_spec (zlen ol + 1 + zlen or) (zlen ol + 1)).
    + (* last child: move the parent *)
      assert (or = []) by (apply zlen_zero_nil; lia). subst or.
      inversion Hrc; subst. cbn [app].
      pose proof (body_join _ Hlp Hk Hne Hi Hlc Hr Hrc) as Hb.
      destruct (IH (S h) lo' hi' poff esL0 esR0 pgs0 H root (esl ++ es ++ []) (poff :: pgl ++ pg ++ []))
        as [(E & recs & E')|(rest' & lo2 & hi2 & off2 & es2 & pg2 & esL2 & esR2 & pgs2 & q & tl & A1 & A2 & A3 & A4 & A5 & A6 & A7)]; auto.
      { exists p, (pgl ++ pg ++ []). auto. }
      * left. split; auto. rewrite E'. cbn [rbind]. eauto.
      * right. rewrite A1. cbn [rbind]. subst rest'. rewrite A3.
        destruct A5 as (n2 & pg2' & HF2 & Hb2 & ->).
        rewrite (Hrd off2 0 n2 HF2).
        rewrite body_S in Hb2. destruct Hb2 as (o & os & b & e1 & e2 & p1 & p2 & B1 & B2 & B3 & B4 & B5 & B6 & B7). subst es2 pg2'.
        assert (C : ctx F false h lo2 b o (TR n2 0 ptr :: q :: tl) (esL2 ++ []) (e2 ++ esR2) (off2 :: ([] ++ p2) ++ pgs2) H root).
        { change 0 with (zlen (@nil Z)). apply (@ctx_up F false h lo2 b o lo2 hi2 [] [] (keys n2) os [] e2 [] p2 n2 off2 ptr); auto.
          - discriminate.
          - constructor. }
        eexists _, lo2, b, o, e1, p1, _, _, _, _, _. split; [reflexivity|]. split; [reflexivity|].
        split. { cbn [tnode tidx]. unfold node_pointer, is_leaf. rewrite B1, B3. reflexivity. }
        split; [exact C|]. split; [auto|].
        rewrite !app_nil_r. subst. rewrite app_nil_r. rewrite <- !app_assoc. auto.
    + (* next child of the same parent *)
      right. destruct Hrc as [d|k b d ks o os e1 e2 p1 p2 HR1 Hrc1].
      { change (zlen (@nil Z)) with 0 in *. lia. }
      assert (C : ctx F false h (Some k) b o (TR p (zlen ol + 1) ptr :: rest) (esL0 ++ (esl ++ es)) (e2 ++ esR0) (poff :: ((pgl ++ pg) ++ p2) ++ pgs0) H root).
      { replace (zlen ol + 1) with (zlen (ol ++ [off])) by (rewrite zlen_app; reflexivity).
        apply (@ctx_up F false h (Some k) b o lo' d (kl ++ [k]) (ol ++ [off]) ks os (esl ++ es) e2 (pgl ++ pg) p2 p poff ptr); auto.
        - rewrite Hk, <- app_assoc. reflexivity.
        - rewrite Hi, <- app_assoc. reflexivity.
        - rewrite <- (app_nil_r es), <- (app_nil_r pg). eapply lchain_app; eauto.
          econstructor; eauto. constructor. }
      eexists _, _, b, o, e1, p1, _, _, _, _, _. split; [reflexivity|]. split; [reflexivity|].
      split. { cbn [tnode tidx]. unfold node_pointer, is_leaf. rewrite Hlp, Hi.
               replace (zlen ol + 1) with (Z.of_nat (length ol + 1)) by (unfold zlen; lia).
               rewrite znth_nat, nth_error_app2 by lia. replace (length ol + 1 - length ol)%nat with 1%nat by lia. reflexivity. }
      split; [exact C|]. split; [exact HR1|]. rewrite <- !app_assoc. auto.
Qed.

Lemma incr_ctx_prev F rd : rd_ok rd F -> forall rest h lo hi off esL esR pgs H root es pg,
  ctx F false h lo hi off rest esL esR pgs H root -> repr F h lo hi off es pg ->
  (esL = [] /\ exists recs, incr rd rest (-1) = Ok (false, recs, None)) \/
  (exists rest' lo' hi' off' es' pg' esL' esR' pgs' q tl,
     incr rd rest (-1) = Ok (true, rest', None) /\ rest' = q :: tl /\
     node_pointer (tnode q) (tidx q) = Some (MP off' 0) /\
     ctx F false h lo' hi' off' rest' esL' esR' pgs' H root /\ repr F h lo' hi' off' es' pg' /\
     esR' = es ++ esR /\ esL = esL' ++ es').
Proof.
  intros Hrd. induction rest as [|r rest IH]; intros h lo hi off esL esR pgs H root es pg Hctx Hr.
  - inversion Hctx; subst. left. split; auto. exists []. reflexivity.
  - inversion Hctx as [|? ? ? ? lo' hi' kl ol kr or esl esr pgl pgr p poff ptr ? esL0 esR0 pgs0 ? ? HF Hs Hlp Hk Hne Hi Hlc Hrc Hctx']; subst.
    cbn [incr tidx tnode tptr].
    assert (Hnum : num_pointers p = zlen ol + 1 + zlen or).
    { unfold num_pointers. rewrite Hi, Hlp, zlen_app, zlen_cons. change (zlen (@nil mptr)) with 0. lia. }
    pose proof (zlen_nonneg ol). pose proof (zlen_nonneg or).
    rewrite Hnum. destruct (Z.leb_spec (zlen ol + 1 + zlen or) (zlen ol + -1)); [lia|]. rewrite orb_false_r.
    destruct (Z.ltb_spec (zlen ol + -1) 0).
    + assert (ol = []) by (apply zlen_zero_nil; lia). subst ol.
      inversion Hlc; subst.
      pose proof (body_join _ Hlp Hk Hne Hi Hlc Hr Hrc) as Hb.
      destruct (IH (S h) lo hi' poff esL0 esR0 pgs0 H root ([] ++ es ++ esr) (poff :: [] ++ pg ++ pgr))
        as [(E & recs & E')|(rest' & lo2 & hi2 & off2 & es2 & pg2 & esL2 & esR2 & pgs2 & q & tl & A1 & A2 & A3 & A4 & A5 & A6 & A7)]; auto.
      { exists p, ([] ++ pg ++ pgr). auto. }
      * left. split; [rewrite E; auto|]. rewrite E'. cbn [rbind]. eauto.
      * right. rewrite A1. cbn [rbind]. subst rest'. rewrite A3.
        destruct A5 as (n2 & pg2' & HF2 & Hb2 & ->).
        rewrite (Hrd off2 0 n2 HF2).
        destruct (@body_split F h lo2 hi2 n2 es2 pg2' (length (keys n2)) Hb2 ltac:(lia))
          as (kl2 & kr2 & ol2 & x & or2 & a & b' & e1 & ex & e2 & p1 & px & p2 & B1 & B2 & B3 & B4 & B5 & B6 & B7 & B8 & B9).
        assert (kr2 = []). { apply (f_equal (@length _)) in B1. rewrite app_length in B1. destruct kr2; [auto|cbn in B1; lia]. }
        subst kr2. inversion B7; subst. rewrite app_nil_r in B1.
        pose proof Hb2 as Hb2'. rewrite body_S in Hb2'. destruct Hb2' as (o9 & os9 & b9 & e19 & e29 & p19 & p29 & Hlp2 & Hkne2 & _).
        assert (Hnum2 : num_pointers n2 - 1 = zlen ol2).
        { unfold num_pointers. rewrite B2, Hlp2, zlen_app. unfold zlen; cbn [length]. lia. }
        rewrite Hnum2.
        assert (C : ctx F false h a hi2 x (TR n2 (zlen ol2) ptr :: q :: tl) (esL2 ++ e1) ([] ++ es ++ esr ++ esR0) (off2 :: (p1 ++ []) ++ pgs2) H root).
        { rewrite app_assoc in A4. apply (@ctx_up F false h a hi2 x lo2 hi2 kl2 ol2 [] [] e1 [] p1 [] n2 off2 ptr); auto.
          - discriminate.
          - rewrite app_nil_r; auto.
          - rewrite app_assoc; auto. }
        eexists _, a, hi2, x, ex, px, _, _, _, _, _. split; [reflexivity|]. split; [reflexivity|].
        split. { cbn [tnode tidx]. unfold node_pointer, is_leaf. rewrite Hlp2, B2.
                 unfold zlen. rewrite znth_nat, nth_error_app2 by lia. rewrite Nat.sub_diag. reflexivity. }
        split; [exact C|]. split; [auto|].
        rewrite !app_nil_r, <- !app_assoc. auto.
    + right. assert (Hkl : kl <> []).
      { intros ->. apply lchain_len in Hlc. unfold zlen in *. cbn in Hlc. lia. }
      destruct (chain_last Hlc Hkl) as (ks0 & k & os0 & o & b & e1 & e2 & p1 & p2 & A1 & A2 & A3 & A4 & A5 & A6 & A7). subst.
      assert (C : ctx F false h b (Some k) o (TR p (zlen os0) ptr :: rest) (esL0 ++ e1) ((es ++ esr) ++ esR0) (poff :: (p1 ++ (pg ++ pgr)) ++ pgs0) H root).
      { apply (@ctx_up F false h b (Some k) o lo' hi' ks0 os0 (k :: kr) (off :: or) e1 (es ++ esr) p1 (pg ++ pgr) p poff ptr); auto.
        - rewrite Hk, <- app_assoc. reflexivity.
        - rewrite Hi, <- app_assoc. reflexivity.
        - econstructor; eauto. }
      replace (zlen (os0 ++ [o]) + -1) with (zlen os0) by (rewrite zlen_app; change (zlen [o]) with 1; lia).
      eexists _, b, (Some k), o, e2, p2, _, _, _, _, _. split; [reflexivity|]. split; [reflexivity|].
      split. { cbn [tnode tidx]. unfold node_pointer, is_leaf. rewrite Hlp, Hi.
               unfold zlen. rewrite znth_nat, <- app_assoc, nth_error_app2 by lia. rewrite Nat.sub_diag. reflexivity. }
      split; [exact C|]. split; [exact A5|]. rewrite <- !app_assoc. auto.
Qed.
