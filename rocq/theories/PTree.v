(** C27-C34: the B+ tree as a sorted map. The theorems speak about the public
    operations [bp_insert] (Insert), [go_find] (Find), [go_next]/[go_prev]
    (Iter, Next, Prev) on a tree whose root pointer is in an index slot. *)
From Verif Require Import Base Varint Store PageFile RefValue Node LinkedPage BPTree BPRepr BPIter BPInsert BPLoop BPTop.
From Coq Require Import Permutation.

(** ** Specification *)
(** A map is a list of (key, pointer) pairs with distinct keys. *)
Definition smap := list (rv * mptr).
(** Insert into a map: refused for a key of another length (width 0 means
    variable length, otherwise keys have width-1 bytes), or a key that is present. *)
Definition accepts (width : Z) (s : smap) (k : rv) : Prop :=
  (width = 0 \/ zlen (rv_val k) = width - 1) /\ ~ In k (map fst s).
(** The answers and the final map of a sequence of inserts. *)
Inductive map_run (width : Z) : smap -> list (rv * mptr) -> list bool -> smap -> Prop :=
| mr_nil s : map_run width s [] [] s
| mr_yes s k v ops ans s' : accepts width s k -> map_run width ((k, v) :: s) ops ans s' ->
    map_run width s ((k, v) :: ops) (true :: ans) s'
| mr_no s k v ops ans s' : ~ accepts width s k -> map_run width s ops ans s' ->
    map_run width s ((k, v) :: ops) (false :: ans) s'.
(** Strictly ascending keys *)
Definition ascending (l : smap) : Prop := StronglySorted (fun a b => rv_cmp (fst a) (fst b) < 0) l.
(** the order of keys, C07 *)
Definition key_lt (a b : rv) : Prop := rv_cmp a b < 0.
Definition key_le (a b : rv) : Prop := rv_cmp a b <= 0.

(** ** Histories of the program *)
(** the calls Insert(k1,v1), ..., Insert(kn,vn) with their answers, as long as
    the file is smaller than 2^60 bytes *)
Inductive history (c : codec) (m : lp) : st -> list (rv * mptr) -> list (res unit) -> st -> Prop :=
| hi_nil s : history c m s [] [] s
| hi_cons s k v r s1 ops rs s' : zlen (file s) < 2^60 -> bp_insert c m k v s = (r, s1) ->
    history c m s1 ops rs s' -> history c m s ((k, v) :: ops) (r :: rs) s'.
(** an insert is well-formed: offsets and lengths are uint64/uint32; for a
    variable-length index the key is what the data file says at its range *)
Definition op_ok (c : codec) (o : rv * mptr) : Prop :=
  0 <= mp_off (snd o) < 2^64 /\ 0 <= mp_len (snd o) < 2^32 /\
  0 <= mp_off (rv_dp (fst o)) < 2^64 /\ 0 <= mp_len (rv_dp (fst o)) < 2^32 /\
  (cwidth c <> 0 -> zlen (rv_val (fst o)) < 2^16) /\
  (cwidth c = 0 ->
     mp_off (rv_dp (fst o)) + mp_len (rv_dp (fst o)) <= zlen (cdata c) /\
     cparse c (slice (cdata c) (mp_off (rv_dp (fst o))) (mp_len (rv_dp (fst o)))) = Some (rv_val (fst o))).
(** a walk: call Next until it says false *)
Definition walk (c : codec) (m : lp) (s : st) (k : rv) (n : nat) : res (list (rv * mptr)) :=
  drain (go_next c m s) n (bp_iter k).
Definition walk_back (c : codec) (m : lp) (s : st) (k : rv) (n : nat) : res (list (rv * mptr)) :=
  drain (go_prev c m s) n (bp_iter k).
(** the smallest key of all *)
Definition least : rv := RV (MP 0 0) [].

(** ** Proofs *)
Lemma least_le k : mptr_ok (rv_dp k) -> rle least k.
Proof.
  intros [H1 H2]. unfold rle, rv_cmp, least. cbn [rv_dp rv_val mp_off mp_len].
  destruct k as [[o l] v]. cbn [rv_dp rv_val mp_off mp_len] in *.
  destruct v as [|x v]; cbn; [|lia].
  destruct (Z.ltb_spec 0 o); [lia|]. destruct (Z.ltb_spec o 0); [lia|].
  destruct (Z.ltb_spec 0 l); [lia|]. destruct (Z.ltb_spec l 0); lia.
Qed.

Lemma ins_post_sys c m s fl es pgs s' es' : sys c s m fl es pgs -> ins_post c m s fl pgs es' s' ->
  exists fl' pgs', sys c s' m fl' es' pgs' /\ zlen (file s) <= zlen (file s').
Proof.
  intros (Hc & Hi & Hb & Hslot & Ht & Hnd & Hlp) (fl' & pgs' & news & X1 & X2 & X3 & X4 & X5 & X6 & X7 & X8 & X9 & X10 & X11).
  exists fl', pgs'. pose proof X7 as [Hle _]. split; [|auto].
  split; auto. split; auto. split; auto. split; [eapply slot_ok_mono; eauto|].
  split; [right; auto|]. split; auto.
  intros Hin. apply (Permutation_in _ X5) in Hin. rewrite app_assoc in Hin. apply in_app_iff in Hin. destruct Hin as [Hin|Hin]; [auto|].
  rewrite Forall_forall in X6. specialize (X6 _ Hin). destruct Hslot as ((_ & _ & G & _) & _). unfold pageSize in *; lia.
Qed.

Lemma op_key_ok c k v : op_ok c (k, v) -> cwidth c = 0 \/ zlen (rv_val k) = cwidth c - 1 -> key_ok c k /\ mptr_ok v.
Proof.
  intros (H1 & H2 & H3 & H4 & H5 & H6) Hw. cbn [fst snd] in *. split; [|split; auto]. split; [split; auto|].
  destruct (Z.eqb_spec (cwidth c) 0); [auto|]. destruct Hw; [contradiction|auto].
Qed.

(** one Insert call against the specification *)
Lemma insert_step c m s fl es pgs k v r s1 : kw c <= 2016 -> sys c s m fl es pgs -> zlen (file s) < 2^60 ->
  op_ok c (k, v) -> bp_insert c m k v s = (r, s1) ->
  (accepts (cwidth c) es k /\ r = Ok tt /\ exists fl' pgs', sys c s1 m fl' (insert_entry k v es) pgs') \/
  (~ accepts (cwidth c) es k /\ (exists e, r = Err e) /\ s1 = s).
Proof.
  intros Hkw Hsys Hf Hop E. pose proof Hsys as (Hc & _).
  assert (Hwd : cwidth c = 0 \/ zlen (rv_val k) = cwidth c - 1 \/ (cwidth c <> 0 /\ zlen (rv_val k) <> cwidth c - 1)) by lia.
  assert (Hcase : (cwidth c = 0 \/ zlen (rv_val k) = cwidth c - 1) \/ (cwidth c <> 0 /\ zlen (rv_val k) <> cwidth c - 1)) by tauto.
  clear Hwd. destruct Hcase as [Hw|[Hw1 Hw2]].
  - destruct (op_key_ok Hop Hw) as [Hk Hv].
    destruct (in_dec rv_eq_dec k (map fst es)) as [Hin|Hin].
    + right. rewrite (@insert_dup c s m fl es pgs k v Hsys Hin) in E by tauto. inversion E; subst.
      split; [intros [_ X]; auto|]. split; eauto.
    + left. destruct (@insert_new c s m fl es pgs k v Hkw Hsys Hf Hk Hv Hin) as (s' & E' & Hpost).
      rewrite E' in E. inversion E; subst. split; [split; auto|]. split; auto.
      destruct (ins_post_sys Hsys Hpost) as (fl' & pgs' & Hs' & _). eauto.
  - right. rewrite insert_wrong_width in E; auto.
    + inversion E; subst. split; [intros [[X|X] _]; auto|]. split; eauto.
    + destruct Hop as (_ & _ & _ & _ & H5 & _). cbn [fst] in H5. specialize (H5 Hw1). destruct Hc as [Hcw _].
      pose proof (zlen_nonneg (rv_val k)). rewrite !Z.mod_small by lia. auto.
Qed.

Lemma insert_entry_perm k v es : Permutation (insert_entry k v es) ((k, v) :: es).
Proof.
  unfold insert_entry. rewrite <- Permutation_middle. constructor.
  induction es as [|x es IH]; [constructor|].
  unfold below, from in *. cbn [filter]. destruct (rv_cmp (fst x) k <? 0); cbn [negb app].
  - constructor; auto.
  - rewrite <- Permutation_middle. constructor; auto.
Qed.
Lemma accepts_perm w a b k : Permutation a b -> accepts w a k -> accepts w b k.
Proof.
  intros P [H1 H2]. split; auto. intros X. apply H2. eapply Permutation_in; [|exact X]. apply Permutation_map, Permutation_sym; auto.
Qed.
Lemma map_run_perm w a ops ans a' : map_run w a ops ans a' -> forall b, Permutation a b ->
  exists b', map_run w b ops ans b' /\ Permutation a' b'.
Proof.
  induction 1 as [a|a k v ops ans a' Ha Hr IH|a k v ops ans a' Ha Hr IH]; intros b P.
  - exists b. split; [constructor|auto].
  - destruct (IH ((k, v) :: b)) as (b' & R & P'); [constructor; auto|]. exists b'. split; auto. constructor; auto. eapply accepts_perm; eauto.
  - destruct (IH b P) as (b' & R & P'). exists b'. split; auto. constructor; auto.
    intros X. apply Ha. eapply accepts_perm; [|exact X]. apply Permutation_sym; auto.
Qed.

Definition succeeded (r : res unit) : bool := match r with Ok _ => true | _ => false end.
Definition refused (r : res unit) : Prop := r = Ok tt \/ exists e, r = Err e.

Lemma history_run c m : kw c <= 2016 -> forall s ops rs s', history c m s ops rs s' ->
  Forall (op_ok c) ops -> forall fl es pgs, sys c s m fl es pgs ->
  exists fl' es' pgs', sys c s' m fl' es' pgs' /\ Forall refused rs /\
    exists es0, map_run (cwidth c) es ops (map succeeded rs) es0 /\ Permutation es0 es'.
Proof.
  intros Hkw. induction 1 as [s|s k v r s1 ops rs s' Hf E Hh IH]; intros Hop fl es pgs Hsys.
  - exists fl, es, pgs. split; auto. split; [constructor|]. exists es. split; [constructor|auto].
  - inversion Hop as [|? ? Hop1 Hop2]; subst.
    destruct (insert_step Hkw Hsys Hf Hop1 E) as [(Ha & -> & fl1 & pgs1 & Hs1)|(Ha & (e & ->) & ->)].
    + destruct (IH Hop2 _ _ _ Hs1) as (fl' & es' & pgs' & Hs' & Hr & es0 & R & P).
      destruct (map_run_perm R (insert_entry_perm k v es)) as (b' & Rb & Pb).
      exists fl', es', pgs'. split; auto. split; [constructor; auto; left; auto|].
      exists b'. split; [constructor; auto|]. rewrite <- Pb. auto.
    + destruct (IH Hop2 _ _ _ Hsys) as (fl' & es' & pgs' & Hs' & Hr & es0 & R & P).
      exists fl', es', pgs'. split; auto. split; [constructor; auto; right; eauto|].
      exists es0. split; auto. cbn [map succeeded]. constructor; auto.
Qed.

(** the readers, from the slot *)
Lemma sys_tree c s m fl es pgs : sys c s m fl es pgs -> es <> [] ->
  exists h mp, fst (lp_root m s) = Ok mp /\ mp_len mp <> 0 /\ repr (node_at c (file s)) h None None (mp_off mp) es pgs /\
    (h < fuel_of s)%nat /\ rd_ok (go_rd c s) (node_at c (file s)).
Proof.
  intros (Hc & Hi & Hb & Hslot & Ht & Hnd & Hlp) Hne. pose proof (tree_at_pages Ht) as Hok.
  destruct Ht as [(-> & _)|(h & root & rlen & Er & Hl & R)]; [congruence|].
  exists h, (MP root rlen). destruct (@lp_root_ok s m Hslot) as (p & E). rewrite E. cbn [fst mp_len mp_off].
  split; [congruence|]. split; [lia|]. split; auto. split; [|apply go_rd_ok; auto].
  eapply fuel_enough; [eapply NoDup_app_l; exact Hnd|exact Hok|]. eapply repr_height; eauto.
Qed.
Lemma sys_empty c s m fl pgs : sys c s m fl [] pgs -> bp_root (go_rd c s) (fst (lp_root m s)) = Ok None.
Proof.
  intros (Hc & Hi & Hb & Hslot & Ht & Hnd & Hlp). destruct Ht as [(_ & _ & E0)|(h & root & rlen & Er & Hl & R)].
  - destruct (@lp_root_ok s m Hslot) as (p & E). rewrite E. cbn [fst]. unfold bp_root. cbn [rbind]. rewrite E0. reflexivity.
  - destruct (repr_good R) as (X & _). congruence.
Qed.

Lemma sys_walk c s m fl es pgs k n : sys c s m fl es pgs ->
  In k (map fst es) \/ (forall x, In x (map fst es) -> rle k x) ->
  walk c m s k n = Ok (firstn n (from k es)).
Proof.
  intros Hsys Hk. destruct es as [|e es'].
  - pose proof (sys_empty Hsys) as E. unfold walk. destruct n as [|n]; [reflexivity|].
    cbn [drain]. unfold go_next, it_next. cbn [it_recs bp_iter]. unfold it_init. rewrite E. reflexivity.
  - assert (Hne : e :: es' <> []) by discriminate. set (es := e :: es') in *.
    destruct (sys_tree Hsys Hne) as (h & mp & E1 & E2 & R & Hf & Hrd).
    unfold walk, go_next. rewrite E1. eapply next_drain_present; eauto.
Qed.
Lemma sys_walk_back c s m fl es pgs k n : sys c s m fl es pgs ->
  walk_back c m s k n = Ok (firstn n (rev (below k es))).
Proof.
  intros Hsys. destruct es as [|e es'].
  - pose proof (sys_empty Hsys) as E. unfold walk_back. destruct n as [|n]; [reflexivity|].
    cbn [drain]. unfold go_prev, it_prev. cbn [it_recs bp_iter]. unfold it_init. rewrite E. reflexivity.
  - assert (Hne : e :: es' <> []) by discriminate. set (es := e :: es') in *.
    destruct (sys_tree Hsys Hne) as (h & mp & E1 & E2 & R & Hf & Hrd).
    unfold walk_back, go_prev. rewrite E1. eapply prev_drain; eauto.
Qed.
Lemma sys_find c s m fl es pgs k v : sys c s m fl es pgs -> In (k, v) es -> go_find c m k s = Ok (k, v).
Proof.
  intros Hsys Hin. assert (Hne : es <> []) by (intros ->; destruct Hin).
  destruct (sys_tree Hsys Hne) as (h & mp & E1 & E2 & R & Hf & Hrd).
  unfold go_find. rewrite E1. eapply find_present; eauto.
Qed.

Lemma sys_ascending c s m fl es pgs : sys c s m fl es pgs -> ascending es.
Proof.
  intros (_ & _ & _ & _ & Ht & _). pose proof (tree_at_sorted Ht) as Hs. unfold ascending.
  clear Ht. induction es as [|e es IH]; [constructor|]. cbn [map] in Hs. apply sorted_cons in Hs. destruct Hs as [H1 H2].
  constructor; auto. rewrite Forall_forall. intros x Hx. apply H2. apply in_map; auto.
Qed.
Lemma sys_keys_ok c s m fl es pgs : sys c s m fl es pgs -> forall e, In e es -> key_ok c (fst e).
Proof.
  intros (_ & _ & _ & _ & Ht & _) e He. destruct Ht as [(-> & _)|(h & root & rlen & _ & _ & R)]; [destruct He|].
  revert R. generalize (@None rv) at 1 as lo. generalize (@None rv) as hi. generalize root.
  revert es pgs He. induction h as [|h IH]; intros es pgs He off hi lo (n & pg & Hn & Hb & _).
  - cbn in Hb. destruct Hb as (B1 & B2 & _). pose proof (node_at_ok Hn) as (_ & _ & HK & _).
    rewrite B2 in HK. rewrite Forall_forall in HK. apply HK, in_map, He.
  - rewrite body_S in Hb. destruct Hb as (o & os & b & e1 & e2 & p1 & p2 & B1 & B2 & B3 & B4 & B5 & -> & _).
    apply in_app_iff in He. destruct He as [He|He]; [eapply IH; eauto|].
    clear -B5 He IH. induction B5 as [|k b d ks o os e1 e2 p1 p2 R Rc IHc]; [destruct He|].
    apply in_app_iff in He. destruct He as [He|He]; [eapply IH; eauto|auto].
Qed.

(** ** Statements *)
(** slot [m] of the open file [s] is an index with entries [es], stored apart
    from the free pages and from the slot's own page *)
Definition index_ready (c : codec) (s : st) (m : lp) (es : smap) : Prop := exists fl pgs, sys c s m fl es pgs.

(** C28: for every history of inserts the answers and the contents are those of
    the map, and a walk from the least key lists the contents once, ascending. *)
Theorem C28_tree_is_a_sorted_map : forall c m s es0 ops rs s',
  kw c <= 2016 -> index_ready c s m es0 -> Forall (op_ok c) ops -> history c m s ops rs s' ->
  exists final es,
    map_run (cwidth c) es0 ops (map succeeded rs) final /\ Forall refused rs /\
    Permutation es final /\ ascending es /\ index_ready c s' m es /\
    forall n, walk c m s' least n = Ok (firstn n es).
Proof.
  intros c m s es0 ops rs s' Hkw (fl & pgs & Hsys) Hop Hh.
  destruct (history_run Hkw Hh Hop Hsys) as (fl' & es & pgs' & Hs' & Hr & final & R & P).
  exists final, es. split; auto. split; auto. split; [apply Permutation_sym; auto|].
  split; [eapply sys_ascending; eauto|]. split; [exists fl', pgs'; auto|].
  intros n.
  assert (Hleast : forall x, In x (map fst es) -> rle least x).
  { intros x Hx. apply in_map_iff in Hx. destruct Hx as (e & <- & He). apply least_le.
    destruct (sys_keys_ok Hs' _ He) as [X _]. exact X. }
  rewrite (@sys_walk c s' m fl' es pgs' least n Hs' (or_intror Hleast)).
  destruct (@below_none least es Hleast) as [_ ->]. reflexivity.
Qed.

(** C27: a key that was accepted is found again, with the pointer it was inserted with. *)
Theorem C27_inserted_keys_are_found : forall c m s es0 ops rs s' k v,
  kw c <= 2016 -> index_ready c s m es0 -> Forall (op_ok c) ops -> history c m s ops rs s' ->
  (forall final, map_run (cwidth c) es0 ops (map succeeded rs) final -> In (k, v) final) ->
  go_find c m k s' = Ok (k, v).
Proof.
  intros c m s es0 ops rs s' k v Hkw (fl & pgs & Hsys) Hop Hh Hin.
  destruct (history_run Hkw Hh Hop Hsys) as (fl' & es & pgs' & Hs' & _ & final & R & P).
  eapply sys_find; eauto. eapply Permutation_in; [exact P|]. apply Hin; auto.
Qed.
(** the same, call by call: an insert that succeeded can be looked up after any further inserts *)
Theorem C27_find_after_insert : forall c m s es0 k v s1 ops rs s',
  kw c <= 2016 -> index_ready c s m es0 -> zlen (file s) < 2^60 -> op_ok c (k, v) ->
  bp_insert c m k v s = (Ok tt, s1) ->
  Forall (op_ok c) ops -> history c m s1 ops rs s' ->
  go_find c m k s' = Ok (k, v).
Proof.
  intros c m s es0 k v s1 ops rs s' Hkw (fl & pgs & Hsys) Hf Hop E Hops Hh.
  destruct (insert_step Hkw Hsys Hf Hop E) as [(_ & _ & fl1 & pgs1 & Hs1)|(_ & (e & X) & _)]; [|discriminate].
  destruct (history_run Hkw Hh Hops Hs1) as (fl' & es & pgs' & Hs' & _ & final & R & P).
  eapply sys_find; eauto. eapply Permutation_in; [exact P|].
  assert (Hmono : forall a ops ans a', map_run (cwidth c) a ops ans a' -> forall x, In x a -> In x a').
  { clear. induction 1; intros x Hx; auto. apply IHmap_run. right; auto. }
  eapply Hmono; [exact R|]. apply insert_entry_in. auto.
Qed.

(** C29: Prev from any key lists exactly the smaller keys, descending. *)
Theorem C29_backward_iteration_is_exact : forall c m s es k n,
  index_ready c s m es ->
  walk_back c m s k n = Ok (firstn n (rev (filter (fun e => rv_cmp (fst e) k <? 0) es))).
Proof. intros c m s es k n (fl & pgs & Hsys). eapply sys_walk_back; eauto. Qed.

(** C30, the part that holds: iteration from a key that is present, or from one
    not above any key, is exact. *)
Theorem C30_forward_iteration_partial : forall c m s es k n,
  index_ready c s m es ->
  In k (map fst es) \/ (forall x, In x (map fst es) -> key_le k x) ->
  walk c m s k n = Ok (firstn n (filter (fun e => negb (rv_cmp (fst e) k <? 0)) es)).
Proof. intros c m s es k n (fl & pgs & Hsys) Hk. eapply sys_walk; eauto. Qed.

(** C30, from any key: either the first Next() says true and the walk is exact,
    or it says false although keys may follow, and the further calls of Next()
    then list exactly the keys that should have been listed. *)
Theorem C30_forward_iteration_any_key_partial : forall c m s es k, es <> [] ->
  index_ready c s m es ->
  exists b it, go_next c m s (bp_iter k) = Ok (b, it) /\
    if b then forall n, walk c m s k n = Ok (firstn n (filter (fun e => negb (rv_cmp (fst e) k <? 0)) es))
    else forall n, drain (go_next c m s) n it = Ok (firstn n (filter (fun e => negb (rv_cmp (fst e) k <? 0)) es)).
Proof.
  intros c m s es k Hne (fl & pgs & Hsys).
  destruct (sys_tree Hsys Hne) as (h & mp & E1 & E2 & R & Hf & Hrd).
  destruct (@next_first _ _ Hrd es h mp pgs (fuel_of s) R E2 Hf k) as (b & it & E & _ & _ & _ & H3).
  exists b, it. unfold walk, go_next in *. rewrite E1 in *. split; auto.
  destruct b; auto. intros n. destruct H3 as (e & rest & F1 & F2 & F3).
  destruct n as [|n]; [reflexivity|]. cbn [drain]. rewrite E. cbn [rbind]. rewrite F2. cbn [rbind]. rewrite F3. cbn [rbind].
  change (filter (fun e0 => negb (rv_cmp (fst e0) k <? 0)) es) with (from k es). rewrite F1. reflexivity.
Qed.

(** C31, the part that holds: a present key is contained; and Contains never
    claims a value that is not there, except the empty value. *)
Theorem C31_contains_partial : forall c m s es k,
  index_ready c s m es ->
  (In k (map fst es) -> go_contains c m k s = Ok true) /\
  (go_contains c m k s = Ok true -> (exists e, In e es /\ rv_val (fst e) = rv_val k) \/ rv_val k = []) /\
  exists b, go_contains c m k s = Ok b.
Proof.
  intros c m s es k (fl & pgs & Hsys).
  assert (Hfind : exists r, go_find c m k s = Ok r /\ (In r es \/ rv_val (fst r) = [])).
  { destruct es as [|e0 es0].
    - pose proof (sys_empty Hsys) as E. unfold go_find, bp_find, it_next. cbn [it_recs bp_iter]. unfold it_init. rewrite E.
      cbn. eexists; split; eauto.
    - assert (Hne : e0 :: es0 <> []) by discriminate. set (es := e0 :: es0) in *.
      destruct (sys_tree Hsys Hne) as (h & mp & E1 & E2 & R & Hf & Hrd).
      destruct (@next_first _ _ Hrd es h mp pgs (fuel_of s) R E2 Hf k) as (b & it & E & He & _ & _ & H3).
      unfold go_find. rewrite E1. unfold bp_find. rewrite E. cbn [rbind]. destruct b.
      + destruct H3 as (e & rest & F1 & F2 & _). rewrite F2. exists e. split; auto. left.
        assert (In e (from k es)) by (rewrite F1; left; auto). apply in_from in H. tauto.
      + rewrite He. eexists; split; eauto. }
  destruct Hfind as ((k' & v') & Ef & Hr).
  assert (Ec : go_contains c m k s = Ok (if list_eq_dec Z.eq_dec (rv_val k') (rv_val k) then true else false)).
  { unfold go_contains, bp_contains. unfold go_find in Ef. rewrite Ef. reflexivity. }
  split; [|split; [|eauto]].
  - intros Hin. apply in_map_iff in Hin. destruct Hin as ((k0 & v0) & Ek & Hin). cbn in Ek; subst k0.
    rewrite (@sys_find c s m fl es pgs k v0 Hsys Hin) in Ef. inversion Ef; subst. rewrite Ec. destruct (list_eq_dec Z.eq_dec (rv_val k') (rv_val k')); congruence.
  - rewrite Ec. destruct (list_eq_dec Z.eq_dec (rv_val k') (rv_val k)) as [El|]; [|discriminate]. intros _.
    cbn [fst] in Hr. destruct Hr as [Hr|Hr]; [left; exists (k', v'); auto|right; congruence].
Qed.

(** C32: inserting a present key is an error and changes nothing at all. *)
Theorem C32_duplicates_are_refused : forall c m s es k v,
  index_ready c s m es -> In k (map fst es) -> cwidth c = 0 \/ zlen (rv_val k) = cwidth c - 1 ->
  bp_insert c m k v s = (Err (EMsg "key already exists"), s).
Proof. intros c m s es k v (fl & pgs & Hsys) Hin Hw. eapply insert_dup; eauto. tauto. Qed.

(** C33, for keys of at most 2016 bytes (and variable-length keys of any
    length): inserting a new key of the right width always succeeds. *)
Theorem C33_insert_never_fails_partial : forall c m s es k v,
  kw c <= 2016 -> index_ready c s m es -> zlen (file s) < 2^60 -> op_ok c (k, v) ->
  cwidth c = 0 \/ zlen (rv_val k) = cwidth c - 1 -> ~ In k (map fst es) ->
  exists s', bp_insert c m k v s = (Ok tt, s') /\ exists es', index_ready c s' m es' /\ Permutation es' ((k, v) :: es).
Proof.
  intros c m s es k v Hkw (fl & pgs & Hsys) Hf Hop Hw Hn.
  destruct (bp_insert c m k v s) as [r s1] eqn:E.
  destruct (insert_step Hkw Hsys Hf Hop E) as [(_ & -> & fl1 & pgs1 & Hs1)|(X & _)].
  - exists s1. split; auto. exists (insert_entry k v es). split; [exists fl1, pgs1; auto|apply insert_entry_perm].
  - exfalso. apply X. split; auto.
Qed.

(** C34, for keys shorter than 2^16 bytes: a key of another width is refused
    and nothing changes, whatever the state. *)
Theorem C34_wrong_width_refused_partial : forall c m s k v,
  0 < cwidth c < 2^16 -> zlen (rv_val k) < 2^16 -> zlen (rv_val k) <> cwidth c - 1 ->
  bp_insert c m k v s = (Err (EMsg "key does not match with BPTree width"), s).
Proof.
  intros c m s k v Hw Hl Hne. apply insert_wrong_width; [lia|].
  pose proof (zlen_nonneg (rv_val k)). rewrite !Z.mod_small by lia. auto.
Qed.
