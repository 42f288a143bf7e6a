(** What the browser's where query returns on a stored tree. *)
From Verif Require Import Base Varint Store PageFile RefValue Node LinkedPage BPTree BPRepr BPIter BPInsert BPLoop BPTop PTree Meta TsCodec Query.

(** ** first() and last() on a tree whose root is not a leaf *)
Section Edge.
  Variables (F : Z -> node -> Prop) (rd : mptr -> res node) (Hrd : rd_ok rd F).

  Lemma left_child h lo hi n es pg : body F (S h) lo hi n es pg ->
    exists o b es1 es2 pg1, node_pointer n 0 = Some (MP o 0) /\ repr F h lo b o es1 pg1 /\ es = es1 ++ es2.
  Proof.
    intros Hb. pose proof (body_leaf_dec Hb) as Hl. rewrite body_S in Hb.
    destruct Hb as (o & os & b & es1 & es2 & pg1 & pg2 & B1 & B2 & B3 & B4 & B5 & B6 & B7).
    exists o, b, es1, es2, pg1. split; auto. unfold node_pointer. rewrite Hl, B3. reflexivity.
  Qed.
  Lemma right_child h lo hi n es pg : body F (S h) lo hi n es pg ->
    exists o b es1 es2 pg2, node_pointer n (num_pointers n - 1) = Some (MP o 0) /\ repr F h b hi o es2 pg2 /\ es = es1 ++ es2.
  Proof.
    intros Hb. pose proof (body_leaf_dec Hb) as Hl.
    destruct (@body_split F h lo hi n es pg (length (keys n)) Hb (le_n _))
      as (kl & kr & ol & x & or & a & b' & esl & esx & esr & pgl & pgx & pgr & E1 & E2 & E3 & E4 & E5 & E6 & E7 & E8 & E9).
    assert (kr = []).
    { apply (f_equal (@length _)) in E1. rewrite app_length in E1. destruct kr; [auto|cbn in E1; lia]. }
    subst kr. inversion E7; subst. exists x, a, esl, esx, pgx. rewrite app_nil_r. split; [|split; auto].
    unfold node_pointer, num_pointers. rewrite Hl, E2.
    assert (lptrs n = []) as -> by (unfold is_leaf in Hl; destruct (lptrs n); [auto|discriminate]).
    change (zlen (@nil mptr)) with 0. replace (zlen (ol ++ [x]) + 0 - 1) with (Z.of_nat (length ol)) by (rewrite zlen_app; unfold zlen; cbn; lia).
    rewrite znth_nat, nth_error_app2, Nat.sub_diag by lia. reflexivity.
  Qed.
  Lemma descend_ok (left : bool) h : forall fuel lo hi n es pg, (h < fuel)%nat -> body F h lo hi n es pg ->
    exists m les r lo' hi', ts_descend fuel rd left n = Ok m /\ body F 0 lo' hi' m les [] /\ es = if left then les ++ r else r ++ les.
  Proof.
    induction h as [|h IH]; intros fuel lo hi n es pg Hf Hb; (destruct fuel as [|fuel]; [lia|]); cbn [ts_descend]; rewrite (body_leaf_dec Hb).
    - exists n, es, [], lo, hi. split; auto. assert (pg = []) as -> by (cbn in Hb; tauto). split; auto. destruct left; [rewrite app_nil_r|]; reflexivity.
    - destruct left.
      + destruct (left_child Hb) as (o & b & e1 & e2 & p1 & E1 & (m & p & Hm & Hb' & _) & ->). rewrite E1, (Hrd 0 Hm). cbn [rbind].
        destruct (IH fuel _ _ _ _ _ ltac:(lia) Hb') as (m' & les & r & lo' & hi' & D1 & D2 & ->).
        exists m', les, (r ++ e2), lo', hi'. rewrite <- app_assoc. auto.
      + destruct (right_child Hb) as (o & b & e1 & e2 & p1 & E1 & (m & p & Hm & Hb' & _) & ->). rewrite E1, (Hrd 0 Hm). cbn [rbind].
        destruct (IH fuel _ _ _ _ _ ltac:(lia) Hb') as (m' & les & r & lo' & hi' & D1 & D2 & ->).
        exists m', les, (e1 ++ r), lo', hi'. rewrite <- app_assoc. auto.
  Qed.
  Lemma edge_ok (left : bool) h fuel mp es pg : (h < fuel)%nat -> repr F (S h) None None (mp_off mp) es pg ->
    exists e r, es = (if left then e :: r else r ++ [e]) /\ ts_edge fuel rd (Ok mp) left = Ok (fst e).
  Proof.
    intros Hf (n & pg' & Hn & Hb & _). unfold ts_edge, ts_root. cbn [rbind]. destruct mp as [off l]. cbn [mp_off] in Hn. rewrite (Hrd l Hn). cbn [rbind].
    assert (G : forall m les lo hi, body F 0 lo hi m les [] ->
      exists e r, les = (if left then e :: r else r ++ [e]) /\ znth (keys m) (if left then 0 else zlen (keys m) - 1) = Some (fst e)).
    { intros m les lo hi (Hne & Ek & _). rewrite Ek. destruct left.
      - destruct les as [|e r]; [congruence|]. exists e, r. split; reflexivity.
      - destruct (exists_last Hne) as (r & e & ->). exists e, r. split; auto.
        rewrite map_app, zlen_app. change (zlen (map fst [e])) with 1. replace (zlen (map fst r) + 1 - 1) with (Z.of_nat (length (map fst r))) by (unfold zlen; lia).
        rewrite znth_nat, nth_error_app2, Nat.sub_diag by lia. reflexivity. }
    destruct left.
    - destruct (left_child Hb) as (o & b & e1 & e2 & p1 & E1 & (m & p & Hm & Hb' & _) & ->). rewrite E1, (Hrd 0 Hm). cbn [rbind].
      destruct (@descend_ok true h fuel _ _ _ _ _ Hf Hb') as (m' & les & r & lo' & hi' & D1 & D2 & ->). rewrite D1. cbn [rbind].
      destruct (G _ _ _ _ D2) as (e & r' & -> & Ez). exists e, (r' ++ r ++ e2). split; [rewrite <- app_assoc; reflexivity|]. rewrite Ez. reflexivity.
    - destruct (right_child Hb) as (o & b & e1 & e2 & p1 & E1 & (m & p & Hm & Hb' & _) & ->). rewrite E1, (Hrd 0 Hm). cbn [rbind].
      destruct (@descend_ok false h fuel _ _ _ _ _ Hf Hb') as (m' & les & r & lo' & hi' & D1 & D2 & ->). rewrite D1. cbn [rbind].
      destruct (G _ _ _ _ D2) as (e & r' & -> & Ez). exists e, (e1 ++ r ++ r'). split; [rewrite !app_assoc; reflexivity|]. rewrite Ez. reflexivity.
  Qed.
End Edge.

(** ** Values and keys *)
Definition vcmp (v : bytes) (e : entry) : Z := bytes_cmp (rv_val (fst e)) v.
Definition key_small (e : entry) : Prop := mptr_small (rv_dp (fst e)).

Lemma cmp_low v k : mptr_small (rv_dp k) -> rv_cmp k (RV (MP 0 0) v) <? 0 = (bytes_cmp (rv_val k) v <? 0).
Proof.
  intros [H1 H2]. unfold rv_cmp. cbn [rv_val rv_dp mp_off mp_len]. destruct (Z.eqb_spec (bytes_cmp (rv_val k) v) 0) as [E|E]; cbn [negb]; [|reflexivity].
  rewrite E. destruct (Z.ltb_spec (mp_off (rv_dp k)) 0); [lia|]. destruct (Z.ltb_spec 0 (mp_off (rv_dp k))); [reflexivity|].
  destruct (Z.ltb_spec (mp_len (rv_dp k)) 0); [lia|]. destruct (0 <? mp_len (rv_dp k)); reflexivity.
Qed.
Lemma cmp_high v k : mptr_small (rv_dp k) -> rv_cmp k (RV (MP maxUint64 0) v) <? 0 = (bytes_cmp (rv_val k) v <=? 0).
Proof.
  intros [H1 H2]. unfold rv_cmp, maxUint64. cbn [rv_val rv_dp mp_off mp_len].
  pose proof (bytes_cmp_vals (rv_val k) v) as Hv.
  destruct (Z.eqb_spec (bytes_cmp (rv_val k) v) 0) as [E|E]; cbn [negb].
  - rewrite E. destruct (Z.ltb_spec (mp_off (rv_dp k)) (2^64 - 1)); [reflexivity|lia].
  - destruct (Z.ltb_spec (bytes_cmp (rv_val k) v) 0), (Z.leb_spec (bytes_cmp (rv_val k) v) 0); auto; lia.
Qed.
Lemma filter_ext_in' {A} (f g : A -> bool) l : (forall x, In x l -> f x = g x) -> filter f l = filter g l.
Proof. induction l as [|x l IH]; intros H; [reflexivity|]. cbn [filter]. rewrite (H x) by (left; auto). rewrite IH by (intros; apply H; right; auto). reflexivity. Qed.
Lemma below_low v es : Forall key_small es -> below (RV (MP 0 0) v) es = filter (fun e => vcmp v e <? 0) es.
Proof. intros H. rewrite Forall_forall in H. apply filter_ext_in'. intros x Hx. apply cmp_low. apply H; auto. Qed.
Lemma below_high v es : Forall key_small es -> below (RV (MP maxUint64 0) v) es = filter (fun e => vcmp v e <=? 0) es.
Proof. intros H. rewrite Forall_forall in H. apply filter_ext_in'. intros x Hx. apply cmp_high. apply H; auto. Qed.
Lemma from_low v es : Forall key_small es -> from (RV (MP 0 0) v) es = filter (fun e => 0 <=? vcmp v e) es.
Proof.
  intros H. rewrite Forall_forall in H. apply filter_ext_in'. intros x Hx. rewrite cmp_low by (apply H; auto). unfold vcmp.
  destruct (Z.ltb_spec (bytes_cmp (rv_val (fst x)) v) 0), (Z.leb_spec 0 (bytes_cmp (rv_val (fst x)) v)); auto; lia.
Qed.
Lemma from_high v es : Forall key_small es -> from (RV (MP maxUint64 0) v) es = filter (fun e => 0 <? vcmp v e) es.
Proof.
  intros H. rewrite Forall_forall in H. apply filter_ext_in'. intros x Hx. rewrite cmp_high by (apply H; auto). unfold vcmp.
  destruct (Z.leb_spec (bytes_cmp (rv_val (fst x)) v) 0), (Z.ltb_spec 0 (bytes_cmp (rv_val (fst x)) v)); auto; lia.
Qed.

(** a loop that stops at the first entry refused by a test that stays refused *)
Lemma until_filter stop l : StronglySorted (fun a b : entry => stop (fst a) = true -> stop (fst b) = true) l ->
  until stop l = filter (fun e => negb (stop (fst e))) l.
Proof.
  induction 1 as [|a l H IH Ha]; [reflexivity|]. cbn [until filter]. destruct (stop (fst a)) eqn:E; cbn [negb]; [|rewrite IH; reflexivity].
  symmetry. rewrite Forall_forall in Ha. clear IH H. induction l as [|b l IHl]; [reflexivity|]. cbn [filter].
  rewrite (Ha b) by (try left; auto). cbn [negb]. apply IHl. intros; apply Ha; auto. right; auto.
Qed.
Lemma sorted_filter' {A} (R : A -> A -> Prop) f l : StronglySorted R l -> StronglySorted R (filter f l).
Proof.
  induction 1 as [|a l H IH Ha]; [constructor|]. cbn [filter]. destruct (f a); [|exact IH]. constructor; auto.
  rewrite Forall_forall in *. intros x Hx. apply filter_In in Hx. apply Ha; tauto.
Qed.
Lemma ss_impl {A} (R S : A -> A -> Prop) l : (forall a b, R a b -> S a b) -> StronglySorted R l -> StronglySorted S l.
Proof. intros H. induction 1 as [|a l Hs IH Ha]; constructor; auto. rewrite Forall_forall in *. auto. Qed.
Lemma ss_rev {A} (R : A -> A -> Prop) l : StronglySorted R l -> StronglySorted (fun a b => R b a) (rev l).
Proof.
  induction 1 as [|a l Hs IH Ha]; [constructor|]. cbn [rev]. rewrite Forall_forall in Ha.
  assert (G : forall m, StronglySorted (fun x y => R y x) m -> (forall x, In x m -> R a x) -> StronglySorted (fun x y => R y x) (m ++ [a])).
  { clear. induction m as [|y m IHm]; intros H Hx; cbn [app]; [repeat constructor|].
    inversion H; subst. constructor; [apply IHm; auto; intros; apply Hx; right; auto|].
    apply Forall_app. split; auto. constructor; [apply Hx; left; auto|constructor]. }
  apply G; auto. intros x Hx. apply Ha. apply in_rev; auto.
Qed.
Lemma key_le_val a b v : rv_cmp a b < 0 -> 0 <= bytes_cmp (rv_val a) v -> 0 <= bytes_cmp (rv_val b) v.
Proof.
  intros H Ha. pose proof (bytes_cmp_vals (rv_val b) v) as Hb.
  assert (Hab : bytes_cmp (rv_val a) (rv_val b) <= 0).
  { unfold rv_cmp in H. pose proof (bytes_cmp_vals (rv_val a) (rv_val b)). destruct (Z.eqb_spec (bytes_cmp (rv_val a) (rv_val b)) 0) as [E|E]; cbn [negb] in H; lia. }
  destruct (Z.le_gt_cases 0 (bytes_cmp (rv_val b) v)); auto. exfalso.
  destruct (Z.eq_dec (bytes_cmp (rv_val a) (rv_val b)) 0) as [E|E].
  - apply bytes_cmp_eq in E. rewrite E in Ha. lia.
  - assert (bytes_cmp (rv_val a) v < 0) by (eapply bytes_cmp_trans; [|eassumption]; lia). lia.
Qed.
Lemma key_lt_val a b v : rv_cmp a b < 0 -> 0 < bytes_cmp (rv_val a) v -> 0 < bytes_cmp (rv_val b) v.
Proof.
  intros H Ha. pose proof (bytes_cmp_vals (rv_val b) v) as Hb.
  assert (Hab : bytes_cmp (rv_val a) (rv_val b) <= 0).
  { unfold rv_cmp in H. pose proof (bytes_cmp_vals (rv_val a) (rv_val b)). destruct (Z.eqb_spec (bytes_cmp (rv_val a) (rv_val b)) 0) as [E|E]; cbn [negb] in H; lia. }
  destruct (Z.eq_dec (bytes_cmp (rv_val a) (rv_val b)) 0) as [E|E].
  - apply bytes_cmp_eq in E. rewrite <- E. lia.
  - destruct (Z.le_gt_cases (bytes_cmp (rv_val b) v) 0) as [L|L]; auto. exfalso.
    destruct (Z.eq_dec (bytes_cmp (rv_val b) v) 0) as [E2|E2].
    + apply bytes_cmp_eq in E2. rewrite E2 in *. lia.
    + assert (bytes_cmp (rv_val a) v < 0) by (eapply bytes_cmp_trans; [|]; [instantiate (1 := rv_val b)|]; lia). lia.
Qed.
Lemma filter_filter {A} (f g : A -> bool) l : filter f (filter g l) = filter (fun x => g x && f x) l.
Proof. induction l as [|x l IH]; [reflexivity|]. cbn [filter]. destruct (g x); cbn [filter andb]; rewrite IH; reflexivity. Qed.
Lemma filter_rev {A} (f : A -> bool) l : filter f (rev l) = rev (filter f l).
Proof. induction l as [|x l IH]; [reflexivity|]. cbn [rev filter]. rewrite filter_app, IH. cbn [filter]. destruct (f x); cbn [rev]; [reflexivity|apply app_nil_r]. Qed.

(** ** The five operations *)
(** the entries whose value satisfies the comparison with [v] *)
Definition sat (op : qop) (v : bytes) (e : entry) : bool :=
  match op with
  | QLt => vcmp v e <? 0 | QLe => vcmp v e <=? 0 | QEq => vcmp v e =? 0
  | QGe => 0 <=? vcmp v e | QGt => 0 <? vcmp v e
  end.
Section Where.
  Variables (F : Z -> node -> Prop) (rd : mptr -> res node) (Hrd : rd_ok rd F).
  Variables (es : list entry) (h : nat) (mp : mptr) (pgs : list Z) (fuel : nat) (D : bytes).
  Hypothesis Htree : repr F h None None (mp_off mp) es pgs.
  Hypothesis Hlen : mp_len mp <> 0.
  Hypothesis Hfuel : (h < fuel)%nat.
  Hypothesis Hfetch : Forall fetchable es.
  Hypothesis Hsmall : Forall key_small es.

  Lemma es_ss : StronglySorted (fun a b : entry => rv_cmp (fst a) (fst b) < 0) es.
  Proof.
    pose proof (@es_sorted F es h mp pgs Htree) as Hs. clear -Hs. induction es as [|e l IH]; [constructor|].
    cbn [map] in Hs. apply sorted_cons in Hs. destruct Hs as [H1 H2]. constructor; auto.
    rewrite Forall_forall. intros x Hx. apply H2. apply in_map; auto.
  Qed.
  Lemma until_never l : until (fun _ => false) l = l.
  Proof. induction l as [|e l IH]; [reflexivity|]. cbn [until]. rewrite IH. reflexivity. Qed.

  (** descending < and <= *)
  Theorem where_desc_low op v n : op = QLt \/ op = QLe ->
    where_tree fuel rd (Ok mp) D op Desc v n = Ok (texts D (firstn n (rev (filter (sat op v) es)))).
  Proof.
    intros [-> | ->]; unfold where_tree; rewrite (@yields_prev F rd Hrd es h mp pgs fuel D Htree Hlen Hfuel Hfetch), until_never.
    - rewrite below_low by auto. reflexivity.
    - rewrite below_high by auto. reflexivity.
  Qed.
  (** the search key of the ascending > , >= and == *)
  Definition search_key (op : qop) (v : bytes) : rv := match op with QGt => RV (MP maxUint64 0) v | _ => RV (MP 0 0) v end.
  Theorem where_asc_high op dir v n : (dir = Asc /\ (op = QGt \/ op = QGe)) \/ op = QEq ->
    (~ falls_off rd mp fuel (search_key op v) /\ where_tree fuel rd (Ok mp) D op dir v n = Ok (texts D (firstn n (filter (sat op v) es)))) \/
    (falls_off rd mp fuel (search_key op v) /\ where_tree fuel rd (Ok mp) D op dir v n = Ok [] /\
     ~ (forall x, In x (map fst es) -> rle (search_key op v) x)).
  Proof.
    intros [(-> & [-> | ->]) | ->].
    - unfold where_tree. destruct (@yields_next F rd Hrd es h mp pgs fuel D Htree Hlen Hfuel Hfetch (fun _ => false) (search_key QGt v) n) as [(A & E)|(A & E & _ & B)]; [left|right]; split; auto.
      cbn [search_key] in E. rewrite E, until_never, from_high by auto. reflexivity.
    - unfold where_tree. destruct (@yields_next F rd Hrd es h mp pgs fuel D Htree Hlen Hfuel Hfetch (fun _ => false) (search_key QGe v) n) as [(A & E)|(A & E & _ & B)]; [left|right]; split; auto.
      cbn [search_key] in E. rewrite E, until_never, from_low by auto. reflexivity.
    - unfold where_tree. set (stop := fun k => negb (ts_compare_bytes (rv_val k) v =? 0)).
      assert (Ew : forall d, match d with Asc | Desc => yields (ts_next fuel rd (Ok mp)) stop D n (ts_iter (RV (MP 0 0) v)) end = yields (ts_next fuel rd (Ok mp)) stop D n (ts_iter (search_key QEq v))) by (intros []; reflexivity).
      destruct (@yields_next F rd Hrd es h mp pgs fuel D Htree Hlen Hfuel Hfetch stop (search_key QEq v) n) as [(A & E)|(A & E & _ & B)]; [left; split; [auto|]|right; split; [auto|split; [|auto]]]; cbn [search_key] in *; [|destruct dir; exact E].
      replace (filter (sat QEq v) es) with (until stop (from (RV (MP 0 0) v) es)); [destruct dir; exact E|].
      rewrite from_low by auto. rewrite until_filter.
      + rewrite filter_filter. apply filter_ext_in'. intros x _. unfold stop, sat, vcmp. rewrite ts_compare_bytes_eq, negb_involutive.
        destruct (Z.leb_spec 0 (bytes_cmp (rv_val (fst x)) v)), (Z.eqb_spec (bytes_cmp (rv_val (fst x)) v) 0); auto; lia.
      + pose proof es_ss as Hs.
        assert (Hs' : StronglySorted (fun a b : entry => (0 <= vcmp v a -> vcmp v a <> 0 -> vcmp v b <> 0)) es).
        { eapply ss_impl; [|exact Hs]. cbn beta. intros a b Hab H0 H1. unfold vcmp in *. assert (0 < bytes_cmp (rv_val (fst b)) v) by (eapply key_lt_val; eauto; lia). lia. }
        clear -Hs'. induction Hs' as [|a l H IH Ha]; [constructor|]. cbn [filter]. destruct (Z.leb_spec 0 (vcmp v a)) as [L|L]; [|exact IH].
        constructor; auto. rewrite Forall_forall in *. intros x Hx. apply filter_In in Hx. destruct Hx as [Hx _]. specialize (Ha x Hx L).
        unfold stop. rewrite !ts_compare_bytes_eq. rewrite !negb_true_iff, !Z.eqb_neq. exact Ha.
  Qed.
  (** ascending < and <=, when the root is not a leaf *)
  Theorem where_asc_low op v n : op = QLt \/ op = QLe -> (0 < h)%nat ->
    where_tree fuel rd (Ok mp) D op Asc v n = Ok (texts D (firstn n (filter (sat op v) es))).
  Proof.
    intros Hop Hh. destruct h as [|h'] eqn:Eh; [lia|]. rewrite <- Eh in *.
    destruct (@edge_ok F rd Hrd true h' fuel mp es pgs) as (e & r & Ee & Eedge); [lia|rewrite <- Eh; exact Htree|].
    assert (Hfrom : from (fst e) es = es).
    { apply below_none. intros x Hx. rewrite Ee in Hx. destruct Hx as [<-|Hx]; [apply rle_refl|].
      pose proof (@es_sorted F es h mp pgs Htree) as Hs. rewrite Ee in Hs. cbn [map] in Hs. apply sorted_cons in Hs. apply rlt_rle. apply Hs; auto. }
    assert (Hmem : In (fst e) (map fst es)) by (rewrite Ee; left; reflexivity).
    destruct Hop as [-> | ->]; unfold where_tree; rewrite Eedge; cbn [rbind];
      rewrite (@yields_next_in F rd Hrd es h mp pgs fuel D Htree Hlen Hfuel Hfetch) by auto; rewrite Hfrom, until_filter.
    - f_equal. f_equal. f_equal. apply filter_ext_in'. intros x _. unfold sat, vcmp. rewrite ts_compare_bytes_eq.
      destruct (Z.leb_spec 0 (bytes_cmp (rv_val (fst x)) v)), (Z.ltb_spec (bytes_cmp (rv_val (fst x)) v) 0); auto; lia.
    - eapply ss_impl; [|exact es_ss]. cbn beta. intros a b Hab. rewrite !ts_compare_bytes_eq, !Z.leb_le. apply key_le_val; auto.
    - f_equal. f_equal. f_equal. apply filter_ext_in'. intros x _. unfold sat, vcmp. rewrite ts_compare_bytes_eq.
      destruct (Z.leb_spec (bytes_cmp (rv_val (fst x)) v) 0), (Z.ltb_spec 0 (bytes_cmp (rv_val (fst x)) v)); auto; lia.
    - eapply ss_impl; [|exact es_ss]. cbn beta. intros a b Hab. rewrite !ts_compare_bytes_eq, !Z.ltb_lt. apply key_lt_val; auto.
  Qed.
  (** descending > and >=, when the root is not a leaf: the largest entry of the
      index is missing, and > behaves as >= *)
  Theorem where_desc_high op v n : op = QGt \/ op = QGe -> (0 < h)%nat ->
    where_tree fuel rd (Ok mp) D op Desc v n = Ok (texts D (firstn n (rev (filter (sat QGe v) (removelast es))))).
  Proof.
    intros Hop Hh. destruct h as [|h'] eqn:Eh; [lia|]. rewrite <- Eh in *.
    destruct (@edge_ok F rd Hrd false h' fuel mp es pgs) as (e & r & Ee & Eedge); [lia|rewrite <- Eh; exact Htree|].
    pose proof (@es_sorted F es h mp pgs Htree) as Hs.
    assert (Hbelow : below (fst e) es = r).
    { rewrite Ee in *. rewrite map_app in Hs. apply sorted_app in Hs. destruct Hs as (_ & _ & H3).
      rewrite below_app. destruct (@below_all (fst e) r) as [-> _].
      - intros x Hx. apply H3; auto. left; auto.
      - unfold below. cbn [filter]. rewrite rv_cmp_refl. cbn. apply app_nil_r. }
    assert (Erl : removelast es = r) by (rewrite Ee; apply removelast_last).
    assert (Hu : until (fun k => ts_compare_bytes (rv_val k) v <? 0) (rev r) = rev (filter (sat QGe v) r)).
    { rewrite until_filter.
      - rewrite filter_rev. f_equal. apply filter_ext_in'. intros x _. unfold sat, vcmp. rewrite ts_compare_bytes_eq.
        destruct (Z.leb_spec 0 (bytes_cmp (rv_val (fst x)) v)), (Z.ltb_spec (bytes_cmp (rv_val (fst x)) v) 0); auto; lia.
      - assert (Hr : StronglySorted (fun a b : entry => rv_cmp (fst a) (fst b) < 0) r).
        { pose proof es_ss as H. rewrite Ee in H. clear -H. induction r as [|x r IH]; [constructor|]. cbn [app] in H. inversion H; subst.
          constructor; auto. apply Forall_app in H3. tauto. }
        apply ss_rev in Hr. eapply ss_impl; [|exact Hr]. cbn beta. intros a b Hab. rewrite !ts_compare_bytes_eq, !Z.ltb_lt.
        intros Ha. destruct (Z.le_gt_cases 0 (bytes_cmp (rv_val (fst b)) v)) as [L|L]; auto. pose proof (key_le_val _ _ _ Hab L). lia. }
    destruct Hop as [-> | ->]; unfold where_tree; rewrite Eedge; cbn [rbind];
      rewrite (@yields_prev F rd Hrd es h mp pgs fuel D Htree Hlen Hfuel Hfetch), Hbelow, Hu, Erl; reflexivity.
  Qed.
  (** on a tree with a single leaf no key falls off before the end *)
  Theorem leaf_falls_off key : h = 0%nat -> falls_off rd mp fuel key -> from key es = [].
  Proof.
    intros Hh (it & E). destruct Htree as (n & pg' & Hn & Hb & _). rewrite Hh in Hb.
    unfold ts_next in E. cbn [ti_recs ts_iter] in E. unfold ts_init, ts_root in E. destruct mp as [off l]. cbn [rbind mp_off] in *. rewrite (Hrd l Hn) in E. cbn [rbind ti_key ts_iter] in E.
    destruct fuel as [|fu]; [lia|]. cbn [ts_traverse] in E. rewrite ts_bsearch_eq, (bsearch_spec key (body_keys_sorted Hb)), (body_leaf_dec Hb) in E. cbn [rbind ti_recs tidx tnode] in E.
    assert (pg' = []) as -> by (cbn in Hb; tauto). rewrite (leaf_num Hb) in E. cbn in Hb. destruct Hb as (_ & Ek & _). rewrite Ek in E.
    pose proof (@es_sorted F es h (MP off l) pgs Htree) as Hs. rewrite (from_skipn key Hs).
    destruct (Z.eqb_spec (Z.of_nat (lb (map fst es) key)) (zlen es)) as [E0|E0]; [|discriminate].
    apply skipn_all2. unfold zlen in E0. lia.
  Qed.
End Where.

(** ** Where the search key of ==, >= falls off *)
Lemma nodup_map_inj {A B} (f : A -> B) l : NoDup (map f l) -> forall x y, In x l -> In y l -> f x = f y -> x = y.
Proof.
  induction l as [|a l IH]; intros H x y Hx Hy E; [destruct Hx|]. cbn [map] in H. inversion H; subst.
  destruct Hx as [->|Hx], Hy as [->|Hy]; auto; exfalso; apply H2; [rewrite E|rewrite <- E]; apply in_map; auto.
Qed.
Section Past.
  Variables (F : Z -> node -> Prop) (rd : mptr -> res node) (Hrd : rd_ok rd F).

  (** a key greater than all keys of a subtree ends after the last entry of its last leaf *)
  Lemma traverse_past key h : forall fuel lo hi n es pg ptr, (h < fuel)%nat -> body F h lo hi n es pg -> (forall x, In x (map fst es) -> rlt x key) ->
    exists leaf mids, ts_traverse fuel rd key n ptr = Ok (leaf :: mids) /\ tidx leaf = num_pointers (tnode leaf).
  Proof.
    induction h as [|h IH]; intros fuel lo hi n es pg ptr Hf Hb Hall; (destruct fuel as [|fuel]; [lia|]); cbn [ts_traverse];
      rewrite ts_bsearch_eq, (bsearch_spec key (body_keys_sorted Hb)), (body_leaf_dec Hb).
    - assert (pg = []) as -> by (cbn in Hb; tauto). exists (TR n (Z.of_nat (lb (keys n) key)) ptr), []. split; [reflexivity|]. cbn [tidx tnode].
      rewrite (leaf_num Hb). cbn in Hb. destruct Hb as (_ & Ek & _). rewrite Ek, lb_all by auto. rewrite map_length. reflexivity.
    - assert (Hk : forall x, In x (keys n) -> rlt x key) by (intros x Hx; apply Hall; eapply (@body_keys_in _ _ _ _ _ _ _ Hb); auto).
      rewrite lb_all by auto. destruct (in_dec rv_eq_dec key (keys n)) as [Hin|_]; [exfalso; pose proof (Hk _ Hin) as X; unfold rlt in X; rewrite rv_cmp_refl in X; lia|].
      rewrite Z.add_0_r. destruct (right_child Hb) as (o & b & e1 & e2 & p1 & E1 & (m & p & Hm & Hb' & _) & ->).
      assert (En : num_pointers n - 1 = Z.of_nat (length (keys n))).
      { pose proof Hb as Hb0. destruct (@body_split F h lo hi n (e1 ++ e2) pg (length (keys n)) Hb (le_n _))
          as (kl & kr & ol & x & or & a & b' & esl & esx & esr & pgl & pgx & pgr & F1 & F2 & F3 & F4 & F5 & F6 & F7 & F8 & F9).
        assert (kr = []) by (apply (f_equal (@length _)) in F1; rewrite app_length in F1; destruct kr; [auto|cbn in F1; lia]).
        subst kr. inversion F7; subst. unfold num_pointers. rewrite F2.
        assert (lptrs n = []) as -> by (pose proof (body_leaf_dec Hb) as Hl; unfold is_leaf in Hl; destruct (lptrs n); [auto|discriminate]).
        change (zlen (@nil mptr)) with 0. rewrite zlen_app. unfold zlen. cbn [length]. lia. }
      rewrite <- En, E1, (Hrd 0 Hm). cbn [rbind].
      destruct (IH fuel _ _ _ _ _ (MP o 0) ltac:(lia) Hb') as (leaf & mids & T1 & T2).
      { intros x Hx. apply Hall. rewrite map_app. apply in_or_app. right; auto. }
      rewrite T1. cbn [rbind]. exists leaf, (mids ++ [TR n (num_pointers n - 1) ptr]). split; auto.
  Qed.
  Theorem separator_falls_off h fuel mp es pg : (S h < fuel)%nat -> repr F (S h) None None (mp_off mp) es pg ->
    NoDup (map (fun e => rv_val (fst e)) es) -> Forall (fun e => key_small e /\ rv_dp (fst e) <> MP 0 0) es ->
    exists e, In e es /\ falls_off rd mp fuel (RV (MP 0 0) (rv_val (fst e))).
  Proof.
    intros Hf R Hnd Hnz. pose proof R as (n & pg' & Hn & Hb & _). pose proof (body_leaf_dec Hb) as Hleaf.
    pose proof Hb as Hb'. rewrite body_S in Hb'. destruct Hb' as (o & os & b & es1 & es2 & pg1 & pg2 & B1 & B2 & B3 & B4 & B5 & B6 & B7).
    destruct (keys n) as [|k1 ks] eqn:Ek; [congruence|].
    assert (Hin : In k1 (map fst es)) by (eapply (@body_keys_in _ _ _ _ _ _ _ Hb); rewrite Ek; left; auto).
    assert (Eb : b = Some k1) by (inversion B5; reflexivity). subst b.
    apply in_map_iff in Hin. destruct Hin as (e & E1 & He). exists e. split; auto. rewrite E1.
    set (sk := RV (MP 0 0) (rv_val k1)).
    rewrite Forall_forall in Hnz. destruct (Hnz _ He) as [Hsm Hdp]. unfold key_small in Hsm. rewrite E1 in Hsm, Hdp.
    assert (Hlt : rlt sk k1).
    { unfold rlt, rv_cmp, sk. cbn [rv_val rv_dp mp_off mp_len]. rewrite bytes_cmp_refl. cbn [Z.eqb negb]. destruct Hsm as [S1 S2].
      destruct (Z.ltb_spec 0 (mp_off (rv_dp k1))); [lia|]. destruct (Z.ltb_spec (mp_off (rv_dp k1)) 0); [lia|].
      destruct (Z.ltb_spec 0 (mp_len (rv_dp k1))); [lia|]. exfalso. apply Hdp. destruct (rv_dp k1) as [a c]. cbn [mp_off mp_len] in *. f_equal; lia. }
    assert (Hall : forall x, In x (map fst es1) -> rlt x sk).
    { intros x Hx. destruct (repr_good B4) as (_ & _ & Hbnd).
      assert (Hxk : rlt x k1) by (rewrite Forall_forall in Hbnd; destruct (Hbnd x Hx) as [_ X]; exact X).
      assert (Hv : rv_val x <> rv_val k1).
      { intros Ev. apply in_map_iff in Hx. destruct Hx as (e' & <- & He').
        assert (In e' es) by (subst es; apply in_or_app; auto).
        assert (e' = e) as ->. { apply (nodup_map_inj (fun e => rv_val (fst e)) _ Hnd); auto. cbn beta. rewrite E1. exact Ev. }
        rewrite E1 in Hxk. unfold rlt in Hxk. rewrite rv_cmp_refl in Hxk. lia. }
      unfold rlt, rv_cmp in *. cbn [sk rv_val]. destruct (Z.eqb_spec (bytes_cmp (rv_val x) (rv_val k1)) 0) as [E0|E0]; cbn [negb] in *; [|exact Hxk].
      apply bytes_cmp_eq in E0. contradiction. }
    destruct B4 as (m & p & Hm & Hbm & _). destruct fuel as [|fuel]; [lia|].
    destruct (@traverse_past sk h fuel _ _ _ _ _ (MP o 0) ltac:(lia) Hbm Hall) as (leaf & mids & T1 & T2).
    unfold falls_off, ts_next. cbn [ti_recs ts_iter]. unfold ts_init, ts_root. destruct mp as [off l]. cbn [rbind mp_off] in *. rewrite (Hrd l Hn). cbn [rbind ti_key ts_iter].
    assert (Et : ts_traverse (S fuel) rd sk n (MP off l) = Ok ((leaf :: mids) ++ [TR n 0 (MP off l)])).
    { cbn [ts_traverse]. rewrite ts_bsearch_eq, (bsearch_spec sk (body_keys_sorted Hb)), Hleaf. rewrite Ek.
      assert (Hs := body_keys_sorted Hb). rewrite Ek in Hs. apply sorted_cons in Hs. destruct Hs as [_ Hs].
      rewrite lb_none. 2:{ intros x [<-|Hx]; [apply rlt_rle; auto|]. apply rlt_rle. eapply rlt_trans; [exact Hlt|apply Hs; auto]. }
      destruct (in_dec rv_eq_dec sk (k1 :: ks)) as [[X|X]|_].
      - exfalso. rewrite X in Hlt. unfold rlt in Hlt. rewrite rv_cmp_refl in Hlt. lia.
      - exfalso. pose proof (rlt_trans Hlt (Hs _ X)) as Y. unfold rlt in Y. rewrite rv_cmp_refl in Y. lia.
      - cbn [Z.of_nat Z.add]. unfold node_pointer. rewrite Hleaf, B3. change (znth (o :: os) 0) with (Some o); cbn [option_map]. rewrite (Hrd 0 Hm). cbn [rbind]. rewrite T1. reflexivity. }
    rewrite Et. cbn [rbind app ti_recs]. rewrite T2, Z.eqb_refl. eexists. reflexivity.
  Qed.
End Past.

(** ** Stored trees *)
Definition entry_small (e : entry) : Prop := mptr_small (rv_dp (fst e)) /\ mptr_small (snd e).
Definition small_at (c : codec) (f : bytes) (o : Z) (n : node) : Prop := node_at c f o n /\ node_small n.
Lemma repr_small c f h : zlen f <= 2^31 -> forall lo hi off es pg, Forall entry_small es ->
  repr (node_at c f) h lo hi off es pg -> repr (small_at c f) h lo hi off es pg.
Proof.
  intros Hf. assert (Hoff : forall o n, node_at c f o n -> 0 <= o < 2^31).
  { intros o n Hn. pose proof (node_at_page_ok Hn) as (P1 & _ & P3 & _). unfold pageSize in *. lia. }
  induction h as [|h IH]; intros lo hi off es pg Hsm (n & pg' & Hn & Hb & ->).
  - exists n, pg'. split; [|split; [exact Hb|reflexivity]]. split; auto.
    cbn in Hb. destruct Hb as (_ & Ek & El & Ei & _). unfold node_small. rewrite Ek, El, Ei.
    split; [|split; [|constructor]]; rewrite Forall_forall in *; intros x Hx; apply in_map_iff in Hx; destruct Hx as (e & <- & He); destruct (Hsm _ He); auto.
  - exists n, pg'. pose proof Hb as Hb0. rewrite body_S in Hb. destruct Hb as (o & os & b & es1 & es2 & pg1 & pg2 & Hl & Hk & Hi & HR & Hc & -> & ->).
    split; [split; auto|split; [|reflexivity]].
    + split; [|split].
      * rewrite Forall_forall in *. intros k Hin. pose proof (@body_keys_in _ _ _ _ _ _ _ Hb0 _ Hin) as X. apply in_map_iff in X. destruct X as (e & <- & He). apply (Hsm _ He).
      * rewrite Hl. constructor.
      * rewrite Hi. constructor; [destruct HR as (m & p & Hm & _); eapply Hoff; eauto|].
        clear -Hc Hoff. induction Hc as [|k b d ks o os e1 e2 p1 p2 (m & p & Hm & _) Hc IHc]; constructor; auto. eapply Hoff; eauto.
    + rewrite body_S. exists o, os, b, es1, es2, pg1, pg2. apply Forall_app in Hsm. destruct Hsm as [S1 S2]. repeat split; auto.
      clear -Hc S2 IH. induction Hc as [|k b d ks o os e1 e2 p1 p2 HR Hc IHc]; [constructor|]. apply Forall_app in S2. destruct S2. econstructor; [apply IH; eassumption|apply IHc; assumption].
Qed.
(** the same pages read with another conversion of the key texts: it is enough that the keys
    of the entries are read alike (separators are keys of entries) *)
Lemma repr_recode c c' f h : cwidth c = cwidth c' -> forall lo hi off es pg, (forall e, In e es -> key_ok c (fst e) -> key_ok c' (fst e)) ->
  repr (node_at c f) h lo hi off es pg -> repr (node_at c' f) h lo hi off es pg.
Proof.
  intros Hw. assert (Hnode : forall off n, (forall k, In k (keys n) -> key_ok c k -> key_ok c' k) -> node_at c f off n -> node_at c' f off n).
  { intros off n Hk (P1 & (S1 & S2 & S3 & S4) & t & E). split; auto. split; [|exists t; rewrite <- Hw; exact E]. split; auto. split; auto. split; auto.
    rewrite Forall_forall in *. intros k Hin. apply Hk; auto. }
  induction h as [|h IH]; intros lo hi off es pg Hsm (n & pg' & Hn & Hb & ->).
  - exists n, pg'. split; [|split; [exact Hb|reflexivity]]. apply Hnode; auto. cbn in Hb. destruct Hb as (_ & Ek & _). rewrite Ek. intros k Hin. apply in_map_iff in Hin. destruct Hin as (e & <- & He). auto.
  - exists n, pg'. split; [|split; [|reflexivity]].
    + apply Hnode; auto. intros k Hin. pose proof (@body_keys_in _ _ _ _ _ _ _ Hb _ Hin) as X. apply in_map_iff in X. destruct X as (e & <- & He). auto.
    + rewrite body_S in Hb |- *. destruct Hb as (o & os & b & es1 & es2 & pg1 & pg2 & Hl & Hk & Hi & HR & Hc & -> & ->).
      exists o, os, b, es1, es2, pg1, pg2. split; auto. split; auto. split; auto. split; [apply IH; auto; intros; apply Hsm; auto; apply in_or_app; auto|]. split; [|auto].
      assert (S2 : forall e, In e es2 -> key_ok c (fst e) -> key_ok c' (fst e)) by (intros; apply Hsm; auto; apply in_or_app; auto).
      clear -Hc S2 IH. induction Hc as [|k b d ks o os e1 e2 p1 p2 HR Hc IHc]; [constructor|].
      econstructor; [apply IH; [intros; apply S2; auto; apply in_or_app; auto|eassumption]|apply IHc; intros; apply S2; auto; apply in_or_app; auto].
Qed.
Lemma ts_rd_ok c f : codec_ok c -> rd_ok (ts_rd c f) (small_at c f).
Proof.
  intros Hc off l n [Hn Hs]. unfold ts_rd, resolve. cbn [mp_off]. replace (off + 4096 - 1 - off + 1) with pageSize by (unfold pageSize; lia).
  change (slice f off pageSize) with (page f off).
  destruct Hn as (P & Hok & tail & E). rewrite E. apply ts_unmarshal_enc; auto.
Qed.
