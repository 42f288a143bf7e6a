(** Iteration over a stored B+ tree: what Next, Prev and Find return. *)
From Verif Require Import Base RefValue Node BPTree BPRepr.

(** ** Specification vocabulary *)
(** entries with a key below [k], and the others *)
Definition below (k : rv) (es : list entry) : list entry := filter (fun e => rv_cmp (fst e) k <? 0) es.
Definition from (k : rv) (es : list entry) : list entry := filter (fun e => negb (rv_cmp (fst e) k <? 0)) es.
(** call [step] until it says false, at most [n] times, and list what Key() and Pointer() returned *)
Fixpoint drain (step : iter -> res (bool * iter)) (n : nat) (it : iter) : res (list entry) :=
  match n with
  | O => Ok []
  | S n' =>
      a <-- step it ;;;
      match a with
      | (false, _) => Ok []
      | (true, it') => x <-- it_get it' ;;; rest <-- drain step n' it' ;;; Ok (x :: rest)
      end
  end.

(** ** Proofs *)
Lemma below_firstn k es : sorted (map fst es) -> below k es = firstn (lb (map fst es) k) es.
Proof.
  intros Hs. induction es as [|[x v] es IH]; [reflexivity|].
  cbn [map fst] in *. apply sorted_cons in Hs. destruct Hs as [Hs Hx].
  unfold below, lb in *. cbn [filter fst length]. destruct (Z.ltb_spec (rv_cmp x k) 0).
  - cbn [length firstn]. f_equal. auto.
  - assert (E : filter (fun x0 => rv_cmp x0 k <? 0) (map fst es) = []).
    { clear IH. induction es as [|[y w] es IH]; [reflexivity|]. cbn [map fst filter] in *.
      assert (rlt x y) by (apply Hx; left; auto).
      assert (Hle : rle k y). { apply rlt_rle. eapply rle_rlt_trans; [|eauto]. apply rle_not_rlt. unfold rlt. lia. }
      apply rle_not_rlt in Hle. unfold rlt in Hle.
      destruct (Z.ltb_spec (rv_cmp y k) 0); [lia|]. apply IH.
      - apply sorted_cons in Hs. tauto.
      - intros; apply Hx; right; auto. }
    rewrite IH by auto. rewrite E. reflexivity.
Qed.
Arguments below_firstn k {es}.
Lemma below_from_app k es : sorted (map fst es) -> below k es ++ from k es = es.
Proof.
  intros Hs. induction es as [|[x v] es IH]; [reflexivity|].
  cbn [map fst] in *. apply sorted_cons in Hs. destruct Hs as [Hs Hx].
  unfold below, from in *. cbn [filter fst]. destruct (Z.ltb_spec (rv_cmp x k) 0); cbn [negb].
  - cbn [app]. f_equal. auto.
  - assert (E : filter (fun e => rv_cmp (fst e) k <? 0) es = []).
    { clear IH. induction es as [|[y w] es IH]; [reflexivity|]. cbn [map fst filter] in *.
      assert (rlt x y) by (apply Hx; left; auto).
      assert (Hle : rle k y). { apply rlt_rle. eapply rle_rlt_trans; [|eauto]. apply rle_not_rlt. unfold rlt. lia. }
      apply rle_not_rlt in Hle. unfold rlt in Hle.
      destruct (Z.ltb_spec (rv_cmp y k) 0); [lia|]. apply IH.
      - apply sorted_cons in Hs. tauto.
      - intros; apply Hx; right; auto. }
    rewrite E in *. cbn [app] in *. f_equal. apply IH. auto.
Qed.
Arguments below_from_app k {es}.
Lemma from_skipn k es : sorted (map fst es) -> from k es = skipn (lb (map fst es) k) es.
Proof.
  intros Hs. pose proof (below_from_app k Hs) as H. rewrite (below_firstn k Hs) in H.
  apply (app_inv_head (firstn (lb (map fst es) k) es)). rewrite firstn_skipn. auto.
Qed.

Arguments from_skipn k {es}.
Lemma skipn_nth {A} (l : list A) p e : nth_error l p = Some e -> skipn p l = e :: skipn (S p) l.
Proof.
  revert p; induction l as [|x l IH]; intros [|p] E; cbn in E; try discriminate.
  - inversion E; reflexivity.
  - cbn [skipn]. rewrite (IH _ E). reflexivity.
Qed.
Section Iter.
  Variables (F : Z -> node -> Prop) (rd : mptr -> res node) (Hrd : rd_ok rd F).
  Variables (es : list entry) (H : nat) (root : Z).

  (** the records stand in a leaf with entries [les], with [before] entries to its left *)
  Inductive at_leaf : list trec -> list entry -> Z -> nat -> Prop :=
  | al n idx ptr rest lo hi off les esL esR pgs :
      F off n -> body F 0 lo hi n les [] -> ctx F false 0 lo hi off rest esL esR pgs H root ->
      es = esL ++ les ++ esR ->
      at_leaf (TR n idx ptr :: rest) les idx (length esL).

  Lemma leaf_get n lo hi les it rest ptr i : body F 0 lo hi n les [] -> (i < length les)%nat ->
    it_recs it = Some (TR n (Z.of_nat i) ptr :: rest) ->
    exists e, nth_error les i = Some e /\ it_get it = Ok e.
  Proof.
    intros Hb Hi Hr. cbn in Hb. destruct Hb as (B1 & B2 & B3 & _).
    destruct (nth_error les i) as [[k v]|] eqn:E.
    2:{ apply nth_error_None in E. lia. }
    exists (k, v). split; auto. unfold it_get. rewrite Hr. cbn [tnode tidx].
    rewrite znth_nat, B2, nth_error_map, E. cbn [option_map fst].
    unfold node_pointer, is_leaf. rewrite B3. destruct les as [|y les]; [congruence|].
    cbn [map]. rewrite <- map_cons, znth_nat, nth_error_map, E. reflexivity.
  Qed.

  Lemma leaf_num n lo hi les : body F 0 lo hi n les [] -> num_pointers n = zlen les.
  Proof.
    intros Hb. cbn in Hb. destruct Hb as (B1 & B2 & B3 & B4 & _). unfold num_pointers.
    rewrite B3, B4, zlen_map. reflexivity.
  Qed.

  Arguments leaf_num {n lo hi les}.
  (** [fwd recs p]: the next entry Next() yields is number [p] *)
  Definition fwd (recs : list trec) (p : nat) : Prop :=
    exists les i before, at_leaf recs les (Z.of_nat i) before /\ (i <= length les)%nat /\
      p = (before + Nat.min (S i) (length les))%nat.
  (** [bwd recs p]: the next entry Prev() yields is number [p-1] *)
  Definition bwd (recs : list trec) (p : nat) : Prop :=
    exists les i before, at_leaf recs les (Z.of_nat i) before /\ (i <= length les)%nat /\
      p = (before + i)%nat.

  Lemma incr_fwd it recs p : it_recs it = Some recs -> fwd recs p ->
    (p = length es /\ exists it', it_incr rd it recs 1 = Ok (false, it') /\ it_err it' = it_err it) \/
    (exists it' recs' e, it_incr rd it recs 1 = Ok (true, it') /\ it_recs it' = Some recs' /\ it_err it' = it_err it /\
       nth_error es p = Some e /\ it_get it' = Ok e /\ fwd recs' (S p)).
  Proof.
    intros Hit (les & i & before & Hal & Hi & ->).
    inversion Hal as [n idx ptr rest lo hi off les' esL esR pgs HF Hb Hctx Hes]; subst.
    unfold it_incr. cbn [incr tidx tnode tptr]. rewrite (leaf_num Hb).
    destruct (Z.ltb_spec (Z.of_nat i + 1) 0); [lia|]. cbn [orb].
    destruct (Z.leb_spec (zlen les) (Z.of_nat i + 1)).
    - replace (Nat.min (S i) (length les)) with (length les) by (unfold zlen in *; lia).
      destruct (@incr_ctx_next F rd Hrd rest 0%nat lo hi off esL esR pgs H root les [off] Hctx)
        as [(E & recs & E')|(rest' & lo2 & hi2 & off2 & es2 & pg2 & esL2 & esR2 & pgs2 & q & tl & A1 & A2 & A3 & A4 & A5 & A6 & A7)].
      { exists n, []. auto. }
      + left. subst esR. split.
        * rewrite Hes, app_nil_r, app_length; auto.
        * rewrite E'. cbn [rbind]. eexists. split; [reflexivity|]. cbn. auto.
      + right. rewrite A1. cbn [rbind]. subst rest'. rewrite A3.
        destruct A5 as (n2 & pg2' & HF2 & Hb2 & ->).
        rewrite (@Hrd off2 0 n2 HF2). cbn [rbind].
        pose proof Hb2 as Hb2'. cbn in Hb2'. destruct Hb2' as (C1 & C2 & C3 & C4 & C5 & _). subst pg2'.
        destruct es2 as [|e es2]; [congruence|].
        eexists _, _, e. split; [reflexivity|]. split; [reflexivity|]. split; [reflexivity|].
        split. { rewrite Hes, A7. rewrite app_assoc, nth_error_app2 by (rewrite app_length; lia).
                 rewrite app_length. replace (length esL + length les - (length esL + length les))%nat with 0%nat by lia. reflexivity. }
        split.
        { match goal with |- it_get ?it = _ => destruct (@leaf_get n2 lo2 hi2 (e :: es2) it (q :: tl) ptr 0 Hb2) as (e' & D1 & D2) end.
          - cbn; lia.
          - reflexivity.
          - cbn in D1. inversion D1; subst. exact D2. }
        exists (e :: es2), 0%nat, (length esL2). split; [|split].
        * econstructor; eauto. rewrite Hes, A6, A7, <- !app_assoc. reflexivity.
        * cbn; lia.
        * subst. rewrite app_length. cbn [length]. lia.
    - right. assert (S i < length les)%nat by (unfold zlen in *; lia).
      replace (Nat.min (S i) (length les)) with (S i) by lia.
      cbn [rbind].
      replace (Z.of_nat i + 1) with (Z.of_nat (S i)) by lia.
      match goal with |- exists it' recs' e, Ok (true, ?it) = _ /\ _ =>
        destruct (@leaf_get n lo hi les it rest ptr (S i) Hb) as (e & D1 & D2); [lia|reflexivity|] end.
      eexists _, _, e. split; [reflexivity|]. split; [reflexivity|]. split; [reflexivity|].
      split. { rewrite Hes, nth_error_app2 by lia. replace (length esL + S i - length esL)%nat with (S i) by lia.
               rewrite nth_error_app1 by lia. auto. }
      split; [exact D2|].
      exists les, (S i), (length esL). split; [|split; lia]. econstructor; eauto.
  Qed.

  Lemma incr_bwd it recs p : it_recs it = Some recs -> bwd recs p ->
    (p = 0%nat /\ exists it', it_incr rd it recs (-1) = Ok (false, it') /\ it_err it' = it_err it) \/
    (exists it' recs' e p', it_incr rd it recs (-1) = Ok (true, it') /\ it_recs it' = Some recs' /\ it_err it' = it_err it /\
       p = S p' /\ nth_error es p' = Some e /\ it_get it' = Ok e /\ bwd recs' p').
  Proof.
    intros Hit (les & i & before & Hal & Hi & ->).
    inversion Hal as [n idx ptr rest lo hi off les' esL esR pgs HF Hb Hctx Hes]; subst.
    unfold it_incr. cbn [incr tidx tnode tptr]. rewrite (leaf_num Hb).
    destruct (Z.leb_spec (zlen les) (Z.of_nat i + -1)); [unfold zlen in *; lia|]. rewrite orb_false_r.
    destruct (Z.ltb_spec (Z.of_nat i + -1) 0).
    - assert (i = 0%nat) by lia. subst i. rewrite Nat.add_0_r.
      destruct (@incr_ctx_prev F rd Hrd rest 0%nat lo hi off esL esR pgs H root les [off] Hctx)
        as [(E & recs & E')|(rest' & lo2 & hi2 & off2 & es2 & pg2 & esL2 & esR2 & pgs2 & q & tl & A1 & A2 & A3 & A4 & A5 & A6 & A7)].
      { exists n, []. auto. }
      + left. subst esL. split; auto.
        rewrite E'. cbn [rbind]. eexists. split; [reflexivity|]. cbn. auto.
      + right. rewrite A1. cbn [rbind]. subst rest'. rewrite A3.
        destruct A5 as (n2 & pg2' & HF2 & Hb2 & ->).
        rewrite (@Hrd off2 0 n2 HF2). cbn [rbind].
        pose proof Hb2 as Hb2'. cbn in Hb2'. destruct Hb2' as (C1 & C2 & C3 & C4 & C5 & _). subst pg2'.
        rewrite (leaf_num Hb2).
        assert (Hl2 : (0 < length es2)%nat) by (destruct es2; [congruence|cbn; lia]).
        replace (zlen es2 - 1) with (Z.of_nat (length es2 - 1)) by (unfold zlen; lia).
        match goal with |- exists it' recs' e p', Ok (true, ?it) = _ /\ _ =>
          destruct (@leaf_get n2 lo2 hi2 es2 it (q :: tl) ptr (length es2 - 1) Hb2) as (e & D1 & D2); [lia|reflexivity|] end.
        eexists _, _, e, (length esL2 + (length es2 - 1))%nat.
        split; [reflexivity|]. split; [reflexivity|]. split; [reflexivity|].
        split. { rewrite A7, app_length. lia. }
        split. { rewrite Hes, A7, <- app_assoc, nth_error_app2 by lia. rewrite nth_error_app1 by lia.
                 rewrite <- D1. f_equal. lia. }
        split; [exact D2|].
        exists es2, (length es2 - 1)%nat, (length esL2). split; [|split; lia].
        econstructor; eauto. rewrite Hes, A6, A7, <- !app_assoc. reflexivity.
    - right. cbn [rbind].
      replace (Z.of_nat i + -1) with (Z.of_nat (i - 1)) by lia.
      match goal with |- exists it' recs' e p', Ok (true, ?it) = _ /\ _ =>
        destruct (@leaf_get n lo hi les it rest ptr (i - 1) Hb) as (e & D1 & D2); [lia|reflexivity|] end.
      eexists _, _, e, (length esL + (i - 1))%nat. split; [reflexivity|]. split; [reflexivity|]. split; [reflexivity|].
      split; [lia|].
      split. { rewrite Hes, nth_error_app2 by lia. replace (length esL + (i - 1) - length esL)%nat with (i - 1)%nat by lia.
               rewrite nth_error_app1 by lia. auto. }
      split; [exact D2|].
      exists les, (i - 1)%nat, (length esL). split; [|split; lia]. econstructor; eauto.
  Qed.

  Lemma fwd_le recs p : fwd recs p -> (p <= length es)%nat.
  Proof.
    intros (les & i & before & Hal & Hi & ->).
    inversion Hal as [n idx ptr rest lo hi off les' esL esR pgs HF Hb Hctx Hes]; subst.
    rewrite Hes, !app_length. lia.
  Qed.

  Lemma drain_fwd fuel rt n : forall it recs p, it_recs it = Some recs -> fwd recs p ->
    drain (it_next fuel rd rt) n it = Ok (firstn n (skipn p es)).
  Proof.
    induction n as [|n IH]; intros it recs p Hit Hf; [reflexivity|].
    cbn [drain]. unfold it_next. rewrite Hit.
    destruct (@incr_fwd it recs p Hit Hf) as [(E & it' & E' & _)|(it' & recs' & e & E1 & E2 & _ & E3 & E4 & E5)].
    - rewrite E'. cbn [rbind]. rewrite E. rewrite skipn_all. reflexivity.
    - rewrite E1. cbn [rbind]. rewrite E4. cbn [rbind].
      fold (it_next fuel rd rt). rewrite (IH _ _ _ E2 E5). cbn [rbind].
      rewrite (skipn_nth _ _ E3). reflexivity.
  Qed.
  Lemma drain_bwd fuel rt n : forall it recs p, it_recs it = Some recs -> bwd recs p ->
    drain (it_prev fuel rd rt) n it = Ok (firstn n (rev (firstn p es))).
  Proof.
    induction n as [|n IH]; intros it recs p Hit Hf; [reflexivity|].
    cbn [drain]. unfold it_prev. rewrite Hit.
    destruct (@incr_bwd it recs p Hit Hf) as [(E & it' & E' & _)|(it' & recs' & e & p' & E1 & E2 & _ & Ep & E3 & E4 & E5)].
    - rewrite E'. cbn [rbind]. rewrite E. cbn. reflexivity.
    - rewrite E1. cbn [rbind]. rewrite E4. cbn [rbind].
      fold (it_prev fuel rd rt). rewrite (IH _ _ _ E2 E5). cbn [rbind].
      f_equal. subst p. apply nth_error_split in E3. destruct E3 as (a & b & Ea & La). rewrite Ea, <- La.
      rewrite firstn_app, firstn_all, Nat.sub_diag, firstn_O, app_nil_r.
      replace (S (length a)) with (length (a ++ [e])) by (rewrite app_length; cbn; lia).
      replace (a ++ e :: b) with ((a ++ [e]) ++ b) by (rewrite <- app_assoc; reflexivity).
      rewrite firstn_app, firstn_all, Nat.sub_diag, firstn_O, app_nil_r, rev_app_distr. reflexivity.
  Qed.
End Iter.

(** ** Whole trees *)
Arguments leaf_num {F n lo hi les}.
Section Tree.
  Variables (F : Z -> node -> Prop) (rd : mptr -> res node) (Hrd : rd_ok rd F).
  Variables (es : list entry) (h : nat) (mp : mptr) (pgs : list Z) (fuel : nat).
  Hypothesis Htree : repr F h None None (mp_off mp) es pgs.
  Hypothesis Hlen : mp_len mp <> 0.
  Hypothesis Hfuel : (h < fuel)%nat.

  Lemma tree_sorted : sorted (map fst es).
  Proof. destruct (repr_good Htree) as (_ & S & _). exact S. Qed.

  Lemma init_ok key :
    exists leaf mids les i before,
      it_init fuel rd (Ok mp) (bp_iter key) = Ok (true, Iter key (Some (leaf :: mids)) None) /\
      tidx leaf = Z.of_nat i /\ i = lb (map fst les) key /\
      at_leaf F es h (mp_off mp) (leaf :: mids) les (Z.of_nat i) before /\
      (before + i)%nat = lb (map fst es) key /\
      (In key (map fst es) -> In key (map fst les)).
  Proof.
    destruct Htree as (n & pg' & HF & Hb & ->).
    unfold it_init, bp_root. destruct (Z.eqb_spec (mp_len mp) 0); [congruence|].
    destruct mp as [off l] eqn:Emp. cbn [mp_off mp_len] in *.
    rewrite (@Hrd off l n HF). cbn [rbind it_key bp_iter].
    destruct (@traverse_ok F rd key Hrd h fuel None None n es pg' off (MP off l) [] [] [] [] h off Hfuel HF eq_refl Hb)
      as (leaf & mids & lo' & hi' & off' & les & lpg & esL' & esR' & pgs' & T1 & T2 & T3 & T3' & T4 & T5 & T6 & T7 & T8).
    { split; exact I. }
    { constructor. }
    cbn [app] in T7. rewrite !app_nil_r in T7. rewrite !app_nil_r in T6.
    exists leaf, mids, les, (lb (map fst les) key), (length esL').
    rewrite T1. split; [reflexivity|]. split; [auto|]. split; auto.
    assert (Hpg : lpg = []). { cbn in T4. tauto. }
    destruct (ctx_bounds T6) as (B1 & B2 & _).
    assert (HL : forall x, In x (map fst esL') -> rlt x key).
    { destruct T5 as [T5 _]. destruct lo' as [l'|]; [|subst esL'; intros ? []]. intros x Hx. cbn in T5.
      eapply rlt_rle_trans; [apply B1; auto|auto]. }
    assert (HR : forall x, In x (map fst esR') -> rlt key x).
    { destruct T5 as [_ T5]. destruct hi' as [u'|]; [|subst esR'; intros ? []]. intros x Hx. cbn in T5.
      eapply rlt_rle_trans; [exact T5|]. apply B2; auto. }
    split; [|split].
    - destruct leaf as [ln li lptr]. cbn [tnode tidx tptr] in *. subst li lpg.
      econstructor; eauto. apply ctx_weak in T6. exact T6.
    - rewrite <- T7, !map_app, !lb_app. rewrite (@lb_all (map fst esL') key HL), map_length.
      rewrite (@lb_none (map fst esR') key). lia.
      intros x Hx. apply rlt_rle; auto.
    - rewrite <- T7, !map_app. intros Hin. apply in_app_or in Hin. destruct Hin as [Hin|Hin].
      { exfalso. eapply rlt_irrefl; apply HL; eauto. }
      apply in_app_or in Hin. destruct Hin as [Hin|Hin]; auto.
      exfalso. eapply rlt_irrefl; apply HR; eauto.
  Qed.

  Theorem prev_drain key n :
    drain (it_prev fuel rd (Ok mp)) n (bp_iter key) = Ok (firstn n (rev (below key es))).
  Proof.
    destruct n as [|n]; [reflexivity|].
    destruct (init_ok key) as (leaf & mids & les & i & before & E & Ei & El & Hal & Hp & _).
    rewrite (below_firstn key tree_sorted).
    assert (Hb : bwd F es h (mp_off mp) (leaf :: mids) (lb (map fst es) key)).
    { exists les, i, before. split; auto. split; auto. subst i. rewrite <- (map_length fst les). apply lb_le. }
    rewrite <- (@drain_bwd F rd Hrd es h (mp_off mp) fuel (Ok mp) (S n) (Iter key (Some (leaf :: mids)) None) (leaf :: mids) _ eq_refl Hb).
    cbn [drain]. unfold it_prev. cbn [it_recs bp_iter]. rewrite E. cbn [rbind it_recs]. reflexivity.
  Qed.

  (** what the first Next() does, and where it leaves the iterator *)
  Theorem next_first key :
    exists b it, it_next fuel rd (Ok mp) (bp_iter key) = Ok (b, it) /\ it_err it = None /\
      (In key (map fst es) -> b = true) /\
      ((forall x, In x (map fst es) -> rle key x) -> b = true) /\
      if b then exists e rest, from key es = e :: rest /\ it_get it = Ok e /\
                forall n, drain (it_next fuel rd (Ok mp)) n it = Ok (firstn n rest)
      else forall n, drain (it_next fuel rd (Ok mp)) n it = Ok (firstn n (from key es)).
  Proof.
    destruct (init_ok key) as (leaf & mids & les & i & before & E & Ei & El & Hal & Hp & Hmem).
    rewrite (from_skipn key tree_sorted).
    unfold it_next at 1. cbn [it_recs bp_iter]. rewrite E. cbn [rbind it_recs].
    inversion Hal as [n0 idx ptr rest lo hi off les' esL esR pgs0 HF Hb Hctx Hes]; subst leaf mids les' idx.
    clear Hal; subst before.
    cbn [tidx tnode] in *. rewrite (leaf_num Hb).
    assert (Hile : (i <= length les)%nat) by (subst i; rewrite <- (map_length fst les); apply lb_le).
    assert (Hal : at_leaf F es h (mp_off mp) (TR n0 (Z.of_nat i) ptr :: rest) les (Z.of_nat i) (length esL)) by (econstructor; eauto).
    assert (Hlesne : (0 < length les)%nat).
    { cbn in Hb. destruct Hb as (B1 & _). destruct les; [congruence|cbn; lia]. }
    exists (negb (Z.of_nat i =? zlen les)), (Iter key (Some (TR n0 (Z.of_nat i) ptr :: rest)) None).
    split; [reflexivity|]. split; [reflexivity|]. split; [|split].
    - intros Hin. apply Hmem in Hin.
      destruct (Z.eqb_spec (Z.of_nat i) (zlen les)) as [Eq|]; auto. exfalso.
      assert (Eil : lb (map fst les) key = length (map fst les)) by (rewrite map_length; unfold zlen in *; lia).
      cbn in Hb. destruct Hb as (_ & _ & _ & _ & _ & Hs & _).
      destruct (lb_split key Hs) as [L1 _]. rewrite Eil, firstn_all in L1.
      eapply rlt_irrefl; apply L1; eauto.
    - intros Hall. destruct (Z.eqb_spec (Z.of_nat i) (zlen les)) as [Eq|]; auto. exfalso.
      assert (i = 0%nat).
      { subst i. apply lb_none. intros x Hx. apply Hall. rewrite Hes, !map_app. apply in_or_app; right; apply in_or_app; auto. }
      unfold zlen in Eq. lia.
    - destruct (Z.eqb_spec (Z.of_nat i) (zlen les)) as [Eq|Eq]; cbn [negb].
      + intros n.
        rewrite (@drain_fwd F rd Hrd es h (mp_off mp) fuel (Ok mp) n (Iter key (Some (TR n0 (Z.of_nat i) ptr :: rest)) None) (TR n0 (Z.of_nat i) ptr :: rest) (length esL + i) eq_refl).
        * rewrite Hp. reflexivity.
        * exists les, i, (length esL). split; auto. split; auto. unfold zlen in *. lia.
      + assert (Hi : (i < length les)%nat) by (unfold zlen in *; lia).
        destruct (@leaf_get F n0 lo hi les (Iter key (Some (TR n0 (Z.of_nat i) ptr :: rest)) None) rest ptr i Hb Hi eq_refl) as (e & D1 & D2).
        exists e, (skipn (S (length esL + i)) es).
        assert (Hn : nth_error es (length esL + i) = Some e).
        { rewrite Hes, nth_error_app2 by lia. replace (length esL + i - length esL)%nat with i by lia.
          rewrite nth_error_app1 by lia. auto. }
        split; [|split; [exact D2|]].
        * rewrite <- Hp. apply skipn_nth; auto.
        * intros n.
          rewrite (@drain_fwd F rd Hrd es h (mp_off mp) fuel (Ok mp) n (Iter key (Some (TR n0 (Z.of_nat i) ptr :: rest)) None) (TR n0 (Z.of_nat i) ptr :: rest) (S (length esL + i)) eq_refl); auto.
          exists les, i, (length esL). split; auto. split; auto. lia.
  Qed.

  Corollary next_drain_present key n :
    In key (map fst es) \/ (forall x, In x (map fst es) -> rle key x) ->
    drain (it_next fuel rd (Ok mp)) n (bp_iter key) = Ok (firstn n (from key es)).
  Proof.
    intros Hk. destruct n as [|n]; [reflexivity|].
    destruct (next_first key) as (b & it & E & _ & H1 & H2 & H3).
    assert (b = true) by (destruct Hk; auto). subst b.
    destruct H3 as (e & rest & F1 & F2 & F3).
    cbn [drain]. rewrite E. cbn [rbind]. rewrite F2. cbn [rbind]. rewrite F3. cbn [rbind]. rewrite F1. reflexivity.
  Qed.

  Corollary find_present key v : In (key, v) es -> bp_find fuel rd (Ok mp) key = Ok (key, v).
  Proof.
    intros Hin.
    assert (Hk : In key (map fst es)) by (apply (in_map fst) in Hin; auto).
    destruct (next_first key) as (b & it & E & He & H1 & H2 & H3).
    rewrite (H1 Hk) in *. destruct H3 as (e & rest & F1 & F2 & _).
    unfold bp_find. rewrite E. cbn [rbind]. rewrite F2. f_equal.
    (* the first entry not below key is the entry of key *)
    pose proof tree_sorted as Hs. clear -Hs Hin F1.
    induction es as [|[x w] es' IH]; [destruct Hin|].
    cbn [map fst] in Hs. apply sorted_cons in Hs. destruct Hs as [Hs Hx].
    unfold from in F1. cbn [filter fst] in F1. destruct (Z.ltb_spec (rv_cmp x key) 0); cbn [negb] in F1.
    - destruct Hin as [Hin|Hin].
      + inversion Hin; subst. rewrite rv_cmp_refl in H. lia.
      + apply IH; auto.
    - destruct Hin as [Hin|Hin].
      + inversion Hin; subst. inversion F1; subst. reflexivity.
      + exfalso. assert (rlt x key) by (apply Hx; apply (in_map fst) in Hin; auto). unfold rlt in *. lia.
  Qed.
End Tree.
