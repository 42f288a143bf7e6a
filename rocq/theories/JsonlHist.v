(** The JSONL handler over a whole data file. *)
From Coq Require Import Permutation.
From Verif Require Import Base Varint Store PageFile PageHist RefValue Node LinkedPage BPTree BPRepr BPIter BPInsert BPLoop BPTop PTree Meta Slots SlotAdd PSlots Cells IndexFile IFileInv PIndex Json Jsonl Grows JsonlRun JsonDoc JsonlDoc JsonlSpec.

(** ** When a list of actions succeeds *)
Definition koff (k : rv) : Z := mp_off (rv_dp k).
(** the insertions of a list of actions: the index and the offset of the key *)
Definition put_of (a : act) : list (bytes * Z * Z) := match a with APut n ft k _ => [(n, ft, koff k)] | _ => [] end.
Definition puts (acts : list act) : list (bytes * Z * Z) := flat_map put_of acts.
Lemma puts_app a b : puts (a ++ b) = puts a ++ puts b.
Proof. unfold puts. apply flat_map_app. Qed.
(** no two insertions into one index at the same offset; all offsets are from [lo] and below [hi] *)
Definition fresh (lo : Z) (acts : list act) (hi : Z) : Prop := lo <= hi /\ Forall (fun x => lo <= snd x < hi) (puts acts) /\ NoDup (puts acts).
Lemma fresh_le acts lo hi : fresh lo acts hi -> lo <= hi.
Proof. intros H. apply H. Qed.
Lemma fresh_wide acts lo hi lo' hi' : fresh lo acts hi -> lo' <= lo -> hi <= hi' -> fresh lo' acts hi'.
Proof. intros (A & B & C) H1 H2. split; [lia|]. split; [|auto]. eapply Forall_impl; [|exact B]. cbn beta. intros x. lia. Qed.
Lemma fresh_nil lo hi : lo <= hi -> fresh lo [] hi.
Proof. intros H. split; [auto|]. split; constructor. Qed.
Lemma NoDup_app_intro {A} (a b : list A) : NoDup a -> NoDup b -> (forall x, In x a -> ~ In x b) -> NoDup (a ++ b).
Proof.
  induction 1 as [|x a Hx Ha IH]; intros Hb Hd; [exact Hb|]. cbn [app]. constructor.
  - intros X. apply in_app_or in X. destruct X as [X|X]; [auto|]. apply (Hd x); [left; auto|exact X].
  - apply IH; auto. intros y Hy. apply Hd. right. exact Hy.
Qed.
Lemma fresh_app a b lo mid hi : fresh lo a mid -> fresh mid b hi -> fresh lo (a ++ b) hi.
Proof.
  intros (A1 & A2 & A3) (B1 & B2 & B3). split; [lia|]. rewrite puts_app. split.
  - apply Forall_app. split; [eapply Forall_impl; [|exact A2]|eapply Forall_impl; [|exact B2]]; cbn beta; intros x; lia.
  - rewrite Forall_forall in A2, B2. apply NoDup_app_intro; auto. intros x Hx Hy. apply A2 in Hx. apply B2 in Hy. lia.
Qed.
(** two lists that work on different indexes *)
Lemma fresh_beside a b lo hi : fresh lo a hi -> fresh lo b hi -> (forall x y, In x (puts a) -> In y (puts b) -> fst x <> fst y) -> fresh lo (a ++ b) hi.
Proof.
  intros (A1 & A2 & A3) (B1 & B2 & B3) Hd. split; [lia|]. rewrite puts_app. split; [apply Forall_app; auto|]. apply NoDup_app_intro; auto. intros x Hx Hy. exact (Hd x x Hx Hy eq_refl).
Qed.
Definition below (hi : Z) (L : list ci) : Prop := forall c e, In c L -> In e (ci_es c) -> koff (fst e) < hi.
Lemma below_mono hi hi' L : below hi L -> hi <= hi' -> below hi' L.
Proof. intros H Hl c e Hc He. pose proof (H c e Hc He). lia. Qed.
Section Static.
Variables (unquote : bytes -> bytes) (to_float : bytes -> option bytes).
Notation jc := (jc unquote to_float).
Notation act_ok := (act_ok unquote to_float).
Notation acts_ok := (acts_ok unquote to_float).
(** the part that does not depend on the contents *)
Definition static_ok (D : bytes) (a : act) : Prop :=
  match a with
  | AFind n ft => zlen n <= 236 /\ 0 <= ft < 2^8
  | APut n ft k v => op_ok (jc D ft) (k, v) /\ (determine_type ft = 0 \/ zlen (rv_val k) = determine_type ft - 1)
  | AAdd n ft t => zlen n <= 236
  end.
Lemma ci_is_eq n ft c : ci_is n ft c = true -> ci_name c = n /\ ci_type c = ft.
Proof. unfold ci_is. rewrite andb_true_iff, name_eqb_spec, Z.eqb_eq. auto. Qed.
(** no insertion meets a key that is there already *)
Definition apart (acts : list act) (L : list ci) : Prop := forall c e, In c L -> In e (ci_es c) -> ~ In (ci_name c, ci_type c, koff (fst e)) (puts acts).
Lemma apart_ok D acts : forall L, NoDup (puts acts) -> Forall (static_ok D) acts -> apart acts L -> acts_ok D acts L.
Proof.
  induction acts as [|a acts IH]; intros L Hn Hs Ha; cbn [JsonlRun.acts_ok]; [auto|]. inversion Hs as [|? ? Hs1 Hs2]; subst.
  destruct a as [n ft|n ft k v|n ft t]; cbn [static_ok] in Hs1; change (puts (?x :: ?y)) with (put_of x ++ puts y) in *.
  - split; [exact Hs1|]. apply IH; auto. intros c e Hc He. cbn [step] in Hc. destruct (existsb (ci_is n ft) L); [eapply Ha; eauto|].
    apply in_app_or in Hc. destruct Hc as [Hc|[<-|[]]]; [eapply Ha; eauto|contradiction].
  - cbn [put_of app] in Hn. inversion Hn as [|? ? Hn1 Hn2]; subst. split.
    + cbn [JsonlRun.act_ok]. split; [tauto|]. split; [tauto|]. intros c Hc Hci X. apply in_map_iff in X. destruct X as (e & <- & He). apply (Ha c e Hc He).
      apply ci_is_eq in Hci. destruct Hci as [<- <-]. left. reflexivity.
    + apply IH; auto. intros c e Hc He. cbn [step] in Hc. apply in_map_iff in Hc. destruct Hc as (c0 & <- & Hc0). destruct (ci_is n ft c0) eqn:Hci.
      * cbn [ci_es ci_name ci_type] in *. destruct He as [<-|He]; [|intros X; apply (Ha c0 e Hc0 He); right; exact X].
        apply ci_is_eq in Hci. destruct Hci as [-> ->]. cbn [fst]. exact Hn1.
      * intros X. apply (Ha c0 e Hc0 He). right. exact X.
  - split; [exact Hs1|]. apply IH; auto. intros c e Hc He. cbn [step] in Hc. apply in_map_iff in Hc. destruct Hc as (c0 & <- & Hc0). destruct (ci_is n ft c0); cbn [ci_es ci_name ci_type] in *; eapply Ha; eauto.
Qed.
Lemma run_below acts : forall hi L, Forall (fun x => snd x < hi) (puts acts) -> below hi L -> below hi (run acts L).
Proof.
  induction acts as [|a acts IH]; intros hi L Hp Hb; cbn [run]; [auto|]. change (puts (a :: acts)) with (put_of a ++ puts acts) in Hp. apply Forall_app in Hp. destruct Hp as [Hp1 Hp2].
  apply IH; auto. destruct a as [n ft|n ft k v|n ft t]; intros c e Hc He; cbn [step] in Hc.
  - destruct (existsb (ci_is n ft) L); [eapply Hb; eauto|]. apply in_app_or in Hc. destruct Hc as [Hc|[<-|[]]]; [eapply Hb; eauto|contradiction].
  - cbn [put_of] in Hp1. inversion Hp1 as [|? ? Hk _]; subst. cbn [snd] in Hk. apply in_map_iff in Hc. destruct Hc as (c0 & <- & Hc0). destruct (ci_is n ft c0); cbn [ci_es] in He; [|eapply Hb; eauto].
    destruct He as [<-|He]; [exact Hk|eapply Hb; eauto].
  - apply in_map_iff in Hc. destruct Hc as (c0 & <- & Hc0). destruct (ci_is n ft c0); cbn [ci_es] in He; eapply Hb; eauto.
Qed.
Lemma fresh_ok D acts lo hi L : fresh lo acts hi -> Forall (static_ok D) acts -> below lo L -> acts_ok D acts L /\ below hi (run acts L).
Proof.
  intros (A & B & C) Hs Hb. rewrite Forall_forall in B. split.
  - apply apart_ok; auto. intros c e Hc He X. apply B in X. cbn [snd] in X. pose proof (Hb c e Hc He). lia.
  - apply run_below; [rewrite Forall_forall; intros x Hx; apply B in Hx; lia|]. eapply below_mono; eauto.
Qed.
End Static.

(** ** Contents: what a list of occurrences leaves behind *)
Section Contents.
Variables (unquote : bytes -> bytes) (to_float : bytes -> option bytes).
Variables (grams : bytes -> Z -> res (list (bytes * Z * Z))) (hdrs : list bytes).
Notation entries_of := (entries_of unquote to_float grams hdrs).
Notation total_of := (total_of unquote to_float grams hdrs).
Notation ids := (ids unquote to_float grams hdrs).
Notation posts := (posts unquote to_float grams hdrs).
Notation postings := (postings unquote to_float grams hdrs).
Definition pfacts (p : posting) : list act :=
  let n := fst (po_id p) in
  let ft := snd (po_id p) in
  AFind n ft :: map (fun e => APut n ft (fst e) (snd e)) (po_entries p) ++ [AAdd n ft (po_weight p)].
Definition facts (o : occ) : list act := flat_map pfacts (postings o).
Definition expected (l : list occ) : list ci := map (fun i => CI (fst i) (snd i) (total_of l i) (rev (entries_of l i))) (ids l).
(** the same for a list of postings *)
Definition ptotal (l : list posting) (i : bytes * Z) : Z := fold_right (fun p t => po_weight p + t) 0 (filter (fun p => id_eqb (po_id p) i) l) mod 2^64.
Definition pentries (l : list posting) (i : bytes * Z) : smap := flat_map po_entries (filter (fun p => id_eqb (po_id p) i) l).
Definition pexpected (l : list posting) : list ci := map (fun i => CI (fst i) (snd i) (ptotal l i) (rev (pentries l i))) (firsts (map po_id l)).

Lemma id_eqb_spec a b : id_eqb a b = true <-> a = b.
Proof.
  unfold id_eqb. destruct a as [a1 a2], b as [b1 b2]. cbn [fst snd]. destruct (list_eq_dec Z.eq_dec a1 b1) as [->|Hn]; cbn [andb].
  - rewrite Z.eqb_eq. split; [intros ->; auto|congruence].
  - split; [discriminate|congruence].
Qed.
Lemma id_eqb_refl a : id_eqb a a = true. Proof. apply id_eqb_spec. auto. Qed.
Lemma id_eqb_sym a b : id_eqb a b = id_eqb b a.
Proof. destruct (id_eqb a b) eqn:E; symmetry; [apply id_eqb_spec in E; subst; apply id_eqb_refl|]. destruct (id_eqb b a) eqn:F; auto. apply id_eqb_spec in F. subst. rewrite id_eqb_refl in E. discriminate. Qed.
Lemma firsts_in l x : In x (firsts l) <-> In x l.
Proof.
  induction l as [|a l IH]; cbn [firsts In]; [tauto|]. rewrite filter_In, IH. destruct (id_eqb x a) eqn:E; cbn [negb].
  - apply id_eqb_spec in E. subst. tauto.
  - assert (a <> x) by (intros ->; rewrite id_eqb_refl in E; discriminate). tauto.
Qed.
Lemma firsts_nodup l : NoDup (firsts l).
Proof.
  induction l as [|a l IH]; cbn [firsts]; constructor; [|apply NoDup_filter; auto]. rewrite filter_In, id_eqb_refl. intros [_ X]. discriminate.
Qed.
Lemma firsts_snoc l x : firsts (l ++ [x]) = if existsb (id_eqb x) (firsts l) then firsts l else firsts l ++ [x].
Proof.
  induction l as [|a l IH]; cbn [app firsts]; [reflexivity|]. rewrite IH. cbn [existsb]. destruct (id_eqb x a) eqn:E; cbn [orb].
  - apply id_eqb_spec in E. subst. destruct (existsb (id_eqb a) (firsts l)) eqn:F; auto. rewrite filter_app. cbn [filter]. rewrite id_eqb_refl. cbn [negb]. rewrite app_nil_r. reflexivity.
  - assert (F : existsb (id_eqb x) (filter (fun y => negb (id_eqb y a)) (firsts l)) = existsb (id_eqb x) (firsts l)).
    { apply eq_true_iff_eq. rewrite !existsb_exists. split; intros (y & Hy & Ey); apply id_eqb_spec in Ey; subst y; exists x; rewrite filter_In in *; rewrite id_eqb_refl, ?E; cbn [negb]; tauto. }
    rewrite F. destruct (existsb (id_eqb x) (firsts l)); auto. rewrite filter_app. cbn [filter]. rewrite E. reflexivity.
Qed.
Lemma ci_is_id n ft c : ci_is n ft c = id_eqb (ci_name c, ci_type c) (n, ft).
Proof. reflexivity. Qed.
Lemma existsb_map {A B} (f : A -> B) p l : existsb p (map f l) = existsb (fun x => p (f x)) l.
Proof. induction l as [|a l IH]; cbn; congruence. Qed.
(** AFind, then some puts, then AAdd, on one index *)
Definition upd_ci (es : smap) (t : Z) (c : ci) : ci := CI (ci_name c) (ci_type c) (u64 (ci_total c + t)) (rev es ++ ci_es c).
Lemma run_puts n ft : forall es L, run (map (fun e => APut n ft (fst e) (snd e)) es) L = map (fun c => if ci_is n ft c then CI (ci_name c) (ci_type c) (ci_total c) (rev es ++ ci_es c) else c) L.
Proof.
  induction es as [|e es IH]; intros L; cbn [map run].
  - erewrite map_ext; [symmetry; apply map_id|]. intros c. cbn [rev app]. destruct (ci_is n ft c); auto. destruct c; auto.
  - rewrite IH. cbn [step]. rewrite map_map. apply map_ext. intros c. destruct (ci_is n ft c) eqn:E; [|rewrite E; reflexivity].
    unfold ci_is in *. cbn [ci_name ci_type ci_total ci_es]. rewrite E. cbn [rev]. rewrite <- app_assoc. destruct e; reflexivity.
Qed.
Lemma run_pfacts o L : run (pfacts o) L = map (fun c => if ci_is (fst (po_id o)) (snd (po_id o)) c then upd_ci (po_entries o) (po_weight o) c else c) (step (AFind (fst (po_id o)) (snd (po_id o))) L).
Proof.
  unfold pfacts. cbv zeta. cbn [run]. rewrite run_app, run_puts. cbn [run step]. rewrite map_map. apply map_ext. intros c.
  destruct (ci_is _ _ c) eqn:E; [|rewrite E; reflexivity]. unfold ci_is in *. cbn [ci_name ci_type ci_total ci_es]. rewrite E. reflexivity.
Qed.
Definition ex_ci (l : list posting) (i : bytes * Z) : ci := CI (fst i) (snd i) (ptotal l i) (rev (pentries l i)).
Lemma ex_ci_is l o i : ci_is (fst (po_id o)) (snd (po_id o)) (ex_ci l i) = id_eqb (po_id o) i.
Proof. rewrite ci_is_id. cbn [ex_ci ci_name ci_type]. rewrite id_eqb_sym. destruct i, (po_id o); reflexivity. Qed.
Lemma sum_app {A} (f : A -> Z) a b : fold_right (fun o t => f o + t) 0 (a ++ b) = fold_right (fun o t => f o + t) 0 a + fold_right (fun o t => f o + t) 0 b.
Proof. induction a as [|x a IH]; cbn [app fold_right]; lia. Qed.
Lemma total_snoc l o i : ptotal (l ++ [o]) i = if id_eqb (po_id o) i then u64 (ptotal l i + po_weight o) else ptotal l i.
Proof.
  unfold ptotal, u64. rewrite filter_app, sum_app. cbn [filter]. destruct (id_eqb (po_id o) i); cbn [fold_right]; [|rewrite Z.add_0_r; reflexivity].
  rewrite Z.add_0_r, Zplus_mod_idemp_l. reflexivity.
Qed.
Lemma entries_snoc l o i : pentries (l ++ [o]) i = pentries l i ++ if id_eqb (po_id o) i then po_entries o else [].
Proof. unfold pentries. rewrite filter_app, flat_map_app. cbn [filter]. destruct (id_eqb (po_id o) i); cbn [flat_map]; rewrite ?app_nil_r; reflexivity. Qed.
Lemma ex_snoc l o i : (if id_eqb (po_id o) i then upd_ci (po_entries o) (po_weight o) (ex_ci l i) else ex_ci l i) = ex_ci (l ++ [o]) i.
Proof. unfold ex_ci, upd_ci. rewrite total_snoc, entries_snoc. destruct (id_eqb (po_id o) i); [|rewrite app_nil_r; reflexivity]. cbn [ci_name ci_type ci_total ci_es]. rewrite rev_app_distr. reflexivity. Qed.
Lemma ex_fresh l i : ~ In i (map po_id l) -> ex_ci l i = CI (fst i) (snd i) 0 [].
Proof.
  intros H. assert (E : filter (fun o => id_eqb (po_id o) i) l = []).
  { induction l as [|a l IH]; cbn [filter]; auto. cbn [map In] in H. destruct (id_eqb (po_id a) i) eqn:E; [apply id_eqb_spec in E; tauto|]. apply IH. tauto. }
  unfold ex_ci, ptotal, pentries. rewrite E. reflexivity.
Qed.
Lemma pexpected_snoc l o : run (pfacts o) (pexpected l) = pexpected (l ++ [o]).
Proof.
  rewrite run_pfacts. unfold pexpected. fold (ex_ci l) (ex_ci (l ++ [o])). rewrite map_app. cbn [map]. rewrite firsts_snoc. cbn [step].
  assert (E0 : existsb (ci_is (fst (po_id o)) (snd (po_id o))) (map (ex_ci l) (firsts (map po_id l))) = existsb (id_eqb (po_id o)) (firsts (map po_id l))).
  { rewrite existsb_map. induction (firsts (map po_id l)) as [|a q IH]; cbn [existsb]; auto. rewrite IH, ex_ci_is. reflexivity. }
  change (fun i : bytes * Z => CI (fst i) (snd i) (ptotal l i) (rev (pentries l i))) with (ex_ci l).
  change (fun i : bytes * Z => CI (fst i) (snd i) (ptotal (l ++ [o]) i) (rev (pentries (l ++ [o]) i))) with (ex_ci (l ++ [o])).
  rewrite E0.
  assert (E1 : forall q, map (fun c => if ci_is (fst (po_id o)) (snd (po_id o)) c then upd_ci (po_entries o) (po_weight o) c else c) (map (ex_ci l) q) = map (ex_ci (l ++ [o])) q).
  { intros q. rewrite map_map. apply map_ext. intros i. rewrite ex_ci_is, <- ex_snoc. reflexivity. }
  destruct (existsb (id_eqb (po_id o)) (firsts (map po_id l))) eqn:F; [apply E1|].
  rewrite <- (@ex_fresh l (po_id o)).
  - change ([ex_ci l (po_id o)]) with (map (ex_ci l) [po_id o]). rewrite <- map_app. apply E1.
  - intros X. apply firsts_in in X. assert (Y : existsb (id_eqb (po_id o)) (firsts (map po_id l)) = true) by (apply existsb_exists; exists (po_id o); split; auto; apply id_eqb_refl). congruence.
Qed.
Lemma pexpected_app l l' : run (flat_map pfacts l') (pexpected l) = pexpected (l ++ l').
Proof.
  revert l. induction l' as [|o l' IH]; intros l; cbn [flat_map]; [rewrite app_nil_r; reflexivity|]. rewrite run_app, pexpected_snoc, IH, <- app_assoc. reflexivity.
Qed.
Lemma expected_posts l : expected l = pexpected (posts l).
Proof. reflexivity. Qed.
Lemma posts_app a b : posts (a ++ b) = posts a ++ posts b.
Proof. unfold JsonlSpec.posts. apply flat_map_app. Qed.
Lemma facts_posts l : flat_map facts l = flat_map pfacts (posts l).
Proof. induction l as [|o l IH]; [reflexivity|]. cbn [flat_map]. unfold JsonlSpec.posts. cbn [flat_map]. fold (posts l). rewrite flat_map_app, <- IH. reflexivity. Qed.
Lemma expected_app l l' : run (flat_map facts l') (expected l) = expected (l ++ l').
Proof. rewrite !expected_posts, facts_posts, posts_app. apply pexpected_app. Qed.
(** totals stay uint64 *)
Definition canon (L : list ci) : Prop := Forall (fun c => 0 <= ci_total c < 2^64) L.
Lemma canon_step a L : canon L -> canon (step a L).
Proof.
  intros H. destruct a as [n ft|n ft k v|n ft t]; cbn [step].
  - destruct (existsb _ L); auto. apply Forall_app. split; auto. constructor; auto. cbn [ci_total]. lia.
  - apply Forall_map. eapply Forall_impl; [|exact H]. intros c Hc. destruct (ci_is n ft c); auto.
  - apply Forall_map. eapply Forall_impl; [|exact H]. intros c Hc. cbv beta. destruct (ci_is n ft c); auto. cbn [ci_total]. unfold u64. apply Z.mod_pos_bound. lia.
Qed.
Lemma canon_run acts : forall L, canon L -> canon (run acts L).
Proof. induction acts as [|a acts IH]; intros L H; cbn [run]; auto. apply IH, canon_step, H. Qed.
Lemma add_zero n ft L : canon L -> step (AAdd n ft 0) L = L.
Proof.
  intros H. cbn [step]. induction H as [|c L Hc _ IH]; cbn [map]; auto. rewrite IH. f_equal. destruct (ci_is n ft c); auto. rewrite Z.add_0_r. unfold u64. rewrite Z.mod_small by auto. destruct c; reflexivity.
Qed.
Lemma canon_expected l : canon (expected l).
Proof. unfold expected. apply Forall_map, Forall_forall. intros i _. cbn [ci_total]. unfold JsonlSpec.total_of. apply Z.mod_pos_bound. lia. Qed.
End Contents.

(** ** The actions of a line *)
Section Line.
Variables (unquote : bytes -> bytes) (to_float : bytes -> option bytes).
Variables (grams : bytes -> Z -> res (list (bytes * Z * Z))) (hdrs : list bytes).
Hypothesis float_8 : forall t f, to_float t = Some f -> zlen f = 8.
Notation jc := (jc unquote to_float).
Notation static_ok := (static_ok unquote to_float).
Notation facts := (facts unquote to_float grams hdrs).
Notation postings := (postings unquote to_float grams hdrs).
Notation vacts := (vacts unquote to_float grams hdrs).
Notation macts := (macts unquote to_float grams hdrs).
Notation sacts := (sacts unquote grams hdrs).
Notation vfields := (vfields unquote).
Notation mfields := (mfields unquote).
Lemma join_dotted l : join l = dotted l.
Proof. induction l as [|x l IH]; [reflexivity|]. cbn [join dotted]. destruct l; [reflexivity|]. rewrite IH. reflexivity. Qed.
Lemma jparse_string w b : ws w -> str_body b -> jparse unquote to_float (w ++ vtext (JStr b)) = Some (unquote b).
Proof.
  intros Hw Hb. unfold jparse, new_dec. rewrite <- (app_nil_r (vtext (JStr b))).
  rewrite (@token_scalar unquote to_float TopValue w TopValue (JStr b) [] 0 [] (pre_ws _ Hw) eq_refl Hb eq_refl I). reflexivity.
Qed.
Lemma slice_mid {A} (a b c : list A) o l : o = zlen a -> l = zlen b -> slice (a ++ b ++ c) o l = b.
Proof.
  intros -> ->. unfold slice, zlen. rewrite !Nat2Z.id, skipn_app, skipn_all, Nat.sub_diag. cbn [app skipn]. rewrite firstn_app, Nat.sub_diag, firstn_all. cbn [firstn]. apply app_nil_r.
Qed.
Variables (D : bytes) (at_ n : Z).
Hypotheses (HD : zlen D < 2^63) (Hat : 0 <= at_) (Hn : 0 <= n < 2^32).
Notation data := (MP at_ n).
Definition rec (f : field) : occ := (f, data).
(** the posting of a field to the index of its type *)
Definition base (o : occ) : posting := PO (occ_id o) (entry unquote to_float o) (weight o).
Definition shorts (l : list field) : Prop := Forall (fun f => zlen (fd_name f) <= 236 /\ search_fits unquote grams hdrs (rec f)) l.
Ltac zl := repeat first [rewrite zlen_app|rewrite zlen_cons]; change (zlen (@nil Z)) with 0.
Definition R_v (v : jv) : Prop := vwf to_float v -> vtight v -> forall path fo pos pre w3 post, D = pre ++ w3 ++ vtext v ++ post -> zlen pre + zlen w3 = at_ + pos -> 0 <= fo <= pos ->
  match v with JStr _ => ws w3 /\ zlen pre = at_ + fo | _ => True end ->
  pos + zlen (vtext v) < 2^32 -> zlen (dotted path) <= 236 -> shorts (vfields path (at_ + pos) v) ->
  fresh (at_ + fo) (vacts data path fo pos v) (at_ + pos + zlen (vtext v)) /\ Forall (static_ok D) (vacts data path fo pos v) /\
  forall L, canon L -> run (vacts data path fo pos v) L = run (pfacts (base (rec (FD (dotted path) v (at_ + fo) (at_ + pos + zlen (vtext v))))) ++ flat_map facts (map rec (vfields path (at_ + pos) v))) L.
Definition R_m (l : jmembers) : Prop := mwf to_float l -> mtight l -> forall path pos first pre post, D = pre ++ mtext first l ++ post -> zlen pre = at_ + pos -> 0 <= pos ->
  pos + zlen (mtext first l) < 2^32 -> shorts (mfields path (at_ + pos) first l) ->
  fresh (at_ + pos) (macts data path pos first l) (at_ + pos + zlen (mtext first l)) /\ Forall (static_ok D) (macts data path pos first l) /\
  forall L, canon L -> run (macts data path pos first l) L = run (flat_map facts (map rec (mfields path (at_ + pos) first l))) L.
Lemma fresh_put_none lo acts hi : lo <= hi -> puts acts = [] -> fresh lo acts hi.
Proof. intros H E. split; [auto|]. rewrite E. split; constructor. Qed.
Lemma u64_id x : 0 <= x < 2^64 -> u64 x = x. Proof. intros. unfold u64. apply Z.mod_small. auto. Qed.
Lemma u32_id x : 0 <= x < 2^32 -> u32 x = x. Proof. intros. unfold u32. apply Z.mod_small. auto. Qed.
Lemma vtext_pos v : vwf to_float v -> 1 <= zlen (vtext v).
Proof. intros Hv. destruct (@vtext_start unquote to_float v [] Hv) as (c & t & E & _). rewrite app_nil_r in E. rewrite E, zlen_cons. pose proof (zlen_nonneg t). lia. Qed.
Lemma type_range v : 0 <= type_of v < 2^8.
Proof. destruct v; split; vm_compute; congruence. Qed.
Lemma R_scalar v : is_scalar v = true -> R_v v.
Proof.
  intros Hs Hv Ht path fo pos pre w3 post HDe Hpos Hfo Hstr Hlen Hname Hsh. pose proof (vtext_pos v Hv) as Hvp.
  assert (HDl : zlen D = zlen pre + zlen w3 + zlen (vtext v) + zlen post) by (rewrite HDe, !zlen_app; lia). pose proof (zlen_nonneg post).
  assert (Hd : 0 <= pos + zlen (vtext v) - fo < 2^32) by lia. 
  assert (E : vacts data path fo pos v = [AFind (dotted path) (type_of v); APut (dotted path) (type_of v) (RV (MP (at_ + fo) (pos + zlen (vtext v) - fo)) (match key_bytes unquote to_float v with Some b => b | None => [] end)) data; AAdd (dotted path) (type_of v) (vadd v (pos + zlen (vtext v) - fo))]).
  { rewrite <- join_dotted. assert (Eu : u64 (at_ + fo) = at_ + fo) by (apply u64_id; lia). assert (E3 : u32 (pos + zlen (vtext v) - fo) = pos + zlen (vtext v) - fo) by (apply u32_id; lia).
    destruct v; try discriminate; cbn [JsonlDoc.vacts mp_off vval app mp_len key_bytes]; rewrite Eu, E3; reflexivity. }
  rewrite E. split; [|split].
  - split; [lia|]. unfold puts. cbn [flat_map put_of app]. unfold koff. cbn [rv_dp mp_off]. split; [constructor; [cbn [snd]; lia|constructor]|constructor; [intros []|constructor]].
  - constructor; [|constructor; [|constructor; [exact Hname|constructor]]]; cbn [JsonlHist.static_ok].
    + split; auto. apply type_range.
    + unfold op_ok, jc, ix_codec. cbn [fst snd rv_dp rv_val mp_off mp_len cwidth cdata cparse]. split.
      * split; [lia|]. split; [lia|]. split; [lia|]. split; [lia|]. destruct v as [|b|t|b|w l|w l]; try discriminate; cbn [type_of key_bytes].
        -- split; [intros _; reflexivity|intros X; discriminate X].
        -- split; [intros _; reflexivity|intros X; discriminate X].
        -- cbn [vwf] in Hv. destruct Hv as [_ (f & Hf)]. rewrite Hf. split; [intros _; rewrite (float_8 Hf); lia|intros X; discriminate X].
        -- split; [intros X; exfalso; apply X; reflexivity|]. intros _. destruct Hstr as [Hw3 Hpre]. split; [lia|].
           rewrite HDe. replace (pre ++ w3 ++ vtext (JStr b) ++ post) with (pre ++ (w3 ++ vtext (JStr b)) ++ post) by (rewrite <- app_assoc; reflexivity).
           rewrite slice_mid; [|lia|rewrite zlen_app; lia]. apply jparse_string; auto.
      * destruct v as [|b|t|b|w l|w l]; try discriminate; cbn [type_of key_bytes]; [right; reflexivity|right; reflexivity| |left; reflexivity].
        cbn [vwf] in Hv. destruct Hv as [_ (f & Hf)]. rewrite Hf. right. rewrite (float_8 Hf). reflexivity.
  - intros L _. f_equal. assert (Ev : vfields path (at_ + pos) v = []) by (destruct v; try discriminate; reflexivity). rewrite Ev. cbn [map flat_map]. rewrite app_nil_r.
    unfold pfacts, base, entry, weight, occ_id, rec. cbn [fst snd fd_name fd_value fd_from fd_to].
    replace (at_ + pos + zlen (vtext v) - (at_ + fo)) with (pos + zlen (vtext v) - fo) by lia. destruct v; try discriminate; reflexivity.
Qed.
Lemma searched_is name : searched hdrs name = is_search hdrs name.
Proof.
  reflexivity.
Qed.
(** the n-grams of a searched field *)
Lemma gacts_ok name b fo to gn ft l : zlen name <= 236 -> 0 <= fo -> to <= zlen D -> zlen (unquote b) < 2^32 -> 1 <= gn <= 3 -> 0 <= ft < 2^8 -> determine_type ft = gn + 1 ->
  grams (unquote b) gn = Ok l -> NoDup (map (fun w : bytes * Z * Z => snd (fst w)) l) -> Forall (fun w : bytes * Z * Z => zlen (fst (fst w)) = gn /\ 0 <= snd (fst w) < to - (at_ + fo)) l -> at_ + fo <= to ->
  let acts := gacts unquote grams data name fo b gn ft in
  fresh (at_ + fo) acts to /\ Forall (static_ok D) acts /\ (forall x, In x (puts acts) -> fst x = (name, ft)) /\
  acts = pfacts (gram_posting grams (rec (FD name (JStr b) (at_ + fo) to)) (unquote b) gn ft).
Proof.
  intros Hname H0 Hto Hlen Hn1 Hft Hdt El Hnd Hl Hle acts. rewrite Forall_forall in Hl. pose proof (zlen_nonneg (unquote b)).
  assert (Eg : gram_acts name ft (MP (u64 (at_ + fo)) 0) (zlen (unquote b)) data l = map (fun w => APut name ft (RV (MP (at_ + fo + snd (fst w)) (zlen (unquote b))) (fst (fst w))) data) l).
  { unfold gram_acts. apply map_ext_in. intros w Hw. destruct (Hl w Hw) as [_ Ho]. cbn [mp_off]. rewrite (@u64_id (at_ + fo)) by lia. rewrite u64_id by lia. rewrite u32_id by lia. reflexivity. }
  assert (Ea : acts = AFind name ft :: map (fun w => APut name ft (RV (MP (at_ + fo + snd (fst w)) (zlen (unquote b))) (fst (fst w))) data) l ++ [AAdd name ft (gram_sum l)]).
  { unfold acts, gacts, gram_list. rewrite El. cbn [mp_off]. rewrite Eg. reflexivity. }
  assert (Ep : puts acts = map (fun w => (name, ft, at_ + fo + snd (fst w))) l).
  { rewrite Ea. change (puts (?x :: ?y)) with (put_of x ++ puts y). cbn [put_of app]. rewrite puts_app. change (puts [AAdd name ft (gram_sum l)]) with (@nil (bytes * Z * Z)). rewrite app_nil_r.
    clear. induction l as [|w l IH]; [reflexivity|]. cbn [map]. change (puts (?x :: ?y)) with (put_of x ++ puts y). rewrite IH. reflexivity. }
  split; [|split; [|split]].
  - split; [lia|]. rewrite Ep. split.
    + rewrite Forall_forall. intros x Hx. apply in_map_iff in Hx. destruct Hx as (w & <- & Hw). destruct (Hl w Hw) as [_ Ho]. cbn [snd]. lia.
    + clear -Hnd. induction l as [|w l IH]; [constructor|]. cbn [map] in *. inversion Hnd as [|? ? H1 H2]; subst. constructor; [|auto]. intros X. apply in_map_iff in X. destruct X as (w' & E & Hw'). apply H1.
      apply in_map_iff. exists w'. split; [|auto]. injection E as E. lia.
  - rewrite Ea. constructor; [split; auto|]. apply Forall_app. split; [|constructor; [exact Hname|constructor]]. rewrite Forall_forall. intros x Hx. apply in_map_iff in Hx. destruct Hx as (w & <- & Hw).
    destruct (Hl w Hw) as [Hz Ho]. cbn [JsonlHist.static_ok]. unfold op_ok, jc, ix_codec. cbn [fst snd rv_dp rv_val mp_off mp_len cwidth cdata cparse]. rewrite Hdt. split; [|right; lia].
    split; [lia|]. split; [lia|]. split; [lia|]. split; [lia|]. split; [intros _; lia|]. intros X. lia.
  - rewrite Ep. intros x Hx. apply in_map_iff in Hx. destruct Hx as (w & <- & _). reflexivity.
  - rewrite Ea. unfold pfacts, gram_posting, pieces, rec. cbn [po_id po_entries po_weight fst snd fd_name fd_from]. rewrite El. cbv zeta. rewrite map_map. reflexivity.
Qed.
Lemma R_s path v fo to : zlen (dotted path) <= 236 -> 0 <= fo /\ at_ + fo <= to -> to <= zlen D -> search_fits unquote grams hdrs (rec (FD (dotted path) v (at_ + fo) to)) ->
  let acts := sacts data (join path) fo v in
  fresh (at_ + fo) acts to /\ Forall (static_ok D) acts /\ (forall x, In x (puts acts) -> exists ft, is_gram ft = true /\ fst x = (dotted path, ft)) /\
  acts = flat_map pfacts (tl (postings (rec (FD (dotted path) v (at_ + fo) to)))) /\ (acts <> [] -> exists b, v = JStr b).
Proof.
  intros Hname H0 Hto Hs acts. unfold JsonlSpec.postings, rec. cbn [tl fst fd_value fd_name]. unfold acts. rewrite join_dotted.
  assert (Hnone : fresh (at_ + fo) [] to /\ Forall (static_ok D) [] /\ (forall x, In x (puts []) -> exists ft, is_gram ft = true /\ fst x = (dotted path, ft)) /\ @nil act = flat_map pfacts [] /\ (@nil act <> [] -> exists b, v = JStr b)).
  { split; [apply fresh_nil; lia|]. split; [constructor|]. split; [intros x []|]. split; [reflexivity|]. intros X. contradiction. }
  destruct v as [|b|t|b|w l|w l]; try exact Hnone. cbn [JsonlDoc.sacts]. change (searched hdrs (dotted path)) with (is_search hdrs (dotted path)). destruct (is_search hdrs (dotted path)) eqn:Hse; [|destruct Hnone as (N1 & N2 & N3 & N4 & N5); split; [auto|]; split; [auto|]; split; [auto|]; split; [auto|]; intros X; contradiction].
  unfold search_fits, rec in Hs. cbn [fst fd_name] in Hs. specialize (Hs Hse). unfold gram_fits in Hs. cbn [fst fd_value fd_from fd_to] in Hs. destruct Hs as [Hlen Hg].
  destruct (Hg 1 ltac:(lia)) as (l1 & E1 & N1 & F1). destruct (Hg 2 ltac:(lia)) as (l2 & E2 & N2 & F2). destruct (Hg 3 ltac:(lia)) as (l3 & E3 & N3 & F3).
  destruct (@gacts_ok (dotted path) b fo to 1 FTUnigram l1 Hname ltac:(lia) Hto Hlen ltac:(lia) ltac:(split; reflexivity || discriminate) eq_refl E1 N1 F1 ltac:(lia)) as (A1 & A2 & A3 & A4).
  destruct (@gacts_ok (dotted path) b fo to 2 FTBigram l2 Hname ltac:(lia) Hto Hlen ltac:(lia) ltac:(split; reflexivity || discriminate) eq_refl E2 N2 F2 ltac:(lia)) as (B1 & B2 & B3 & B4).
  destruct (@gacts_ok (dotted path) b fo to 3 FTTrigram l3 Hname ltac:(lia) Hto Hlen ltac:(lia) ltac:(split; reflexivity || discriminate) eq_refl E3 N3 F3 ltac:(lia)) as (C1 & C2 & C3 & C4).
  split; [|split; [|split; [|split]]].
  - apply fresh_beside; [exact A1|apply fresh_beside; [exact B1|exact C1|]|].
    + intros x y Hx Hy. rewrite (B3 x Hx), (C3 y Hy). discriminate.
    + intros x y Hx Hy. rewrite (A3 x Hx). rewrite puts_app in Hy. apply in_app_or in Hy. destruct Hy as [Hy|Hy]; [rewrite (B3 y Hy)|rewrite (C3 y Hy)]; discriminate.
  - apply Forall_app. split; [exact A2|]. apply Forall_app. split; [exact B2|exact C2].
  - intros x Hx. rewrite !puts_app in Hx. apply in_app_or in Hx. destruct Hx as [Hx|Hx]; [exists FTUnigram; split; auto|]. apply in_app_or in Hx. destruct Hx as [Hx|Hx]; [exists FTBigram|exists FTTrigram]; split; auto.
  - unfold gram_postings. cbn [flat_map]. rewrite app_nil_r. unfold rec in A4, B4, C4. rewrite <- A4, <- B4, <- C4. reflexivity.
  - intros _. exists b. reflexivity.
Qed.
Lemma vacts_puts data' path fo pos v b : v = JStr b -> forall x, In x (puts (vacts data' path fo pos v)) -> snd (fst x) = FTString.
Proof. intros ->. cbn [JsonlDoc.vacts vval vtype app]. unfold puts. cbn [flat_map put_of app]. intros x [<-|[]]. reflexivity. Qed.
Lemma R_all : (forall v, R_v v) /\ (forall l : jitems, True) /\ (forall l, R_m l).
Proof.
  apply json_ind; try (intros; exact I); try (intros; apply R_scalar; reflexivity).
  - (* array *) intros w l _ Hv Ht path fo pos pre w3 post HDe Hpos Hfo _ Hlen Hname Hsh. pose proof (vtext_pos _ Hv) as Hvp.
    cbn [JsonlDoc.vacts vval app vadd vtype]. rewrite join_dotted. split; [split; [lia|split; constructor]|]. split; [constructor; [split; [auto|apply (type_range (JArr w l))]|constructor; [auto|constructor]]|].
    intros L HL. cbn [JsonlSpec.vfields map flat_map]. rewrite app_nil_r. reflexivity.
  - (* object *) intros w l IH Hv Ht path fo pos pre w3 post HDe Hpos Hfo _ Hlen Hname Hsh. pose proof (vtext_pos _ Hv) as Hvp.
    cbn [vwf] in Hv. destruct Hv as [Hw Hl]. cbn [vtight] in Ht. cbn [JsonlSpec.vfields] in *. cbn [vtext] in *.
    assert (Hz : zlen (123 :: w ++ mtext true l ++ [125]) = 1 + zlen w + zlen (mtext true l) + 1) by (rewrite zlen_cons, !zlen_app; change (zlen [125]) with 1; lia).
    pose proof (zlen_nonneg w). pose proof (zlen_nonneg (mtext true l)).
    destruct (IH Hl Ht path (pos + 1 + zlen w) true (pre ++ w3 ++ 123 :: w) (125 :: post)) as (R1 & R2 & R3).
    { rewrite HDe. rewrite <- !app_assoc. cbn [app]. rewrite <- !app_assoc. reflexivity. }
    { rewrite !zlen_app, zlen_cons. lia. }
    { lia. }
    { lia. }
    { replace (at_ + (pos + 1 + zlen w)) with (at_ + pos + 1 + zlen w) by lia. exact Hsh. }
    cbn [JsonlDoc.vacts vtype vadd]. rewrite join_dotted. split; [|split].
    + change (fresh (at_ + fo) ([AFind (dotted path) FTObject] ++ (macts data path (pos + 1 + zlen w) true l ++ [AAdd (dotted path) FTObject 0])) (at_ + pos + zlen (123 :: w ++ mtext true l ++ [125]))).
      apply fresh_app with (at_ + fo); [apply fresh_put_none; [lia|reflexivity]|]. eapply fresh_app; [eapply fresh_wide; [exact R1|lia|apply Z.le_refl]|]. apply fresh_put_none; [lia|reflexivity].
    + constructor; [split; [auto|apply (type_range (JObj w l))]|]. apply Forall_app. auto.
    + intros L HL. cbn [run]. assert (HL' : canon (step (AFind (dotted path) FTObject) L)) by (apply canon_step; auto).
      rewrite run_app, R3 by auto. cbn [run]. rewrite add_zero by (apply canon_run; auto).
      cbn [map flat_map]. rewrite run_app. replace (at_ + (pos + 1 + zlen w)) with (at_ + pos + 1 + zlen w) by lia. f_equal.
      unfold pfacts, base, rec, entry, weight, occ_id. cbn [po_id po_entries po_weight fst snd fd_name fd_value fd_from fd_to key_bytes map app type_of]. cbn [run]. rewrite add_zero by auto. reflexivity.
  - intros _ _ path pos first pre post HDe Hpos H0 Hlen Hsh. cbn [JsonlDoc.macts mtext]. change (zlen (@nil Z)) with 0. split; [apply fresh_nil; lia|]. split; [constructor|reflexivity].
  - intros w1 key w2 w3 v IHv w4 t IHt (H1 & Hk & H2 & H3 & Hv & H4 & Ht) (T1 & T2 & T3) path pos first pre post HDe Hpos H0 Hlen Hsh.
    cbn [JsonlSpec.mfields] in Hsh |- *. cbv zeta in Hsh |- *. cbn [mtext] in HDe, Hlen |- *.
    set (kend := pos + zlen (comma first) + zlen w1 + (zlen key + 2)). set (vstart := kend + zlen w2 + 1 + zlen w3).
    assert (Hz : zlen (comma first ++ w1 ++ (34 :: key ++ [34]) ++ w2 ++ 58 :: w3 ++ vtext v ++ w4 ++ mtext false t) = vstart + zlen (vtext v) + zlen w4 + zlen (mtext false t) - pos).
    { unfold vstart, kend. zl. lia. }
    rewrite Hz in *. pose proof (zlen_nonneg (comma first)). pose proof (zlen_nonneg w1). pose proof (zlen_nonneg key). pose proof (zlen_nonneg w2). pose proof (zlen_nonneg w3). pose proof (zlen_nonneg w4). pose proof (zlen_nonneg (mtext false t)). pose proof (vtext_pos v Hv).
    replace (at_ + pos + zlen (comma first) + zlen w1 + zlen key + 2) with (at_ + kend) in * by (unfold kend; lia).
    replace (at_ + kend + zlen w2 + 1 + zlen w3) with (at_ + vstart) in * by (unfold vstart; lia).
    replace (at_ + vstart + zlen (vtext v) + zlen w4) with (at_ + (vstart + zlen (vtext v) + zlen w4)) in * by lia.
    replace (at_ + kend + 1) with (at_ + (kend + 1)) in * by lia.
    inversion Hsh as [|? ? S1 S2]; subst x l. apply Forall_app in S2. destruct S2 as [S2 S3]. destruct S1 as [S1 S1g]. cbn [fd_name] in S1.
    destruct (IHv Hv T2 (path ++ [unquote key]) (kend + 1) vstart (pre ++ comma first ++ w1 ++ (34 :: key ++ [34]) ++ w2 ++ [58]) w3 (w4 ++ mtext false t ++ post)) as (V1 & V2 & V3); auto.
    { rewrite HDe. repeat first [rewrite <- app_assoc | progress (cbn [app])]. reflexivity. }
    { zl. unfold vstart, kend. lia. }
    { lia. }
    { destruct v; auto. split; auto. rewrite T1. zl. unfold kend. lia. }
    { lia. }
    destruct (IHt Ht T3 path (vstart + zlen (vtext v) + zlen w4) false (pre ++ comma first ++ w1 ++ (34 :: key ++ [34]) ++ w2 ++ 58 :: w3 ++ vtext v ++ w4) post) as (M1 & M2 & M3); auto.
    { rewrite HDe. repeat first [rewrite <- app_assoc | progress (cbn [app])]. reflexivity. }
    { zl. unfold vstart, kend. lia. }
    { lia. }
    { lia. }
    assert (HDz : at_ + vstart + zlen (vtext v) <= zlen D).
    { rewrite HDe, zlen_app, zlen_app, Hz. pose proof (zlen_nonneg post). lia. }
    destruct (@R_s (path ++ [unquote key]) v (kend + 1) (at_ + vstart + zlen (vtext v)) S1 ltac:(lia) HDz S1g) as (G1 & G2 & G3 & G4 & G5).
    cbn [JsonlDoc.macts]. cbv zeta. fold kend. fold vstart. split; [|split].
    + rewrite app_assoc. eapply fresh_app; [|eapply fresh_wide; [exact M1|apply Z.le_refl|lia]].
      apply (@fresh_wide _ (at_ + (kend + 1)) (at_ + vstart + zlen (vtext v))); [|lia|lia].
      apply fresh_beside; [exact V1|exact G1|]. intros y z Hy Hz'. destruct (G3 z Hz') as (ft & Hg & ->).
      assert (Hb : exists b, v = JStr b) by (apply G5; intros X; rewrite X in Hz'; destruct Hz').
      destruct Hb as (b & Hb). pose proof (@vacts_puts data (path ++ [unquote key]) (kend + 1) vstart v b Hb y Hy) as Hs. intros X. rewrite X in Hs. cbn [snd] in Hs. rewrite Hs in Hg. discriminate Hg.
    + apply Forall_app. split; [exact V2|]. apply Forall_app. split; [exact G2|exact M2].
    + intros L HL. rewrite run_app, V3 by auto. rewrite run_app. rewrite M3 by (apply canon_run, canon_run; auto).
      cbn [map flat_map]. rewrite map_app, flat_map_app, !run_app. f_equal.
      assert (Ef : forall f, facts (rec f) = pfacts (base (rec f)) ++ flat_map pfacts (tl (postings (rec f)))) by reflexivity. rewrite Ef, run_app, <- G4.
      destruct (sacts data (join (path ++ [unquote key])) (kend + 1) v) as [|a0 q0] eqn:Esa; [reflexivity|].
      destruct G5 as (b & ->); [discriminate|]. cbn [JsonlSpec.vfields map flat_map run]. reflexivity.
Qed.
End Line.

(** ** The loop over lines *)
Section Sync.
Variables (unquote : bytes -> bytes) (to_float : bytes -> option bytes) (grams : bytes -> Z -> res (list (bytes * Z * Z))) (hdrs : list bytes).
Hypothesis float_8 : forall t f, to_float t = Some f -> zlen f = 8.
Notation token := (token unquote to_float).
Notation scan := (scan unquote to_float grams hdrs).
Notation ifile := (ifile determine_type (jparse unquote to_float)).
Notation acts_ok := (acts_ok unquote to_float).
Notation sim := (sim unquote to_float).
(** the actions of [sync_loop] *)
Fixpoint w_loop (fuel : nat) (df : bytes) (m : file_meta) : W file_meta :=
  match fuel with
  | O => wlift Hang
  | S fuel' =>
      let ro := fm_read_offset m in
      if zlen df <? ro then wlift Panic
      else
        match index_byte 10 (skipn (Z.to_nat ro) df) with
        | None => wret m
        | Some i =>
            wbind (wlift (match token (new_dec (slice df ro i)) with
                       | Ok (TDelim c, d) => if c =? 123 then Ok d else Err (EMsg "only json objects are supported at the root")
                       | Panic => Panic | Crash => Crash | Hang => Hang
                       | _ => Err (EMsg "only json objects are supported at the root")
                       end)) (fun x =>
            wbind (scan (S (length (slice df ro i))) (MP ro (u32 i)) [] x) (fun d =>
            wbind (wlift (close_object unquote to_float d)) (fun _ =>
            w_loop fuel' df (FM (fm_version m) (fm_format m) (u64 (ro + i + 1)) (u64 (fm_entries m + 1))))))
        end
  end.
Lemma sim_loop D : forall fuel m, sim D (fun _ => True) (-1) (sync_loop unquote to_float grams hdrs fuel file_slot D m) (w_loop fuel D m).
Proof.
  induction fuel as [|fuel IH]; intros m; cbn [sync_loop w_loop]; [apply sim_lift|]. cbv zeta. destruct (zlen D <? fm_read_offset m); [apply (@sim_lift unquote to_float D _ _ _ Panic)|].
  destruct (index_byte _ _) as [i|]; [|apply sim_ret].
  assert (HgL : forall m, grows (sync_loop unquote to_float grams hdrs fuel file_slot D m)) by (intros; apply grows_sync_loop).
  apply sim_bind; [exact grams|intros ? ? ? ?; exact I|apply (@sim_lift unquote to_float D)|intros; gr; apply grows_handle|]. intros x.
  apply sim_bind; [exact grams|intros ? ? ? ?; exact I| |intros; gr|].
  - apply (@sim_handle unquote to_float grams hdrs D (MP (fm_read_offset m) (u32 i)) _ [] x).
  - intros d. apply sim_bind; [exact grams|intros ? ? ? ?; exact I|apply sim_lift|intros; gr|]. intros _. apply IH.
Qed.
(** a metadata record the loop returns can be stored *)
Lemma loop_meta_ok df : forall fuel m m' a, file_meta_ok m -> w_loop fuel df m = (a, Ok m') -> file_meta_ok m' /\ fm_version m' = fm_version m /\ fm_format m' = fm_format m.
Proof.
  induction fuel as [|fuel IH]; intros m m' a Hm E; cbn [w_loop] in E; [discriminate|]. cbv zeta in E. destruct (_ <? _); [discriminate|]. destruct (index_byte _ _) as [i|]; [|injection E as _ <-; auto].
  set (t := match token (new_dec (slice df (fm_read_offset m) i)) with Ok (TDelim c, d) => _ | _ => _ end) in E. destruct t as [x| | | |]; try discriminate. rewrite wlift_ok in E.
  destruct (scan _ _ _ _) as [a1 [d| | | |]]; try (unfold wbind in E; cbn [fst snd] in E; discriminate). unfold wbind at 1 in E. cbn [fst snd] in E.
  destruct (close_object unquote to_float d) as [d2| | | |]; try (unfold wbind, wlift in E; cbn [fst snd] in E; discriminate). rewrite wlift_ok in E.
  match type of E with (_, snd ?w) = _ => destruct w as [a2 r2] eqn:E2 end. cbn [fst snd] in E. injection E as _ ->.
  apply IH in E2; [exact E2|]. destruct Hm as (H1 & H2 & H3 & H4). unfold file_meta_ok. cbn. split; [exact H1|]. split; [exact H2|]. unfold u64. split; apply Z.mod_pos_bound; reflexivity.
Qed.
(** Synchronize: the index file changes by the actions of the loop; on success
    the loop's metadata are stored, otherwise the old ones stay. *)
Theorem sync_run D fm l s : ifile D fm l s -> let w := w_loop (S (length D)) D fm in
  acts_ok D (fst w) (map strip l) -> small (zlen (file (snd (jsonl_sync unquote to_float grams hdrs file_slot D s)))) (run (fst w) (map strip l)) ->
  exists l' s', jsonl_sync unquote to_float grams hdrs file_slot D s = (match snd w with Ok _ => Ok tt | Err e => Err e | Panic => Panic | Crash => Crash | Hang => Hang end, s') /\
    ifile D (match snd w with Ok m => m | _ => fm end) l' s' /\ map strip l' = run (fst w) (map strip l).
Proof.
  intros Hi w Ha Hf. destruct (ifile_holds (wd_ok grams) Hi) as (HD & fl & ms & x0 & L & H).
  destruct (holds_if_metadata H) as (s0 & E0 & Ef). unfold jsonl_sync in *. rewrite (@bind_ok _ _ _ _ _ _ _ _ E0) in *.
  assert (Hi0 : ifile D fm l s0).
  { pose proof (holds_file_metadata H) as (b & p & F1 & F2). assert (Es : s0 = set_pos s p).
    { revert E0. unfold if_metadata. rewrite <- (holds_slot0 H). rewrite (@bind_ok _ _ _ _ _ _ _ _ F1). unfold lift. rewrite F2. intros X. injection X. auto. }
    subst s0. apply if_read. exact Hi. }
  assert (Hf1 : small (zlen (file (snd (sync_loop unquote to_float grams hdrs (S (length D)) file_slot D fm s0)))) (run (fst w) (map strip l))).
  { destruct Hf as [Hf|Hf]; [left|right; exact Hf]. unfold bind in Hf. destruct (sync_loop _ _ _ _ _ _ _ _ s0) as [[a|e| | |] s1]; cbn [snd] in *; auto. pose proof (grows_if_set_metadata file_slot a s1). lia. }
  destruct (@sim_loop D (S (length D)) fm fm l s0 Hi0 I Ha Hf1) as (l' & s' & E1 & I1 & R1 & _). fold w in E1, R1.
  destruct w as [a r] eqn:Ew. cbn [fst snd] in *. destruct r as [m| | | |]; [|unfold bind; rewrite E1; exists l', s'; auto..].
  rewrite (@bind_ok _ _ _ _ _ _ _ _ E1). destruct (@loop_meta_ok D _ fm m a (proj1 (proj2 (ho_fm H))) Ew) as (M1 & M2 & M3).
  destruct (ifile_holds (wd_ok grams) I1) as (_ & fl1 & ms1 & x1 & L1 & H1).
  destruct (@holds_set_meta _ s' fm m l' fl1 ms1 x1 L1 H1 M1) as (s2 & x' & F1 & F2 & F3 & F4); [rewrite M3; apply (ho_fm H)|].
  exists l', s2. split; [exact F1|]. split; [|exact R1]. eapply if_meta; eauto. rewrite M3. apply (ho_fm H).
Qed.

(** *** Lines *)
Lemma no_nl_ws w : ws w -> ~ In 10 w.
Proof. intros H X. unfold ws in H. rewrite Forall_forall in H. apply H in X. lia. Qed.
Lemma no_nl_body b : str_body b -> ~ In 10 b.
Proof.
  induction 1 as [|c t H1 H2 H3 H IH|c t H1 H IH|a b c d t Ha Hb Hc Hd H IH]; cbn [In]; [tauto|..].
  - intros [X|X]; [lia|auto].
  - intros [X|[X|X]]; [lia|subst; cbn [In] in H1; intuition discriminate|auto].
  - unfold hex_digit in *. intros [X|[X|[X|[X|[X|[X|X]]]]]]; try lia; auto.
Qed.
Lemma no_nl_digits l : digits l -> ~ In 10 l.
Proof. intros H X. unfold digits in H. rewrite Forall_forall in H. apply H in X. lia. Qed.
Lemma no_nl_number t : number t -> ~ In 10 t.
Proof.
  intros (neg & int & frac & exp & -> & Hneg & Hint & Hfrac & Hexp) X. apply in_app_or in X. destruct X as [X|X]; [destruct Hneg as [->| ->]; cbn in X; lia|].
  apply in_app_or in X. destruct X as [X|X].
  { destruct Hint as [->|(c & ds & -> & Hc & Hd)]; cbn [In] in X; [lia|]. destruct X as [X|X]; [lia|]. eapply no_nl_digits; eauto. }
  apply in_app_or in X. destruct X as [X|X].
  { destruct Hfrac as [->|(d & ds & -> & Hd)]; cbn [In] in X; [tauto|]. destruct X as [X|X]; [lia|]. eapply no_nl_digits; eauto. }
  destruct Hexp as [->|(e & sg & d & ds & -> & He & Hs & Hd)]; [contradiction|]. destruct X as [X|X]; [lia|]. apply in_app_or in X.
  destruct X as [X|X]; [destruct Hs as [->|[->| ->]]; cbn in X; lia|]. eapply no_nl_digits; eauto.
Qed.
Lemma no_nl : (forall v, vwf to_float v -> ~ In 10 (vtext v)) /\ (forall l, iwf to_float l -> forall f, ~ In 10 (itext f l)) /\ (forall l, mwf to_float l -> forall f, ~ In 10 (mtext f l)).
Proof.
  assert (A : forall a b : bytes, ~ In 10 a -> ~ In 10 b -> ~ In 10 (a ++ b)) by (intros a b Ha Hb X; apply in_app_or in X; tauto).
  assert (C : forall c (b : bytes), c <> 10 -> ~ In 10 b -> ~ In 10 (c :: b)) by (intros c b Hc Hb [X|X]; [lia|tauto]).
  assert (N : ~ In 10 (@nil Z)) by (intros []).
  assert (K : forall f, ~ In 10 (comma f)) by (intros []; cbn; lia).
  apply json_ind; cbn [vwf iwf mwf vtext itext mtext]; intros.
  - repeat (apply C; [lia|]); auto.
  - destruct b; repeat (apply C; [lia|]); auto.
  - apply no_nl_number. tauto.
  - apply C; [lia|]. apply A; [apply no_nl_body; auto|]. apply C; auto; lia.
  - destruct H0 as [Hw Hl]. apply C; [lia|]. apply A; [apply no_nl_ws; auto|]. apply A; [auto|]. apply C; auto; lia.
  - destruct H0 as [Hw Hl]. apply C; [lia|]. apply A; [apply no_nl_ws; auto|]. apply A; [auto|]. apply C; auto; lia.
  - auto.
  - destruct H1 as (H1 & H2 & H3 & H4). repeat apply A; auto; apply no_nl_ws; auto.
  - auto.
  - destruct H1 as (H1 & H2 & H3 & H4 & H5 & H6 & H7). repeat apply A; auto; try (apply no_nl_ws; assumption).
    + apply C; [lia|]. apply A; [apply no_nl_body; auto|]. apply C; auto; lia.
    + apply C; [lia|]. repeat apply A; auto; apply no_nl_ws; assumption.
Qed.
Lemma no_nl_line x : line_taken to_float x -> ~ In 10 (line_text x).
Proof.
  intros (H1 & H2 & H3) X. destruct no_nl as (N & _). unfold line_text in X. apply in_app_or in X. destruct X as [X|X]; [exact (no_nl_ws H1 X)|].
  apply in_app_or in X. destruct X as [X|X]; [exact (N _ H2 X)|exact (H3 X)].
Qed.
Lemma index_byte_line t r : ~ In 10 t -> index_byte 10 (t ++ 10 :: r) = Some (zlen t).
Proof.
  induction t as [|c t IH]; intros H; [reflexivity|]. cbn [app index_byte]. destruct (Z.eqb_spec c 10); [subst; exfalso; apply H; left; auto|]. rewrite IH by (intros X; apply H; right; auto). rewrite zlen_cons. cbn [option_map]. f_equal. lia.
Qed.
Lemma index_byte_none t : ~ In 10 t -> index_byte 10 t = None.
Proof. induction t as [|c t IH]; intros H; [reflexivity|]. cbn [index_byte]. destruct (Z.eqb_spec c 10); [subst; exfalso; apply H; left; auto|]. rewrite IH by (intros X; apply H; right; auto). reflexivity. Qed.
Lemma index_byte_some t i : index_byte 10 t = Some i -> exists a b, t = a ++ 10 :: b /\ zlen a = i /\ ~ In 10 a.
Proof.
  revert i. induction t as [|c t IH]; intros i E; cbn [index_byte] in E; [discriminate|]. destruct (Z.eqb_spec c 10).
  - subst c. injection E as <-. exists [], t. split; [reflexivity|]. split; [reflexivity|intros []].
  - destruct (index_byte 10 t) as [j|]; [|discriminate]. cbn [option_map] in E. injection E as <-. destruct (IH j eq_refl) as (a & b & -> & Ha & Hn). exists (c :: a), b. split; [reflexivity|]. rewrite zlen_cons. split; [lia|]. intros [X|X]; auto.
Qed.
(** searched names have strings with n-grams *)
Definition ready (l : list field) : Prop := Forall (fun f => is_search hdrs (fd_name f) = true -> gram_ready unquote grams (fd_value f)) l.
Lemma plain_all : (forall v, forall path pos, ready (vfields unquote path pos v) -> vplain unquote grams hdrs path v) /\ (forall l : jitems, True) /\
  (forall l, forall path pos first, ready (mfields unquote path pos first l) -> mplain unquote grams hdrs path l).
Proof.
  apply json_ind; try (intros; exact I).
  - intros w l IH path pos H. cbn [vfields] in H. cbn [vplain]. eapply IH; eauto.
  - intros w1 key w2 w3 v IHv w4 t IHt path pos first H. cbn [mfields] in H. cbv zeta in H. inversion H as [|? ? H1 H2]; subst. apply Forall_app in H2. destruct H2 as [H2 H3].
    cbn [mplain]. cbn [fd_name fd_value] in H1. rewrite join_dotted. split; auto. split; [eapply IHv; eauto|eapply IHt; eauto].
Qed.
Lemma search_ready (o : occ) : search_fits unquote grams hdrs o -> is_search hdrs (fd_name (fst o)) = true -> gram_ready unquote grams (fd_value (fst o)).
Proof.
  intros H Hs. specialize (H Hs). unfold gram_fits in H. unfold gram_ready. destruct (fd_value (fst o)); auto. intros n Hn. destruct (proj2 H n Hn) as (l & E & _). eauto.
Qed.
(** the actions of some lines *)
Fixpoint lacts (at_ : Z) (l : list line) : list act :=
  match l with
  | [] => []
  | x :: t => macts unquote to_float grams hdrs (MP at_ (zlen (line_text x))) [] (zlen (ln_before x) + 1 + zlen (ln_ws x)) true (ln_members x) ++ lacts (at_ + zlen (line_text x) + 1) t
  end.
(** what the theorems ask of a line *)
Definition line_ok (x : line) : Prop := line_taken to_float x /\ mtight (ln_members x) /\ zlen (line_text x) < 2^32.
Definition occ_ok (o : occ) : Prop := zlen (fd_name (fst o)) <= 236 /\ search_fits unquote grams hdrs o.
Lemma lacts_ok D : zlen D < 2^63 -> forall ls at_ pre post, D = pre ++ lines_text ls ++ post -> zlen pre = at_ -> Forall line_ok ls -> Forall occ_ok (occs unquote at_ ls) ->
  fresh at_ (lacts at_ ls) (at_ + zlen (lines_text ls)) /\ Forall (static_ok unquote to_float D) (lacts at_ ls) /\
  forall L, canon L -> run (lacts at_ ls) L = run (flat_map (facts unquote to_float grams hdrs) (occs unquote at_ ls)) L.
Proof.
  intros HD. induction ls as [|x ls IH]; intros at_ pre post HDe Hpre Hls Hoc; cbn [lacts lines_text occs] in *.
  - change (zlen (@nil Z)) with 0. split; [apply fresh_nil; lia|]. split; [constructor|reflexivity].
  - inversion Hls as [|? ? Hx Hls']; subst x0 l. destruct Hx as ((Hb & Hv & Ha) & Ht & Hlen). apply Forall_app in Hoc. destruct Hoc as [Ho1 Ho2].
    pose proof (zlen_nonneg (ln_before x)). pose proof (zlen_nonneg (ln_ws x)). pose proof (zlen_nonneg (ln_after x)). pose proof (zlen_nonneg pre).
    assert (Hz : zlen (line_text x) = zlen (ln_before x) + (1 + zlen (ln_ws x) + zlen (mtext true (ln_members x)) + 1) + zlen (ln_after x)).
    { unfold line_text. cbn [vtext]. rewrite !zlen_app, zlen_cons, !zlen_app. change (zlen [125]) with 1. lia. }
    pose proof (zlen_nonneg (mtext true (ln_members x))).
    destruct (IH (at_ + zlen (line_text x) + 1) (pre ++ line_text x ++ [10]) post) as (R1 & R2 & R3); auto.
    { rewrite HDe. repeat first [rewrite <- app_assoc | progress (cbn [app])]. reflexivity. }
    { rewrite !zlen_app. change (zlen [10]) with 1. lia. }
    cbn [vwf] in Hv. destruct Hv as [Hw Hm]. destruct (@R_all unquote to_float grams hdrs float_8 D at_ (zlen (line_text x)) HD ltac:(lia) ltac:(lia)) as (_ & _ & RM).
    destruct (RM (ln_members x) Hm Ht [] (zlen (ln_before x) + 1 + zlen (ln_ws x)) true (pre ++ ln_before x ++ 123 :: ln_ws x) ([125] ++ ln_after x ++ 10 :: lines_text ls ++ post)) as (M1 & M2 & M3).
    { rewrite HDe. unfold line_text. cbn [vtext]. repeat first [rewrite <- app_assoc | progress (cbn [app])]. reflexivity. }
    { rewrite !zlen_app, zlen_cons. lia. }
    { lia. }
    { lia. }
    { replace (at_ + (zlen (ln_before x) + 1 + zlen (ln_ws x))) with (at_ + zlen (ln_before x) + 1 + zlen (ln_ws x)) by lia.
      unfold shorts. rewrite Forall_map in Ho1. eapply Forall_impl; [|exact Ho1]. intros f Hf. exact Hf. }
    split; [|split].
    + eapply fresh_app; [eapply (@fresh_wide _ _ _ at_ (at_ + zlen (line_text x) + 1) M1); lia|].
      rewrite zlen_app, zlen_cons. apply (@fresh_wide _ _ _ _ _ R1); lia.
    + apply Forall_app. auto.
    + intros L HL. rewrite run_app, M3 by auto. rewrite R3 by (apply canon_run; auto). rewrite flat_map_app, run_app. 
      replace (at_ + (zlen (ln_before x) + 1 + zlen (ln_ws x))) with (at_ + zlen (ln_before x) + 1 + zlen (ln_ws x)) by lia. reflexivity.
Qed.
(** the loop over well-formed lines, whatever follows them *)
Lemma loop_prefix D v f : zlen D < 2^63 -> forall ls at_ pre rest e k, D = pre ++ lines_text ls ++ rest -> zlen pre = at_ -> Forall line_ok ls -> Forall occ_ok (occs unquote at_ ls) ->
  0 <= e -> e + zlen (lines_text ls) < 2^64 ->
  w_loop (length ls + k) D (FM v f at_ e) =
    (lacts at_ ls ++ fst (w_loop k D (FM v f (at_ + zlen (lines_text ls)) (e + zlen ls))), snd (w_loop k D (FM v f (at_ + zlen (lines_text ls)) (e + zlen ls)))).
Proof.
  intros HD. induction ls as [|x ls IH]; intros at_ pre rest e k HDe Hpre Hls Hoc He Hb.
  - cbn [lines_text lacts length Nat.add app]. change (zlen (@nil Z)) with 0. change (zlen (@nil line)) with 0. rewrite !Z.add_0_r. apply surjective_pairing.
  - cbn [lines_text occs length Nat.add] in *. cbn [w_loop fm_read_offset lacts]. cbv zeta. inversion Hls as [|? ? Hx Hls']; subst x0 l. apply Forall_app in Hoc. destruct Hoc as [Ho1 Ho2]. destruct Hx as (Hwf & Ht & Hlen).
    pose proof (no_nl_line Hwf) as Hnl. pose proof Hwf as (Hbf & Hv & Haf). cbn [vwf] in Hv. destruct Hv as [Hw Hm].
    pose proof (zlen_nonneg pre). pose proof (zlen_nonneg (line_text x)). pose proof (zlen_nonneg (lines_text ls)). pose proof (zlen_nonneg rest).
    assert (HDz : zlen D = at_ + zlen (line_text x) + 1 + zlen (lines_text ls) + zlen rest).
    { rewrite HDe, !zlen_app, zlen_cons. lia. }
    destruct (Z.ltb_spec (zlen D) at_); [lia|].
    assert (Esk : skipn (Z.to_nat at_) D = line_text x ++ 10 :: lines_text ls ++ rest).
    { rewrite HDe, <- Hpre. unfold zlen. rewrite Nat2Z.id, skipn_app, skipn_all, Nat.sub_diag. cbn [app skipn]. rewrite <- app_assoc. reflexivity. }
    rewrite Esk, index_byte_line by auto.
    assert (Esl : slice D at_ (zlen (line_text x)) = line_text x).
    { unfold slice. rewrite Esk. unfold zlen. rewrite Nat2Z.id, firstn_app, Nat.sub_diag, firstn_all. cbn [firstn]. apply app_nil_r. }
    rewrite Esl. assert (Hpl : mplain unquote grams hdrs [] (ln_members x)).
    { destruct plain_all as (_ & _ & P). eapply P. rewrite Forall_map in Ho1. eapply Forall_impl; [|exact Ho1]. intros g Hg Hsg. apply (@search_ready (g, MP at_ (zlen (line_text x))) (proj2 Hg) Hsg). }
    destruct (@scan_line unquote to_float grams hdrs (MP at_ (u32 (zlen (line_text x)))) (ln_before x) (ln_ws x) (ln_members x) (ln_after x) Hbf Hw Hm Hpl) as (d & d' & d'' & T1 & T2 & T3).
    fold (line_text x) in T1, T2. rewrite T1. change (123 =? 123) with true. cbv iota. rewrite wlift_ok. rewrite T2.
    assert (Eu : u32 (zlen (line_text x)) = zlen (line_text x)) by (unfold u32; apply Z.mod_small; lia). rewrite Eu in *.
    assert (Eo : u64 (at_ + zlen (line_text x) + 1) = at_ + zlen (line_text x) + 1) by (unfold u64; rewrite Z.mod_small; lia).
    rewrite zlen_app, zlen_cons in Hb. assert (Ee : u64 (e + 1) = e + 1) by (unfold u64; rewrite Z.mod_small; lia).
    erewrite wbind_ok; [|rewrite T3, wlift_ok; cbn [fm_version fm_format fm_entries]; rewrite Eo, Ee; apply (IH (at_ + zlen (line_text x) + 1) (pre ++ line_text x ++ [10]) rest (e + 1) k)].
    + rewrite zlen_app, zlen_cons, (zlen_cons x ls), app_assoc.
      replace (at_ + zlen (line_text x) + 1 + zlen (lines_text ls)) with (at_ + (zlen (line_text x) + (1 + zlen (lines_text ls)))) by lia.
      replace (e + 1 + zlen ls) with (e + (1 + zlen ls)) by lia. reflexivity.
    + rewrite HDe. repeat first [rewrite <- app_assoc | progress (cbn [app])]. reflexivity.
    + rewrite !zlen_app. change (zlen [10]) with 1. lia.
    + auto.
    + exact Ho2.
    + lia.
    + lia.
Qed.
Lemma len_lines ls : (length ls <= length (lines_text ls))%nat.
Proof. induction ls as [|x ls IH]; cbn [lines_text length]; [lia|]. rewrite app_length. cbn [length]. lia. Qed.
(** ... and then nothing but an unfinished line *)
Lemma loop_stop D v f at_ e fuel pre tail : D = pre ++ tail -> zlen pre = at_ -> ~ In 10 tail -> w_loop (S fuel) D (FM v f at_ e) = ([], Ok (FM v f at_ e)).
Proof.
  intros HDe Hpre Hnt. cbn [w_loop fm_read_offset]. cbv zeta. rewrite HDe, zlen_app. pose proof (zlen_nonneg tail). destruct (Z.ltb_spec (zlen pre + zlen tail) at_); [lia|].
  replace (skipn (Z.to_nat at_) (pre ++ tail)) with tail; [|rewrite <- Hpre; unfold zlen; rewrite Nat2Z.id, skipn_app, skipn_all, Nat.sub_diag; reflexivity].
  rewrite index_byte_none by auto. reflexivity.
Qed.
Lemma loop_lines D v f : zlen D < 2^63 -> forall ls at_ pre tail e fuel, D = pre ++ lines_text ls ++ tail -> zlen pre = at_ -> ~ In 10 tail -> Forall line_ok ls -> Forall occ_ok (occs unquote at_ ls) ->
  (length (lines_text ls) < fuel)%nat -> 0 <= e -> e + zlen (lines_text ls) < 2^64 ->
  w_loop fuel D (FM v f at_ e) = (lacts at_ ls, Ok (FM v f (at_ + zlen (lines_text ls)) (e + zlen ls))).
Proof.
  intros HD ls at_ pre tail e fuel HDe Hpre Hnt Hls Hoc Hfuel He Hb. pose proof (len_lines ls).
  replace fuel with (length ls + S (fuel - S (length ls)))%nat by lia. rewrite (@loop_prefix D v f HD ls at_ pre tail e _ HDe Hpre Hls Hoc He Hb).
  rewrite (@loop_stop D v f (at_ + zlen (lines_text ls)) (e + zlen ls) _ (pre ++ lines_text ls) tail); [|rewrite <- app_assoc; auto|rewrite zlen_app; lia|auto].
  cbn [fst snd]. rewrite app_nil_r. reflexivity.
Qed.
Lemma scalar_no_delim b c r : scalar unquote to_float b = Some (TDelim c, r) -> False.
Proof.
  unfold scalar. destruct b as [|a t]; [discriminate|]. destruct (a =? 34); [destruct (str_end InStr t) as [[? ?]|]; discriminate|].
  destruct ((a =? 45) || is_digit a); [destruct (num_end _ t) as [[v ?]|]; [destruct (to_float (a :: v)); discriminate|discriminate]|].
  destruct (a =? 116); [destruct (strip_prefix _ _); discriminate|]. destruct (a =? 102); [destruct (strip_prefix _ _); discriminate|].
  destruct (a =? 110); [destruct (strip_prefix _ _); discriminate|]. discriminate.
Qed.
(** ... or a line that is not an object *)
Lemma root_bad x : match skip_space x with c :: _ => c <> 123 | [] => True end ->
  match token (new_dec x) with
  | Ok (TDelim c, d) => if c =? 123 then Ok d else Err (EMsg "only json objects are supported at the root")
  | Panic => Panic | Crash => Crash | Hang => Hang
  | _ => Err (EMsg "only json objects are supported at the root")
  end = Err (EMsg "only json objects are supported at the root").
Proof.
  intros Hx. assert (T : match token (new_dec x) with Ok (TDelim c, _) => c <> 123 | Panic | Crash | Hang => False | _ => True end).
  { rewrite token_two. unfold new_dec. cbn [token_loop]. unfold skip_d. cbn [d_rest d_st d_off d_stack]. destruct (skip_space x) as [|c t]; [exact I|].
    destruct (Z.eqb_spec c 91); [cbn; lia|]. destruct (Z.eqb_spec c 93); [exact I|]. destruct (Z.eqb_spec c 123); [contradiction|]. destruct (Z.eqb_spec c 125); [exact I|].
    destruct (Z.eqb_spec c 58); [exact I|]. destruct (Z.eqb_spec c 44); [exact I|].
    destruct (c =? 34); cbv iota; cbn [value_allowed]; (destruct (scalar _ _ (c :: t)) as [[tk r]|] eqn:Es; [|exact I]);
      (destruct tk; try exact I; exfalso; eapply scalar_no_delim; eauto). }
  destruct (token (new_dec x)) as [[[c| | | |] d]| | | |]; try contradiction; try reflexivity. destruct (Z.eqb_spec c 123); [contradiction|reflexivity].
Qed.
Lemma loop_bad D v f at_ e fuel pre x rest : D = pre ++ x ++ 10 :: rest -> zlen pre = at_ -> ~ In 10 x -> match skip_space x with c :: _ => c <> 123 | [] => True end ->
  w_loop (S fuel) D (FM v f at_ e) = ([], Err (EMsg "only json objects are supported at the root")).
Proof.
  intros HDe Hpre Hnl Hx. cbn [w_loop fm_read_offset]. cbv zeta. pose proof (zlen_nonneg x). pose proof (zlen_nonneg rest).
  destruct (Z.ltb_spec (zlen D) at_) as [Hz|Hz]; [rewrite HDe, !zlen_app, zlen_cons in Hz; lia|].
  assert (Esk : skipn (Z.to_nat at_) D = x ++ 10 :: rest).
  { rewrite HDe, <- Hpre. unfold zlen. rewrite Nat2Z.id, skipn_app, skipn_all, Nat.sub_diag. reflexivity. }
  rewrite Esk, index_byte_line by auto.
  assert (Esl : slice D at_ (zlen x) = x).
  { unfold slice. rewrite Esk. unfold zlen. rewrite Nat2Z.id, firstn_app, Nat.sub_diag, firstn_all. cbn [firstn]. apply app_nil_r. }
  rewrite Esl, (@root_bad x Hx). reflexivity.
Qed.
End Sync.
