(** C73, C74: full-text search in the browser. *)
From Coq Require Import Permutation.
From Verif Require Import Base Varint Store PageFile PageHist RefValue Node LinkedPage BPTree BPRepr BPIter BPInsert BPLoop BPTop PTree Meta TsCodec Slots SlotAdd PSlots Cells IndexFile IFileInv PIndex Query QTree TsFile PNgram PClient PQuery Search.

(** ** Specification *)
(** The indexes of the n-grams of a field [name], by type: [grams_at FTUnigram] and so
    on are three indexes of the file; those of the lengths searched for can be read. *)
Record searchable (wd : Z -> Z) (D : bytes) (fm : file_meta) (l : list ixr) (s : st) (name : bytes) (grams_at : Z -> ixr) (min max : nat) : Prop := mkSearchable {
  sb_lengths : (1 <= min)%nat /\ (min <= max)%nat /\ (max <= 3)%nat;
  sb_index : forall n ty, gram_type n = Some ty -> In (grams_at ty) l /\ ix_name (grams_at ty) = name /\ ix_type (grams_at ty) = ty;
  sb_readable : forall n ty, gram_type n = Some ty -> (min <= n <= max)%nat -> readable wd D fm l s (grams_at ty) }.
(** the entries of an n-gram: one for each place where it occurs *)
Definition occurrences (grams_at : Z -> ixr) (t : bytes * Z) : list (rv * mptr) :=
  filter (fun e => if list_eq_dec Z.eq_dec (rv_val (fst e)) (fst t) then true else false) (ix_es (grams_at (snd t))).
(** [found]: for each n-gram of [toks] all its entries, or none of them *)
Definition all_or_none (grams_at : Z -> ixr) (toks : list (bytes * Z)) (found : list (list (rv * mptr))) : Prop :=
  Forall2 (fun t m => Permutation m (occurrences grams_at t) \/ m = []) toks found.
Definition all_found (grams_at : Z -> ixr) (toks : list (bytes * Z)) (found : list (list (rv * mptr))) : Prop :=
  Forall2 (fun t m => Permutation m (occurrences grams_at t)) toks found.

(** ** Proofs *)
Lemma filter_length_le' {A} (f : A -> bool) l : (length (filter f l) <= length l)%nat.
Proof. induction l as [|a l IH]; [auto|]. cbn [filter]. destruct (f a); cbn [length]; lia. Qed.
Lemma nodup_app_intro {A} (a b : list A) : NoDup a -> NoDup b -> (forall x, In x a -> In x b -> False) -> NoDup (a ++ b).
Proof.
  induction a as [|x a IH]; intros Ha Hb Hd; [auto|]. inversion Ha; subst. cbn [app]. constructor.
  - rewrite in_app_iff. intros [X|X]; [auto|]. eapply Hd; [left; reflexivity|exact X].
  - apply IH; auto. intros y Y1 Y2. eapply Hd; [right; exact Y1|exact Y2].
Qed.
Section Loop.
  Variables (num : Type) (zero : num) (plus : num -> num -> num) (score : Z -> Z -> Z -> num).
  Notation table_insert := (table_insert zero plus).
  Definition ids {V} (m : list (dptr * V)) : list nat := map (fun x => dp_id (fst x)) m.
  Lemma insert_new_key (t : list (dptr * num)) k x : ~ In (dp_id k) (ids t) -> table_insert t k x = t ++ [(k, plus zero x)].
  Proof.
    unfold Search.table_insert. intros H. assert (G : jmap_get t k = None).
    { revert H. induction t as [|[k' v] t IH]; intros H; [reflexivity|]. cbn [ids map fst In] in H. cbn [jmap_get]. destruct (Nat.eqb_spec (dp_id k) (dp_id k')); [exfalso; apply H; left; auto|]. apply IH. intros X; apply H; right; auto. }
    rewrite G. clear G. revert H. generalize (plus zero x). intros y. induction t as [|[k' v] t IH]; intros H; [reflexivity|]. cbn [ids map fst In] in H. cbn [jmap_set app]. destruct (Nat.eqb_spec (dp_id k) (dp_id k')); [exfalso; apply H; left; auto|]. rewrite IH; auto.
  Qed.
  Definition bump (x : num) (ks : list nat) (e : dptr * num) : dptr * num := if in_dec Nat.eq_dec (dp_id (fst e)) ks then (fst e, plus (snd e) x) else e.
  Lemma insert_old_key (t : list (dptr * num)) k x : NoDup (ids t) -> In (dp_id k) (ids t) -> table_insert t k x = map (bump x [dp_id k]) t.
  Proof.
    unfold Search.table_insert. induction t as [|[k' v] t IH]; intros Hnd Hin; [destruct Hin|]. cbn [ids map fst] in *. inversion Hnd as [|? ? Hn Hnd']; subst.
    cbn [jmap_get jmap_set map]. unfold bump at 1. cbn [fst snd]. destruct (Nat.eqb_spec (dp_id k) (dp_id k')) as [E|E].
    - destruct (in_dec Nat.eq_dec (dp_id k') [dp_id k]) as [_|X]; [|exfalso; apply X; left; auto]. f_equal.
      rewrite <- (map_id t) at 1. apply map_ext_in. intros a Ha. unfold bump. destruct (in_dec Nat.eq_dec (dp_id (fst a)) [dp_id k]) as [[X|[]]|_]; auto.
      exfalso. apply Hn. rewrite <- E, X. apply (in_map (fun x : dptr * num => dp_id (fst x))). auto.
    - destruct (in_dec Nat.eq_dec (dp_id k') [dp_id k]) as [[X|[]]|_]; [congruence|]. f_equal. apply IH; auto. destruct Hin; [congruence|auto].
  Qed.
  Lemma ids_bump x ks t : ids (map (bump x ks) t) = ids t.
  Proof. unfold ids. rewrite map_map. apply map_ext. intros a. unfold bump. destruct (in_dec Nat.eq_dec (dp_id (fst a)) ks); reflexivity. Qed.
  Lemma insert_olds x : forall (ks : list dptr) t, NoDup (ids t) -> NoDup (map dp_id ks) -> (forall k, In k ks -> In (dp_id k) (ids t)) ->
    fold_left (fun t k => table_insert t k x) ks t = map (bump x (map dp_id ks)) t.
  Proof.
    induction ks as [|k ks IH]; intros t Hnd Hk Hin; cbn [fold_left map].
    - rewrite <- (map_id t) at 1. apply map_ext. intros a. unfold bump. destruct (in_dec Nat.eq_dec (dp_id (fst a)) []) as [[]|_]; auto.
    - inversion Hk as [|? ? Hk1 Hk2]; subst. rewrite insert_old_key by (auto; apply Hin; left; auto). rewrite IH; auto; [|rewrite ids_bump; auto|intros; rewrite ids_bump; apply Hin; right; auto].
      rewrite map_map. apply map_ext. intros a. unfold bump. cbn [fst snd].
      destruct (in_dec Nat.eq_dec (dp_id (fst a)) [dp_id k]) as [[X|[]]|X]; cbn [fst snd].
      + destruct (in_dec Nat.eq_dec (dp_id (fst a)) (map dp_id ks)) as [Y|Y]; [exfalso; apply Hk1; rewrite X; auto|].
        destruct (in_dec Nat.eq_dec (dp_id (fst a)) (dp_id k :: map dp_id ks)) as [_|Z]; [auto|exfalso; apply Z; left; auto].
      + destruct (in_dec Nat.eq_dec (dp_id (fst a)) (map dp_id ks)) as [Y|Y]; destruct (in_dec Nat.eq_dec (dp_id (fst a)) (dp_id k :: map dp_id ks)) as [Z|Z]; auto.
        * exfalso; apply Z; right; auto.
        * exfalso. destruct Z as [Z|Z]; auto. apply X. left; auto.
  Qed.
  Lemma insert_news x : forall (ks : list dptr) t, NoDup (map dp_id ks) -> (forall k, In k ks -> ~ In (dp_id k) (ids t)) ->
    fold_left (fun t k => table_insert t k x) ks t = t ++ map (fun k => (k, plus zero x)) ks.
  Proof.
    induction ks as [|k ks IH]; intros t Hnd Hk; cbn [fold_left map]; [rewrite app_nil_r; auto|]. inversion Hnd; subst.
    rewrite insert_new_key by (apply Hk; left; auto). rewrite IH; auto; [rewrite <- app_assoc; reflexivity|].
    intros k' Hk' X. unfold ids in X. rewrite map_app in X. apply in_app_iff in X. destruct X as [X|[X|[]]]; [eapply Hk; [right; eauto|auto]|].
    cbn [fst] in X. apply H1. rewrite X. apply in_map; auto.
  Qed.

  (** The groups of a search: for each n-gram its type and its entries. [seen]: how
      many entries of each type have been counted before. *)
  Definition seen_add (seen : Z -> Z) (ft k : Z) : Z -> Z := fun x => if x =? ft then seen x + k else seen x.
  Variable n : Z.
  (** what is added to the score of a result of type [ty] for the groups [l] *)
  Fixpoint credits (seen : Z -> Z) (l : list (Z * list entry)) (ty : Z) (x : num) : num :=
    match l with
    | [] => x
    | (ft, m) :: t => let seen := seen_add seen ft (zlen m) in credits seen t ty (if ty =? ft then plus x (score n (seen ft) 1) else x)
    end.
  (** the results: for each group one for each entry *)
  Fixpoint results (seen : Z -> Z) (l : list (Z * list entry)) : list (entry * num) :=
    match l with
    | [] => []
    | (ft, m) :: t => map (fun e => (e, credits seen l ft zero)) m ++ results (seen_add seen ft (zlen m)) t
    end.

  (** a table whose entries have types *)
  Definition typed := list (Z * (dptr * num)).
  Definition plain (R : typed) : list (dptr * num) := map snd R.
  Definition of_type (ft : Z) (R : typed) : tfmap := map (fun r => (fst (snd r), 1)) (filter (fun r => fst r =? ft) R).
  Definition credit (seen : Z -> Z) (l : list (Z * list entry)) (R : typed) : list (dptr * num) := map (fun r => (fst (snd r), credits seen l (fst r) (snd (snd r)))) R.

  Variables (parse : bytes -> option bytes) (gas fuel : nat) (f D name : bytes).
  (** what happens to one token *)
  Definition finds (t : bytes * Z) (m : list entry) : Prop := exists mp im, ts_seek fuel f name (snd t) = Ok [mp] /\ ts_index_meta f mp = Ok im /\ im_type im = snd t /\
    forall tf id, below_id id tf -> tf_loop gas (ts_next fuel (ts_rd (mkCodec (im_width im) D parse) f) (ts_mp_root f mp)) (fst t) tf id (ts_iter (RV (MP 0 0) (fst t))) =
      Ok (tf ++ objects id m, (id + length m)%nat).
  Lemma objects_ids m : forall id, map (fun x => dp_id (fst x)) (objects id m) = seq id (length m).
  Proof. induction m as [|e m IH]; intros id; [reflexivity|]. cbn [objects map length seq fst dp_id]. rewrite IH. reflexivity. Qed.
  Lemma objects_one m : forall id, Forall (fun x => snd x = 1) (objects id m).
  Proof. induction m as [|e m IH]; intros id; constructor; auto. Qed.
  Lemma objects_mp m : forall id, map (fun x => dp_mp (fst x)) (objects id m) = map snd m.
  Proof. induction m as [|e m IH]; intros id; [reflexivity|]. cbn [objects map fst dp_mp]. rewrite IH. reflexivity. Qed.
  Lemma objects_len m : forall id, length (objects id m) = length m.
  Proof. induction m as [|e m IH]; intros id; cbn; auto. Qed.
  Lemma tree_get_set ts ft v x : tree_get (tree_set ts ft v) x = if x =? ft then Some v else tree_get ts x.
  Proof.
    induction ts as [|[k w] ts IH]; cbn [tree_set tree_get].
    - destruct (Z.eqb_spec x ft); auto.
    - destruct (Z.eqb_spec ft k) as [->|E]; cbn [tree_get].
      + destruct (Z.eqb_spec x k); auto.
      + rewrite IH. destruct (Z.eqb_spec x k) as [->|E']; auto. destruct (Z.eqb_spec k ft); congruence.
  Qed.
  Definition tree_of (ts : trees) (ft : Z) : tfmap := match tree_get ts ft with Some tf => tf | None => [] end.

  Lemma search_loop_ok : forall toks found, Forall2 finds toks found -> forall ts R id seen,
    (forall ft, tree_of ts ft = of_type ft R) -> (forall ft, seen ft = zlen (of_type ft R)) -> NoDup (ids (plain R)) -> below_id id (plain R) ->
    exists R2, search_loop zero plus score parse gas fuel f D n name toks ts (plain R) id = Ok (credit seen (combine (map snd toks) found) R ++ R2) /\
      map (fun x => (dp_mp (fst x), snd x)) R2 = map (fun x => (snd (fst x), snd x)) (results seen (combine (map snd toks) found)).
  Proof.
    intros toks found H. induction H as [|[v ft] m toks found (mp & im & E1 & E2 & E3 & E4) H IH]; intros ts R id seen Hts Hseen Hnd Hid.
    - exists []. cbn [search_loop map combine]. rewrite app_nil_r. split; [|reflexivity]. f_equal. unfold plain, credit. apply map_ext. intros [ty [k x]]. reflexivity.
    - cbn [snd fst] in *. cbn [search_loop map combine]. rewrite E1. cbn [rbind]. rewrite E2. cbn [rbind]. rewrite E3.
      set (ts1 := match tree_get ts ft with Some _ => ts | None => tree_set ts ft [] end).
      assert (T1 : tree_get ts1 ft = Some (tree_of ts ft) /\ forall x, tree_of ts1 x = tree_of ts x).
      { unfold ts1, tree_of. destruct (tree_get ts ft) eqn:Eg; [split; auto|]. split; [rewrite tree_get_set, Z.eqb_refl; auto|].
        intros x. rewrite tree_get_set. destruct (Z.eqb_spec x ft) as [->|]; [rewrite Eg|]; auto. }
      destruct T1 as [T1 T2]. rewrite T1, Hts.
      assert (Hb : below_id id (of_type ft R)).
      { unfold below_id, of_type in *. apply Forall_map. cbn [fst]. unfold plain in Hid. rewrite Forall_map in Hid. rewrite Forall_forall in *. intros r Hr. apply filter_In in Hr. apply Hid. tauto. }
      rewrite (E4 _ _ Hb). cbn [rbind].
      set (tf' := of_type ft R ++ objects id m).
      assert (Hone : Forall (fun x => snd x = 1) tf').
      { apply Forall_app. split; [|apply objects_one]. unfold of_type. apply Forall_map. apply Forall_forall. auto. }
      set (sc := score n (zlen tf') 1).
      assert (Hfold : forall l t, Forall (fun x : dptr * Z => snd x = 1) l -> fold_left (fun t x => table_insert t (fst x) (score n (zlen tf') (snd x))) l t = fold_left (fun t k => table_insert t k sc) (map fst l) t).
      { induction l as [|a l IHl]; intros t Hl; [reflexivity|]. inversion Hl; subst. cbn [fold_left map]. rewrite IHl by auto. rewrite H2. reflexivity. }
      rewrite Hfold by auto. unfold tf'. rewrite map_app, fold_left_app.
      assert (Hlt : forall k, In k (ids (plain R)) -> (k < id)%nat) by (intros k Hk; unfold ids in Hk; apply in_map_iff in Hk; destruct Hk as (r & <- & Hr); unfold below_id in Hid; rewrite Forall_forall in Hid; apply Hid; auto).
      assert (Hids : map dp_id (map fst (of_type ft R)) = ids (plain (filter (fun r => fst r =? ft) R))) by (unfold of_type, ids, plain; rewrite !map_map; reflexivity).
      assert (Hsub : forall P, NoDup (ids (plain (filter P R)))).
      { intros P. clear -Hnd. induction R as [|r R IHR]; [constructor|]. cbn [filter]. unfold ids, plain in *. cbn [map] in Hnd. inversion Hnd; subst. destruct (P r); [|auto]. cbn [map]. constructor; auto.
        intros X. apply H1. apply in_map_iff in X. destruct X as (y & Ey & Hy). apply in_map_iff in Hy. destruct Hy as (z & <- & Hz). apply filter_In in Hz. rewrite <- Ey. apply in_map_iff. exists (snd z). split; auto. apply in_map. tauto. }
      rewrite (@insert_olds sc (map fst (of_type ft R)) (plain R)); [|auto|rewrite Hids; auto|].
      2:{ intros k Hk. unfold of_type in Hk. rewrite map_map in Hk. apply in_map_iff in Hk. destruct Hk as (r & <- & Hr). apply filter_In in Hr. cbn [fst]. unfold ids, plain. rewrite map_map. apply in_map_iff. exists r. tauto. }
      rewrite Hids.
      assert (Hnew : map dp_id (map fst (objects id m)) = seq id (length m)) by (rewrite map_map; apply objects_ids).
      rewrite insert_news; [|rewrite Hnew; apply seq_NoDup|].
      2:{ intros k Hk X. rewrite ids_bump in X. apply Hlt in X. assert (In (dp_id k) (seq id (length m))) by (rewrite <- Hnew; apply in_map; auto). apply in_seq in H0. lia. }
      set (R1 := map (fun r => (fst r, (fst (snd r), if fst r =? ft then plus (snd (snd r)) sc else snd (snd r)))) R).
      set (N := map (fun k => (ft, (fst k, plus zero sc))) (objects id m)).
      assert (Eb : map (bump sc (ids (plain (filter (fun r => fst r =? ft) R)))) (plain R) = plain R1).
      { unfold R1, plain. rewrite !map_map. apply map_ext_in. intros r Hr. unfold bump. cbn [fst snd].
        destruct (in_dec Nat.eq_dec (dp_id (fst (snd r))) (ids (map snd (filter (fun r => fst r =? ft) R)))) as [X|X].
        - unfold ids in X. rewrite map_map in X. apply in_map_iff in X. destruct X as (r' & Er & Hr'). apply filter_In in Hr'. destruct Hr' as [Hr' Et].
          assert (r' = r) as -> by (unfold ids, plain in Hnd; rewrite map_map in Hnd; eapply (nodup_map_inj (fun r : Z * (dptr * num) => dp_id (fst (snd r)))); eauto). rewrite Et. reflexivity.
        - destruct (fst r =? ft) eqn:Et; [|destruct r as [ty [k x]]; reflexivity]. exfalso. apply X. unfold ids. rewrite map_map. apply in_map_iff. exists r. split; auto. apply filter_In. auto. }
      rewrite Eb.
      assert (En : map (fun k => (k, plus zero sc)) (map fst (objects id m)) = plain N) by (unfold N, plain; rewrite !map_map; reflexivity).
      rewrite En. replace (plain R1 ++ plain N) with (plain (R1 ++ N)) by (unfold plain; apply map_app).
      assert (I1 : ids (plain R1) = ids (plain R)) by (unfold R1, ids, plain; rewrite !map_map; reflexivity).
      assert (I2 : ids (plain N) = seq id (length m)) by (unfold N, ids, plain; rewrite !map_map; cbn [snd fst]; apply objects_ids).
      assert (I3 : ids (plain (R1 ++ N)) = ids (plain R) ++ seq id (length m)) by (rewrite <- I1, <- I2; unfold ids, plain; rewrite !map_app; reflexivity).
      assert (Hty : forall x, of_type x (R1 ++ N) = if x =? ft then of_type x R ++ objects id m else of_type x R).
      { intros x. unfold of_type. rewrite filter_app, map_app.
        assert (A1 : map (fun r : Z * (dptr * num) => (fst (snd r), 1)) (filter (fun r => fst r =? x) R1) = map (fun r => (fst (snd r), 1)) (filter (fun r => fst r =? x) R)).
        { unfold R1. clearbody sc. clear. induction R as [|r R IHR]; [reflexivity|]. cbn [map filter fst snd]. destruct (fst r =? x); cbn [map fst snd]; rewrite IHR; reflexivity. }
        rewrite A1. unfold N. assert (Ho := objects_one m id). clearbody sc. clear -Ho. destruct (Z.eqb_spec x ft) as [->|E].
        - f_equal. induction (objects id m) as [|o l IHl]; [reflexivity|]. inversion Ho; subst. cbn [map filter fst snd]. rewrite Z.eqb_refl. cbn [map fst snd]. rewrite IHl by auto. destruct o as [k y]. cbn [snd] in H1. subst y. reflexivity.
        - rewrite <- app_nil_r. f_equal. induction (objects id m) as [|o l IHl]; [reflexivity|]. inversion Ho; subst. cbn [map filter fst snd]. destruct (Z.eqb_spec ft x); [congruence|auto]. }
      destruct (IH (tree_set ts1 ft tf') (R1 ++ N) (id + length m)%nat (seen_add seen ft (zlen m))) as (R2 & EL & ER).
      { intros x. rewrite Hty. unfold tree_of. rewrite tree_get_set. destruct (Z.eqb_spec x ft) as [->|E]; [reflexivity|]. fold (tree_of ts1 x). rewrite T2. apply Hts. }
      { intros x. rewrite Hty. unfold seen_add. destruct (Z.eqb_spec x ft) as [->|E]; [|auto]. rewrite zlen_app, Hseen. unfold zlen. rewrite objects_len. reflexivity. }
      { rewrite I3. apply nodup_app_intro; auto; [apply seq_NoDup|]. intros a Ha X. apply Hlt in Ha. apply in_seq in X. lia. }
      { unfold below_id. rewrite Forall_forall. intros a Ha. assert (X : In (dp_id (fst a)) (ids (plain (R1 ++ N)))) by (unfold ids; apply (in_map (fun x : dptr * num => dp_id (fst x))); auto).
        rewrite I3 in X. apply in_app_iff in X. destruct X as [X|X]; [apply Hlt in X; lia|apply in_seq in X; lia]. }
      fold tf'. rewrite EL.
      assert (Hsc : sc = score n (seen_add seen ft (zlen m) ft) 1).
      { unfold sc, tf', seen_add. rewrite Z.eqb_refl, zlen_app, Hseen. unfold zlen. rewrite objects_len. reflexivity. }
      unfold credit at 1. rewrite map_app, <- app_assoc. eexists. split; [f_equal; f_equal|].
      + unfold R1, credit. rewrite !map_map. apply map_ext. intros [ty [k x]]. cbn [fst snd credits]. rewrite <- Hsc. reflexivity.
      + rewrite map_app, ER. cbn [results]. rewrite map_app. f_equal. unfold N. rewrite !map_map. cbn [fst snd credits]. rewrite Z.eqb_refl, <- Hsc.
        set (z := credits _ _ _ _). rewrite <- (map_map (fun x : dptr * Z => dp_mp (fst x)) (fun p => (p, z))), objects_mp, map_map. reflexivity.
  Qed.
End Loop.

Section Main.
  Variables (wd : Z -> Z) (parse : bytes -> option bytes) (D : bytes) (fm : file_meta) (l : list ixr) (s : st).
  Hypothesis Hwd : widths_ok wd.
  Hypothesis Hif : ifile wd parse D fm l s.
  Variables (name : bytes) (grams_at : Z -> ixr) (min max : nat) (gas fuel : nat).
  Hypothesis Hs : searchable wd D fm l s name grams_at min max.
  Hypothesis Hfuel : (fuel_of s <= fuel)%nat.
  Hypothesis Hgas : forall n ty, gram_type n = Some ty -> (length (ix_es (grams_at ty)) < gas)%nat.

  Lemma walk_of_index ix : readable wd D fm l s ix -> ix_type ix <> FTFloat64 ->
    exists es h pgs mp im, Permutation es (ix_es ix) /\ ascending es /\
    repr (small_at (ix_codec wd parse D (ix_type ix)) (file s)) h None None (mp_off mp) es pgs /\ mp_len mp <> 0 /\ (h < fuel)%nat /\
    root_at (file s) (ix_at ix) = mp /\ rd_ok (ts_rd (ix_codec wd parse D (ix_type ix)) (file s)) (small_at (ix_codec wd parse D (ix_type ix)) (file s)) /\
    Forall fetchable es /\ Forall key_small es /\
    ts_seek fuel (file s) (ix_name ix) (ix_type ix) = Ok [ix_at ix] /\ ts_index_meta (file s) (ix_at ix) = Ok im /\ im_type im = ix_type ix /\
    mkCodec (im_width im) D parse = ix_codec wd parse D (ix_type ix) /\ ts_mp_root (file s) (ix_at ix) = Ok mp.
  Proof.
    intros Hr Hnf. destruct (ifile_holds Hwd Hif) as (HD0 & fl & ms & x0 & L & H). destruct Hr as [Hin Hfl Hw Hf He Ht Hne Hes].
    pose proof (In_nth_error _ _ Hin) as (k & Hk). destruct (holds_nth _ H Hk) as (x & Hx & (C1 & C2 & C3 & C4 & C5) & Ea).
    pose proof (cells_sys _ (ho_cells H) Hx) as Hsys. rewrite C4, <- Ea in Hsys.
    assert (Hne' : c_es x <> []) by (intros E; rewrite E in C5; apply Permutation_nil in C5; congruence).
    assert (Hes' : Forall (fun e => entry_small e /\ 2 <= mp_len (snd e)) (c_es x)) by (eapply Permutation_Forall; [symmetry; exact C5|exact Hes]).
    pose proof (sys_ascending Hsys) as Hasc. pose proof Hsys as (Hc & Hinv & Hb & Hslot & Htree & Hnd & Hlp).
    destruct Htree as [(X & _)|(h & root & rlen & Er & Hl & R)]; [congruence|].
    assert (Hh : (h < fuel_of s)%nat).
    { pose proof (tree_at_pages (or_intror (ex_intro _ h (ex_intro _ root (ex_intro _ rlen (conj Er (conj Hl R))))) : tree_at _ _ _ _ _)) as Hok.
      eapply fuel_enough; [eapply NoDup_app_l; exact Hnd|exact Hok|]. eapply repr_height; eauto. }
    exists (c_es x), h, (c_pgs x), (MP root rlen), (ix_meta ix). split; auto. split; auto. split.
    { cbn [mp_off]. apply repr_small; auto. eapply Forall_impl; [|exact Hes']. intros a [X _]; auto. }
    split; [cbn; lia|]. split; [lia|]. split; auto. split; [apply ts_rd_ok; auto|].
    split; [eapply Forall_impl; [|exact Hes']; intros a [_ X]; exact X|].
    split; [eapply Forall_impl; [|exact Hes']; intros a [[X _] _]; exact X|].
    assert (Hlne : l <> []) by (intros E; rewrite E in Hin; destruct Hin).
    assert (Hlen : (length l <= fuel)%nat) by (pose proof (cells_fuel (ho_cells H)) as X; cbn [length] in X; rewrite <- (holds_len H) in X; lia).
    assert (Ef : filter (fun ix0 => ts_accepts (ix_name ix) (ix_type ix) (ix_meta ix0)) l = [ix]).
    { assert (NoDup l) as Hndl by (pose proof (ho_nd H) as X; eapply NoDup_map_inv; exact X).
      apply find_only; auto.
      - unfold ts_accepts. cbn [ix_meta im_name im_type]. apply andb_true_iff. split; [unfold name_eqb; destruct (list_eq_dec Z.eq_dec (ix_name ix) (ix_name ix)); congruence|].
        destruct (Z.eqb_spec (ix_type ix) FTFloat64) as [E|E]; [rewrite E; reflexivity|apply Z.eqb_refl].
      - intros y Hy Hacc. unfold ts_accepts in Hacc. cbn [ix_meta im_name im_type] in Hacc. apply andb_true_iff in Hacc. destruct Hacc as [A1 A2].
        assert (ix_name y = ix_name ix) by (unfold name_eqb in A1; destruct (list_eq_dec Z.eq_dec (ix_name y) (ix_name ix)); congruence).
        destruct (Z.eqb_spec (ix_type ix) FTFloat64) as [E|E]; [congruence|]. apply Z.eqb_eq in A2.
        apply (nodup_map_inj (fun ix => (ix_name ix, ix_type ix)) _ (ho_nd H)); auto. cbn beta. congruence. }
    split; [rewrite (sees_seek H Ht _ _ Hlen Hlne), Ef; reflexivity|]. split; [apply (sees_meta H Ht _ Hk)|]. split; [reflexivity|].
    split; [unfold ix_codec; cbn [ix_meta im_width]; rewrite Hw; reflexivity|]. destruct (sees_root H _ Hk) as [Eroot _]. rewrite Eroot, Er. reflexivity.
  Qed.

  Lemma gram_not_float n ty : gram_type n = Some ty -> ty <> FTFloat64.
  Proof. destruct n as [|[|[|[|n]]]]; cbn; intros E; inversion E; subst; discriminate. Qed.
  (** what is counted from where an n-gram would be *)
  Lemma counted_from v es : Forall key_small es -> ascending es -> counted v (from (RV (MP 0 0) v) es) = filter (sat QEq v) es.
  Proof.
    intros Hsm Ha. unfold counted. rewrite from_low by auto. rewrite until_filter.
    - rewrite filter_filter. apply filter_ext_in'. intros x _. unfold sat, vcmp. rewrite ts_compare_bytes_eq, negb_involutive.
      destruct (Z.leb_spec 0 (bytes_cmp (rv_val (fst x)) v)), (Z.eqb_spec (bytes_cmp (rv_val (fst x)) v) 0); auto; lia.
    - assert (Hs' : StronglySorted (fun a b : entry => (0 <= vcmp v a -> vcmp v a <> 0 -> vcmp v b <> 0)) es).
      { eapply ss_impl; [|exact Ha]. cbn beta. intros a b Hab H0 H1. unfold vcmp in *. assert (0 < bytes_cmp (rv_val (fst b)) v) by (eapply key_lt_val; eauto; lia). lia. }
      clear -Hs'. induction Hs' as [|a l H IH Ha]; [constructor|]. cbn [filter]. destruct (Z.leb_spec 0 (vcmp v a)) as [L|L]; [|exact IH].
      constructor; auto. rewrite Forall_forall in *. intros x Hx. apply filter_In in Hx. destruct Hx as [Hx _]. specialize (Ha x Hx L).
      rewrite !ts_compare_bytes_eq. rewrite !negb_true_iff, !Z.eqb_neq. exact Ha.
  Qed.
  Lemma sat_occ v ty : filter (sat QEq v) (ix_es (grams_at ty)) = occurrences grams_at (v, ty).
  Proof.
    unfold occurrences. apply filter_ext_in'. intros x _. unfold sat, vcmp. cbn [fst]. destruct (list_eq_dec Z.eq_dec (rv_val (fst x)) v) as [E|E].
    - apply Z.eqb_eq, bytes_cmp_eq, E.
    - apply Z.eqb_neq. intros X. apply E. apply bytes_cmp_eq, X.
  Qed.
  Lemma counted_len v es : (length (counted v es) <= length es)%nat.
  Proof. unfold counted. induction es as [|e es IH]; [auto|]. cbn [until]. destruct (negb _); cbn [length]; lia. Qed.
  Lemma token_finds n ty v : gram_type n = Some ty -> (min <= n <= max)%nat ->
    exists m, finds parse gas fuel (file s) D name (v, ty) m /\ (Permutation m (occurrences grams_at (v, ty)) \/ m = []) /\
      (one_page wd parse D s (grams_at ty) -> Permutation m (occurrences grams_at (v, ty))).
  Proof.
    intros Hn Hr. destruct (sb_index Hs _ Hn) as (Hin & En & Et). pose proof (sb_readable Hs Hn Hr) as Hrd0.
    destruct (walk_of_index Hrd0) as (es & h & pgs & mp & im & P & A & R & Hl & Hh & Er & Hrd & Hfe & Hsm & E1 & E2 & E3 & E4 & E5); [rewrite Et; eapply gram_not_float; eauto|].
    rewrite Et in *. rewrite En in *.
    assert (Hlenes : (length es < gas)%nat) by (rewrite (Permutation_length P); eapply Hgas; eauto).
    assert (Hfind : forall l0, (length l0 <= length es)%nat -> trace (ts_next fuel (ts_rd (ix_codec wd parse D ty) (file s)) (Ok mp)) (ts_iter (RV (MP 0 0) v)) l0 ->
      finds parse gas fuel (file s) D name (v, ty) (counted v l0)).
    { intros l0 Hll Htr. exists (ix_at (grams_at ty)), im. cbn [fst snd]. split; auto. split; auto. split; auto. intros tf id Hb. rewrite E4, E5. apply tf_loop_trace; auto. lia. }
    destruct (@trace_next _ _ Hrd es h mp pgs fuel R Hl Hh (RV (MP 0 0) v)) as [Htr|(Htr & Hoff)].
    - exists (counted v (from (RV (MP 0 0) v) es)).
      assert (Pm : Permutation (counted v (from (RV (MP 0 0) v) es)) (occurrences grams_at (v, ty))) by (rewrite counted_from by auto; rewrite <- sat_occ; apply perm_filter; auto).
      split; [|split; auto]. apply Hfind; auto. unfold from. apply filter_length_le'.
    - exists []. split; [apply (Hfind []); auto; cbn; lia|]. split; [auto|]. intros (nd & Hnd & Hlf).
      assert (h = 0%nat) as H0.
      { destruct h; auto. exfalso. destruct R as (n0 & pg' & Hn0 & Hb & _). rewrite Et, Er in Hnd. destruct mp as [o len]. pose proof (Hrd _ len _ Hn0) as X. cbn [mp_off] in X. rewrite X in Hnd.
        injection Hnd as <-. rewrite (body_leaf_dec Hb) in Hlf. discriminate. }
      pose proof (leaf_falls_off Hrd R Hl Hh H0 Hoff) as Hfrom. rewrite <- sat_occ, <- (perm_filter _ P), <- counted_from, Hfrom by auto. reflexivity.
  Qed.
  Lemma tokens_find toks : (forall t, In t toks -> exists n, gram_type n = Some (snd t) /\ (min <= n <= max)%nat) ->
    exists found, Forall2 (finds parse gas fuel (file s) D name) toks found /\ all_or_none grams_at toks found /\
      ((forall n ty, gram_type n = Some ty -> (min <= n <= max)%nat -> one_page wd parse D s (grams_at ty)) -> all_found grams_at toks found).
  Proof.
    induction toks as [|[v ty] toks IH]; intros Ht; [exists []; split; [constructor|split; [constructor|intros _; constructor]]|].
    destruct IH as (found & F1 & F2 & F3); [intros; apply Ht; right; auto|]. destruct (Ht (v, ty) (or_introl eq_refl)) as (n & Hn & Hr). cbn [snd] in Hn.
    destruct (token_finds v Hn Hr) as (m & M1 & M2 & M3). exists (m :: found). split; [constructor; auto|]. split; [constructor; auto|].
    intros Hone. constructor; [apply M3; eapply Hone; eauto|exact (F3 Hone)].
  Qed.

  (** tokens have the types of their lengths *)
  Lemma traverse_inv {A B} (g : A -> res B) : forall xs ys, PNgram.traverse g xs = Ok ys -> Forall2 (fun x y => g x = Ok y) xs ys.
  Proof.
    induction xs as [|x xs IH]; intros ys E; cbn [PNgram.traverse] in E; [injection E as <-; constructor|].
    destruct (g x) as [y| | | |] eqn:Eg; cbn [rbind] in E; try discriminate. destruct (PNgram.traverse g xs) as [ys'| | | |]; cbn [rbind] in E; try discriminate. injection E as <-. constructor; auto.
  Qed.
  Lemma tokens_types tl like toks : ts_tokens tl min max like = Ok toks -> forall t, In t toks -> exists n, gram_type n = Some (snd t) /\ (min <= n <= max)%nat.
  Proof.
    unfold ts_tokens. intros E t Hin. destruct (PNgram.traverse _ _) as [ll| | | |] eqn:Et; cbn [rbind] in E; try discriminate. injection E as <-.
    apply traverse_inv in Et. apply in_concat in Hin. destruct Hin as (g & Hg & Hin).
    assert (G : exists n, In n (seq min (max + 1 - min)) /\ ts_grams tl like (ts_collect like 0 [] min) n = Ok g).
    { clear -Et Hg. induction Et as [|x y xs ys Exy Et IH]; [destruct Hg|]. destruct Hg as [<-|Hg]; [exists x; split; [left; auto|auto]|]. destruct (IH Hg) as (n & X & Y). exists n. split; [right|]; auto. }
    destruct G as (n & Hn & Eg). apply in_seq in Hn. exists n. unfold ts_grams in Eg. destruct (gram_type n) as [ty|] eqn:Ety; [|discriminate]. injection Eg as <-.
    split; [|lia]. apply in_flat_map in Hin. destruct Hin as (w & _ & Hin). apply in_map_iff in Hin. destruct Hin as (i & <- & _). reflexivity.
  Qed.
  Lemma tokens_ok tl like : exists toks, ts_tokens tl min max like = Ok toks.
  Proof.
    unfold ts_tokens. pose proof (sb_lengths Hs) as (H1 & H2 & H3).
    assert (G : forall ns, (forall n, In n ns -> (1 <= n <= 3)%nat) -> exists r, PNgram.traverse (ts_grams tl like (ts_collect like 0 [] min)) ns = Ok r).
    { induction ns as [|n ns IH]; intros Hn; [eexists; reflexivity|]. destruct IH as (r & Er); [intros; apply Hn; right; auto|]. cbn [PNgram.traverse].
      assert (exists g, ts_grams tl like (ts_collect like 0 [] min) n = Ok g) as (g & Eg).
      { unfold ts_grams. specialize (Hn n (or_introl eq_refl)). destruct n as [|[|[|[|n]]]]; try lia; eexists; reflexivity. }
      rewrite Eg, Er. eexists; reflexivity. }
    destruct (G (seq min (max + 1 - min))) as (r & ->); [intros n Hn; apply in_seq in Hn; lia|]. eexists; reflexivity.
  Qed.
  Lemma headers_ok : exists hs, ts_headers fuel (file s) = Ok hs /\ has_ngrams name hs.
  Proof.
    destruct (ifile_holds Hwd Hif) as (HD0 & fl & ms & x0 & L & H). pose proof (sb_lengths Hs) as (H1 & H2 & H3).
    destruct (gram_type min) as [ty|] eqn:Ety; [|destruct min as [|[|[|[|k]]]]; cbn in Ety; try lia; discriminate].
    pose proof (sb_readable Hs Ety ltac:(lia)) as Hr. destruct Hr as [Hin Hfl Hw Hf He Ht Hne Hes].
    assert (Hlne : l <> []) by (intros E; rewrite E in Hin; destruct Hin).
    assert (Hlen : (length l <= fuel)%nat) by (pose proof (cells_fuel (ho_cells H)) as X; cbn [length] in X; rewrite <- (holds_len H) in X; lia).
    unfold ts_headers. rewrite (sees_pages H Ht Hlen Hlne). cbn [rbind]. rewrite (sees_metas H Ht). cbn [rbind]. eexists. split; [reflexivity|].
    set (ims := map ix_meta l). set (names := first_appearances (map im_name ims)).
    assert (Hn : forall n ty, gram_type n = Some ty -> In ty (header_types ims name)).
    { intros n t Hn. destruct (sb_index Hs _ Hn) as (I1 & I2 & I3). unfold header_types, ims. apply in_map_iff. exists (ix_meta (grams_at t)). split; [exact I3|].
      apply filter_In. split; [apply in_map; auto|]. cbn [ix_meta im_name]. unfold name_eqb. rewrite I2. destruct (list_eq_dec Z.eq_dec name name); congruence. }
    assert (Hname : In name names).
    { unfold names. apply C26_first_appearances_spec. unfold ims. rewrite map_map. destruct (sb_index Hs _ Ety) as (I1 & I2 & I3). rewrite <- I2. apply in_map_iff. exists (grams_at ty). split; auto. }
    assert (Hndn : NoDup names) by (apply C26_first_appearances_spec). apply in_split in Hname. destruct Hname as (a & b & E).
    exists (map (fun nm => HD nm (header_types ims nm)) a), (HD name (header_types ims name)), (map (fun nm => HD nm (header_types ims nm)) b).
    split; [rewrite E, map_app; reflexivity|]. split; [reflexivity|]. split.
    - intros x Hx. apply in_map_iff in Hx. destruct Hx as (nm & <- & Hx). cbn [h_name]. intros ->. rewrite E in Hndn. apply NoDup_remove_2 in Hndn. apply Hndn, in_or_app; auto.
    - cbn [h_types]. split; [apply (Hn 1%nat); reflexivity|split; [apply (Hn 2%nat); reflexivity|apply (Hn 3%nat); reflexivity]].
  Qed.

  Variables (num : Type) (zero : num) (plus : num -> num -> num) (score : Z -> Z -> Z -> num) (sort : list (dptr * num) -> list (dptr * num)).
  Hypothesis Hsort : forall t, Permutation (sort t) t.
  Variables (tl : list Z -> list Z) (choose : nat -> nat) (encode : list Z -> bytes) (like : list Z) (cfg : option (nat * nat)).
  Hypothesis Hchoose : forall i, (choose i <= i)%nat.
  Hypothesis Hcfg : match cfg with Some c => c | None => (1%nat, 2%nat) end = (min, max).
  Notation search := (ts_search zero plus score sort tl choose encode parse gas fuel (file s) D name like cfg).

  Lemma search_data_ok (T : list (dptr * num)) : Forall (fun x => 2 <= mp_len (dp_mp (fst x))) T ->
    search_data D T = Ok (map (fun x => (slice D (mp_off (dp_mp (fst x))) (mp_len (dp_mp (fst x))), snd x)) T).
  Proof.
    induction 1 as [|[k x] T Hk H IH]; [reflexivity|]. cbn [search_data map]. cbn [fst] in Hk. pose proof (@ts_data_ok D (RV (MP 0 0) [], dp_mp k) Hk) as E. cbn [snd] in E. rewrite E.
    cbn [rbind]. rewrite IH. reflexivity.
  Qed.
  Theorem search_ok : exists toks order found,
    ts_tokens tl min max like = Ok toks /\ Permutation order (map (fun t => (encode (fst t), snd t)) toks) /\ all_or_none grams_at order found /\
    ((forall n ty, gram_type n = Some ty -> (min <= n <= max)%nat -> one_page wd parse D s (grams_at ty)) -> all_found grams_at order found) /\
    exists r, search = Ok r /\
      Permutation r (map (fun x => (record_of D (fst x), snd x)) (results zero plus score (fm_entries fm) (fun _ => 0) (combine (map snd order) found))).
  Proof.
    destruct (tokens_ok tl like) as (toks & Et). destruct (@C47_shuffle_permutes _ choose (map (fun t => (encode (fst t), snd t)) toks)) as (order & Eo & Po); [intros; apply Hchoose|].
    assert (Hord : forall t, In t order -> exists n, gram_type n = Some (snd t) /\ (min <= n <= max)%nat).
    { intros t Ht. apply (Permutation_in _ Po) in Ht. apply in_map_iff in Ht. destruct Ht as (t' & <- & Ht). cbn [snd]. eapply tokens_types; eauto. }
    destruct (tokens_find order Hord) as (found & F1 & F2 & F3). exists toks, order, found. split; auto. split; auto. split; auto. split; auto.
    destruct (ifile_holds Hwd Hif) as (HD0 & fl & ms & x0 & L & H). pose proof (sb_lengths Hs) as (H1 & H2 & H3).
    assert (Hent : fm_entries fm < 2^31).
    { destruct (gram_type min) as [ty|] eqn:Ety; [|destruct min as [|[|[|[|k]]]]; cbn in Ety; try lia; discriminate]. exact (rb_entries (sb_readable Hs Ety ltac:(lia))). }
    unfold ts_search. rewrite (sees_metadata H Hent). cbn [rbind]. destruct headers_ok as (hs & Eh & Hh). rewrite Eh. cbn [rbind].
    set (c := match cfg with Some (a, b) => Some (js_int (Z.of_nat a), js_int (Z.of_nat b)) | None => None end).
    assert (Ec : config_of c = (js_int (Z.of_nat min), js_int (Z.of_nat max))).
    { unfold c. revert Hcfg. destruct cfg as [[a b]|]; intros E; injection E as <- <-; reflexivity. }
    destruct (@C51_validation_partial name c hs) as [V _]; [rewrite Ec; split; discriminate|].
    destruct V as [_ V]. destruct V as (c' & Ev).
    { split; auto. rewrite Ec. exists (QArith_base.inject_Z (Z.of_nat min)), (QArith_base.inject_Z (Z.of_nat max)). split; [reflexivity|].
      unfold QArith_base.Qle, QArith_base.inject_Z. cbn [QArith_base.Qnum QArith_base.Qden]. lia. }
    match goal with |- context [validate_search name ?x hs] => change x with c end. rewrite Ev. cbn [rbind]. rewrite Hcfg, Et. cbn [rbind]. rewrite Eo. cbn [rbind].
    destruct (@search_loop_ok num zero plus score (fm_entries fm) parse gas fuel (file s) D name order found F1 [] [] 0%nat (fun _ => 0)) as (R2 & EL & ER).
    { reflexivity. } { reflexivity. } { constructor. } { constructor. }
    unfold plain in EL. cbn [map] in EL. rewrite EL. cbn [rbind credit map app].
    assert (Hmp : Forall (fun x => 2 <= mp_len (snd (fst x))) (results zero plus score (fm_entries fm) (fun _ => 0) (combine (map snd order) found))).
    { generalize (fun _ : Z => 0). clear -F2 Hord Hs. unfold all_or_none in F2. induction F2 as [|t m toks found Hm F2 IH]; intros seen; [constructor|]. cbn [map combine results].
      apply Forall_app. split; [|apply IH; intros; apply Hord; right; auto]. apply Forall_map. cbn [fst snd].
      destruct (Hord t (or_introl eq_refl)) as (n & Hn & Hr). pose proof (rb_es (sb_readable Hs Hn Hr)) as He. destruct Hm as [Hm| ->]; [|constructor].
      rewrite Forall_forall in *. intros e Hin. apply (Permutation_in _ Hm) in Hin. apply filter_In in Hin. apply He. tauto. }
    assert (Hall : Forall (fun x : dptr * num => 2 <= mp_len (dp_mp (fst x))) (sort R2)).
    { eapply Permutation_Forall; [symmetry; apply Hsort|]. assert (X : Forall (fun p : mptr * num => 2 <= mp_len (fst p)) (map (fun x => (dp_mp (fst x), snd x)) R2)) by (rewrite ER; apply Forall_map; exact Hmp).
      rewrite Forall_map in X. exact X. }
    rewrite search_data_ok by auto. eexists. split; [reflexivity|]. rewrite (Hsort R2).
    rewrite <- (map_map (fun x : dptr * num => (dp_mp (fst x), snd x)) (fun p : mptr * num => (slice D (mp_off (fst p)) (mp_len (fst p)), snd p))), ER, map_map. reflexivity.
  Qed.
  Lemma results_entries n seen lg : map fst (results zero plus score n seen lg) = concat (map snd lg).
  Proof. revert seen. induction lg as [|[ft m] lg IH]; intros seen; [reflexivity|]. cbn [results map concat snd]. rewrite map_app, map_map, IH. cbn [fst]. rewrite map_id. reflexivity. Qed.
End Main.

(** ** C73: what a search returns *)
(** everything a search needs: see [searchable]; [sort] permutes, [choose i] picks an
    index up to i, [gas] bounds the lengths of the walks *)
Section Claims.
  Variables (wd : Z -> Z) (parse : bytes -> option bytes) (D : bytes) (fm : file_meta) (l : list ixr) (s : st).
  Variables (name : bytes) (grams_at : Z -> ixr) (min max : nat) (gas fuel : nat).
  Variables (num : Type) (zero : num) (plus : num -> num -> num) (score : Z -> Z -> Z -> num) (sort : list (dptr * num) -> list (dptr * num)).
  Variables (tl : list Z -> list Z) (choose : nat -> nat) (encode : list Z -> bytes) (like : list Z) (cfg : option (nat * nat)).
  Hypothesis Hwd : widths_ok wd.
  Hypothesis Hif : ifile wd parse D fm l s.
  Hypothesis Hs : searchable wd D fm l s name grams_at min max.
  Hypothesis Hfuel : (fuel_of s <= fuel)%nat.
  Hypothesis Hgas : forall n ty, gram_type n = Some ty -> (length (ix_es (grams_at ty)) < gas)%nat.
  Hypothesis Hsort : forall t, Permutation (sort t) t.
  Hypothesis Hchoose : forall i, (choose i <= i)%nat.
  Hypothesis Hcfg : match cfg with Some c => c | None => (1%nat, 2%nat) end = (min, max).
  Notation search := (ts_search zero plus score sort tl choose encode parse gas fuel (file s) D name like cfg).

  Lemma concat_forall2 {A B} (P : A -> list B -> Prop) : forall a b x, Forall2 P a b -> In x (concat b) -> exists t m, In t a /\ P t m /\ In x m.
  Proof.
    intros a b x H. induction H as [|t m a b Hp H IH]; intros Hx; [destruct Hx|]. cbn [concat] in Hx. apply in_app_iff in Hx. destruct Hx as [Hx|Hx]; [exists t, m; split; [left|]; auto|].
    destruct (IH Hx) as (t' & m' & I1 & I2 & I3). exists t', m'. split; [right|]; auto.
  Qed.
  Lemma forall2_in {A B} (P : A -> list B -> Prop) a b : Forall2 P a b -> forall t, In t a -> exists m, In m b /\ P t m.
  Proof. induction 1 as [|t m a b Hp H IH]; intros t' Ht; [destruct Ht|]. destruct Ht as [<-|Ht]; [exists m; split; [left|]; auto|]. destruct (IH _ Ht) as (m' & I1 & I2). exists m'. split; [right|]; auto. Qed.
  Lemma combine_snd {A} : forall (a : list A) (b : list (list entry)), length a = length b -> map snd (combine a b) = b.
  Proof. induction a as [|x a IH]; intros [|y b] E; cbn in *; try discriminate; auto. rewrite IH by lia. reflexivity. Qed.
  Lemma f2_len {A B} (P : A -> B -> Prop) a b : Forall2 P a b -> length a = length b.
  Proof. induction 1; cbn; auto. Qed.
  Lemma texts_of (order : list (bytes * Z)) (found : list (list entry)) (r : list (bytes * num)) : length order = length found ->
    Permutation r (map (fun x => (record_of D (fst x), snd x)) (results zero plus score (fm_entries fm) (fun _ => 0) (combine (map snd order) found))) ->
    Permutation (map fst r) (map (record_of D) (concat found)).
  Proof.
    intros El P. apply (Permutation_map fst) in P. rewrite map_map in P. cbn [fst] in P. rewrite <- (map_map fst (record_of D)), results_entries, combine_snd in P by (rewrite map_length; auto). exact P.
  Qed.

  (** Every record a search returns contains an n-gram of the text. *)
  Theorem C73_results_contain_an_ngram_partial : exists toks r, ts_tokens tl min max like = Ok toks /\ search = Ok r /\
    forall rec, In rec (map fst r) -> exists w ty e, In (w, ty) toks /\ In e (ix_es (grams_at ty)) /\ rv_val (fst e) = encode w /\ rec = record_of D e.
  Proof.
    destruct (@search_ok _ _ _ _ _ _ Hwd Hif name grams_at min max gas fuel Hs Hfuel Hgas num zero plus score sort Hsort tl choose encode like cfg Hchoose Hcfg) as (toks & order & found & Et & Po & F1 & _ & r & Er & Pr).
    exists toks, r. split; auto. split; auto. intros rec Hrec. apply (Permutation_in _ (@texts_of order found r (f2_len F1) Pr)) in Hrec. apply in_map_iff in Hrec. destruct Hrec as (e & <- & He).
    destruct (@concat_forall2 _ _ _ order found e F1 He) as ([w ty] & m & I1 & I2 & I3). apply (Permutation_in _ Po) in I1. apply in_map_iff in I1. destruct I1 as ([w0 ty0] & Ew & I1). injection Ew as <- <-. cbn [fst snd] in *.
    destruct I2 as [I2| ->]; [|destruct I3]. apply (Permutation_in _ I2) in I3. unfold occurrences in I3. apply filter_In in I3. cbn [fst snd] in I3. destruct I3 as [I3 I4].
    exists w0, ty0, e. repeat split; auto. destruct (list_eq_dec Z.eq_dec (rv_val (fst e)) (encode w0)); [auto|discriminate].
  Qed.
  (** When the indexes of the lengths searched for have one page each: every record that contains an
      n-gram of the text is returned, once for each place and each n-gram. *)
  Theorem C73_one_page_partial : (forall n ty, gram_type n = Some ty -> (min <= n <= max)%nat -> one_page wd parse D s (grams_at ty)) ->
    exists toks r, ts_tokens tl min max like = Ok toks /\ search = Ok r /\
    Permutation (map fst r) (map (record_of D) (flat_map (fun t => occurrences grams_at (encode (fst t), snd t)) toks)).
  Proof.
    intros Hone. destruct (@search_ok _ _ _ _ _ _ Hwd Hif name grams_at min max gas fuel Hs Hfuel Hgas num zero plus score sort Hsort tl choose encode like cfg Hchoose Hcfg) as (toks & order & found & Et & Po & F1 & F2 & r & Er & Pr).
    exists toks, r. split; auto. split; auto. rewrite (@texts_of order found r (f2_len F1) Pr). apply Permutation_map. specialize (F2 Hone).
    assert (X : Permutation (concat found) (flat_map (occurrences grams_at) order)).
    { clear -F2. unfold all_found in F2. induction F2 as [|t m a b Hp H IH]; [reflexivity|]. cbn [concat flat_map]. rewrite Hp, IH. reflexivity. }
    rewrite X, (Permutation_flat_map _ Po). rewrite flat_map_concat_map, map_map, <- flat_map_concat_map. reflexivity.
  Qed.
  (** In general, for each n-gram, either all its records are returned or none. *)
  Theorem C73_all_or_none_partial : exists toks order found r, ts_tokens tl min max like = Ok toks /\ search = Ok r /\
    Permutation order (map (fun t => (encode (fst t), snd t)) toks) /\ all_or_none grams_at order found /\ Permutation (map fst r) (map (record_of D) (concat found)).
  Proof.
    destruct (@search_ok _ _ _ _ _ _ Hwd Hif name grams_at min max gas fuel Hs Hfuel Hgas num zero plus score sort Hsort tl choose encode like cfg Hchoose Hcfg) as (toks & order & found & Et & Po & F1 & _ & r & Er & Pr).
    exists toks, order, found, r. split; auto. split; auto. split; auto. split; auto. apply (@texts_of order found r (f2_len F1) Pr).
  Qed.

  (** C74 fails for every search: the frequency of an n-gram in a record (third argument of [score])
      is always taken to be 1, however often it occurs. *)
  Theorem C74_frequency_refuted : exists r, search = Ok r /\
    Forall (fun x => exists ks, snd x = fold_left (fun a k => plus a (score (fm_entries fm) k 1)) ks zero) r.
  Proof.
    destruct (@search_ok _ _ _ _ _ _ Hwd Hif name grams_at min max gas fuel Hs Hfuel Hgas num zero plus score sort Hsort tl choose encode like cfg Hchoose Hcfg) as (toks & order & found & Et & Po & F1 & _ & r & Er & Pr).
    exists r. split; auto. eapply Permutation_Forall; [symmetry; exact Pr|]. apply Forall_map. cbn [snd].
    generalize (combine (map snd order) found). generalize (fun _ : Z => 0). clear. intros seen lg. revert seen. induction lg as [|[ft m] lg IH]; intros seen; [constructor|].
    cbn [results]. apply Forall_app. split; [|apply IH]. apply Forall_map. apply Forall_forall. intros e _. cbn [snd].
    assert (G : forall lg seen ty x, exists ks, credits plus score (fm_entries fm) seen lg ty x = fold_left (fun a k => plus a (score (fm_entries fm) k 1)) ks x).
    { clear. induction lg as [|[ft m] lg IH]; intros seen ty x; [exists []; reflexivity|]. cbn [credits]. destruct (IH (seen_add seen ft (zlen m)) ty (if ty =? ft then plus x (score (fm_entries fm) (seen_add seen ft (zlen m) ft) 1) else x)) as (ks & E). rewrite E.
      destruct (ty =? ft); [|exists ks; reflexivity]. exists (seen_add seen ft (zlen m) ft :: ks). reflexivity. }
    apply G.
  Qed.
  (** What is computed instead: [results] credits each entry with its own n-gram and with all n-grams of
      the same length that come later in a random order, each weighted with the number of entries found so far. *)
  Theorem C74_what_is_computed_partial : exists toks order found r, ts_tokens tl min max like = Ok toks /\ search = Ok r /\
    Permutation order (map (fun t => (encode (fst t), snd t)) toks) /\ all_or_none grams_at order found /\
    Permutation r (map (fun x => (record_of D (fst x), snd x)) (results zero plus score (fm_entries fm) (fun _ => 0) (combine (map snd order) found))).
  Proof.
    destruct (@search_ok _ _ _ _ _ _ Hwd Hif name grams_at min max gas fuel Hs Hfuel Hgas num zero plus score sort Hsort tl choose encode like cfg Hchoose Hcfg) as (toks & order & found & Et & Po & F1 & _ & r & Er & Pr).
    exists toks, order, found, r. auto.
  Qed.
End Claims.

(** C73 in full is false also because of records that are not found: an index of
    more than one page whose n-grams are all different has one for which the search returns nothing. *)
Theorem C73_misses_refuted wd parse D fm l s name grams_at n ty gas fuel : widths_ok wd -> ifile wd parse D fm l s ->
  gram_type n = Some ty -> searchable wd D fm l s name grams_at n n -> (fuel_of s <= fuel)%nat -> (0 < gas)%nat ->
  ~ one_page wd parse D s (grams_at ty) -> NoDup (map (fun e => rv_val (fst e)) (ix_es (grams_at ty))) -> Forall (fun e => rv_dp (fst e) <> MP 0 0) (ix_es (grams_at ty)) ->
  exists e, In e (ix_es (grams_at ty)) /\
    forall num (zero : num) plus score sort tl choose encode like w, (forall t, Permutation (sort t) t) ->
    ts_tokens tl n n like = Ok [(w, ty)] -> encode w = rv_val (fst e) ->
    ts_search zero plus score sort tl choose encode parse gas fuel (file s) D name like (Some (n, n)) = Ok [].
Proof.
  intros Hwd Hif Hn Hs Hfuel Hgas Hone Hnd Hdp.
  destruct (sb_index Hs _ Hn) as (Hin & En & Et). pose proof (sb_readable Hs Hn ltac:(lia)) as Hr.
  assert (Hg : forall k t, gram_type k = Some t -> (length (ix_es (grams_at t)) < S (length (ix_es (grams_at FTUnigram)) + length (ix_es (grams_at FTBigram)) + length (ix_es (grams_at FTTrigram))))%nat).
  { intros k t E. destruct k as [|[|[|[|k]]]]; cbn in E; inversion E; subst t; lia. }
  destruct (@walk_of_index _ _ _ _ _ _ Hwd Hif grams_at _ fuel Hfuel Hg (grams_at ty) Hr) as (es & h & pgs & mp & im & P & A & R & Hl & Hh & Er & Hrd & Hfe & Hsm & E1 & E2 & E3 & E4 & E5); [rewrite Et; eapply gram_not_float; eauto|].
  rewrite Et in *.
  assert (Hh0 : exists h', h = S h').
  { destruct h as [|h']; [|exists h'; reflexivity]. exfalso. apply Hone. destruct R as (n0 & pg' & Hn0 & Hb & _). exists n0. rewrite Et, Er. destruct mp as [o len]. split; [apply Hrd; exact Hn0|exact (body_leaf_dec Hb)]. }
  destruct Hh0 as (h' & ->).
  destruct (@separator_falls_off _ _ Hrd h' fuel mp es pgs Hh R) as (e & He & it & Hoff).
  { eapply Permutation_NoDup; [|exact Hnd]; apply Permutation_map; symmetry; exact P. }
  { rewrite Forall_forall in *; intros x Hx; split; [apply Hsm; auto|apply Hdp; eapply Permutation_in; eauto]. }
  exists e. split; [eapply Permutation_in; eauto|]. intros num zero plus score sort tl choose encode like w Hsort Htok Ew.
  pose proof (ifile_holds Hwd Hif) as (HD0 & fl & ms & y0 & L & H). unfold ts_search. rewrite (sees_metadata H (rb_entries Hr)). cbn [rbind].
  destruct (@headers_ok _ _ _ _ _ _ Hwd Hif name grams_at n n _ fuel Hs Hfuel Hg) as (hs & Eh & Hhs). rewrite Eh. cbn [rbind].
  pose proof (sb_lengths Hs) as (L1 & _ & L3).
  destruct (@C51_validation_partial name (Some (js_int (Z.of_nat n), js_int (Z.of_nat n))) hs) as [V _]; [split; discriminate|].
  destruct V as [_ V]. destruct V as (c' & Ev).
  { split; auto. exists (QArith_base.inject_Z (Z.of_nat n)), (QArith_base.inject_Z (Z.of_nat n)). split; [reflexivity|].
    unfold QArith_base.Qle, QArith_base.inject_Z. cbn [QArith_base.Qnum QArith_base.Qden]. lia. }
  rewrite Ev. cbn [rbind]. rewrite Htok. cbn [rbind map fst snd]. change (shuffle choose [(encode w, ty)]) with (Ok [(encode w, ty)]). cbn [rbind search_loop].
  rewrite <- En, E1. cbn [rbind]. rewrite E2. cbn [rbind]. rewrite E3. cbn [tree_get tree_set]. rewrite Z.eqb_refl, E4, E5.
  destruct gas as [|g]; [lia|]. cbn [tf_loop]. rewrite Ew, Hoff. cbn [rbind fold_left].
  assert (sort [] = []) as -> by (apply Permutation_nil, Permutation_sym, Hsort). reflexivity.
Qed.

(** ** A file with one record {"a":"xx"}, whose field "a" is indexed for search *)
Definition Dx : bytes := [123; 34; 97; 34; 58; 34; 120; 120; 34; 125].
Definition px (b : bytes) : option bytes := Some b.
Definition ax (ft : Z) : codec := ix_codec determine_type px Dx ft.
Definition mx (k : Z) : lp := LP pageSize k.
Definition x0 : st := snd (new_page_file (open_rws KMmap [])).
Definition x1 : st := snd (new_index_file 0 x0).
Definition x2 : st := snd (find_or_create file_slot [97] FTUnigram x1).
Definition x3 : st := snd (find_or_create file_slot [97] FTBigram x2).
Definition x4 : st := snd (find_or_create file_slot [97] FTTrigram x3).
Definition rx : mptr := MP 0 10.
Definition x5 : st := snd (bp_insert (ax FTUnigram) (mx 1) (RV (MP 5 2) [120]) rx x4).
Definition x6 : st := snd (bp_insert (ax FTUnigram) (mx 1) (RV (MP 6 2) [120]) rx x5).
Definition x7 : st := snd (bp_insert (ax FTBigram) (mx 2) (RV (MP 5 2) [120; 120]) rx x6).
Definition ux : ixr := IX (mx 1) [97] FTUnigram 0 [(RV (MP 6 2) [120], rx); (RV (MP 5 2) [120], rx)].
Definition bx : ixr := IX (mx 2) [97] FTBigram 0 [(RV (MP 5 2) [120; 120], rx)].
Definition tx : ixr := IX (mx 3) [97] FTTrigram 0 [].
Definition fx : file_meta := FM 1 0 10 1.
Definition x8 : st := snd (if_set_metadata file_slot fx x7).
Lemma pair_ok {A B} (p : A * B) a : fst p = a -> p = (a, snd p).
Proof. destruct p; cbn; intros ->; reflexivity. Qed.
Ltac by_run s := unfold s; match goal with |- ?p = (?a, _) => refine (@pair_ok _ _ p a _) end; vm_compute; reflexivity.
Lemma x8_ifile : ifile determine_type px Dx fx [ux; bx; tx] x8.
Proof.
  assert (F0 : ifile determine_type px Dx (FM currentVersion 0 0 0) [] x1).
  { apply (@if_more determine_type px [] Dx); [|reflexivity]. apply (@if_new determine_type px KMmap 0 x0 file_slot x1); [lia|by_run x0|by_run x1]. }
  assert (Z : forall s, zlen (file s) <? 2^60 = true -> zlen (file s) < 2^60) by (intros; lia).
  assert (F2 : ifile determine_type px Dx (FM currentVersion 0 0 0) [IX (mx 1) [97] FTUnigram 0 []] x2).
  { apply (@if_index determine_type px _ _ _ _ [97] FTUnigram (mx 1) (IM [97] FTUnigram 2 0) x2 F0); [apply Z; vm_compute; reflexivity|vm_compute; discriminate|vm_compute; split; [discriminate|reflexivity]|]. by_run x2. }
  assert (F3 : ifile determine_type px Dx (FM currentVersion 0 0 0) [IX (mx 1) [97] FTUnigram 0 []; IX (mx 2) [97] FTBigram 0 []] x3).
  { apply (@if_index determine_type px _ _ _ _ [97] FTBigram (mx 2) (IM [97] FTBigram 3 0) x3 F2); [apply Z; vm_compute; reflexivity|vm_compute; discriminate|vm_compute; split; [discriminate|reflexivity]|]. by_run x3. }
  assert (F4 : ifile determine_type px Dx (FM currentVersion 0 0 0) [IX (mx 1) [97] FTUnigram 0 []; IX (mx 2) [97] FTBigram 0 []; tx] x4).
  { apply (@if_index determine_type px _ _ _ _ [97] FTTrigram (mx 3) (IM [97] FTTrigram 4 0) x4 F3); [apply Z; vm_compute; reflexivity|vm_compute; discriminate|vm_compute; split; [discriminate|reflexivity]|]. by_run x4. }
  assert (OK : forall ft a b v, determine_type ft <> 0 -> 0 <= a < 2^31 -> 0 <= b < 2^31 -> zlen v <= 3 -> op_ok (ax ft) (RV (MP a b) v, rx)).
  { intros ft a b v Hft Ha Hb Hv. unfold op_ok, rx, ax, ix_codec. cbn [fst snd rv_dp rv_val mp_off mp_len cwidth]. pose proof (determine_type_range ft). pose proof (zlen_nonneg v). repeat split; intros; try lia; contradiction. }
  assert (F5 : ifile determine_type px Dx (FM currentVersion 0 0 0) [IX (mx 1) [97] FTUnigram 0 [(RV (MP 5 2) [120], rx)]; IX (mx 2) [97] FTBigram 0 []; tx] x5).
  { apply (@if_put determine_type px _ _ _ _ (IX (mx 1) [97] FTUnigram 0 []) (RV (MP 5 2) [120]) rx x5 F4); [left; reflexivity|apply Z; vm_compute; reflexivity|apply OK; [vm_compute; discriminate|lia|lia|vm_compute; discriminate]|]. by_run x5. }
  assert (F6 : ifile determine_type px Dx (FM currentVersion 0 0 0) [ux; IX (mx 2) [97] FTBigram 0 []; tx] x6).
  { apply (@if_put determine_type px _ _ _ _ (IX (mx 1) [97] FTUnigram 0 [(RV (MP 5 2) [120], rx)]) (RV (MP 6 2) [120]) rx x6 F5); [left; reflexivity|apply Z; vm_compute; reflexivity|apply OK; [vm_compute; discriminate|lia|lia|vm_compute; discriminate]|]. by_run x6. }
  assert (F7 : ifile determine_type px Dx (FM currentVersion 0 0 0) [ux; bx; tx] x7).
  { apply (@if_put determine_type px _ _ _ _ (IX (mx 2) [97] FTBigram 0 []) (RV (MP 5 2) [120; 120]) rx x7 F6); [right; left; reflexivity|apply Z; vm_compute; reflexivity|apply OK; [vm_compute; discriminate|lia|lia|vm_compute; discriminate]|]. by_run x7. }
  apply (@if_meta determine_type px _ _ fx _ _ x8 F7); [|vm_compute; discriminate|by_run x8].
  unfold file_meta_ok, fx. cbn. lia.
Qed.
Definition gx (ty : Z) : ixr := if ty =? FTUnigram then ux else if ty =? FTBigram then bx else tx.
(** the hypotheses of C73 and C74 are met *)
Theorem C73_hypotheses_met : searchable determine_type Dx fx [ux; bx; tx] x8 [97] gx 1 2 /\
  forall n ty, gram_type n = Some ty -> (1 <= n <= 2)%nat -> one_page determine_type px Dx x8 (gx ty).
Proof.
  assert (Z : zlen (file x8) <=? 2^31 = true) by (vm_compute; reflexivity). split.
  - constructor; [lia| |].
    + intros n ty E. destruct n as [|[|[|[|n]]]]; cbn in E; inversion E; subst ty; cbn; auto 6.
    + intros n ty E Hn. destruct n as [|[|[|[|n]]]]; cbn in E; inversion E; subst ty; try lia;
        (constructor; [cbn; auto|intros ix' [<-|[<-|[<-|[]]]]; split; discriminate|reflexivity|lia|cbn; lia|repeat constructor; cbn; lia|discriminate|repeat constructor; cbn; lia]).
  - intros n ty E Hn. destruct n as [|[|[|[|n]]]]; cbn in E; inversion E; subst ty; try lia; (eexists; split; [vm_compute; reflexivity|reflexivity]).
Qed.
(** C73 in full is false. The record contains "x", but the search for "x" returns it twice. *)
Theorem C73_each_record_once_refuted {num} (zero : num) plus score sort tl choose : (forall t, Permutation (sort t) t) -> tl [120] = [120] ->
  ts_search zero plus score sort tl choose (fun w => w) px 3 (fuel_of x8) (file x8) Dx [97] [120] None =
    Ok [(Dx, plus zero (score 1 2 1)); (Dx, plus zero (score 1 2 1))].
Proof.
  intros Hsort Htl. assert (E : exists a b, ts_search zero plus score sort tl choose (fun w => w) px 3 (fuel_of x8) (file x8) Dx [97] [120] None =
     search_data Dx (sort [(DP a rx, plus zero (score 1 2 1)); (DP b rx, plus zero (score 1 2 1))])).
  { unfold ts_search.
    assert (ts_if_metadata (file x8) = Ok fx) as -> by (vm_compute; reflexivity). cbn [rbind].
    assert (ts_headers (fuel_of x8) (file x8) = Ok [HD [97] [FTUnigram; FTBigram; FTTrigram]]) as -> by (vm_compute; reflexivity). cbn [rbind].
    assert (validate_search [97] None [HD [97] [FTUnigram; FTBigram; FTTrigram]] = Ok (js_int 1, js_int 2)) as -> by reflexivity. cbn [rbind].
    assert (ts_tokens tl 1 2 [120] = Ok [([120], FTUnigram)]) as -> by (unfold ts_tokens; cbn; rewrite Htl; reflexivity). cbn [rbind].
    cbn [map fst snd]. assert (Sh : forall A (x : A), shuffle choose [x] = Ok [x]) by reflexivity. rewrite Sh. cbn [rbind search_loop].
    assert (ts_seek (fuel_of x8) (file x8) [97] FTUnigram = Ok [mx 1]) as -> by (vm_compute; reflexivity). cbn [rbind].
    assert (ts_index_meta (file x8) (mx 1) = Ok (IM [97] FTUnigram 2 0)) as -> by (vm_compute; reflexivity). cbn [rbind im_type im_width tree_get tree_set Z.eqb Pos.eqb].
    cbn [FTUnigram Z.eqb Pos.eqb].
    assert (tf_loop 3 (ts_next (fuel_of x8) (ts_rd {| cwidth := 2; cdata := Dx; cparse := px |} (file x8)) (ts_mp_root (file x8) (mx 1))) [120] [] 0 (ts_iter (RV (MP 0 0) [120])) = Ok ([(DP 0 rx, 1); (DP 1 rx, 1)], 2%nat)) as -> by (vm_compute; reflexivity).
    cbn [rbind]. exists 0%nat, 1%nat. reflexivity. }
  destruct E as (a & b & ->). pose proof (Hsort [(DP a rx, plus zero (score 1 2 1)); (DP b rx, plus zero (score 1 2 1))]) as P. apply Permutation_sym, Permutation_length_2_inv in P.
  destruct P as [-> | ->]; vm_compute; reflexivity.
Qed.
(** ... and the search for "xxx", of which there is no trigram in the index, fails instead of returning nothing. *)
Theorem C73_empty_index_refuted {num} (zero : num) plus score sort tl choose : tl [120; 120; 120] = [120; 120; 120] -> exists e,
  ts_search zero plus score sort tl choose (fun w => w) px 3 (fuel_of x8) (file x8) Dx [97] [120; 120; 120] (Some (3%nat, 3%nat)) = Err e.
Proof.
  intros Htl. unfold ts_search.
  assert (ts_if_metadata (file x8) = Ok fx) as -> by (vm_compute; reflexivity). cbn [rbind].
  assert (ts_headers (fuel_of x8) (file x8) = Ok [HD [97] [FTUnigram; FTBigram; FTTrigram]]) as -> by (vm_compute; reflexivity). cbn [rbind].
  assert (validate_search [97] (Some (js_int (Z.of_nat 3), js_int (Z.of_nat 3))) [HD [97] [FTUnigram; FTBigram; FTTrigram]] = Ok (js_int 3, js_int 3)) as -> by reflexivity. cbn [rbind].
  assert (ts_tokens tl 3 3 [120; 120; 120] = Ok [([120; 120; 120], FTTrigram)]) as -> by (unfold ts_tokens; cbn; rewrite Htl; reflexivity). cbn [rbind].
  cbn [map fst snd]. assert (Sh : forall A (x : A), shuffle choose [x] = Ok [x]) by reflexivity. rewrite Sh. cbn [rbind search_loop].
  assert (ts_seek (fuel_of x8) (file x8) [97] FTTrigram = Ok [mx 3]) as -> by (vm_compute; reflexivity). cbn [rbind].
  assert (ts_index_meta (file x8) (mx 3) = Ok (IM [97] FTTrigram 4 0)) as -> by (vm_compute; reflexivity). cbn [rbind im_type im_width tree_get tree_set].
  cbn [FTTrigram Z.eqb Pos.eqb].
  assert (E : match (tf_loop 3 (ts_next (fuel_of x8) (ts_rd {| cwidth := 4; cdata := Dx; cparse := px |} (file x8)) (ts_mp_root (file x8) (mx 3))) [120; 120; 120] [] 0 (ts_iter (RV (MP 0 0) [120; 120; 120]))) with Err _ => true | _ => false end = true) by (vm_compute; reflexivity).
  destruct (tf_loop 3 (ts_next (fuel_of x8) (ts_rd {| cwidth := 4; cdata := Dx; cparse := px |} (file x8)) (ts_mp_root (file x8) (mx 3))) [120; 120; 120] [] 0 (ts_iter (RV (MP 0 0) [120; 120; 120]))) as [r|e| | |]; try discriminate E.
  exists e. reflexivity.
Qed.
