(** The writes of the JSONL handler, one by one: a Synchronize that runs to its end
    without a write budget makes a sequence of files, and with a budget of fewer
    writes it dies leaving the file of that moment (Crash.v, [writes_to]). *)
From Verif Require Import Base Varint Store PageFile RefValue Node LinkedPage BPTree BPRepr BPInsert Meta IndexFile Json Jsonl Crash PCrash.

Definition cw {A} (m : M st A) : Prop := forall s, budget s = None -> fst (m s) <> Crash -> exists fs, writes_to m s fs.
Lemma cw_writes {A} (m : M st A) : (forall s, writes m s) -> cw m.
Proof. intros H s Hb _. apply H, Hb. Qed.
Lemma cw_lift {A} (r : res A) : cw (lift r).
Proof. intros s Hb Hn. apply writes_lift; [exact Hn|exact Hb]. Qed.
Lemma cw_ret {A} (a : A) : cw (ret a). Proof. apply cw_writes. intros; apply writes_ret. Qed.
Lemma cw_fail {A} e : cw (@fail st A e). Proof. apply cw_writes. intros; apply writes_fail. Qed.
Lemma cw_panic {A} : cw (@panic st A). Proof. apply cw_writes. intros; apply writes_panic. Qed.
(** a match on the outcome of a program that goes on with another one *)
Lemma cw_try {A B} (m : M st A) (k : res A -> M st B) : cw m -> (forall r, cw (k r)) -> (forall s, k Crash s = (Crash, s)) -> cw (fun s => let (r, s1) := m s in k r s1).
Proof.
  intros Hm Hk Hc s Hb Hn. destruct (m s) as [r s1] eqn:E.
  assert (Hn1 : fst (m s) <> Crash). { rewrite E. cbn [fst]. intros ->. rewrite Hc in Hn. apply Hn. reflexivity. }
  destruct (Hm s Hb Hn1) as (fs & H1 & H2 & H3 & H4). rewrite E in *. cbn [fst snd] in *.
  destruct (Hk r s1 H2 Hn) as (fs2 & G1 & G2 & G3 & G4). exists (fs ++ fs2). unfold writes_to. rewrite E.
  split; [auto|]. split; [auto|]. split; [rewrite fin_app, <- H3; auto|]. intros k0. rewrite app_length. destruct (H4 k0) as [H5 H6]. split; intros L0.
  - destruct (Nat.lt_ge_cases k0 (length fs)) as [L|L].
    + destruct (H5 L) as (s' & E' & F'). rewrite E'. rewrite Hc. exists s'. split; auto. rewrite nth_fin; auto.
    + rewrite (H6 L). destruct (G4 (k0 - length fs)%nat) as [G5 _]. destruct G5 as (s' & E' & F'); [lia|]. exists s'. split; auto.
      rewrite nth_fin_r by auto. rewrite <- H3. auto.
  - rewrite (H6 ltac:(lia)). destruct (G4 (k0 - length fs)%nat) as [_ G6]. rewrite G6 by lia. f_equal. f_equal. f_equal. lia.
Qed.
Lemma cw_ext {A} (m m' : M st A) : (forall s, m s = m' s) -> cw m' -> cw m.
Proof. intros H Hm s Hb Hn. rewrite H in Hn. destruct (Hm s Hb Hn) as (fs & W). exists fs. unfold writes_to in *. rewrite H. destruct W as (W1 & W2 & W3 & W4). repeat split; auto; intros Hk; rewrite H; apply W4; auto. Qed.
Lemma cw_bind {A B} (m : M st A) (k : A -> M st B) : cw m -> (forall a, cw (k a)) -> cw (bind m k).
Proof.
  intros Hm Hk. apply cw_ext with (m' := fun s => let (r, s1) := m s in (match r with Ok a => k a | Err e => lift (Err e) | Panic => lift Panic | Crash => lift Crash | Hang => lift Hang end) s1).
  - intros s. unfold bind. destruct (m s) as [[a|e| | |] s1]; reflexivity.
  - apply (@cw_try _ _ m (fun r => match r with Ok a => k a | Err e => lift (Err e) | Panic => lift Panic | Crash => lift Crash | Hang => lift Hang end)); auto.
    intros [a|e| | |]; [apply Hk|apply cw_lift..].
Qed.
(** a program chosen by the file *)
Lemma cw_pick {A} (m : M st A) (g : st -> M st A) : (forall s b, m (set_budget s b) = g s (set_budget s b)) -> (forall s, cw (g s)) -> cw m.
Proof.
  intros H Hg s Hb Hn. assert (E : m s = g s s). { pose proof (H s None) as X. rewrite (budget_none _ Hb) in X. exact X. }
  rewrite E in Hn. destruct (Hg s s Hb Hn) as (fs & W1 & W2 & W3 & W4). exists fs. unfold writes_to. rewrite E. repeat split; auto; intros Hk; rewrite H; apply W4; auto.
Qed.
Create HintDb cw.
Ltac base := apply cw_writes; intros; first [apply writes_seek_abs|apply writes_seek_start|apply writes_seek_cur|apply writes_seek_end|apply writes_pf_read|apply writes_read_full|apply writes_pf_write|apply writes_new_page|apply writes_write_node|apply writes_lp_set_root|apply writes_ins_loop].
Lemma cw_seek_start a : cw (seek_start a). Proof. base. Qed.
Lemma cw_pf_read a : cw (pf_read a). Proof. base. Qed.
Lemma cw_read_full a : cw (read_full a). Proof. base. Qed.
Lemma cw_pf_write a : cw (pf_write a). Proof. base. Qed.
Lemma cw_new_page a : cw (new_page a). Proof. base. Qed.
Lemma cw_lp_set_root m p : cw (lp_set_root m p). Proof. base. Qed.
Lemma cw_ins_loop c m tr rest : cw (ins_loop c m tr rest). Proof. base. Qed.
#[global] Hint Resolve cw_lift cw_ret cw_fail cw_panic cw_seek_start cw_pf_read cw_read_full cw_pf_write cw_new_page cw_lp_set_root cw_ins_loop : cw.
Ltac cwt := repeat first [ solve [auto with cw] | apply cw_bind; intros | match goal with
  | |- cw (if ?b then _ else _) => destruct b
  | |- cw (match ?x with _ => _ end) => destruct x
  | |- cw (let _ := _ in _) => cbv zeta
  end ].
Lemma cw_lp_metadata m : cw (lp_metadata m). Proof. unfold lp_metadata. cwt. Qed.
Lemma cw_lp_set_metadata m d : cw (lp_set_metadata m d). Proof. unfold lp_set_metadata. cwt. Qed.
Lemma cw_lp_count m : cw (lp_count m). Proof. unfold lp_count. cwt. Qed.
Lemma cw_lp_npo m : cw (lp_next_page_offset m). Proof. unfold lp_next_page_offset. cwt. Qed.
#[global] Hint Resolve cw_lp_metadata cw_lp_set_metadata cw_lp_count cw_lp_npo : cw.
Lemma cw_lp_next m : cw (lp_next m). Proof. unfold lp_next. cwt. Qed.
Lemma cw_lp_reset m c : cw (lp_reset m c). Proof. unfold lp_reset. cwt. Qed.
#[global] Hint Resolve cw_lp_next cw_lp_reset : cw.
Lemma cw_lp_add_next m : cw (lp_add_next m). Proof. unfold lp_add_next. cwt. Qed.
#[global] Hint Resolve cw_lp_add_next : cw.
Lemma cw_bp_insert c m k v : cw (bp_insert c m k v).
Proof.
  eapply cw_pick with (g := fun s => if negb (cwidth c =? 0) && negb (zlen (rv_val k) mod 2^16 =? (cwidth c - 1) mod 2^16)
  then fail (EMsg "key does not match with BPTree width")
  else match bp_root (go_rd c s) (fst (lp_root m s)) with
    | Err e => lift (Err e) | Panic => lift Panic | Crash => lift Crash | Hang => lift Hang
    | Ok None =>
        (buf <- lift (marshal (cwidth c) (mkNode [k] [v] [])) ;;
         offset <- new_page buf ;;
         lp_set_root m (MP (offset mod 2^64) (zlen buf mod 2^32)))
    | Ok (Some (root, off)) =>
        match traverse (fuel_of s) (go_rd c s) k root off with
        | Err e => lift (Err e) | Panic => lift Panic | Crash => lift Crash | Hang => lift Hang
        | Ok [] => lift Panic
        | Ok (leaf :: rest) =>
            let n := tnode leaf in
            let '(j, found) := bsearch (keys n) k in
            if found then lift (Err (EMsg "key already exists"))
            else ins_loop c m (TR (mkNode (firstn j (keys n) ++ k :: skipn j (keys n))
                               (firstn j (lptrs n) ++ v :: skipn j (lptrs n)) (iptrs n)) (tidx leaf) (tptr leaf)) rest
        end
    end).
  - intros s b. rewrite insert_budget. destruct (_ && _); [reflexivity|]. destruct (bp_root _ _) as [[[root off]|]|e| | |]; try reflexivity.
    destruct (traverse _ _ _ _ _) as [[|leaf rest]|e| | |]; try reflexivity. cbv zeta. destruct (bsearch _ _) as [j []]; reflexivity.
  - intros s. cwt.
Qed.
#[global] Hint Resolve cw_bp_insert : cw.
Lemma cw_find_from name ft : forall fuel mp, cw (find_or_create_from fuel mp name ft).
Proof.
  induction fuel as [|fuel IH]; intros mp; cbn [find_or_create_from]; [cwt|].
  set (A := next <- lp_add_next mp ;; _).
  set (B := fun next => buf <- lp_metadata next ;; m <- lift (index_meta_unmarshal buf) ;;
           if name_eqb (im_name m) name && (im_type m =? ft) then ret (next, m) else find_or_create_from fuel next name ft).
  apply cw_ext with (m' := fun s => let (r, s1) := lp_next mp s in (match r with Ok n => B n | Err EEof => A | Err e => lift (Err e) | Panic => lift Panic | Crash => lift Crash | Hang => lift Hang end) s1).
  - intros s. destruct (lp_next mp s) as [[n|[|e]| | |] s1]; reflexivity.
  - apply (@cw_try _ _ (lp_next mp) (fun r => match r with Ok n => B n | Err EEof => A | Err e => lift (Err e) | Panic => lift Panic | Crash => lift Crash | Hang => lift Hang end)); [cwt| |reflexivity].
    intros [n|[|e]| | |]; subst A B; cbv beta; cwt.
Qed.
Lemma cw_find tree name ft : cw (find_or_create tree name ft).
Proof. apply cw_pick with (g := fun s => find_or_create_from (fuel_of s) tree name ft); [reflexivity|intros; apply cw_find_from]. Qed.
Lemma cw_save page m : cw (save_index_meta page m). Proof. unfold save_index_meta. cwt. Qed.
Lemma cw_if_metadata t : cw (if_metadata t). Proof. unfold if_metadata. cwt. Qed.
Lemma cw_if_set_metadata t m : cw (if_set_metadata t m). Proof. unfold if_set_metadata. cwt. Qed.
#[global] Hint Resolve cw_find cw_save cw_if_metadata cw_if_set_metadata : cw.

Section J.
Variables (unquote : bytes -> bytes) (to_float : bytes -> option bytes) (grams : bytes -> Z -> res (list (bytes * Z * Z))) (hdrs : list bytes).
Lemma cw_put_grams c page mp len data : forall l t, cw (put_grams c page mp len data l t).
Proof. induction l as [|[[w o] n] l IH]; intros t; cbn [put_grams]; cwt. Qed.
#[local] Hint Resolve cw_put_grams : cw.
Lemma cw_index_value page meta r data v fo obj d ft : (forall d, cw (obj d)) -> cw (index_value unquote to_float grams page meta r data v fo obj d ft).
Proof. intros H. unfold index_value. cwt. Qed.
#[local] Hint Resolve cw_index_value : cw.
Lemma cw_index_ft tree r data name v fo obj d ft : (forall d, cw (obj d)) -> cw (index_ft unquote to_float grams tree r data name v fo obj d ft).
Proof. intros H. unfold index_ft. cwt. Qed.
Lemma cw_index_fts f : (forall d ft, cw (f d ft)) -> forall fts d, cw (index_fts f fts d).
Proof. intros H. induction fts as [|ft fts IH]; intros d; cbn [index_fts]; cwt. Qed.
Lemma cw_handle tree r data : forall fuel path d, cw (handle_object unquote to_float grams hdrs fuel tree r data path d).
Proof.
  induction fuel as [|fuel IH]; intros path d; cbn [handle_object]; [cwt|]. cwt. apply cw_index_fts. intros. apply cw_index_ft. auto.
Qed.
Lemma cw_sync_loop tree df : forall fuel m, cw (sync_loop unquote to_float grams hdrs fuel tree df m).
Proof.
  induction fuel as [|fuel IH]; intros m; cbn [sync_loop]; [cwt|]. cwt. apply cw_handle.
Qed.
Lemma cw_sync tree df : cw (jsonl_sync unquote to_float grams hdrs tree df).
Proof. unfold jsonl_sync. cwt. apply cw_sync_loop. Qed.
End J.

(** ** Crash points *)
Lemma crash_at_bind_cw {A B} (m : M st A) (g : A -> M st B) s a s1 f : budget s = None -> cw m -> m s = (Ok a, s1) -> crash_at (g a) s1 f -> crash_at (bind m g) s f.
Proof.
  intros Hb Hw E (k & s' & Ec & Ef). destruct (Hw s Hb) as (fs & W1 & W2 & W3 & W4); [rewrite E; discriminate|]. exists (length fs + k)%nat, s'. split; auto.
  destruct (W4 (length fs + k)%nat) as [_ W6]. unfold bind. rewrite W6 by lia. rewrite E. cbn [fst snd].
  replace (length fs + k - length fs)%nat with k by lia. exact Ec.
Qed.
Lemma crash_at_once_cw {A} (m : M st A) s : budget s = None -> cw m -> fst (m s) <> Crash -> file (snd (m s)) <> file s -> crash_at m s (file s).
Proof.
  intros Hb Hw Hn Hf. destruct (Hw s Hb Hn) as (fs & W1 & W2 & W3 & W4). destruct fs as [|f fs]; [contradiction|].
  destruct (W4 0%nat) as [W5 _]. destruct W5 as (s' & E & F); [cbn; lia|]. exists 0%nat, s'. auto.
Qed.
Lemma cw_budget {A} (m : M st A) s : cw m -> budget s = None -> fst (m s) <> Crash -> budget (snd (m s)) = None.
Proof. intros Hw Hb Hn. destruct (Hw s Hb Hn) as (fs & _ & W & _). exact W. Qed.
