(** Concrete indexes: the hypotheses of PTree.v are met by files the program
    creates, and the properties that fail, fail on such files. *)
From Verif Require Import Base Varint Store PageFile RefValue Node LinkedPage BPTree BPRepr BPIter BPInsert BPLoop BPTop PTree.
From Coq Require Import Permutation.

(** a new file with one index slot, as the program makes it *)
Definition fresh (k : rws_kind) : res lp * st :=
  (new_page_file ;;; m <- new_multi ;; lp_add_next m) (open_rws k []).
Definition s0 (k : rws_kind) : st := snd (fresh k).
Definition m0 : lp := LP 4096 0.

Definition st_is (s : st) (f : bytes) : bool :=
  if list_eq_dec Z.eq_dec (file s) f then true else false.

Lemma fresh_ready k c : codec_ok c -> fst (fresh k) = Ok m0 /\ index_ready c (s0 k) m0 [].
Proof.
  intros Hc. split; [destruct k; vm_compute; reflexivity|].
  exists [], []. split; auto.
  assert (Hf : file (s0 k) = zeros 4096 ++ le 8 (2^64-1) ++ [1] ++ zeros (4096 - 9)) by (destruct k; vm_compute; reflexivity).
  assert (Hz : zlen (file (s0 k)) = 8192) by (destruct k; vm_compute; reflexivity).
  assert (Hpg : page_ok (file (s0 k)) 4096) by (unfold page_ok; rewrite Hz; unfold pageSize; lia).
  split.
  { constructor.
    - exists 0. split; [lia|]. change (zlen (@nil Z)) with 0. split; [lia|].
      split; [destruct k; vm_compute; reflexivity|]. split; destruct k; vm_compute; reflexivity.
    - rewrite Hz. reflexivity.
    - rewrite Hz. unfold pageSize; lia.
    - constructor.
    - constructor.
    - destruct k; vm_compute; reflexivity. }
  split; [destruct k; vm_compute; reflexivity|].
  split. { split; [exact Hpg|]. cbn [m0 lp_idx lp_off]. unfold numSlots. lia. }
  split. { left. split; auto. split; auto. destruct k; vm_compute; reflexivity. }
  split; [constructor|]. intros [].
Qed.

(** run inserts, ignoring answers *)
Fixpoint inserts (c : codec) (m : lp) (ops : list (rv * mptr)) (s : st) : st :=
  match ops with [] => s | (k, v) :: r => inserts c m r (snd (bp_insert c m k v s)) end.
Fixpoint answers (c : codec) (m : lp) (ops : list (rv * mptr)) (s : st) : list (res unit) :=
  match ops with [] => [] | (k, v) :: r => fst (bp_insert c m k v s) :: answers c m r (snd (bp_insert c m k v s)) end.
Fixpoint small (c : codec) (m : lp) (ops : list (rv * mptr)) (s : st) : bool :=
  match ops with [] => true | (k, v) :: r => (zlen (file s) <? 2^60) && small c m r (snd (bp_insert c m k v s)) end.
Lemma inserts_history c m ops : forall s, small c m ops s = true -> history c m s ops (answers c m ops s) (inserts c m ops s).
Proof.
  induction ops as [|[k v] ops IH]; intros s H; [constructor|]. cbn [small inserts answers] in *.
  apply andb_true_iff in H. destruct H as [H1 H2]. apply Z.ltb_lt in H1.
  destruct (bp_insert c m k v s) as [r s1] eqn:E. cbn [fst snd] in *. econstructor; eauto.
Qed.

(** keys of 1000 bytes: about four entries fill a page *)
Definition c1001 : codec := mkCodec 1001 [] (fun _ => None).
Definition bigkey (b : Z) : rv := RV (MP b 1) (b :: zeros 999).
Definition ops5 : list (rv * mptr) := map (fun b => (bigkey b, MP (100 + b) 7)) [10; 40; 20; 50; 30].

Definition op_okb (c : codec) (o : rv * mptr) : bool :=
  (0 <=? mp_off (snd o)) && (mp_off (snd o) <? 2^64) && (0 <=? mp_len (snd o)) && (mp_len (snd o) <? 2^32) &&
  (0 <=? mp_off (rv_dp (fst o))) && (mp_off (rv_dp (fst o)) <? 2^64) && (0 <=? mp_len (rv_dp (fst o))) && (mp_len (rv_dp (fst o)) <? 2^32) &&
  negb (cwidth c =? 0) && (zlen (rv_val (fst o)) <? 2^16).
Lemma op_okb_ok c o : op_okb c o = true -> op_ok c o.
Proof.
  unfold op_okb, op_ok. rewrite !andb_true_iff, negb_true_iff, !Z.leb_le, !Z.ltb_lt, Z.eqb_neq.
  intros (((((((((H1 & H2) & H3) & H4) & H5) & H6) & H7) & H8) & H9) & H10).
  repeat split; try lia; try congruence.
Qed.
Lemma c1001_ok : codec_ok c1001.
Proof. unfold codec_ok, c1001; cbn [cwidth cdata]; change (zlen (@nil Z)) with 0; lia. Qed.
Lemma ops5_ok : Forall (op_ok c1001) ops5.
Proof. repeat (constructor; [apply op_okb_ok; vm_compute; reflexivity|]). constructor. Qed.

Definition s5 : st := inserts c1001 m0 ops5 (s0 KMmap).
Lemma ops5_answers : answers c1001 m0 ops5 (s0 KMmap) = repeat (Ok tt) 5.
Proof. vm_compute. reflexivity. Qed.

(** the example tree: five entries, two leaves and a root *)
Theorem s5_ready : exists es, index_ready c1001 s5 m0 es /\ es = map (fun b => (bigkey b, MP (100 + b) 7)) [10; 20; 30; 40; 50].
Proof.
  destruct (fresh_ready KMmap c1001_ok) as [_ R0].
  assert (Hh : history c1001 m0 (s0 KMmap) ops5 (answers c1001 m0 ops5 (s0 KMmap)) s5).
  { apply inserts_history. vm_compute. reflexivity. }
  destruct (C28_tree_is_a_sorted_map (c:=c1001) ltac:(cbn; lia) R0 ops5_ok Hh) as (final & es & Hr & _ & P & _ & R & Hw).
  exists es. split; auto.
  specialize (Hw 6%nat).
  assert (Ew : walk c1001 m0 s5 least 6 = Ok (map (fun b => (bigkey b, MP (100 + b) 7)) [10; 20; 30; 40; 50])) by (vm_compute; reflexivity).
  rewrite Ew in Hw.
  assert (He : firstn 6 es = map (fun b => (bigkey b, MP (100 + b) 7)) [10; 20; 30; 40; 50]) by congruence.
  (* six steps see the whole list, since the map run gives five entries *)
  rewrite ops5_answers in Hr.
  assert (Hlen : length es = 5%nat).
  { apply Permutation_length in P. rewrite P. clear -Hr.
    repeat match goal with H : map_run _ _ _ _ _ |- _ => inversion H; clear H; subst end; reflexivity. }
  rewrite firstn_all2 in He by lia. auto.
Qed.

(** C30 in full is false: a key above the last key of a leaf and below the
    first key of the next leaf. Next() answers false and Find returns nothing,
    although three keys follow. *)
Theorem C30_refuted : exists c m s es k,
  index_ready c s m es /\ (exists k', In k' (map fst es) /\ key_lt k k') /\
  walk c m s k 10 = Ok [] /\ go_find c m k s = Ok (RV (MP 0 0) [], MP 0 0).
Proof.
  destruct s5_ready as (es & R & He).
  exists c1001, m0, s5, es, (bigkey 25). split; auto. split.
  { exists (bigkey 30). split; [subst es; cbn; auto|]. vm_compute. reflexivity. }
  split; vm_compute; reflexivity.
Qed.
(** C31 in full is false, both ways: the empty value on an empty index, and a
    value that is present but whose search key falls off the end of a leaf. *)
Theorem C31_refuted_empty : exists c m s k, index_ready c s m [] /\ go_contains c m k s = Ok true.
Proof.
  exists c1001, m0, (s0 KMmap), (RV (MP 0 0) []).
  split; [apply (fresh_ready KMmap c1001_ok)|vm_compute; reflexivity].
Qed.
Definition searchkey (b : Z) : rv := RV (MP 0 0) (b :: zeros 999).
Theorem C31_refuted_fall_off : exists c m s es k,
  index_ready c s m es /\ (exists e, In e es /\ rv_val (fst e) = rv_val k) /\ go_contains c m k s = Ok false.
Proof.
  destruct s5_ready as (es & R & He).
  exists c1001, m0, s5, es, (searchkey 30). split; auto. split.
  { exists (bigkey 30, MP 130 7). split; [subst es; cbn; auto|reflexivity]. }
  vm_compute. reflexivity.
Qed.

(** C33 in full is false: with keys of 2044 bytes the third insert panics. *)
Definition c2045 : codec := mkCodec 2045 [] (fun _ => None).
Definition hugekey (b : Z) : rv := RV (MP b 1) (b :: zeros 2043).
Theorem C33_refuted_wide_keys : exists c m s es k v,
  codec_ok c /\ zlen (rv_val k) = cwidth c - 1 /\ op_ok c (k, v) /\ ~ In k es /\
  fst (fresh KMmap) = Ok m /\
  es = [hugekey 1; hugekey 2] /\ s = inserts c m (map (fun k => (k, MP 5 5)) es) (s0 KMmap) /\
  answers c m (map (fun k => (k, MP 5 5)) es) (s0 KMmap) = [Ok tt; Ok tt] /\
  fst (bp_insert c m k v s) = Panic.
Proof.
  exists c2045, m0, (inserts c2045 m0 (map (fun k => (k, MP 5 5)) [hugekey 1; hugekey 2]) (s0 KMmap)), [hugekey 1; hugekey 2], (hugekey 3), (MP 5 5).
  split; [unfold codec_ok, c2045; cbn [cwidth cdata]; change (zlen (@nil Z)) with 0; lia|]. split; [vm_compute; reflexivity|].
  split. { apply op_okb_ok; vm_compute; reflexivity. }
  split. { intros [H|[H|[]]]; inversion H. }
  split; [vm_compute; reflexivity|]. split; [exact eq_refl|]. split; [exact eq_refl|]. split; vm_compute; reflexivity.
Qed.

(** C34 in full is false: a key longer by 2^16 bytes passes the width check;
    the insert panics after it has allocated a page. *)
Definition c3 : codec := mkCodec 3 [] (fun _ => None).
Theorem C34_refuted : exists c m s es k v s',
  index_ready c s m es /\ cwidth c = 3 /\ zlen (rv_val k) = 2^16 + 2 /\
  bp_insert c m k v s = (Panic, s') /\ zlen (file s') = zlen (file s) + 4096.
Proof.
  assert (Hc : codec_ok c3) by (unfold codec_ok, c3; cbn [cwidth cdata]; change (zlen (@nil Z)) with 0; lia).
  destruct (fresh_ready KMmap Hc) as [_ R0].
  assert (Hop : op_ok c3 (RV (MP 1 1) [5; 5], MP 5 5)).
  { apply op_okb_ok; vm_compute; reflexivity. }
  destruct (@C33_insert_never_fails_partial c3 m0 (s0 KMmap) [] (RV (MP 1 1) [5; 5]) (MP 5 5)) as (s' & E & es & R & _); auto.
  { cbn; lia. }
  { vm_compute; reflexivity. }
  assert (Es : s' = snd (bp_insert c3 m0 (RV (MP 1 1) [5; 5]) (MP 5 5) (s0 KMmap))) by (rewrite E; reflexivity).
  exists c3, m0, s', es, (RV (MP 2 1) (zeros (2^16 + 2))), (MP 5 5), (snd (bp_insert c3 m0 (RV (MP 2 1) (zeros (2^16 + 2))) (MP 5 5) s')).
  split; [exact R|]. split; [exact eq_refl|]. split; [vm_compute; reflexivity|].
  assert (Hb : fst (bp_insert c3 m0 (RV (MP 2 1) (zeros (2^16 + 2))) (MP 5 5) s') = Panic /\
     zlen (file (snd (bp_insert c3 m0 (RV (MP 2 1) (zeros (2^16 + 2))) (MP 5 5) s'))) = zlen (file s') + 4096).
  { rewrite Es. split; vm_compute; reflexivity. }
  destruct Hb as [Hb1 Hb2]. split; [|exact Hb2]. rewrite <- Hb1. apply surjective_pairing.
Qed.
