(** C58, C59: counterexamples and examples for the vector tree. *)
From Verif Require Import Base Varint Store PageFile RefValue Node LinkedPage BPTree PTree PTreeEx VTree VFloat PVTree.

Lemma s0_vfresh k : vfresh (s0 k) m0.
Proof.
  exists c1001. destruct (fresh_ready k c1001_ok) as [_ R]. exact R.
Qed.
(** run the insertions, keeping the answers *)
Fixpoint vrun (d : Z) (ops : list vop) (s : st) : list (res unit) * st :=
  match ops with
  | [] => ([], s)
  | (k, v) :: ops => let '(r, s1) := vt_insert d m0 k v s in let '(rs, s') := vrun d ops s1 in (r :: rs, s')
  end.
Fixpoint vsmall (d : Z) (ops : list vop) (s : st) : bool :=
  match ops with
  | [] => true
  | (k, v) :: ops => (zlen (file s) <? 2^60) && vsmall d ops (snd (vt_insert d m0 k v s))
  end.
Lemma vrun_history d ops : forall s, vsmall d ops s = true -> vhistory d m0 s ops (fst (vrun d ops s)) (snd (vrun d ops s)).
Proof.
  induction ops as [|[k v] ops IH]; intros s H; cbn [vrun vsmall] in *; [constructor|].
  apply andb_prop in H. destruct H as [H1 H2]. apply Z.ltb_lt in H1.
  destruct (vt_insert d m0 k v s) as [r s1] eqn:E. cbn [snd] in H2. specialize (IH s1 H2).
  destruct (vrun d ops s1) as [rs s']. cbn [fst snd] in *. econstructor; eauto.
Qed.

Definition one_f32 : Z := 1065353216.
Definition vk (i : Z) : vid := VID (MP (10 * i) 5) i.

(** the conversion of the code, against values of float32(uint32) *)
Example f32_0 : f32_of_uint 0 = 0. Proof. reflexivity. Qed.
Example f32_1 : f32_of_uint 1 = one_f32. Proof. reflexivity. Qed.
Example f32_3 : f32_of_uint 3 = 1077936128. Proof. reflexivity. Qed.
Example f32_2_24_1 : f32_of_uint (2^24 + 1) = 1266679808 /\ f32_of_uint (2^24) = 1266679808 /\ f32_of_uint (2^24 + 3) = 1266679810.
Proof. repeat split. Qed.
Example f32_max : f32_of_uint (2^32 - 1) = 1333788672. Proof. reflexivity. Qed.

(** ** C58 does not hold: the number 1 comes back as 1065353216 *)
Definition ops1 : list vop := [(vk 7, [one_f32])].
Definition s1v : st := snd (vrun 1 ops1 (s0 KMmap)).
Theorem C58_refuted : exists s, vfresh (s0 KMmap) m0 /\ vhistory 1 m0 (s0 KMmap) ops1 [Ok tt] s /\
  vt_find m0 (vk 7) s = Ok (vk 7, [1316880384]) /\ 1316880384 <> one_f32.
Proof.
  exists s1v. split; [apply s0_vfresh|]. split.
  - assert (E : fst (vrun 1 ops1 (s0 KMmap)) = [Ok tt]) by (vm_compute; reflexivity). rewrite <- E. apply vrun_history. vm_compute. reflexivity.
  - split; [vm_compute; reflexivity|unfold one_f32; discriminate].
Qed.

(** ** C59 does not hold for larger vectors: 2400 bytes each, all in one page, panic on the third *)
Definition v600 (i : Z) : vec := repeat i 600.
Definition ops600 : list vop := [(vk 1, v600 1); (vk 2, v600 2); (vk 3, v600 3)].
Theorem C59_refuted : exists s, vfresh (s0 KMmap) m0 /\ Forall (vop_ok 600) ops600 /\
  vsize (VN [vk 3] [v600 3] [] 600) <= pageSize /\
  vhistory 600 m0 (s0 KMmap) ops600 [Ok tt; Ok tt; Panic] s.
Proof.
  exists (snd (vrun 600 ops600 (s0 KMmap))). split; [apply s0_vfresh|]. split.
  { assert (H : forall i, 0 <= i < 1000 -> vop_ok 600 (vk i, v600 i)).
    { intros i Hi. unfold vop_ok. cbn [fst snd vk vi_dp vi_val mp_off mp_len]. split; [lia|]. split; [lia|]. split; [lia|].
      split; [unfold v600, zlen; rewrite repeat_length; reflexivity|]. apply Forall_forall. intros x Hx. apply repeat_spec in Hx. lia. }
    unfold ops600. constructor; [apply H; lia|]. constructor; [apply H; lia|]. constructor; [apply H; lia|constructor]. }
  split. { vm_compute. discriminate. }
  assert (E : fst (vrun 600 ops600 (s0 KMmap)) = [Ok tt; Ok tt; Panic]) by (vm_compute; reflexivity). rewrite <- E. apply vrun_history. vm_compute. reflexivity.
Qed.

(** ** A vector of another length panics, and so does dimension 0 *)
Theorem C59_wrong_dimension_panics d m s k v : vfresh s m -> 0 <= d -> zlen v <> d ->
  0 <= mp_off (vi_dp k) < 2^64 -> 0 <= mp_len (vi_dp k) < 2^32 -> 0 <= vi_val k < 2^64 -> d < 2^64 ->
  vt_insert d m k v s = (Panic, s).
Proof.
  intros Hf Hd Hne H1 H2 H3 H4. destruct (vready_fresh 1 Hf) as (fl & es & pgs & (Hi & Hb & Hslot & Ht & _) & He).
  assert (E0 : mp_len (root_at (file s) m) = 0).
  { destruct Ht as [(_ & _ & X)|X]; auto. destruct (vtree_sorted X) as (_ & Y). destruct es as [|[a b] es]; [congruence|].
    destruct He as [He _]. destruct (He a b (or_introl eq_refl)) as (o & [] & _). }
  unfold vt_insert. rewrite (vroot_empty _ Hslot E0). unfold vmarshal. cbn [vids vdim].
  destruct (Z.eqb_spec d 0); [reflexivity|].
  assert (Ez : (zlen (venc (VN [k] [v] [] d)) =? vsize (VN [k] [v] [] d)) = false).
  { apply Z.eqb_neq. unfold venc, vsize. cbn [vids vvecs voffs vdim map concat]. rewrite !zlen_app, zlen_le.
    cbn [concat]. rewrite ?zlen_app. change (zlen (@nil Z)) with 0.
    unfold enc_vid. rewrite !zlen_app, <- !size_varint_exact by lia.
    assert (Ev : zlen (enc_vec v) = 4 * zlen v).
    { unfold enc_vec. clear. induction v as [|x v IH]; [reflexivity|]. cbn [map concat]. rewrite zlen_app, zlen_le, IH, zlen_cons. lia. }
    rewrite Ev. change (zlen [v]) with 1. unfold vid_size. cbn [zsum fold_right].
    unfold zsum; cbn [map fold_right]. lia. }
  match goal with |- context [if ?b then _ else _] => replace b with false by (symmetry; exact Ez) end. reflexivity.
Qed.

(** ** The hypotheses of the partial theorems are met *)
Definition ops_ex : list vop := [(vk 5, [0; 1318926965]); (vk 2, [one_f32; 0]); (vk 5, [3; 4]); (vk 9, [0; 0])].
Lemma ops_ex_ok : Forall (vop_ok 2) ops_ex.
Proof.
  unfold ops_ex, vop_ok, vk, one_f32. repeat apply Forall_cons; cbn [fst snd vi_dp vi_val mp_off mp_len]; try apply Forall_nil.
  all: repeat (split; [first [lia|reflexivity]|]); repeat (apply Forall_cons; [lia|]); apply Forall_nil.
Qed.
Example C58_C59_witness :
  vhistory 2 m0 (s0 KMmap) ops_ex [Ok tt; Ok tt; Err (EMsg "key already exists"); Ok tt] (snd (vrun 2 ops_ex (s0 KMmap))) /\
  vt_find m0 (vk 5) (snd (vrun 2 ops_ex (s0 KMmap))) = Ok (vk 5, [0; 1318926965]) /\
  exists k, vt_find m0 (vk 2) (snd (vrun 2 ops_ex (s0 KMmap))) = Ok (vk 2, map (Nat.iter (S k) f32_of_uint) [one_f32; 0]).
Proof.
  assert (Hh : vhistory 2 m0 (s0 KMmap) ops_ex [Ok tt; Ok tt; Err (EMsg "key already exists"); Ok tt] (snd (vrun 2 ops_ex (s0 KMmap)))).
  { assert (E : fst (vrun 2 ops_ex (s0 KMmap)) = [Ok tt; Ok tt; Err (EMsg "key already exists"); Ok tt]) by (vm_compute; reflexivity). rewrite <- E. apply vrun_history. vm_compute. reflexivity. }
  split; [exact Hh|]. split.
  - destruct (@C58_vectors_read_back_partial 2 m0 (s0 KMmap) ops_ex _ _ (vk 5) (vk 5) [0; 1318926965] ltac:(lia) (s0_vfresh KMmap) ops_ex_ok Hh eq_refl) as (k & _ & X).
    apply X. apply Forall_cons; [left; reflexivity|]. apply Forall_cons; [right; reflexivity|apply Forall_nil].
  - destruct (@C58_vectors_read_back_partial 2 m0 (s0 KMmap) ops_ex _ _ (vk 2) (vk 2) [one_f32; 0] ltac:(lia) (s0_vfresh KMmap) ops_ex_ok Hh eq_refl) as (k & X & _).
    exists k. exact X.
Qed.
