(** C80: AddNode of the vector page manager (pkg/vectorpage/manager.go): the graph, the tree of vectors
    and the tree of neighbour lists together. *)
From Coq Require Import Permutation.
From Verif Require Import Base Cells Varint Store PageFile RefValue Node LinkedPage BPTree BPRepr BPIter BPInsert BPLoop BPTop PTree PTreeEx VTree VFloat VTreeInv PVTree PVTreeEx.
From Verif Require Import Heap PHeap Hnsw HnswInv PHnsw PVector.
Local Open Scope Z_scope.

Section Manager.
Variables (F : Type) (fzero : F) (fsub fadd fmul : F -> F -> F) (rank : F -> Z).
(** math.Float32bits *)
Variable bits : F -> Z.
(** see PHnsw.v *)
Hypothesis sq_sym : forall a b, fmul (fsub a b) (fsub a b) = fmul (fsub b a) (fsub b a).
Hypothesis bits_32 : forall x, 0 <= bits x < 2^32.
Notation insert_vector := (insert_vector fzero fsub fadd fmul rank).
Notation graph := (graph fzero fsub fadd fmul rank).

(** ** Model *)
(** VectorPageManager{btree, bptree, hnsw}: pkg/vectorpage/manager.go:13-33. The two trees are given by
    their slots [mv], [mb] and are in page files of their own (in Go they may also share one). *)
Record manager := MG { g_hnsw : hnsw F; g_vec : st; g_nbr : st }.
(** AddNode(x): pkg/vectorpage/manager.go:35-62; [l] is the random level of the new point, [d] the
    dimension of the vector tree, [c] the codec of the tree of lists. What was done before an error stays. *)
Definition add_node (d : Z) (c : codec) (mv mb : lp) (x : list F) (l : nat) (g : manager) : res unit * manager :=
  match insert_vector (g_hnsw g) x l with
  | Ok (id, h') =>
      match vt_insert d mv (VID (MP 0 0) id) (map bits x) (g_vec g) with
      | (Ok _, v') =>
          match nth_error (fr h') (Z.to_nat id) with
          | None => (Err (EMsg "vector id not found in hnsw neighborhood"), MG h' v' (g_nbr g))
          | Some f =>
              match flush f 8 with
              | Ok buf =>
                  match bp_insert c mb (RV (MP 0 0) buf) (MP 0 0) (g_nbr g) with
                  | (Err _, b') => (Err (EMsg "failed to insert buf"), MG h' v' b')
                  | (r, b') => (r, MG h' v' b')
                  end
              | Err e => (Err e, MG h' v' (g_nbr g)) | Panic => (Panic, MG h' v' (g_nbr g))
              | Crash => (Crash, MG h' v' (g_nbr g)) | Hang => (Hang, MG h' v' (g_nbr g))
              end
          end
      | (r, v') => (r, MG h' v' (g_nbr g))
      end
  | Err e => (Err e, g) | Panic => (Panic, g) | Crash => (Crash, g) | Hang => (Hang, g)
  end.

(** ** Specification *)
(** calls of AddNode, on a graph with the points [ps0] and two empty trees; files below 2^60 bytes *)
Inductive mhist (d : nat) (efc m : Z) (c : codec) (mv mb : lp) (ps0 : list (list F)) : list (list F * nat) -> list (res unit) -> manager -> Prop :=
| mh_new h ls v b : graph d efc m h ps0 ls -> vfresh v mv -> index_ready c b mb [] -> mhist d efc m c mv mb ps0 [] [] (MG h v b)
| mh_add ops rs g x l r g' : mhist d efc m c mv mb ps0 ops rs g -> zlen (file (g_vec g)) < 2^60 -> zlen (file (g_nbr g)) < 2^60 -> zlen (points (g_hnsw g)) < 2^60 ->
    length x = d -> add_node (Z.of_nat d) c mv mb x l g = (r, g') -> mhist d efc m c mv mb ps0 (ops ++ [(x, l)]) (rs ++ [r]) g'.
(** the answers for these neighbour lists: a list that was there before is refused *)
Fixpoint list_answers (before lists : list bytes) : list (res unit) :=
  match lists with
  | [] => []
  | b :: lists => (if in_dec (list_eq_dec Z.eq_dec) b before then Err (EMsg "failed to insert buf") else Ok tt) :: list_answers (before ++ [b]) lists
  end.
(** the neighbour list of a point in the graph: the (at most 8) closest friends of level 0, in ascending
    order of distance, with a level each, then zeros up to 40 bytes *)
Definition nbr_list (h : hnsw F) (a : nat) (buf : bytes) : Prop :=
  exists its cl lv, friends_at h a 0 = Some its /\ Permutation cl its /\ PVector.ascending cl /\
    buf = concat (map (fun x => neighbour (lv (fst x)) (fst x)) (firstn 8 cl)) ++ zeros (5 * Z.of_nat (8 - length cl)).

(** ** Proofs *)
Fixpoint vops (n : Z) (ops : list (list F * nat)) : list vop :=
  match ops with [] => [] | (x, _) :: ops => (VID (MP 0 0) n, map bits x) :: vops (n + 1) ops end.
Lemma vops_app ops : forall n o, vops n (ops ++ [o]) = vops n ops ++ [(VID (MP 0 0) (n + zlen ops), map bits (fst o))].
Proof.
  induction ops as [|[x l] ops IH]; intros n [y k]; cbn [vops app fst]; [change (zlen (@nil (list F * nat))) with 0; rewrite Z.add_0_r; reflexivity|].
  rewrite IH. cbn [fst]. rewrite zlen_cons. do 5 f_equal. lia.
Qed.
Lemma vops_out ops : forall n j, j < n \/ n + zlen ops <= j -> first_of j (vops n ops) = None.
Proof.
  induction ops as [|[x l] ops IH]; intros n j Hj; cbn [vops]; [reflexivity|]. unfold first_of in *. cbn [find fst vi_val]. rewrite zlen_cons in Hj. pose proof (zlen_nonneg ops).
  destruct (Z.eqb_spec n j); [lia|]. apply IH. lia.
Qed.
Lemma vops_in ops : forall n i x l, nth_error ops i = Some (x, l) -> first_of (n + Z.of_nat i) (vops n ops) = Some (VID (MP 0 0) (n + Z.of_nat i), map bits x).
Proof.
  induction ops as [|[y k] ops IH]; intros n [|i] x l E; try discriminate; cbn [nth_error] in E.
  - injection E as -> ->. unfold first_of. cbn [vops find fst vi_val]. change (Z.of_nat 0) with 0. rewrite Z.add_0_r, Z.eqb_refl. reflexivity.
  - unfold first_of. cbn [vops find fst vi_val]. destruct (Z.eqb_spec n (n + Z.of_nat (S i))); [lia|]. replace (n + Z.of_nat (S i)) with (n + 1 + Z.of_nat i) by lia. eapply IH; eauto.
Qed.
Lemma vops_nil n ops : vops n ops = [] -> ops = [].
Proof. destruct ops as [|[x l] ops]; [reflexivity|discriminate]. Qed.
Lemma answers_app lists : forall before b, list_answers before (lists ++ [b]) = list_answers before lists ++ list_answers (before ++ lists) [b].
Proof. induction lists as [|a lists IH]; intros before b; cbn [list_answers app]; [rewrite app_nil_r; reflexivity|]. rewrite IH, <- app_assoc. reflexivity. Qed.
Lemma nbr_len (cl : list item) (lv : Z -> nat) n : zlen (concat (map (fun x => neighbour (lv (fst x)) (fst x)) (firstn n cl)) ++ zeros (5 * Z.of_nat (n - length cl))) = 5 * Z.of_nat n.
Proof.
  rewrite zlen_app, zlen_zeros by lia. assert (H : forall l : list item, zlen (concat (map (fun x => neighbour (lv (fst x)) (fst x)) l)) = 5 * zlen l).
  { induction l as [|a l IH]; [reflexivity|]. cbn [map concat]. rewrite zlen_app, IH, zlen_cons. unfold neighbour. rewrite zlen_cons, zlen_be. lia. }
  rewrite H. unfold zlen. rewrite firstn_length. lia.
Qed.

Definition minv (d : nat) (efc m : Z) (c : codec) (mv mb : lp) (ps0 : list (list F)) (ops : list (list F * nat)) (rs : list (res unit)) (g : manager) (bufs : list bytes) : Prop :=
  (exists ls, graph d efc m (g_hnsw g) (ps0 ++ map fst ops) ls) /\ vready (Z.of_nat d) (vops (zlen ps0) ops) (g_vec g) mv /\
  length bufs = length ops /\ Forall (fun b => zlen b = 40) bufs /\ rs = list_answers [] bufs /\
  exists es, index_ready c (g_nbr g) mb es /\ forall k v, In (k, v) es <-> v = MP 0 0 /\ exists b, k = RV (MP 0 0) b /\ In b bufs.

Lemma minv_step d efc m c mv mb ps0 ops rs g bufs x l r g' : 1 <= efc -> 0 <= m -> (1 <= d <= 501)%nat -> cwidth c = 41 ->
  minv d efc m c mv mb ps0 ops rs g bufs -> zlen (file (g_vec g)) < 2^60 -> zlen (file (g_nbr g)) < 2^60 -> zlen (points (g_hnsw g)) < 2^60 ->
  length x = d -> add_node (Z.of_nat d) c mv mb x l g = (r, g') ->
  exists buf, nbr_list (g_hnsw g') (length ps0 + length ops) buf /\ minv d efc m c mv mb ps0 (ops ++ [(x, l)]) (rs ++ [r]) g' (bufs ++ [buf]) /\
    r = (if in_dec (list_eq_dec Z.eq_dec) buf bufs then Err (EMsg "failed to insert buf") else Ok tt) /\ (r <> Ok tt -> g_nbr g' = g_nbr g).
Proof.
  intros He Hm Hd Hw ((ls & Hg) & Hv & Hlb & Hb40 & Ers & es & Hes & Hin) Hf1 Hf2 Hf3 Hx E.
  destruct (@C61_insert_vector F fzero fsub fadd fmul rank sq_sym d efc m _ _ ls x l Hg He Hm Hx) as (h' & Eh & Ph).
  destruct (@graph_inv F fzero fsub fadd fmul rank sq_sym d efc m _ _ ls He Hm Hg) as (_ & Pp & _).
  assert (Hg' : graph d efc m h' ((ps0 ++ map fst ops) ++ [x]) (ls ++ [l])) by (eapply g_insert; eauto).
  assert (Eid : zlen (ps0 ++ map fst ops) = zlen ps0 + zlen ops) by (rewrite zlen_app; unfold zlen; rewrite map_length; reflexivity).
  assert (Eh2 : insert_vector (g_hnsw g) x l = Ok (zlen ps0 + zlen ops, h')) by (rewrite <- Eid; exact Eh).
  unfold add_node in E. rewrite Eh2 in E. pose proof (zlen_nonneg ps0) as N0. pose proof (zlen_nonneg ops) as N1.
  destruct (vt_insert (Z.of_nat d) mv (VID (MP 0 0) (zlen ps0 + zlen ops)) (map bits x) (g_vec g)) as [r1 v'] eqn:Ev.
  assert (Hop : vop_ok (Z.of_nat d) (VID (MP 0 0) (zlen ps0 + zlen ops), map bits x)).
  { unfold vop_ok. cbn [fst snd vi_dp vi_val mp_off mp_len]. split; [lia|]. split; [lia|]. split; [assert (Y : zlen (points (g_hnsw g)) = zlen ps0 + zlen ops) by (rewrite <- Eid, <- Pp; reflexivity); lia|]. split; [unfold zlen; rewrite map_length; congruence|].
    apply Forall_forall. intros u Hu. apply in_map_iff in Hu. destruct Hu as (y & <- & _). apply bits_32. }
  assert (Hd' : 1 <= Z.of_nat d <= 501) by lia. destruct (vstep Hd' Hv Hf1 Hop Ev) as [Er1 Hv']. cbn [vi_val] in Er1. rewrite vops_out in Er1 by lia. subst r1. cbv iota in E.
  set (a := (length ps0 + length ops)%nat).
  assert (Ea : Z.to_nat (zlen ps0 + zlen ops) = a) by (unfold zlen, a; lia). rewrite Ea in E.
  destruct (@graph_inv F fzero fsub fadd fmul rank sq_sym d efc m _ _ _ He Hm Hg') as (HI' & Pp' & _).
  destruct (nth_error (fr h') a) as [f|] eqn:Ef.
  2:{ exfalso. apply nth_error_None in Ef. pose proof (i_len HI') as Y. rewrite Pp' in Y. rewrite !app_length, map_length in Y. cbn [length] in Y. unfold a in Ef. lia. }
  destruct (levels f) as [|l0 lr] eqn:El; [exfalso; exact (i_lev HI' _ Ef El)|].
  assert (Hf0 : friends_at h' a 0 = Some (items l0)) by (unfold friends_at; rewrite Ef, El; reflexivity).
  destruct (@C65_flush_partial F fzero fsub fadd fmul rank sq_sym d efc m h' _ _ a f (items l0) 8 Hg' He Hm Ef Hf0) as (cl & lv & Pc & Ac & _ & Efl).
  rewrite Efl in E. match type of Efl with _ = Ok ?b => set (buf := b) in * end.
  assert (Lb : zlen buf = 40) by (unfold buf; rewrite nbr_len; reflexivity).
  assert (HN : nbr_list h' a buf) by (exists (items l0), cl, lv; auto). clearbody buf.
  destruct (bp_insert c mb (RV (MP 0 0) buf) (MP 0 0) (g_nbr g)) as [r2 b'] eqn:Eb.
  assert (Hopb : op_ok c (RV (MP 0 0) buf, MP 0 0)).
  { unfold op_ok. cbn [fst snd rv_dp rv_val mp_off mp_len]. split; [lia|]. split; [lia|]. split; [lia|]. split; [lia|]. split; [intros _; lia|]. intros X; lia. }
  assert (Hkw : kw c <= 2016) by (unfold kw; rewrite Hw; cbn; lia).
  destruct Hes as (fl & pgs & Hsys).
  assert (Hnin : In buf bufs <-> In (RV (MP 0 0) buf) (map fst es)).
  { split.
    - intros X. apply (in_map fst es (RV (MP 0 0) buf, MP 0 0)). apply Hin. split; eauto.
    - intros X. apply in_map_iff in X. destruct X as ([k v] & Ek & X). cbn [fst] in Ek. subst k. apply Hin in X. destruct X as (_ & b & Eb2 & X). injection Eb2 as ->. exact X. }
  exists buf.
  assert (Hps : (ps0 ++ map fst ops) ++ [x] = ps0 ++ map fst (ops ++ [(x, l)])) by (rewrite map_app, app_assoc; reflexivity).
  assert (Hvs : vops (zlen ps0) (ops ++ [(x, l)]) = vops (zlen ps0) ops ++ [(VID (MP 0 0) (zlen ps0 + zlen ops), map bits x)]) by apply vops_app.
  assert (Hrest : forall b2, g' = MG h' v' b2 -> (r <> Ok tt -> b2 = g_nbr g) -> (exists es', index_ready c b2 mb es' /\ forall k v, In (k, v) es' <-> v = MP 0 0 /\ exists b, k = RV (MP 0 0) b /\ In b (bufs ++ [buf])) ->
    r = (if in_dec (list_eq_dec Z.eq_dec) buf bufs then Err (EMsg "failed to insert buf") else Ok tt) ->
    nbr_list (g_hnsw g') a buf /\ minv d efc m c mv mb ps0 (ops ++ [(x, l)]) (rs ++ [r]) g' (bufs ++ [buf]) /\ r = (if in_dec (list_eq_dec Z.eq_dec) buf bufs then Err (EMsg "failed to insert buf") else Ok tt) /\ (r <> Ok tt -> g_nbr g' = g_nbr g)).
  { intros b2 -> Hsame Hes' Hr. split; [exact HN|]. split; [|split; [exact Hr|exact Hsame]]. unfold minv. cbn [g_hnsw g_vec g_nbr]. split; [exists (ls ++ [l]); rewrite <- Hps; exact Hg'|].
    split; [rewrite Hvs; exact Hv'|]. split; [rewrite !app_length, Hlb; reflexivity|]. split; [apply Forall_app; split; [auto|constructor; auto]|].
    split; [rewrite answers_app, <- Ers; cbn [list_answers app]; rewrite <- Hr; reflexivity|exact Hes']. }
  destruct (insert_step Hkw Hsys Hf2 Hopb Eb) as [([_ Hacc] & -> & fl' & pgs' & Hs')|(Hacc & (e & ->) & ->)].
  - assert (r = Ok tt /\ g' = MG h' v' b') as [Hr ->] by (split; congruence). apply (Hrest b' eq_refl); [congruence| |].
    + exists (insert_entry (RV (MP 0 0) buf) (MP 0 0) es). split; [exists fl', pgs'; exact Hs'|]. intros k v. rewrite insert_entry_in. split.
      * intros [X|X]; [injection X as -> ->; split; [reflexivity|]; exists buf; split; [reflexivity|apply in_or_app; right; left; reflexivity]|].
        apply Hin in X. destruct X as (-> & b & -> & X). split; [reflexivity|]. exists b. split; [reflexivity|apply in_or_app; auto].
      * intros (-> & b & -> & X). apply in_app_or in X. destruct X as [X|[->|[]]]; [right; apply Hin; eauto|left; reflexivity].
    + destruct (in_dec (list_eq_dec Z.eq_dec) buf bufs) as [X|X]; [exfalso; apply Hacc, Hnin; exact X|exact Hr].
  - assert (r = Err (EMsg "failed to insert buf") /\ g' = MG h' v' (g_nbr g)) as [Hr ->] by (split; congruence).
    destruct (in_dec (list_eq_dec Z.eq_dec) buf bufs) as [X|X].
    + apply (Hrest _ eq_refl); [reflexivity| |exact Hr]. exists es. split; [exists fl, pgs; exact Hsys|]. intros k v. rewrite Hin. split; intros (-> & b & -> & Y); split; auto; exists b; (split; [reflexivity|]).
      * apply in_or_app; auto.
      * apply in_app_or in Y. destruct Y as [Y|[->|[]]]; auto.
    + exfalso. apply Hacc. split; [right; cbn [rv_val]; lia|]. intros Y. apply X, Hnin, Y.
Qed.
Lemma mhist_minv d efc m c mv mb ps0 ops rs g : 1 <= efc -> 0 <= m -> (1 <= d <= 501)%nat -> cwidth c = 41 -> mhist d efc m c mv mb ps0 ops rs g -> exists bufs, minv d efc m c mv mb ps0 ops rs g bufs.
Proof.
  intros He Hm Hd Hw. induction 1 as [h ls v b Hg Hv Hb|ops rs g x l r g' H IH F1 F2 F3 Hx E].
  - exists []. unfold minv. cbn [g_hnsw g_vec g_nbr map vops list_answers]. rewrite app_nil_r. split; [eauto|]. split; [apply vready_fresh; auto|]. split; [reflexivity|]. split; [constructor|]. split; [reflexivity|].
    exists []. split; [exact Hb|]. intros k w. split; [intros []|intros (_ & b0 & _ & [])].
  - destruct IH as (bufs & IH). destruct (@minv_step d efc m c mv mb ps0 ops rs g bufs x l r g' He Hm Hd Hw IH F1 F2 F3 Hx E) as (buf & _ & X & _). eauto.
Qed.

Lemma vfound d mv n ops s i x l : (1 <= d <= 501)%nat -> vready (Z.of_nat d) (vops n ops) s mv -> nth_error ops i = Some (x, l) ->
  exists k, vt_find mv (VID (MP 0 0) (n + Z.of_nat i)) s = Ok (VID (MP 0 0) (n + Z.of_nat i), map (Nat.iter (S k) f32_of_uint) (map bits x)).
Proof.
  intros Hd (fl & es & pgs & Hsys & He) Hi. set (id := VID (MP 0 0) (n + Z.of_nat i)). assert (Ef : first_of (vi_val id) (vops n ops) = Some (id, map bits x)) by (eapply vops_in; eauto).
  assert (Hd' : 1 <= Z.of_nat d <= 501) by lia. pose proof (vfind_ok Hd' (@Pof_round (vops n ops)) id Hsys) as Hfind.
  destruct He as [_ He2]. assert (Hin : In (absk id, vi_dp id) es) by (apply He2; exists (id, map bits x); auto).
  destruct es as [|e es]; [destruct Hin|]. destruct Hfind as [_ Hfind].
  destruct (Hfind _ Hin) as (w & (o & k & Eo & ->) & Ew). assert (o = (id, map bits x)) by congruence. subst o. cbn [snd] in Ew. rewrite rounds_S in Ew. exists k. exact Ew.
Qed.
Lemma vmissing d mv n ops s id : (1 <= d <= 501)%nat -> vready (Z.of_nat d) (vops n ops) s mv -> ops <> [] -> id < n \/ n + zlen ops <= id ->
  vt_find mv (VID (MP 0 0) id) s = Err (EMsg "key not found").
Proof.
  intros Hd (fl & es & pgs & Hsys & He) Hne Hid. assert (Hd' : 1 <= Z.of_nat d <= 501) by lia. pose proof (vfind_ok Hd' (@Pof_round (vops n ops)) (VID (MP 0 0) id) Hsys) as Hfind.
  assert (Hni : ~ In (absk (VID (MP 0 0) id)) (map fst es)) by (rewrite (entries_in (VID (MP 0 0) id) He); cbn [vi_val]; rewrite vops_out by exact Hid; congruence).
  destruct es as [|e es]; [|apply Hfind; auto]. exfalso. destruct ops as [|[x l] ops]; [congruence|]. destruct He as [_ He2]. destruct (He2 (VID (MP 0 0) n) (MP 0 0)) as [_ X]. apply X.
  exists (VID (MP 0 0) n, map bits x). split; [|reflexivity]. unfold first_of. cbn [vops find fst vi_val]. rewrite Z.eqb_refl. reflexivity.
Qed.

(** ** C80 *)
(** In every history, AddNode of a vector of the right dimension adds the point to the graph and the vector to
    the tree of vectors, whatever it answers; the answer is an error exactly if the neighbour list of the
    new point is one that was stored before. *)
Theorem C80_add_node_partial d efc m c mv mb ps0 ops rs g x l r g' : 1 <= efc -> 0 <= m -> (1 <= d <= 501)%nat -> cwidth c = 41 ->
  mhist d efc m c mv mb ps0 ops rs g -> zlen (file (g_vec g)) < 2^60 -> zlen (file (g_nbr g)) < 2^60 -> zlen (points (g_hnsw g)) < 2^60 ->
  length x = d -> add_node (Z.of_nat d) c mv mb x l g = (r, g') ->
  points (g_hnsw g') = points (g_hnsw g) ++ [x] /\
  (exists buf, nbr_list (g_hnsw g') (length ps0 + length ops) buf /\
     (r = Ok tt <-> go_contains c mb (RV (MP 0 0) buf) (g_nbr g) = Ok false) /\ (r <> Ok tt -> r = Err (EMsg "failed to insert buf") /\ g_nbr g' = g_nbr g) /\
     go_find c mb (RV (MP 0 0) buf) (g_nbr g') = Ok (RV (MP 0 0) buf, MP 0 0)) /\
  exists k, vt_find mv (VID (MP 0 0) (zlen ps0 + zlen ops)) (g_vec g') = Ok (VID (MP 0 0) (zlen ps0 + zlen ops), map (Nat.iter (S k) f32_of_uint) (map bits x)).
Proof.
  intros He Hm Hd Hw Hh F1 F2 F3 Hx E. destruct (mhist_minv He Hm Hd Hw Hh) as (bufs & HI).
  destruct (@minv_step d efc m c mv mb ps0 ops rs g bufs x l r g' He Hm Hd Hw HI F1 F2 F3 Hx E) as (buf & HN & HI' & Hr & Hsame).
  destruct HI as ((ls & Hg) & Hv & Hlb & Hb40 & Ers & es & Hes & Hin). destruct HI' as ((ls' & Hg') & Hv' & Hlb' & Hb40' & _ & es' & Hes' & Hin').
  destruct (@graph_inv F fzero fsub fadd fmul rank sq_sym d efc m _ _ _ He Hm Hg) as (_ & Pp & _).
  destruct (@graph_inv F fzero fsub fadd fmul rank sq_sym d efc m _ _ _ He Hm Hg') as (_ & Pp' & _).
  split; [rewrite Pp', Pp, map_app, app_assoc; reflexivity|]. split.
  - exists buf. split; [exact HN|]. apply Forall_app in Hb40'. destruct Hb40' as [_ Hb]. inversion_clear Hb.
    destruct (@C31_contains_partial c mb (g_nbr g) es (RV (MP 0 0) buf) Hes) as (C1 & C2 & b & C3).
    assert (Hc : go_contains c mb (RV (MP 0 0) buf) (g_nbr g) = Ok (if in_dec (list_eq_dec Z.eq_dec) buf bufs then true else false)).
    { destruct (in_dec (list_eq_dec Z.eq_dec) buf bufs) as [X|X].
      - apply C1. apply (in_map fst es (RV (MP 0 0) buf, MP 0 0)). apply Hin. eauto.
      - destruct b; [|exact C3]. exfalso. destruct (C2 C3) as [([k v] & Y & Ek)|Y].
        + apply Hin in Y. destruct Y as (_ & b & -> & Y). cbn [fst rv_val] in Ek. apply X. rewrite <- Ek. exact Y.
        + cbn [rv_val] in Y. subst buf. discriminate. }
    split; [rewrite Hc, Hr; destruct (in_dec (list_eq_dec Z.eq_dec) buf bufs); split; congruence|].
    split.
    + intros Hne. rewrite Hr in Hne |- *. destruct (in_dec (list_eq_dec Z.eq_dec) buf bufs) as [X|X]; [|congruence]. split; [reflexivity|].
      apply Hsame. rewrite Hr. discriminate.
    + destruct Hes' as (fl & pgs & Hsys). eapply sys_find; eauto. apply Hin'. split; [reflexivity|]. exists buf. split; [reflexivity|]. apply in_or_app. right. left. reflexivity.
  - apply (@vfound d mv (zlen ps0) (ops ++ [(x, l)]) (g_vec g') (length ops) x l Hd Hv').
    rewrite nth_error_app2, Nat.sub_diag by lia. reflexivity.
Qed.
(** In every history: all the points are in the graph; the vectors of the AddNode calls, and no others, are
    in the tree of vectors, under the ids of the points; the tree of lists holds exactly
    the neighbour lists the points got when they were added; the answers are as specified. *)
Theorem C80_histories_partial d efc m c mv mb ps0 ops rs g : 1 <= efc -> 0 <= m -> (1 <= d <= 501)%nat -> cwidth c = 41 -> mhist d efc m c mv mb ps0 ops rs g ->
  points (g_hnsw g) = ps0 ++ map fst ops /\
  (forall i x l, nth_error ops i = Some (x, l) -> exists k, vt_find mv (VID (MP 0 0) (zlen ps0 + Z.of_nat i)) (g_vec g) = Ok (VID (MP 0 0) (zlen ps0 + Z.of_nat i), map (Nat.iter (S k) f32_of_uint) (map bits x))) /\
  (ops <> [] -> forall id, id < zlen ps0 \/ zlen ps0 + zlen ops <= id -> vt_find mv (VID (MP 0 0) id) (g_vec g) = Err (EMsg "key not found")) /\
  exists lists es, length lists = length ops /\ rs = list_answers [] lists /\ index_ready c (g_nbr g) mb es /\ (forall k v, In (k, v) es <-> v = MP 0 0 /\ exists b, k = RV (MP 0 0) b /\ In b lists) /\
    (forall b, In b lists -> go_find c mb (RV (MP 0 0) b) (g_nbr g) = Ok (RV (MP 0 0) b, MP 0 0)).
Proof.
  intros He Hm Hd Hw Hh. destruct (mhist_minv He Hm Hd Hw Hh) as (bufs & ((ls & Hg) & Hv & Hlb & Hb40 & Ers & es & Hes & Hin)).
  destruct (@graph_inv F fzero fsub fadd fmul rank sq_sym d efc m _ _ _ He Hm Hg) as (_ & Pp & _).
  split; [exact Pp|]. split; [intros i x l Hi; eapply vfound; eauto|]. split.
  - intros Hne id Hid. apply (@vmissing d mv (zlen ps0) ops (g_vec g) id Hd Hv Hne Hid).
  - exists bufs, es. split; [exact Hlb|]. split; [exact Ers|]. split; [exact Hes|]. split; [exact Hin|]. intros b Hb. destruct Hes as (fl & pgs & Hsys). eapply sys_find; eauto. apply Hin. eauto.
Qed.
End Manager.

(** ** Witnesses, with integer coordinates *)
(** keys of 40 bytes *)
Definition c41 : codec := mkCodec 41 [] (fun _ => None).
Lemma c41_ok : codec_ok c41.
Proof. unfold codec_ok, c41; cbn [cwidth cdata]; change (zlen (@nil Z)) with 0; lia. Qed.
Definition zadd (x : Z) (g : manager Z) : res unit * manager Z := add_node 0 Z.sub Z.add Z.mul (fun x => x) (fun x => x mod 2^32) 1 c41 m0 m0 [x] 0 g.
Definition zhist := mhist 0 Z.sub Z.add Z.mul (fun x => x) (fun x => x mod 2^32) 1 10 2 c41 m0 m0.
Definition g0 : manager Z := MG (zstart 10 2 0) (s0 KMmap) (s0 KMmap).
Definition g1 := snd (zadd 1 g0).
Definition g2 := snd (zadd 10 g1).
Definition g3 := snd (zadd 2 g2).
Definition small_b (g : manager Z) : bool := (zlen (file (g_vec g)) <? 2^60) && (zlen (file (g_nbr g)) <? 2^60) && (zlen (points (g_hnsw g)) <? 2^60).
Lemma zhist_add ps ops rs g x r : zhist ps ops rs g -> small_b g = true -> fst (zadd x g) = r -> zhist ps (ops ++ [([x], O)]) (rs ++ [r]) (snd (zadd x g)).
Proof.
  intros H Hs <-. unfold small_b in Hs. apply andb_prop in Hs. destruct Hs as [Hs H3]. apply andb_prop in Hs. destruct Hs as [H1 H2].
  unfold zhist in *. eapply mh_add; eauto; try (apply Z.ltb_lt; assumption). unfold zadd. apply surjective_pairing.
Qed.
Lemma g2_hist : zhist [[0]] [([1], O); ([10], O)] [Ok tt; Ok tt] g2.
Proof.
  assert (H0 : zhist [[0]] [] [] g0).
  { apply (@mh_new Z 0 Z.sub Z.add Z.mul (fun x => x) (fun x => x mod 2^32) 1 10 2 c41 m0 m0 [[0]] (zstart 10 2 0) []); [apply zstart_graph|apply s0_vfresh|]. destruct (fresh_ready KMmap c41_ok) as [_ R]. exact R. }
  assert (H1 : zhist [[0]] [([1], O)] [Ok tt] g1) by (apply (@zhist_add [[0]] [] [] g0 1 (Ok tt) H0); vm_compute; reflexivity).
  apply (@zhist_add [[0]] [([1], O)] [Ok tt] g1 10 (Ok tt) H1); vm_compute; reflexivity.
Qed.
(** C80: with M = 2 and the points 0, 1, 10, the nearest points of 10 are 1 and 0. Those of 2 are the same: its AddNode
    fails, but the point is in the graph and the vector tree, and is found by searches. *)
Theorem C80_same_neighbours_refuted : exists ops rs g, zhist [[0]] ops rs g /\ small_b g = true /\ fst (zadd 2 g) = Err (EMsg "failed to insert buf") /\
  points (g_hnsw (snd (zadd 2 g))) = [[0]; [1]; [10]; [2]] /\ g_nbr (snd (zadd 2 g)) = g_nbr g.
Proof.
  exists [([1], O); ([10], O)], [Ok tt; Ok tt], g2. split; [exact g2_hist|]. split; [vm_compute; reflexivity|]. split; [vm_compute; reflexivity|]. split; vm_compute; reflexivity.
Qed.
(** C80: the entry point, with which every graph starts, is in the graph but never gets into the trees *)
Theorem C80_entry_point_refuted : forall ops rs g, zhist [[0]] ops rs g -> ops <> [] -> nth_error (points (g_hnsw g)) 0 = Some [0] /\ vt_find m0 (VID (MP 0 0) 0) (g_vec g) = Err (EMsg "key not found").
Proof.
  intros ops rs g H Hne. assert (Hw : cwidth c41 = 41) by reflexivity.
  destruct (@C80_histories_partial Z 0 Z.sub Z.add Z.mul (fun x => x) (fun x => x mod 2^32) ltac:(intros; ring) ltac:(intros; apply Z.mod_pos_bound; lia) 1 10 2 c41 m0 m0 [[0]] ops rs g ltac:(lia) ltac:(lia) ltac:(lia) Hw H) as (P & _ & X & _).
  split; [rewrite P; reflexivity|]. apply X; auto. left. change (zlen [[0]]) with 1. lia.
Qed.
