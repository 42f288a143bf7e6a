(** C58, C59: the tree that stores one vector per id (pkg/btree). *)
From Verif Require Import Base Varint Store PageFile RefValue Node LinkedPage BPTree BPRepr BPIter BPInsert BPLoop BPTop PTree VTree VFloat VTreeInv.
From Coq Require Import Permutation.

(** ** Specification: the first vector given for an id is the one kept *)
Definition vop := (vid * vec)%type.
(** an id and a vector as Go passes them: 64 bit id, 64 bit offset and 32 bit length, [d] floats given by their 32 bits *)
Definition vop_ok (d : Z) (o : vop) : Prop :=
  0 <= mp_off (vi_dp (fst o)) < 2^64 /\ 0 <= mp_len (vi_dp (fst o)) < 2^32 /\ 0 <= vi_val (fst o) < 2^64 /\
  zlen (snd o) = d /\ Forall (fun u => 0 <= u < 2^32) (snd o).
(** the first insertion with this id *)
Definition first_of (x : Z) (ops : list vop) : option vop := find (fun o => vi_val (fst o) =? x) ops.
(** what Insert answers, given the insertions made before *)
Fixpoint vanswers (before ops : list vop) : list (res unit) :=
  match ops with
  | [] => []
  | o :: ops => (match first_of (vi_val (fst o)) before with
                 | None => Ok tt
                 | Some _ => Err (EMsg "key already exists")
                 end) :: vanswers (before ++ [o]) ops
  end.
(** a sequence of Insert calls on the tree of dimension [d] at slot [m], with files below 2^60 bytes *)
Inductive vhistory (d : Z) (m : lp) : st -> list vop -> list (res unit) -> st -> Prop :=
| vh_nil s : vhistory d m s [] [] s
| vh_cons s k v r s1 ops rs s' : zlen (file s) < 2^60 -> vt_insert d m k v s = (r, s1) ->
    vhistory d m s1 ops rs s' -> vhistory d m s ((k, v) :: ops) (r :: rs) s'.
(** an empty slot of a page file *)
Definition vfresh (s : st) (m : lp) : Prop := exists c, index_ready c s m [].

(** ** The invariant over histories *)
(** the vector stored with an id is the first one inserted for it, converted a number of times *)
Definition Pof (ops : list vop) (x : Z) (v : vec) : Prop :=
  exists o k, first_of x ops = Some o /\ v = rounds k (snd o).
Lemma Pof_round ops x v : Pof ops x v -> Pof ops x (map f32_of_uint v).
Proof. intros (o & k & E & ->). exists o, (S k). split; auto. apply rounds_S. Qed.
Lemma first_of_app x a b : first_of x (a ++ b) = match first_of x a with Some o => Some o | None => first_of x b end.
Proof. unfold first_of. induction a as [|o a IH]; [reflexivity|]. cbn [app find]. destruct (vi_val (fst o) =? x); auto. Qed.
Lemma first_of_val x a o : first_of x a = Some o -> vi_val (fst o) = x /\ In o a.
Proof. intros E. apply find_some in E. destruct E as [E1 E2]. apply Z.eqb_eq in E2. auto. Qed.

Definition vsys (d : Z) (P : Z -> vec -> Prop) (s : st) (m : lp) (fl : list Z) (es : list entry) (pgs : list Z) : Prop :=
  pf_inv s fl /\ budget s = None /\ slot_ok (file s) m /\
  ((es = [] /\ pgs = [] /\ mp_len (root_at (file s) m) = 0) \/ vtree d P (file s) m es pgs) /\
  NoDup (pgs ++ fl) /\ ~ In (lp_off m) (pgs ++ fl).

Lemma ctx_mids F h lo hi off rest esL esR pgs H root : ctx F true h lo hi off rest esL esR pgs H root ->
  Forall (fun r => F (mp_off (tptr r)) (tnode r)) rest.
Proof.
  induction 1 as [|h lo hi off lo' hi' kl ol kr or esl esr pgl pgr p poff ptr rest esL esR pgs H root HF Hs Hlp Hk Hne Hi Hlc Hrc Hctx IH]; constructor; auto.
  cbn [tptr tnode]. rewrite (Hs eq_refl). exact HF.
Qed.

Lemma lb_key l k : sorted l -> In k l -> nth_error l (lb l k) = Some k.
Proof.
  intros Hs Hin. apply in_split in Hin. destruct Hin as (a & b & ->). apply sorted_app in Hs. destruct Hs as (S1 & S2 & S3).
  rewrite lb_app, (@lb_all a k) by (intros; apply S3; cbn; auto).
  apply sorted_cons in S2. destruct S2 as [S2 S4].
  rewrite (@lb_none (k :: b) k). 2:{ intros x [<-|X]; [apply rle_refl|apply rlt_rle; auto]. }
  rewrite Nat.add_0_r, nth_error_app2, Nat.sub_diag by lia. reflexivity.
Qed.

Section Fixed.
Variable d : Z.
Variable P : Z -> vec -> Prop.
Hypothesis Hd : 1 <= d <= 501.
Hypothesis Pround : forall x v, P x v -> P x (map f32_of_uint v).

Lemma vtree_pages f m es pgs : vtree d P f m es pgs -> Forall (page_ok f) pgs.
Proof. intros (H & root & rlen & _ & _ & R). eapply vpages_ok, repr_pages; eauto. Qed.
Lemma vtree_sorted f m es pgs : vtree d P f m es pgs -> sorted (map fst es) /\ es <> [].
Proof. intros (H & root & rlen & _ & _ & R). destruct (repr_good R) as (A & S & _). auto. Qed.

Lemma vrec_ok s r : vrd s (mp_off (vtptr r)) = Ok (vtnode r) -> vat d P (file s) (mp_off (vtptr r)) (absn (vtnode r)) ->
  exists raw, vstored d P (file s) (mp_off (vtptr r)) raw /\ vtnode r = garble raw.
Proof.
  intros E (raw & Hr & _). exists raw. split; auto. pose proof (@vrd_stored d P Hd Pround s _ _ Hr) as E'. congruence.
Qed.

Theorem vdescent s m fl es pgs key : vsys d P s m fl es pgs -> es <> [] ->
  exists rootn rp leaf mids lo hi off les esL esR pgs0 H root rlen raw,
    root_at (file s) m = MP root rlen /\ 0 < rlen < 2^32 /\
    vroot (vrd s) (fst (lp_root m s)) = Ok (Some (rootn, rp)) /\
    vtraverse (fuel_of s) (vrd s) key rootn rp = Ok (leaf :: mids) /\
    vstored d P (file s) off raw /\ vtnode leaf = garble raw /\ mp_off (vtptr leaf) = off /\
    body (vat d P (file s)) 0 lo hi (absn raw) les [] /\ in_bnd lo hi (absk key) /\
    ctx (vat d P (file s)) true 0 lo hi off (map absr mids) esL esR pgs0 H root /\
    Forall (fun r => vnode_ok d P (vtnode r) /\ vsize (vtnode r) <= pageSize) mids /\
    es = esL ++ les ++ esR /\ Permutation (off :: pgs0) pgs.
Proof.
  intros (Hi & Hb & Hslot & Ht & Hnd & Hlp) Hne.
  destruct Ht as [(-> & _)|Hst]; [congruence|].
  pose proof (vtree_pages Hst) as Hok.
  destruct Hst as (H & root & rlen & Er & Hl & R). pose proof (repr_height R) as Hh.
  destruct R as (ra & pg' & Hn & Hbd & Ep).
  destruct Hn as (rraw & Hrs & ->).
  pose proof (@vrd_stored d P Hd Pround s root rraw Hrs) as Erd.
  pose proof (@fuel_enough s pgs H (@NoDup_app_l _ _ _ Hnd) Hok Hh) as Hf.
  edestruct (@traverse_ok (vat d P (file s)) (abs_rd (vrd s)) (absk key) (@vrd_ok d P Hd Pround s) H (fuel_of s) None None (absn rraw) es pg' root (MP root rlen) [] [] [] [] H root)
    as (leaf & mids & lo & hi & off & les & lpg & esL & esR & pgs0 & E1 & E2 & E3 & E4 & E5 & E6 & E7 & E8 & E9); auto.
  { exists rraw; auto. }
  { split; cbn; auto. }
  { constructor. }
  assert (lpg = []) by (cbn in E5; tauto). subst lpg.
  rewrite app_nil_r in *. cbn [app] in E8.
  assert (Hids : vids (garble rraw) <> []) by (destruct Hrs as (_ & (X & _) & _); exact X).
  pose proof (@vtraverse_abs (vrd s) key (@vrd_ids P Pround s) (fuel_of s) (garble rraw) (MP root rlen) Hids) as Ev.
  rewrite absn_garble, E1 in Ev.
  destruct (vtraverse (fuel_of s) (vrd s) key (garble rraw) (MP root rlen)) as [path| | | |] eqn:Et; try discriminate.
  cbn [rmap] in Ev. assert (Epath : map absr path = leaf :: mids) by congruence.
  destruct path as [|vleaf0 vmids]; [discriminate|]. cbn [map] in Epath.
  assert (El : leaf = absr vleaf0) by congruence. assert (Em : mids = map absr vmids) by congruence. subst leaf mids. clear Ev Epath.
  pose proof (@vtraverse_nodes (vrd s) key (fuel_of s) (garble rraw) (MP root rlen) _ Erd Et) as Hns.
  inversion Hns as [|? ? Hn0 Hns']; subst.
  cbn [absr tptr tnode] in *.
  destruct (@vrec_ok s vleaf0 Hn0 E2) as (raw & Hraw & Eraw).
  exists (garble rraw), (MP root rlen), vleaf0, vmids, lo, hi, (mp_off (vtptr vleaf0)), les, esL, esR, pgs0, H, root, rlen, raw.
  split; auto. split; auto.
  split. { unfold vroot. destruct (@lp_root_ok s m Hslot) as (p & E). rewrite E. cbn [fst]. rewrite Er. cbn [rbind mp_len mp_off].
    destruct (Z.eqb_spec rlen 0); [lia|]. rewrite Erd. reflexivity. }
  split; auto. split; auto. split; auto. split; auto.
  split. { rewrite Eraw, absn_garble in E5. exact E5. }
  split; auto. split; auto.
  split.
  { pose proof (ctx_mids E7) as Hm. rewrite Forall_map in Hm. rewrite Forall_forall in *. intros r Hr.
    specialize (Hm r Hr). specialize (Hns' r Hr). cbn [absr tptr tnode] in Hm.
    destruct (@vrec_ok s r Hns' Hm) as (rr & Hrr & ->). split.
    - apply (garble_ok Pround). apply Hrr.
    - rewrite garble_size. eapply vstored_size; eauto. }
  split; auto.
Qed.

Lemma absk_val a b : absk a = absk b <-> vi_val a = vi_val b.
Proof. unfold absk. split; intros E; [congruence|rewrite E; reflexivity]. Qed.

Lemma vroot_empty s m : slot_ok (file s) m -> mp_len (root_at (file s) m) = 0 -> vroot (vrd s) (fst (lp_root m s)) = Ok None.
Proof.
  intros Hslot E0. destruct (@lp_root_ok s m Hslot) as (p & E). rewrite E. cbn [fst]. unfold vroot.
  cbn [rbind]. rewrite E0. reflexivity.
Qed.

Theorem vinsert_new s m fl es pgs key v : 
  vsys d P s m fl es pgs -> zlen (file s) < 2^60 ->
  vid_ok key -> vec_ok d P key v -> ~ In (absk key) (map fst es) ->
  exists s', vt_insert d m key v s = (Ok tt, s') /\
    vins_post d P m s fl pgs (insert_entry (absk key) (vi_dp key) es) s'.
Proof.
  intros Hsys Hf Hkey Hval Hnew. pose proof Hsys as (Hi & Hb & Hslot & Ht & Hnd & Hlp).
  unfold vt_insert.
  assert (Hcase : es = [] \/ es <> []) by (destruct es; [left|right]; congruence).
  destruct Hcase as [He|He].
  - (* empty tree *)
    assert (Hemp : es = [] /\ pgs = [] /\ mp_len (root_at (file s) m) = 0).
    { destruct Ht as [X|X]; auto. destruct (vtree_sorted X) as (_ & Y). congruence. }
    destruct Hemp as (-> & -> & E0).
    rewrite (@vroot_empty s m Hslot E0).
    assert (Hn : vnode_ok d P (VN [key] [v] [] d)).
    { split; cbn [vids vvecs voffs vdim]; [discriminate|].
      split; [change (zlen [key]) with 1; lia|].
      split; [constructor; auto|]. split; [constructor; auto|]. split; auto. }
    assert (Hsz : vsize (VN [key] [v] [] d) <= pageSize).
    { unfold vsize. cbn [vids vvecs voffs vdim map]. rewrite !zsum_cons. cbn [zsum fold_right].
      pose proof (vid_size_bounds d P Pround Hkey). pose proof (dim_size P Hd Pround). change (zlen [v]) with 1. unfold pageSize. lia. }
    rewrite (vmarshal_ok Hd Pround Hn). unfold bind at 1. cbn [lift].
    destruct (@vnew_root_ok d P Hd Pround m s fl _ [] Hi Hb Hslot Hn Hsz ltac:(constructor) Hnd Hlp ltac:(lia)) as
      (po & s3 & s4 & news2 & W1 & W2 & I4 & K4 & B4 & N4 & Fr4 & R4 & S4 & ND4 & PM4 & FN4 & Z4 & L4 & U4).
    rewrite (@bind_ok _ _ _ _ _ _ _ _ W1). exists s4. split; [exact W2|].
    exists (tl fl), [po], news2. split; auto. split. { exists 1%nat. destruct fl; reflexivity. }
    split. { exists 0%nat, po, (vsize (VN [key] [v] [] d)). split; auto. split; auto.
      eexists _, []. split; [exact N4|]. split; auto. cbn.
      repeat split; auto; try discriminate. apply sorted_one. constructor; [|constructor]. split; cbn; auto. }
    split; auto. split; auto. split; auto.
    split. { eapply untouched_incl; [exact U4|]. cbn [app]. intros x X. eapply in_firstn; eauto. }
    auto.
  - (* descend *)
    destruct (vdescent key Hsys He) as (rootn & rp & leaf & mids & lo & hi & off & les & esL & esR & pgs0 & H & root & rlen & raw &
      Er & Hrl & Eb & Et & Hn & Eraw & Hp & Hbd & Hin & Hctx & Hmids & Ees & Pm).
    rewrite Eb, Et.
    pose proof (body_keys_sorted Hbd) as Hks.
    destruct (@leaf_in _ _ _ _ _ _ _ _ _ _ _ _ _ (absk key) Hctx Hbd Hin) as (Hiff & HL & HR).
    pose proof Hbd as Hbd0. cbn in Hbd0. destruct Hbd0 as (B1 & B2 & B3 & B4 & _ & B6 & B7 & B8).
    rewrite vbsearch_abs. rewrite Eraw. cbn [garble vids vvecs voffs vdim].
    cbn [absn keys] in Hks. rewrite (bsearch_spec (absk key) Hks). rewrite B2.
    rewrite <- Ees in Hiff.
    destruct (in_dec rv_eq_dec (absk key) (map fst les)) as [X|X]; [exfalso; apply Hnew, Hiff, X|].
    set (j := lb (map fst les) (absk key)) in *.
    pose proof Hn as (Hpo & Hnraw & _).
    pose proof (garble_ok Pround Hnraw) as Hng. pose proof Hng as (G1 & G2 & G3 & G4 & G5 & G6 & G7). cbn [garble vids vvecs voffs vdim] in *.
    set (n' := VN (firstn j (vids raw) ++ key :: skipn j (vids raw))
       (firstn j (map (map f32_of_uint) (vvecs raw)) ++ v :: skipn j (map (map f32_of_uint) (vvecs raw))) (voffs raw) (vdim raw)).
    assert (Hleaf : voffs raw = []) by (cbn [absn iptrs] in B4; exact B4).
    assert (Evl : vleaf raw = true) by (unfold vleaf; rewrite Hleaf; reflexivity).
    assert (Evl' : vleaf n' = true) by (unfold vleaf, n'; cbn [voffs]; rewrite Hleaf; reflexivity).
    rewrite Evl in B3.
    assert (Ek : keys (absn n') = map fst (insert_entry (absk key) (vi_dp key) les)).
    { unfold insert_entry. rewrite (below_firstn (absk key) B6), (from_skipn (absk key) B6). fold j.
      rewrite map_app. cbn [map fst]. rewrite <- !firstn_map, <- !skipn_map, <- B2. unfold n', absn. cbn [vids keys].
      rewrite map_app. cbn [map]. rewrite firstn_map, skipn_map. reflexivity. }
    assert (El : lptrs (absn n') = map snd (insert_entry (absk key) (vi_dp key) les)).
    { unfold insert_entry. rewrite (below_firstn (absk key) B6), (from_skipn (absk key) B6). fold j.
      rewrite map_app. cbn [map snd]. rewrite <- !firstn_map, <- !skipn_map, <- B3. unfold absn. rewrite Evl'. unfold n'. cbn [vids lptrs].
      rewrite map_app. cbn [map]. rewrite firstn_map, skipn_map. reflexivity. }
    assert (Hb' : body (vat d P (file s)) 0 lo hi (absn n') (insert_entry (absk key) (vi_dp key) les) []).
    { cbn [body]. split; [unfold insert_entry; destruct (below (absk key) les); discriminate|].
      split; auto. split; auto. split; [exact B4|]. split; auto. split; [apply insert_entry_sorted; auto|].
      split; [|destruct lo as [l|]; cbn in *; auto; apply in_map_iff in B8; destruct B8 as (e0 & <- & B8); apply in_map, insert_entry_in; auto].
      rewrite Forall_forall in *. intros x Hx. apply in_map_iff in Hx. destruct Hx as (e & <- & He').
      apply insert_entry_in in He'. destruct He' as [->|He']; [exact Hin|]. apply B7. apply in_map; auto. }
    pose proof (vstored_size Hd Pround Hn) as Hsz0.
    assert (Hsz' : vsize n' = vsize raw + vid_size key + 4 * d).
    { unfold vsize, n'. cbn [vids vvecs voffs vdim]. rewrite !map_app. cbn [map]. rewrite !zsum_app, !zsum_cons.
      rewrite (zsum_split vid_size (vids raw) j). rewrite zlen_app, zlen_cons.
      assert (EV : zlen (firstn j (map (map f32_of_uint) (vvecs raw))) + zlen (skipn j (map (map f32_of_uint) (vvecs raw))) = zlen (vvecs raw)).
      { rewrite <- zlen_app, firstn_skipn. unfold zlen. rewrite map_length. reflexivity. }
      rewrite G5, <- EV, !Z.mul_add_distr_r.
      unfold vec; lia. }
    pose proof (vid_size_bounds d P Pround Hkey) as KB.
    assert (Hnok' : vnode_ok d P n').
    { apply vnode_ok_intro; unfold n'; cbn [vids vvecs voffs vdim]; auto.
      - destruct (firstn j (vids raw)); discriminate.
      - apply Forall_app; split; [apply Forall_firstn; auto|]. constructor; auto. apply Forall_skipn; auto.
      - apply Forall2_app; [apply f2_firstn; auto|]. constructor; auto. apply f2_skipn; auto.
      - fold n'. unfold pageSize in *; lia. }
    assert (Hpk : pageSize * zlen pgs <= zlen (file s)).
    { apply pages_count; [eapply NoDup_app_l; eauto|]. destruct Ht as [(_ & -> & _)|Y]; [constructor|eapply vtree_pages; eauto]. }
    destruct (ctx_len Hctx) as [_ Hlen]. rewrite map_length in Hlen.
    assert (Zp : zlen pgs = 1 + zlen pgs0) by (apply Permutation_length in Pm; cbn [length] in Pm; unfold zlen; lia).
    destruct (@vins_loop_ok d P Hd Pround m mids s (VTR n' (vtidx leaf) (vtptr leaf)) fl 0%nat lo hi off esL (insert_entry (absk key) (vi_dp key) les) esR [] pgs0 H root rlen)
      as (s' & Es & Hpost); auto.
    { cbn [vtnode]. unfold pageSize in *; lia. }
    { eapply Permutation_NoDup; [|exact Hnd]. clear -Pm. cbn [app]. perm_lia. }
    { intros Y. apply Hlp. eapply Permutation_in; [|exact Y]. clear -Pm. cbn [app]. perm_lia. }
    { unfold zlen, pageSize in *. lia. }
    exists s'. split; [exact Es|].
    assert (Eins : insert_entry (absk key) (vi_dp key) es = esL ++ insert_entry (absk key) (vi_dp key) les ++ esR).
    { unfold insert_entry. rewrite Ees, !below_app, !from_app.
      destruct (@below_all (absk key) esL HL) as [-> ->].
      destruct (@below_none (absk key) esR ltac:(intros; apply rlt_rle; auto)) as [-> ->].
      rewrite app_nil_r. cbn [app]. rewrite <- !app_assoc. reflexivity. }
    rewrite Eins. destruct Hpost as (fl' & pgs' & news & X1 & X2 & X3 & X4 & X5 & X6 & X7 & X8 & X9 & X10 & X11).
    exists fl', pgs', news. repeat (split; [solve [auto]|]).
    split. { clear -X5 Pm. perm_lia. }
    split; auto. split; auto.
    eapply untouched_incl; [exact X7|]. intros x Hx. cbn [app] in Hx. eapply Permutation_in; [|exact Hx]. clear -Pm. perm_lia.
Qed.

Theorem vinsert_dup s m fl es pgs key v : vsys d P s m fl es pgs -> In (absk key) (map fst es) ->
  vt_insert d m key v s = (Err (EMsg "key already exists"), s).
Proof.
  intros Hsys Hin. unfold vt_insert.
  destruct (vdescent key Hsys) as (rootn & rp & leaf & mids & lo & hi & off & les & esL & esR & pgs0 & H & root & rlen & raw &
      Er & Hrl & Eb & Et & Hn & Eraw & Hp & Hbd & Hib & Hctx & Hmids & Ees & Pm).
  { intros ->. destruct Hin. }
  rewrite Eb, Et. rewrite vbsearch_abs, Eraw. cbn [garble vids vvecs voffs vdim].
  pose proof (bsearch_spec (absk key) (body_keys_sorted Hbd)) as Eb'. cbn [absn keys] in Eb'. rewrite Eb'.
  destruct (@leaf_in _ _ _ _ _ _ _ _ _ _ _ _ _ (absk key) Hctx Hbd Hib) as (Hiff & _).
  cbn in Hbd. destruct Hbd as (B1 & B2 & _). rewrite B2.
  destruct (in_dec rv_eq_dec (absk key) (map fst les)) as [X|X]; [reflexivity|].
  exfalso. apply X, Hiff. rewrite <- Ees. exact Hin.
Qed.

Theorem vfind_ok s m fl es pgs key : vsys d P s m fl es pgs ->
  match es with
  | [] => vt_find m key s = Ok (VID (MP 0 0) 0, [])
  | _ =>
    (~ In (absk key) (map fst es) -> vt_find m key s = Err (EMsg "key not found")) /\
    (forall dp, In (absk key, dp) es -> exists v, P (vi_val key) v /\
       vt_find m key s = Ok (VID dp (vi_val key), map f32_of_uint v))
  end.
Proof.
  intros Hsys. destruct es as [|e0 es0] eqn:Ee.
  - destruct Hsys as (_ & _ & Hslot & [(_ & _ & E0)|X] & _); [|destruct (vtree_sorted X) as (_ & Y); congruence].
    unfold vt_find. rewrite (@vroot_empty s m Hslot E0). reflexivity.
  - rewrite <- Ee in *. assert (Hne : es <> []) by (rewrite Ee; discriminate). clear Ee e0 es0.
    destruct (vdescent key Hsys Hne) as (rootn & rp & leaf & mids & lo & hi & off & les & esL & esR & pgs0 & H & root & rlen & raw &
      Er & Hrl & Eb & Et & Hn & Eraw & Hp & Hbd & Hib & Hctx & Hmids & Ees & Pm).
    unfold vt_find. rewrite Eb. cbn [rbind]. rewrite Et. cbn [rbind]. rewrite vbsearch_abs, Eraw. cbn [garble vids vvecs voffs vdim].
    pose proof (bsearch_spec (absk key) (body_keys_sorted Hbd)) as Eb'. cbn [absn keys] in Eb'. rewrite Eb'.
    destruct (@leaf_in _ _ _ _ _ _ _ _ _ _ _ _ _ (absk key) Hctx Hbd Hib) as (Hiff & HL & HR).
    rewrite <- Ees in Hiff.
    cbn in Hbd. destruct Hbd as (B1 & B2 & B3 & B4 & _ & B6 & _). rewrite B2.
    split.
    + intros Hni. destruct (in_dec rv_eq_dec (absk key) (map fst les)) as [X|X]; [exfalso; apply Hni, Hiff, X|reflexivity].
    + intros dp Hin.
      assert (Hin' : In (absk key, dp) les).
      { rewrite Ees in Hin. apply in_app_iff in Hin. destruct Hin as [Y|Y].
        { exfalso. apply (@rlt_irrefl (absk key)). apply HL. apply (in_map fst) in Y. exact Y. }
        apply in_app_iff in Y. destruct Y as [Y|Y]; auto.
        exfalso. apply (@rlt_irrefl (absk key)). apply HR. apply (in_map fst) in Y. exact Y. }
      assert (X : In (absk key) (map fst les)) by (apply (in_map fst) in Hin'; exact Hin').
      destruct (in_dec rv_eq_dec (absk key) (map fst les)) as [_|Y]; [|contradiction].
      set (j := lb (map fst les) (absk key)).
      assert (Ej : nth_error (map fst les) j = Some (absk key)) by (apply lb_key; auto).
      assert (Ev : vleaf raw = true) by (unfold vleaf; cbn [absn iptrs] in B4; rewrite B4; reflexivity).
      rewrite Ev in B3.
      destruct Hn as (_ & (N1 & N2 & N3 & N4 & _) & _).
      rewrite <- B2, nth_error_map in Ej. destruct (nth_error (vids raw) j) as [k|] eqn:Ek; [|discriminate].
      cbn [option_map] in Ej. assert (Eka : vi_val k = vi_val key) by (apply absk_val; congruence).
      destruct (f2_nth j N4 Ek) as (v & Evv & (V1 & V2 & V3)).
      exists v. split; [rewrite <- Eka; exact V3|].
      assert (Evg : nth_error (map (map f32_of_uint) (vvecs raw)) j = Some (map f32_of_uint v)) by (apply map_nth_error; exact Evv).
      unfold vec in *; rewrite Evg.
      assert (Edp : vi_dp k = dp).
      { apply In_nth_error in Hin'. destruct Hin' as (j' & Ej').
        assert (Ejj : j' = j).
        { assert (Y : nth_error (map fst les) j' = Some (absk key)) by (rewrite nth_error_map, Ej'; reflexivity).
          assert (ND : NoDup (map fst les)) by (apply sorted_NoDup; auto).
          apply (proj1 (NoDup_nth_error _) ND); [apply nth_error_Some; congruence|].
          rewrite Y, <- B2, nth_error_map, Ek. cbn [option_map]. congruence. }
        subst j'. assert (Y : nth_error (map snd les) j = Some dp) by (rewrite nth_error_map, Ej'; reflexivity).
        rewrite <- B3, nth_error_map, Ek in Y. cbn [option_map] in Y. congruence. }
      destruct k as [kd kv]. cbn [vi_dp vi_val] in *. subst. reflexivity.
Qed.
End Fixed.

(** ** Histories *)
Lemma vnode_ok_mono d (P Q : Z -> vec -> Prop) n : (forall x v, P x v -> Q x v) -> vnode_ok d P n -> vnode_ok d Q n.
Proof.
  intros HPQ (H1 & H2 & H3 & H4 & H5 & H6 & H7). repeat (split; [solve [auto]|]). split; [|auto].
  clear -HPQ H4. induction H4 as [|k v ks vs (A & B & C) _ IH]; constructor; auto. split; auto.
Qed.
Lemma vtree_mono d (P Q : Z -> vec -> Prop) f m es pgs : (forall x v, P x v -> Q x v) -> vtree d P f m es pgs -> vtree d Q f m es pgs.
Proof.
  intros HPQ (H & root & rlen & E1 & E2 & R). exists H, root, rlen. split; auto. split; auto.
  eapply repr_frame; [exact R|]. intros o a _ (n & (N1 & N2 & N3) & ->). exists n. split; auto. split; auto. split; auto.
  eapply vnode_ok_mono; eauto.
Qed.
Lemma vins_post_sys d P m s fl es pgs s' es' : vsys d P s m fl es pgs -> vins_post d P m s fl pgs es' s' ->
  exists fl' pgs', vsys d P s' m fl' es' pgs'.
Proof.
  intros (Hi & Hb & Hslot & Ht & Hnd & Hlp) (fl' & pgs' & news & X1 & X2 & X3 & X4 & X5 & X6 & X7 & X8 & X9 & X10 & X11).
  exists fl', pgs'. pose proof X7 as [Hle _].
  split; auto. split; auto. split; [eapply slot_ok_mono; eauto|].
  split; [right; auto|]. split; auto.
  intros Hin. apply (Permutation_in _ X5) in Hin. rewrite app_assoc in Hin. apply in_app_iff in Hin. destruct Hin as [Hin|Hin]; [auto|].
  rewrite Forall_forall in X6. specialize (X6 _ Hin). destruct Hslot as ((_ & _ & G & _) & _). unfold pageSize in *; lia.
Qed.

(** the entries in the tree are the first insertions *)
Definition entries_of (ops : list vop) (es : list entry) : Prop :=
  (forall k dp, In (k, dp) es -> exists o, In o ops /\ k = absk (fst o)) /\
  (forall key dp, In (absk key, dp) es <-> exists o, first_of (vi_val key) ops = Some o /\ vi_dp (fst o) = dp).
Definition vready (d : Z) (ops : list vop) (s : st) (m : lp) : Prop :=
  exists fl es pgs, vsys d (Pof ops) s m fl es pgs /\ entries_of ops es.

Lemma vready_fresh d s m : vfresh s m -> vready d [] s m.
Proof.
  intros (c & fl & pgs & (Hc & Hi & Hb & Hslot & Ht & Hnd & Hlp)). exists fl, [], pgs. split.
  - split; auto. split; auto. split; auto. split; [|auto].
    destruct Ht as [(X1 & X2 & X3)|(H & root & rlen & _ & _ & R)]; [left; split; [auto|split; [auto|rewrite X3; reflexivity]]|]. destruct (repr_good R) as (X & _). congruence.
  - split; [intros k dp []|]. intros key dp. split; [intros []|]. intros (o & E & _). discriminate.
Qed.
Lemma entries_in ops es key : entries_of ops es -> (In (absk key) (map fst es) <-> first_of (vi_val key) ops <> None).
Proof.
  intros [_ He]. split.
  - intros Hin. apply in_map_iff in Hin. destruct Hin as ([k dp] & Ek & Hin). cbn [fst] in Ek. subst k.
    apply He in Hin. destruct Hin as (o & E & _). congruence.
  - intros Hn. destruct (first_of (vi_val key) ops) as [o|] eqn:E; [|congruence].
    assert (Hin : In (absk key, vi_dp (fst o)) es) by (apply He; eauto). apply (in_map fst) in Hin. exact Hin.
Qed.

Lemma vop_vid d k v : vop_ok d (k, v) -> vid_ok k.
Proof. intros (H1 & H2 & H3 & _). cbn [fst snd] in *. split; auto. split; auto. Qed.

Lemma vstep d m ops s k v r s1 : 1 <= d <= 501 -> vready d ops s m -> zlen (file s) < 2^60 -> vop_ok d (k, v) ->
  vt_insert d m k v s = (r, s1) ->
  r = (match first_of (vi_val k) ops with None => Ok tt | Some _ => Err (EMsg "key already exists") end) /\
  vready d (ops ++ [(k, v)]) s1 m.
Proof.
  intros Hd (fl & es & pgs & Hsys & He) Hf Hop E.
  assert (Hmono : forall x u, Pof ops x u -> Pof (ops ++ [(k, v)]) x u).
  { intros x u (o & j & Eo & ->). exists o, j. split; auto. rewrite first_of_app, Eo. reflexivity. }
  assert (Hsys' : vsys d (Pof (ops ++ [(k, v)])) s m fl es pgs).
  { destruct Hsys as (Hi & Hb & Hslot & Ht & Hnd & Hlp). repeat (split; [solve [auto]|]). split; [|auto].
    destruct Ht as [X|X]; [auto|]. right. eapply vtree_mono; eauto. }
  assert (Hr := @Pof_round (ops ++ [(k, v)])).
  destruct (first_of (vi_val k) ops) as [o|] eqn:Ef.
  - assert (Hin : In (absk k) (map fst es)) by (apply (entries_in k He); congruence).
    rewrite (vinsert_dup Hd Hr k v Hsys' Hin) in E. inversion E; subst. split; auto.
    exists fl, es, pgs. split; auto. destruct He as [He1 He2]. split.
    + intros k0 dp Hin0. destruct (He1 _ _ Hin0) as (o0 & A & B). exists o0. split; auto. apply in_or_app; auto.
    + intros key dp. rewrite He2, first_of_app. split; intros (o0 & A & B).
      * rewrite A. eauto.
      * destruct (first_of (vi_val key) ops) as [o1|] eqn:E1; [eauto|]. cbn [first_of find fst] in A.
        destruct (Z.eqb_spec (vi_val k) (vi_val key)); [congruence|discriminate].
  - assert (Hni : ~ In (absk k) (map fst es)) by (rewrite (entries_in k He); congruence).
    pose proof Hop as (_ & _ & _ & Hzl & Hbits). cbn [fst snd] in Hzl, Hbits.
    assert (Efk : first_of (vi_val k) (ops ++ [(k, v)]) = Some (k, v)).
    { rewrite first_of_app, Ef. cbn [first_of find fst]. rewrite Z.eqb_refl. reflexivity. }
    assert (Hvec : vec_ok d (Pof (ops ++ [(k, v)])) k v).
    { split; auto. split; auto. exists (k, v), 0%nat. split; auto. cbn [snd]. symmetry. apply rounds_0. }
    destruct (vinsert_new Hd Hr Hsys' Hf (vop_vid Hop) Hvec Hni) as (s' & E' & Hpost).
    rewrite E' in E. inversion E; subst. split; auto.
    destruct (vins_post_sys Hsys' Hpost) as (fl' & pgs' & Hs').
    exists fl', (insert_entry (absk k) (vi_dp k) es), pgs'. split; auto. destruct He as [He1 He2]. split.
    + intros k0 dp Hin0. apply insert_entry_in in Hin0. destruct Hin0 as [X|Hin0].
      * exists (k, v). split; [apply in_or_app; right; left; auto|]. cbn [fst]. congruence.
      * destruct (He1 _ _ Hin0) as (o0 & A & B). exists o0. split; auto. apply in_or_app; auto.
    + intros key dp. rewrite insert_entry_in, He2, first_of_app. split.
      * intros [X|(o0 & A & B)]; [|rewrite A; eauto].
        assert (Ek : vi_val key = vi_val k) by (apply absk_val; congruence). rewrite Ek, Ef.
        exists (k, v). split; [cbn [first_of find fst]; rewrite Z.eqb_refl; reflexivity|]. cbn [fst]. congruence.
      * intros (o0 & A & B). destruct (first_of (vi_val key) ops) as [o1|] eqn:E1; [eauto|]. left.
        cbn [first_of find fst] in A. destruct (Z.eqb_spec (vi_val k) (vi_val key)) as [X|X]; [|discriminate].
        inversion A; subst. cbn [fst]. f_equal. apply absk_val; auto.
Qed.

Lemma vhistory_run d m : 1 <= d <= 501 -> forall s ops rs s', vhistory d m s ops rs s' ->
  Forall (vop_ok d) ops -> forall before, vready d before s m ->
  rs = vanswers before ops /\ vready d (before ++ ops) s' m.
Proof.
  intros Hd. induction 1 as [s|s k v r s1 ops rs s' Hf E Hh IH]; intros Hop before Hr.
  - rewrite app_nil_r. auto.
  - inversion Hop as [|? ? Hop1 Hop2]; subst.
    destruct (vstep Hd Hr Hf Hop1 E) as [Er Hr1]. destruct (IH Hop2 _ Hr1) as [Ers Hr2].
    cbn [vanswers fst]. split; [f_equal; [exact Er|exact Ers]|]. rewrite <- app_assoc in Hr2. exact Hr2.
Qed.

(** ** C59: with at most 501 coordinates every Insert works *)
(** Inserts never panic: the first insertion of an id succeeds, later ones are
    refused, and Find afterwards finds exactly the inserted ids. The full property
    would cover every dimension whose vectors fit a page (up to about 1017), and is
    false there: [C59_refuted]. *)
Theorem C59_vector_inserts_partial d m s ops rs s' : 1 <= d <= 501 -> vfresh s m -> Forall (vop_ok d) ops ->
  vhistory d m s ops rs s' ->
  rs = vanswers [] ops /\
  forall key, match first_of (vi_val key) ops with
              | Some (id, v) => exists w, vt_find m key s' = Ok (id, w)
              | None => if match ops with [] => true | _ => false end
                        then vt_find m key s' = Ok (VID (MP 0 0) 0, [])
                        else vt_find m key s' = Err (EMsg "key not found")
              end.
Proof.
  intros Hd Hfr Hop Hh. destruct (vhistory_run Hd Hh Hop (vready_fresh d Hfr)) as [-> Hr]. split; auto.
  cbn [app] in Hr. destruct Hr as (fl & es & pgs & Hsys & He). intros key.
  pose proof (vfind_ok Hd (@Pof_round ops) key Hsys) as Hfind.
  destruct (first_of (vi_val key) ops) as [[id v]|] eqn:Ef.
  - destruct He as [_ He2]. assert (Hin : In (absk key, vi_dp id) es) by (apply He2; exists (id, v); auto).
    destruct es as [|e es]; [destruct Hin|]. destruct Hfind as [_ Hfind].
    destruct (Hfind _ Hin) as (w & _ & Ew). eexists. rewrite Ew. destruct (first_of_val _ _ Ef) as [Ei _]. cbn [fst] in Ei.
    destruct id as [idp iv]. cbn [vi_dp vi_val] in *. subst iv. reflexivity.
  - assert (Hni : ~ In (absk key) (map fst es)) by (rewrite (entries_in key He); congruence).
    destruct ops as [|o ops]; cbn iota.
    + destruct es as [|[k dp] es]; [exact Hfind|]. destruct He as [He1 _]. destruct (He1 k dp (or_introl eq_refl)) as (o & [] & _).
    + destruct es as [|e es]; [|apply Hfind; auto]. exfalso. destruct He as [_ He2].
      destruct o as [ok ov]. destruct (He2 ok (vi_dp ok)) as [_ X]. apply X. exists (ok, ov).
      split; [|auto]. unfold first_of. cbn [find fst]. rewrite Z.eqb_refl. reflexivity.
Qed.

(** ** C58: what Find returns *)
(** Every coordinate comes back converted from its bit pattern to the nearest
    float32, once per read of its page: it equals the inserted one only if its bits
    are 0 (the number 0) or 1318926965. *)
Theorem C58_vectors_read_back_partial d m s ops rs s' key id v : 1 <= d <= 501 -> vfresh s m -> Forall (vop_ok d) ops ->
  vhistory d m s ops rs s' -> first_of (vi_val key) ops = Some (id, v) ->
  exists k, vt_find m key s' = Ok (id, map (Nat.iter (S k) f32_of_uint) v) /\
    (vt_find m key s' = Ok (id, v) <-> Forall (fun u => u = 0 \/ u = 1318926965) v).
Proof.
  intros Hd Hfr Hop Hh Ef. destruct (vhistory_run Hd Hh Hop (vready_fresh d Hfr)) as [_ Hr].
  cbn [app] in Hr. destruct Hr as (fl & es & pgs & Hsys & He).
  pose proof (vfind_ok Hd (@Pof_round ops) key Hsys) as Hfind.
  destruct He as [_ He2]. assert (Hin : In (absk key, vi_dp id) es) by (apply He2; exists (id, v); auto).
  destruct es as [|e es]; [destruct Hin|]. destruct Hfind as [_ Hfind].
  destruct (Hfind _ Hin) as (w & (o & k & Eo & ->) & Ew).
  assert (o = (id, v)) by congruence. subst o. cbn [snd] in Ew. rewrite rounds_S in Ew.
  destruct (first_of_val _ _ Ef) as [Ei Hino]. cbn [fst] in Ei.
  assert (Eid : VID (vi_dp id) (vi_val key) = id) by (destruct id as [idp iv]; cbn [vi_dp vi_val] in *; subst; reflexivity).
  rewrite Eid in Ew. exists k. split; [exact Ew|]. rewrite Ew.
  rewrite Forall_forall in Hop. destruct (Hop _ Hino) as (_ & _ & _ & _ & Hb). cbn [snd] in Hb.
  rewrite <- (rounds_fixed k Hb). split; [intros X; congruence|intros ->; reflexivity].
Qed.
