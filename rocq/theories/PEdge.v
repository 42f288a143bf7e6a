(** C72: the smallest and the largest key of an index, first() and last() of the
    indexer (the browser's versions are part of Query.v). *)
From Verif Require Import Base Varint Store PageFile RefValue Node LinkedPage BPTree BPRepr BPIter BPInsert BPLoop BPTop PTree PTreeEx Meta TsCodec Query QTree.

(** first(), last() on the tree whose meta page is slot [m]: pkg/bptree/bptree.go:175-221 *)
Definition go_first (c : codec) (m : lp) (s : st) : res rv := bp_edge (fuel_of s) (go_rd c s) (fst (lp_root m s)) true.
Definition go_last (c : codec) (m : lp) (s : st) : res rv := bp_edge (fuel_of s) (go_rd c s) (fst (lp_root m s)) false.

(** ** Specification *)
(** the number of bytes the entries need on disk when they are stored together *)
Definition stored_size (c : codec) (es : smap) : Z :=
  4 + zlen (concat (map (fun e => enc_key (cwidth c) (fst e) ++ enc_lptr (snd e)) es)).
(** [k] is the smallest (largest) key of [es] *)
Definition smallest (es : smap) (k : rv) : Prop := In k (map fst es) /\ forall x, In x (map fst es) -> key_le k x.
Definition largest (es : smap) (k : rv) : Prop := In k (map fst es) /\ forall x, In x (map fst es) -> key_le x k.

(** ** Proofs *)
Lemma ts_descend_go rd left fuel : forall n x, ts_descend fuel rd left n = Ok x -> descend fuel rd left n = Ok x.
Proof.
  induction fuel as [|fuel IH]; intros n x E; [discriminate|]. cbn [ts_descend descend] in *.
  destruct (is_leaf n); [auto|]. destruct (node_pointer n _); [|discriminate].
  destruct (rd m) as [n'| | | |]; cbn [rbind] in *; try discriminate. auto.
Qed.
Lemma ts_edge_go rd mp left fuel x : mp_len mp <> 0 -> ts_edge fuel rd (Ok mp) left = Ok x -> bp_edge fuel rd (Ok mp) left = Ok x.
Proof.
  intros Hl. unfold ts_edge, bp_edge, ts_root, bp_root. cbn [rbind]. destruct (Z.eqb_spec (mp_len mp) 0); [contradiction|].
  destruct (rd mp) as [n'| | | |]; cbn [rbind]; try discriminate.
  destruct (node_pointer n' _) as [p|]; [|discriminate]. destruct (rd p) as [n2| | | |]; cbn [rbind]; try discriminate.
  destruct (ts_descend fuel rd left n2) eqn:E; cbn [rbind]; try discriminate. rewrite (ts_descend_go _ _ _ _ E). cbn [rbind].
  destruct (znth (keys a) _); [auto|discriminate].
Qed.
Lemma concat_pair_len {A} (f g : A -> bytes) l : zlen (concat (map (fun x => f x ++ g x) l)) = zlen (concat (map f l)) + zlen (concat (map g l)).
Proof. induction l as [|a l IH]; [reflexivity|]. cbn [map concat]. rewrite !zlen_app, IH. lia. Qed.

Lemma sys_edge c s m fl es pgs (left : bool) : sys c s m fl es pgs -> 4096 < stored_size c es ->
  exists e r, es = (if left then e :: r else r ++ [e]) /\ bp_edge (fuel_of s) (go_rd c s) (fst (lp_root m s)) left = Ok (fst e).
Proof.
  intros Hs Hsz. assert (Hne : es <> []) by (intros ->; unfold stored_size in Hsz; cbn in Hsz; unfold zlen in Hsz; cbn in Hsz; lia).
  destruct (sys_tree Hs Hne) as (h & mp & E1 & E2 & R & Hf & Hrd). rewrite E1.
  destruct h as [|h].
  - exfalso. destruct R as (n & pg & (Hpg & _ & t & Et) & (_ & Ek & El & Ei & _) & _).
    assert (Hz : zlen (page (file s) (mp_off mp)) = 4096) by (apply zlen_page; exact Hpg). rewrite Et in Hz. unfold enc_node in Hz. rewrite !zlen_app, zlen_le in Hz.
    unfold stored_size in Hsz. rewrite concat_pair_len in Hsz. rewrite Ek, El in Hz. rewrite !map_map in Hz.
    pose proof (zlen_nonneg t). pose proof (zlen_nonneg (concat (map put_uvarint (iptrs n)))). lia.
  - destruct (@edge_ok _ _ Hrd left h (fuel_of s) mp es pgs ltac:(lia) R) as (e & r & E3 & E4). exists e, r. split; auto. apply ts_edge_go; auto.
Qed.

(** C72, for an index that needs more than one page: first() is the smallest key
    and last() is the largest. *)
Theorem C72_first_last_partial c s m es : index_ready c s m es -> 4096 < stored_size c es ->
  (exists k, go_first c m s = Ok k /\ smallest es k) /\ (exists k, go_last c m s = Ok k /\ largest es k).
Proof.
  intros (fl & pgs & Hs) Hsz. pose proof (sys_ascending Hs) as Ha. unfold ascending in Ha. split.
  - destruct (sys_edge true Hs Hsz) as (e & r & -> & E). exists (fst e). split; auto. split; [left; auto|].
    intros x [<-|Hx]; [unfold key_le; rewrite rv_cmp_refl; lia|]. apply in_map_iff in Hx. destruct Hx as (y & <- & Hy).
    inversion Ha as [|? ? _ Hall]; subst. rewrite Forall_forall in Hall. specialize (Hall _ Hy). unfold key_le. lia.
  - destruct (sys_edge false Hs Hsz) as (e & r & -> & E). exists (fst e). split; auto. split; [rewrite map_app; apply in_or_app; right; left; auto|].
    intros x Hx. rewrite map_app in Hx. apply in_app_iff in Hx. destruct Hx as [Hx|[<-|[]]]; [|unfold key_le; rewrite rv_cmp_refl; lia].
    apply in_map_iff in Hx. destruct Hx as (y & <- & Hy). clear -Ha Hy. unfold key_le. induction r as [|a r IH]; [destruct Hy|]. cbn in Ha. inversion Ha as [|? ? Ha' Hall]; subst.
    destruct Hy as [<-|Hy]; [|auto]. rewrite Forall_forall in Hall. specialize (Hall e). assert (In e (r ++ [e])) by (apply in_or_app; right; left; auto). specialize (Hall H). lia.
Qed.
(** the hypotheses are met *)
Theorem C72_example : exists es, index_ready c1001 s5 m0 es /\ 4096 < stored_size c1001 es /\
  go_first c1001 m0 s5 = Ok (bigkey 10) /\ go_last c1001 m0 s5 = Ok (bigkey 50).
Proof.
  destruct s5_ready as (es & R & ->). eexists. split; [exact R|]. split; [vm_compute; reflexivity|]. split; vm_compute; reflexivity.
Qed.

(** C72 in full is false: on an index of one page first() follows the pointer to
    the data file as if it were one to a page, and panics. *)
Definition one_key : st := snd (bp_insert c1001 m0 (bigkey 10) (MP 0 7) (s0 KMmap)).
Theorem C72_one_page_refuted : exists c m s es, index_ready c s m es /\ length es = 1%nat /\
  go_first c m s = Panic /\ go_last c m s = Panic.
Proof.
  destruct (fresh_ready KMmap c1001_ok) as [_ (fl & pgs & R0)].
  exists c1001, m0, one_key. destruct (bp_insert c1001 m0 (bigkey 10) (MP 0 7) (s0 KMmap)) as [r s1] eqn:E.
  assert (Er : r = Ok tt) by (apply (f_equal fst) in E; cbn [fst] in E; rewrite <- E; vm_compute; reflexivity). subst r.
  assert (Eo : one_key = s1) by (unfold one_key; rewrite E; reflexivity).
  assert (Hop : op_ok c1001 (bigkey 10, MP 0 7)) by (apply op_okb_ok; vm_compute; reflexivity).
  destruct (@insert_step c1001 m0 (s0 KMmap) fl [] pgs (bigkey 10) (MP 0 7) (Ok tt) s1 ltac:(cbn; lia) R0 ltac:(vm_compute; reflexivity) Hop E) as [(_ & _ & fl1 & pgs1 & Hs1)|(_ & (e & X) & _)]; [|discriminate].
  exists (insert_entry (bigkey 10) (MP 0 7) []). split; [rewrite Eo; exists fl1, pgs1; exact Hs1|]. split; [reflexivity|].
  split; vm_compute; reflexivity.
Qed.
