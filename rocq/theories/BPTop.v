(** Insert as a whole: new keys, duplicates, wrong widths, the empty tree. *)
From Verif Require Import Base Varint Store PageFile RefValue Node LinkedPage BPTree BPRepr BPIter BPInsert BPLoop.
From Coq Require Import Permutation.

(** the tree at slot [m] holds exactly the entries [es] (in key order), in the pages [pgs] *)
Definition tree_at (c : codec) (f : bytes) (m : lp) (es : list entry) (pgs : list Z) : Prop :=
  (es = [] /\ pgs = [] /\ root_at f m = MP 0 0) \/ stored c f m es pgs.

Lemma tree_at_sorted c f m es pgs : tree_at c f m es pgs -> sorted (map fst es).
Proof.
  intros [(-> & _)|(H & root & rlen & _ & _ & R)]; [apply sorted_nil|].
  destruct (repr_good R) as (_ & S & _). exact S.
Qed.
Lemma tree_at_pages c f m es pgs : tree_at c f m es pgs -> Forall (page_ok f) pgs.
Proof.
  intros [(_ & -> & _)|(H & root & rlen & _ & _ & R)]; [constructor|].
  eapply pages_ok, repr_pages; eauto.
Qed.

(** pages of a file are few *)
Lemma pages_count f l : NoDup l -> Forall (page_ok f) l -> pageSize * zlen l <= zlen f.
Proof.
  intros Hnd Hok.
  assert (Hle : (length (map (fun p => Z.to_nat (p / pageSize)) l) <= length (seq 0 (Z.to_nat (zlen f / pageSize))))%nat).
  { apply NoDup_incl_length.
    - clear -Hnd Hok. induction Hnd as [|x l Hni Hnd IH]; [constructor|].
      inversion Hok as [|? ? Hx Hok']; subst. cbn [map]. constructor; auto.
      intros Hin. apply in_map_iff in Hin. destruct Hin as (y & Ey & Hy).
      rewrite Forall_forall in Hok'. destruct (Hok' y Hy) as (Y1 & Y2 & Y3 & Y4). destruct Hx as (X1 & X2 & X3 & X4).
      assert (x = y). { unfold pageSize in *. lia. } subst. auto.
    - intros q Hq. apply in_map_iff in Hq. destruct Hq as (y & <- & Hy). rewrite Forall_forall in Hok.
      destruct (Hok y Hy) as (Y1 & Y2 & Y3 & Y4). apply in_seq. unfold pageSize in *. lia. }
  rewrite map_length, seq_length in Hle. unfold zlen, pageSize in *. lia.
Qed.

Definition insert_entry (k : rv) (v : mptr) (es : list entry) : list entry := below k es ++ (k, v) :: from k es.

Lemma in_below k es x : In x (below k es) <-> In x es /\ rlt (fst x) k.
Proof. unfold below. rewrite filter_In, Z.ltb_lt. reflexivity. Qed.
Lemma in_from k es x : In x (from k es) <-> In x es /\ rle k (fst x).
Proof. unfold from. rewrite filter_In, Bool.negb_true_iff, Z.ltb_ge, rle_not_rlt. unfold rlt. rewrite Z.nlt_ge. reflexivity. Qed.
Lemma insert_entry_in k v es x : In x (insert_entry k v es) <-> x = (k, v) \/ In x es.
Proof.
  unfold insert_entry. rewrite in_app_iff. cbn [In]. rewrite in_below, in_from.
  split.
  - intros [[H _]|[H|[H _]]]; auto.
  - intros [->|H]; auto. destruct (rlt_total (fst x) k) as [L|[L|L]]; auto.
    + right; right. split; auto. rewrite L. apply rle_refl.
    + right; right. split; auto. apply rlt_rle; auto.
Qed.
Lemma insert_entry_sorted k v es : sorted (map fst es) -> ~ In k (map fst es) -> sorted (map fst (insert_entry k v es)).
Proof.
  intros Hs Hn. unfold insert_entry. rewrite map_app. cbn [map fst].
  pose proof (below_from_app k Hs) as E. rewrite <- E, map_app in Hs. apply sorted_app in Hs. destruct Hs as (S1 & S2 & S3).
  assert (Hlt : forall b, In b (map fst (from k es)) -> rlt k b).
  { intros b Hb. apply in_map_iff in Hb. destruct Hb as (x & <- & Hx). apply in_from in Hx. destruct Hx as [Hx Hle].
    apply rle_iff in Hle. destruct Hle as [Hle | ->]; auto. exfalso. apply Hn, in_map; auto. }
  assert (Hgt : forall a, In a (map fst (below k es)) -> rlt a k).
  { intros a Ha. apply in_map_iff in Ha. destruct Ha as (x & <- & Hx). apply in_below in Hx. tauto. }
  apply sorted_app. split; auto. split.
  - apply sorted_cons. split; auto.
  - intros a b Ha [<-|Hb]; [auto|]. apply S3; auto.
Qed.
Lemma below_app k a b : below k (a ++ b) = below k a ++ below k b. Proof. apply filter_app. Qed.
Lemma from_app k a b : from k (a ++ b) = from k a ++ from k b. Proof. apply filter_app. Qed.
Lemma below_all k es : (forall x, In x (map fst es) -> rlt x k) -> below k es = es /\ from k es = [].
Proof.
  intros H. induction es as [|[x v] es IH]; [auto|]. cbn [map fst] in H.
  destruct IH as [I1 I2]; [intros; apply H; right; auto|]. assert (L : rlt x k) by (apply H; left; auto).
  unfold below, from in *. cbn [filter fst]. unfold rlt in L. apply Z.ltb_lt in L. rewrite L. cbn [negb]. rewrite I1, I2. auto.
Qed.
Lemma below_none k es : (forall x, In x (map fst es) -> rle k x) -> below k es = [] /\ from k es = es.
Proof.
  intros H. induction es as [|[x v] es IH]; [auto|]. cbn [map fst] in H.
  destruct IH as [I1 I2]; [intros; apply H; right; auto|]. assert (L : rle k x) by (apply H; left; auto).
  apply rle_not_rlt in L. unfold below, from in *. cbn [filter fst]. unfold rlt in L.
  destruct (Z.ltb_spec (rv_cmp x k) 0); [contradiction|]. cbn [negb]. rewrite I1, I2. auto.
Qed.

(** ** The descent, from the slot *)
Lemma root_read c s m es pgs : codec_ok c -> slot_ok (file s) m -> stored c (file s) m es pgs ->
  exists H root rlen rootn pg',
    root_at (file s) m = MP root rlen /\ 0 < rlen < 2^32 /\
    bp_root (go_rd c s) (fst (lp_root m s)) = Ok (Some (rootn, MP root rlen)) /\
    node_at c (file s) root rootn /\ body (node_at c (file s)) H None None rootn es pg' /\ pgs = root :: pg' /\
    (H < length pgs)%nat.
Proof.
  intros Hc Hslot (H & root & rlen & Er & Hl & R). pose proof (repr_height R) as Hh.
  destruct R as (rootn & pg' & Hn & Hb & ->).
  exists H, root, rlen, rootn, pg'. split; auto. split; auto. split; [|auto].
  destruct (@lp_root_ok s m Hslot) as (p & E). rewrite E. cbn [fst]. unfold bp_root.
  rewrite Er. cbn [rbind mp_len]. destruct (Z.eqb_spec rlen 0); [lia|].
  rewrite (@go_rd_ok c s Hc _ _ _ Hn). reflexivity.
Qed.
Lemma root_read_empty c s m (es : list entry) (pgs : list Z) : slot_ok (file s) m -> es = [] /\ pgs = [] /\ root_at (file s) m = MP 0 0 ->
  bp_root (go_rd c s) (fst (lp_root m s)) = Ok None.
Proof.
  intros Hslot (_ & _ & E0). destruct (@lp_root_ok s m Hslot) as (p & E). rewrite E. cbn [fst]. unfold bp_root.
  cbn [rbind]. rewrite E0. reflexivity.
Qed.

(** everything Insert, Find and the iterators rely on *)
Definition sys (c : codec) (s : st) (m : lp) (fl : list Z) (es : list entry) (pgs : list Z) : Prop :=
  codec_ok c /\ pf_inv s fl /\ budget s = None /\ slot_ok (file s) m /\
  tree_at c (file s) m es pgs /\ NoDup (pgs ++ fl) /\ ~ In (lp_off m) (pgs ++ fl).

Lemma fuel_enough s pgs h : NoDup pgs -> Forall (page_ok (file s)) pgs -> (h < length pgs)%nat -> (h < fuel_of s)%nat.
Proof.
  intros Hnd Hok Hh. pose proof (pages_count Hnd Hok). unfold fuel_of, zlen, pageSize in *. lia.
Qed.
Lemma NoDup_app_l {A} (a b : list A) : NoDup (a ++ b) -> NoDup a.
Proof. induction a as [|x a IH]; intros H; [constructor|]. cbn [app] in H. inversion H; subst. constructor; auto. intros X. apply H2, in_or_app; auto. Qed.

Theorem descent c s m fl es pgs key : sys c s m fl es pgs -> es <> [] ->
  exists rootn rp leaf mids lo hi off les esL esR pgs0 H root rlen,
    root_at (file s) m = MP root rlen /\ 0 < rlen < 2^32 /\
    bp_root (go_rd c s) (fst (lp_root m s)) = Ok (Some (rootn, rp)) /\
    traverse (fuel_of s) (go_rd c s) key rootn rp = Ok (leaf :: mids) /\
    node_at c (file s) off (tnode leaf) /\ mp_off (tptr leaf) = off /\
    body (node_at c (file s)) 0 lo hi (tnode leaf) les [] /\ in_bnd lo hi key /\
    ctx (node_at c (file s)) true 0 lo hi off mids esL esR pgs0 H root /\
    es = esL ++ les ++ esR /\ Permutation (off :: pgs0) pgs.
Proof.
  intros (Hc & Hi & Hb & Hslot & Ht & Hnd & Hlp) Hne.
  pose proof (tree_at_pages Ht) as Hok.
  destruct Ht as [(-> & _)|Hst]; [congruence|].
  destruct (@root_read c s m es pgs Hc Hslot Hst) as (H & root & rlen & rootn & pg' & Er & Hl & Eb & Hn & Hbd & Ep & Hh).
  pose proof (@fuel_enough s pgs H (@NoDup_app_l _ _ _ Hnd) Hok Hh) as Hf.
  edestruct (@traverse_ok (node_at c (file s)) (go_rd c s) key (@go_rd_ok c s Hc) H (fuel_of s) None None rootn es pg' root (MP root rlen) [] [] [] [] H root)
    as (leaf & mids & lo & hi & off & les & lpg & esL & esR & pgs0 & E1 & E2 & E3 & E4 & E5 & E6 & E7 & E8 & E9); auto.
  { split; cbn; auto. }
  { constructor. }
  assert (lpg = []) by (cbn in E5; tauto). subst lpg.
  rewrite app_nil_r in *. cbn [app] in E8.
  exists rootn, (MP root rlen), leaf, mids, lo, hi, off, les, esL, esR, pgs0, H, root, rlen.
  repeat (split; [solve [auto]|]). subst pgs. exact E9.
Qed.

Lemma leaf_in F s lo hi off n les mids esL esR pgs H root key : 
  ctx F s 0 lo hi off mids esL esR pgs H root -> body F 0 lo hi n les [] -> in_bnd lo hi key ->
  (In key (map fst les) <-> In key (map fst (esL ++ les ++ esR))) /\
  (forall x, In x (map fst esL) -> rlt x key) /\ (forall x, In x (map fst esR) -> rlt key x).
Proof.
  intros Hctx Hb [Hlo Hhi]. destruct (ctx_bounds Hctx) as (B1 & B2 & B3 & B4).
  assert (L : forall x, In x (map fst esL) -> rlt x key).
  { intros x Hx. destruct lo as [l|]; [|rewrite B3 in Hx by auto; destruct Hx]. cbn in Hlo. eapply rlt_rle_trans; [apply B1; auto|auto]. }
  assert (R : forall x, In x (map fst esR) -> rlt key x).
  { intros x Hx. destruct hi as [l|]; [|rewrite B4 in Hx by auto; destruct Hx]. cbn in Hhi. eapply rlt_rle_trans; [exact Hhi|]. apply B2; auto. }
  split; [|auto]. rewrite !map_app, !in_app_iff. split; auto.
  intros [X|[X|X]]; auto; exfalso.
  - apply (rlt_irrefl (L _ X)).
  - apply (rlt_irrefl (R _ X)).
Qed.

(** ** Insert of a new key *)
Theorem insert_new c s m fl es pgs key value : kw c <= 2016 ->
  sys c s m fl es pgs -> zlen (file s) < 2^60 ->
  key_ok c key -> mptr_ok value -> ~ In key (map fst es) ->
  exists s', bp_insert c m key value s = (Ok tt, s') /\
    ins_post c m s fl pgs (insert_entry key value es) s'.
Proof.
  intros Hkw Hsys Hf Hkey Hval Hnew. pose proof Hsys as (Hc & Hi & Hb & Hslot & Ht & Hnd & Hlp).
  unfold bp_insert.
  assert (Hw : negb (cwidth c =? 0) && negb (zlen (rv_val key) mod 2^16 =? (cwidth c - 1) mod 2^16) = false).
  { destruct Hkey as [_ Hk]. destruct (cwidth c =? 0); cbn [negb andb]; auto. rewrite Hk, Z.eqb_refl. reflexivity. }
  rewrite Hw.
  assert (Hcase : es = [] \/ es <> []) by (destruct es; [left|right]; congruence).
  destruct Hcase as [He|He].
  - (* empty tree *)
    assert (Hemp : es = [] /\ pgs = [] /\ root_at (file s) m = MP 0 0).
    { destruct Ht as [X|(H & root & rlen & _ & _ & R)]; auto. destruct (repr_good R) as (X & _). congruence. }
    rewrite (@root_read_empty c s m es pgs Hslot Hemp). destruct Hemp as (-> & -> & _).
    assert (Hn : node_ok c (mkNode [key] [value] [])).
    { split; [split; cbn [keys lptrs iptrs]; [discriminate|left; auto]|].
      split; [change (zlen (keys (mkNode [key] [value] []))) with 1; lia|].
      split; [constructor; auto|]. split; constructor; auto. }
    assert (Hsz : node_size (cwidth c) (mkNode [key] [value] []) <= pageSize).
    { unfold node_size. cbn [keys lptrs iptrs map]. rewrite !zsum_cons. cbn [zsum fold_right].
      pose proof (key_size_bounds Hc Hkey). pose proof (lptr_size_bounds Hval). unfold pageSize. lia. }
    rewrite (marshal_ok Hn). unfold bind at 1. cbn [lift].
    destruct (@new_root_ok c m s fl _ [] Hi Hb Hslot Hn Hsz ltac:(constructor) Hnd Hlp ltac:(lia)) as
      (po & s3 & s4 & news2 & W1 & W2 & I4 & K4 & B4 & N4 & Fr4 & R4 & S4 & ND4 & PM4 & FN4 & Z4 & L4 & U4).
    rewrite (@bind_ok _ _ _ _ _ _ _ _ W1). exists s4. split; [exact W2|].
    exists (tl fl), [po], news2. split; auto. split. { exists 1%nat. destruct fl; reflexivity. }
    split. { exists 0%nat, po, (node_size (cwidth c) (mkNode [key] [value] [])). split; auto. split; auto.
      exists (mkNode [key] [value] []), []. split; auto. split; auto. cbn.
      repeat split; auto; try discriminate. apply sorted_one. constructor; [|constructor]. split; cbn; auto. }
    split; auto. split; auto. split; auto.
    split. { eapply untouched_incl; [exact U4|]. cbn [app]. intros x X. eapply in_firstn; eauto. }
    auto.
  - (* descend *)
    destruct (descent key Hsys He) as (rootn & rp & leaf & mids & lo & hi & off & les & esL & esR & pgs0 & H & root & rlen &
      Er & Hrl & Eb & Et & Hn & Hp & Hbd & Hin & Hctx & Ees & Pm).
    rewrite Eb, Et.
    pose proof (body_keys_sorted Hbd) as Hks.
    rewrite (bsearch_spec key Hks).
    destruct (@leaf_in _ _ _ _ _ _ _ _ _ _ _ _ _ key Hctx Hbd Hin) as (Hiff & HL & HR).
    pose proof Hbd as Hbd0. cbn in Hbd0. destruct Hbd0 as (B1 & B2 & B3 & B4 & _ & B6 & B7 & B8).
    rewrite B2. rewrite <- Ees in Hiff.
    destruct (in_dec rv_eq_dec key (map fst les)) as [X|X]; [exfalso; apply Hnew, Hiff, X|].
    set (n' := mkNode (firstn (lb (map fst les) key) (map fst les) ++ key :: skipn (lb (map fst les) key) (map fst les))
       (firstn (lb (map fst les) key) (lptrs (tnode leaf)) ++ value :: skipn (lb (map fst les) key) (lptrs (tnode leaf))) (iptrs (tnode leaf))).
    assert (Ek : keys n' = map fst (insert_entry key value les)).
    { unfold n', insert_entry. cbn [keys]. rewrite (below_firstn key B6), (from_skipn key B6).
      rewrite map_app. cbn [map fst]. rewrite firstn_map, skipn_map. reflexivity. }
    assert (El : lptrs n' = map snd (insert_entry key value les)).
    { unfold n', insert_entry. cbn [lptrs]. rewrite B3, (below_firstn key B6), (from_skipn key B6).
      rewrite map_app. cbn [map snd]. rewrite firstn_map, skipn_map. reflexivity. }
    assert (Hb' : body (node_at c (file s)) 0 lo hi n' (insert_entry key value les) []).
    { cbn [body]. split; [unfold insert_entry; destruct (below key les); discriminate|].
      split; auto. split; auto. split; [exact B4|]. split; auto. split; [apply insert_entry_sorted; auto|].
      split; [|destruct lo as [l|]; cbn in *; auto; apply in_map_iff in B8; destruct B8 as (e0 & <- & B8); apply in_map, insert_entry_in; auto].
      rewrite Forall_forall in *. intros x Hx. apply in_map_iff in Hx. destruct Hx as (e & <- & He').
      apply insert_entry_in in He'. destruct He' as [->|He']; [exact Hin|]. apply B7. apply in_map; auto. }
    pose proof (node_at_ok Hn) as Hnok0. pose proof (node_at_size Hn) as Hsz0.
    pose proof Hnok0 as (_ & _ & HK & HLp & HI).
    assert (Hsz' : node_size (cwidth c) n' = node_size (cwidth c) (tnode leaf) + key_size (cwidth c) key + lptr_size value).
    { unfold node_size, n'. cbn [keys lptrs iptrs]. rewrite !map_app. cbn [map]. rewrite !zsum_app, !zsum_cons, B2, B3.
      rewrite (zsum_split (key_size (cwidth c)) (map fst les) (lb (map fst les) key)).
      rewrite (zsum_split lptr_size (map snd les) (lb (map fst les) key)). lia. }
    pose proof (key_size_bounds Hc Hkey) as KB. pose proof (lptr_size_bounds Hval) as LB.
    assert (Hnok' : node_ok c n').
    { apply node_ok_intro; auto.
      - split; [rewrite Ek; unfold insert_entry; rewrite map_app; destruct (map fst (below key les)); discriminate|].
        left. split; [exact B4|]. rewrite Ek, El, !map_length. reflexivity.
      - unfold n'; cbn [keys]. rewrite B2 in HK. apply Forall_app; split; [apply Forall_firstn; auto|].
        constructor; auto. apply Forall_skipn; auto.
      - unfold n'; cbn [lptrs]. apply Forall_app; split; [apply Forall_firstn; auto|].
        constructor; auto. apply Forall_skipn; auto.
      - unfold pageSize in *; lia. }
    assert (Hpk : pageSize * zlen pgs <= zlen (file s)).
    { apply pages_count; [eapply NoDup_app_l; eauto|eapply tree_at_pages; eauto]. }
    destruct (ctx_len Hctx) as [_ Hlen].
    assert (Zp : zlen pgs = 1 + zlen pgs0) by (apply Permutation_length in Pm; cbn [length] in Pm; unfold zlen; lia).
    destruct (@ins_loop_ok c m Hc Hkw mids s (TR n' (tidx leaf) (tptr leaf)) fl 0%nat lo hi off esL (insert_entry key value les) esR [] pgs0 H root rlen)
      as (s' & Es & Hpost); auto.
    { eapply node_at_page_ok; eauto. }
    { cbn [tnode]. unfold pageSize in *; lia. }
    { eapply Permutation_NoDup; [|exact Hnd]. clear -Pm. cbn [app]. perm_lia. }
    { intros Y. apply Hlp. eapply Permutation_in; [|exact Y]. clear -Pm. cbn [app]. perm_lia. }
    { unfold zlen, pageSize in *. lia. }
    exists s'. split; [exact Es|].
    assert (Eins : insert_entry key value es = esL ++ insert_entry key value les ++ esR).
    { unfold insert_entry. rewrite Ees, !below_app, !from_app.
      destruct (@below_all key esL HL) as [-> ->].
      destruct (@below_none key esR ltac:(intros; apply rlt_rle; auto)) as [-> ->].
      rewrite app_nil_r. cbn [app]. rewrite <- !app_assoc. reflexivity. }
    rewrite Eins. destruct Hpost as (fl' & pgs' & news & X1 & X2 & X3 & X4 & X5 & X6 & X7 & X8 & X9 & X10 & X11).
    exists fl', pgs', news. repeat (split; [solve [auto]|]).
    split. { clear -X5 Pm. perm_lia. }
    split; auto. split; auto.
    eapply untouched_incl; [exact X7|]. intros x Hx. cbn [app] in Hx. eapply Permutation_in; [|exact Hx]. clear -Pm. perm_lia.
Qed.

(** ** Insert of a present key, and of a key of another width *)
Theorem insert_dup c s m fl es pgs key value :
  sys c s m fl es pgs -> In key (map fst es) -> zlen (rv_val key) = cwidth c - 1 \/ cwidth c = 0 ->
  bp_insert c m key value s = (Err (EMsg "key already exists"), s).
Proof.
  intros Hsys Hin Hw0. unfold bp_insert.
  assert (Hw : negb (cwidth c =? 0) && negb (zlen (rv_val key) mod 2^16 =? (cwidth c - 1) mod 2^16) = false).
  { destruct Hw0 as [Hk|Hk]; rewrite Hk; [|reflexivity]. rewrite Z.eqb_refl. rewrite andb_false_r. reflexivity. }
  rewrite Hw.
  destruct (descent key Hsys) as (rootn & rp & leaf & mids & lo & hi & off & les & esL & esR & pgs0 & H & root & rlen &
      Er & Hrl & Eb & Et & Hn & Hp & Hbd & Hib & Hctx & Ees & Pm).
  { intros ->. destruct Hin. }
  rewrite Eb, Et. rewrite (bsearch_spec key (body_keys_sorted Hbd)).
  destruct (@leaf_in _ _ _ _ _ _ _ _ _ _ _ _ _ key Hctx Hbd Hib) as (Hiff & _).
  cbn in Hbd. destruct Hbd as (B1 & B2 & _). rewrite B2.
  destruct (in_dec rv_eq_dec key (map fst les)) as [X|X]; [reflexivity|].
  exfalso. apply X, Hiff. rewrite <- Ees. exact Hin.
Qed.

Theorem insert_wrong_width c s m key value : cwidth c <> 0 ->
  zlen (rv_val key) mod 2^16 <> (cwidth c - 1) mod 2^16 ->
  bp_insert c m key value s = (Err (EMsg "key does not match with BPTree width"), s).
Proof.
  intros H1 H2. unfold bp_insert.
  destruct (Z.eqb_spec (cwidth c) 0); [contradiction|].
  destruct (Z.eqb_spec (zlen (rv_val key) mod 2^16) ((cwidth c - 1) mod 2^16)); [contradiction|reflexivity].
Qed.
