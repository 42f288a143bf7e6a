(** C36: what an Insert that is cut short leaves in the index. *)
From Coq Require Import Permutation.
From Verif Require Import Base Varint Store PageFile PageHist RefValue Node LinkedPage BPTree BPRepr BPIter BPInsert BPLoop BPTop PTree PTreeEx Slots PSlots Cells Meta IndexFile IFileInv Grows Crash.

(** ** Specification *)
(** the process dies at its write number [n] (counted from 0) during an Insert,
    and the file is opened again by the program *)
Definition dies (c : codec) (m : lp) (k : rv) (v : mptr) (s : st) (n : nat) (f : bytes) : Prop :=
  exists s', bp_insert c m k v (set_budget s (Some n)) = (Crash, s') /\ file s' = f.
Definition reopened (k : rws_kind) (f : bytes) (s2 : st) : Prop := new_page_file (open_rws k f) = (Ok tt, s2).
(** the entries of [es] without a contiguous run of them *)
Definition without_a_run (es es2 : smap) : Prop := exists a b z, es = a ++ b ++ z /\ es2 = a ++ z.

(** ** Reading does not depend on the budget *)
Definition nb {A} (m : M st A) : Prop := forall s b, m (set_budget s b) = (fst (m s), set_budget (snd (m s)) b).
Lemma nb_bind {A B} (m : M st A) (k : A -> M st B) : nb m -> (forall a, nb (k a)) -> nb (bind m k).
Proof. intros Hm Hk s b. unfold bind. rewrite Hm. destruct (m s) as [[a|e| | |] s1]; cbn [fst snd]; [apply Hk|reflexivity..]. Qed.
Lemma nb_seek a : nb (seek_start a).
Proof. intros s b. unfold seek_start, seek_abs. destruct s as [k f p bu]; cbn. destruct k; repeat match goal with |- context [if ?b then _ else _] => destruct b end; reflexivity. Qed.
Lemma nb_pf_read l : nb (pf_read l).
Proof.
  intros s b. unfold pf_read, bind, seek_cur, seek_abs, rws_read, panic. destruct s as [k f p bu]; cbn. destruct k; repeat (match goal with |- context [if ?b then _ else _] => destruct b end; cbn); reflexivity.
Qed.
Lemma nb_fst {A} (m : M st A) s b : nb m -> fst (m (set_budget s b)) = fst (m s).
Proof. intros H. rewrite H. reflexivity. Qed.
Lemma read_node_budget c p s b : fst (read_node c p (set_budget s b)) = fst (read_node c p s).
Proof. apply nb_fst. unfold read_node. apply nb_bind; [apply nb_seek|intros _]. apply nb_bind; [apply nb_pf_read|]. intros [d [e|]] s' b'; reflexivity. Qed.
Lemma lp_root_budget m s b : fst (lp_root m (set_budget s b)) = fst (lp_root m s).
Proof.
  apply nb_fst. unfold lp_root. destruct (_ =? _); [intros s' b'; reflexivity|]. apply nb_bind; [apply nb_seek|intros _]. apply nb_bind; [|intros d s' b'; reflexivity].
  unfold read_full. apply nb_bind; [apply nb_pf_read|]. intros [d e]. repeat match goal with |- context [if ?b then _ else _] => destruct b end; intros s' b'; reflexivity.
Qed.
Lemma traverse_ext rd rd' key : (forall p, rd p = rd' p) -> forall fuel n ptr, traverse fuel rd key n ptr = traverse fuel rd' key n ptr.
Proof.
  intros H. induction fuel as [|fuel IH]; intros n ptr; [reflexivity|]. cbn [traverse]. destruct (bsearch (keys n) key) as [i found]. destruct (is_leaf n); auto.
  destruct (node_pointer n _); auto. rewrite H. destruct (rd' m); cbn [rbind]; auto. rewrite IH. reflexivity.
Qed.

(** ** A tree that does not notice *)
(** the crashed file, seen as a state of the program *)
Definition survives (c : codec) (m : lp) (f0 : bytes) (P : list Z) (Q : smap -> Prop) (f : bytes) : Prop :=
  exists s2 fl2 es2 pgs2, file s2 = f /\ sys c s2 m fl2 es2 pgs2 /\ Q es2 /\ untouched f0 f P (root_off m) /\
    (forall p, In p fl2 -> In p P \/ zlen f0 <= p) /\ (slice f0 0 pageSize = enc_free [] -> fl2 = []).

Lemma sys_untouched c s m fl es pgs s' fl' P : sys c s m fl es pgs -> untouched (file s) (file s') P 0 -> Forall (fun q => q mod pageSize = 0) P ->
  (forall p, In p P -> ~ In p (lp_off m :: pgs)) -> pf_inv s' fl' -> budget s' = None -> NoDup (pgs ++ fl') -> ~ In (lp_off m) (pgs ++ fl') -> sys c s' m fl' es pgs.
Proof.
  intros (Hc & Hi & Hb & Hslot & Ht & Hnd & Hlp) U HP Hd Hi' Hb' Hnd' Hlp'. pose proof U as [Lz Un].
  pose proof (root_off_bounds Hslot) as (B1 & B2 & B3 & B4 & B5). pose proof Hslot as ((G1 & G2 & G3 & G4) & _).
  split; auto. split; auto. split; auto. split; [eapply slot_ok_mono; eauto|]. split; [|auto].
  eapply tree_at_frame; [exact Lz| | |exact Ht].
  - eapply untouched_root_at; [exact U|exact Hslot| |exact HP|]. { intros X. apply (Hd _ X). left; auto. } right. unfold pageSize in *; lia.
  - intros p Hp. pose proof (tree_at_pages Ht) as Hpg. rewrite Forall_forall in Hpg. destruct (Hpg p Hp) as (Q1 & Q2 & Q3 & Q4).
    unfold page. apply Un; try (unfold pageSize in *; lia).
    intros q Hq. rewrite Forall_forall in HP. apply aligned_disj; auto. intros ->. apply (Hd _ Hq). right; auto.
Qed.
Lemma pf_inv_took s o fl : pf_inv s (o :: fl) -> budget s = None -> exists s', free_page_index s = (Ok o, s') /\ file s' = upd (file s) 0 (enc_free fl) /\ pf_inv s' fl /\ budget s' = None.
Proof.
  intros Hi Hb. destruct (free_page_index_cons Hi Hb) as (h & tail & p & E & T1 & T2 & T3 & _). eexists. split; [exact E|]. cbn [file set_pos set_file set_free budget]. split; auto. split; auto.
  pose proof (pi_min Hi) as M. pose proof (pi_len Hi) as Hl. pose proof (pi_ok Hi) as Hk. pose proof (pi_nodup Hi) as Hn. inversion Hk; subst. inversion Hn; subst.
  pose proof (@zlen_enc_free fl ltac:(lia)) as Z.
  assert (ZL : zlen (upd (file s) 0 (enc_free fl)) = zlen (file s)) by (rewrite zlen_upd; unfold pageSize in *; lia).
  constructor; cbn [file set_pos set_file set_free ring fhead fcount]; rewrite ?ZL; auto.
  - exists tail. auto.
  - eapply Forall_impl; [|eassumption]. intros a Ha. eapply page_ok_mono; [|exact Ha]. lia.
  - rewrite <- Z. apply slice_upd_same. pose proof (zlen_nonneg (file s)); lia.
Qed.
Lemma untouched_page0 f b ro : zlen b = pageSize -> pageSize <= zlen f -> untouched f (upd f 0 b) [] ro.
Proof. intros Z L. split; [rewrite zlen_upd; unfold pageSize in *; lia|]. intros o l Ho Hl Hf _ _. apply slice_upd_disj; unfold pageSize in *; lia. Qed.
Lemma untouched_more f f1 f2 P P' ro : untouched f f1 P ro -> untouched f1 f2 P' ro -> (forall p, In p P' -> In p P \/ zlen f <= p) -> untouched f f2 P ro.
Proof. intros U1 U2 H. eapply untouched_trans; [exact U1|exact U2|apply incl_refl|exact H]. Qed.
Lemma untouched_ro f f' P ro : untouched f f' P 0 -> untouched f f' P ro.
Proof. intros [L U]. split; auto. intros o l Ho Hl Hf HP _. apply U; auto. right. unfold pageSize in *; lia. Qed.

Lemma crash_new_page c m s fl es pgs buf f0 P (Q : smap -> Prop) : sys c s m fl es pgs -> Q es -> untouched f0 (file s) P (root_off m) -> (forall p, In p fl -> In p P \/ zlen f0 <= p) -> (slice f0 0 pageSize = enc_free [] -> fl = []) ->
  crashes (new_page buf) s (survives c m f0 P Q).
Proof.
  intros Hs HQ U HPf HZ. pose proof Hs as (Hc & Hi & Hb & Hslot & Ht & Hnd & Hlp). eapply crashes_new_page; eauto.
  - exists s, fl, es, pgs. auto 7.
  - intros o r ->. destruct (pf_inv_took Hi Hb) as (s' & _ & Ef & Hi' & Hb'). pose proof (pi_min Hi) as M. destruct (pi_ring Hi) as (t & T1 & T2 & _). rewrite zlen_cons in T2.
    pose proof (@zlen_enc_free r ltac:(lia)) as Z.
    exists s', r, es, pgs. split; auto. split; [|split; auto].
    + eapply sys_untouched with (P := []); eauto.
      * rewrite Ef. apply untouched_page0; auto.
      * apply NoDup_remove_1 in Hnd; auto.
      * intros X. apply Hlp. rewrite in_app_iff in *. cbn. tauto.
    + split; [eapply untouched_more; [exact U|apply untouched_page0; auto|intros p []]|]. split; [intros p Hp; apply HPf; right; auto|]. intros X. specialize (HZ X). discriminate.
Qed.
Lemma sys_new_page c m s fl es pgs buf o s1 : sys c s m fl es pgs -> zlen buf <= pageSize -> new_page buf s = (Ok o, s1) ->
  sys c s1 m (tl fl) es pgs /\ untouched (file s) (file s1) (firstn 1 fl) 0.
Proof.
  intros Hs Hl E. pose proof Hs as (Hc & Hi & Hb & Hslot & Ht & Hnd & Hlp).
  destruct (@new_page_ok s fl buf Hi Hb Hl) as (s' & E' & F1 & I1 & K1 & B1 & _). rewrite E in E'. injection E' as -> <-.
  assert (U : untouched (file s) (file s1) (firstn 1 fl) 0) by (rewrite F1; apply untouched_np; auto). split; auto.
  assert (NT : NoDup (pgs ++ tl fl) /\ ~ In (lp_off m) (pgs ++ tl fl)).
  { destruct fl as [|x fl]; cbn [tl] in *; auto. split; [apply NoDup_remove_1 in Hnd; auto|]. intros X. apply Hlp. rewrite in_app_iff in *. cbn. tauto. }
  eapply sys_untouched; eauto; try tauto.
  - apply Forall_firstn. eapply pages_aligned. apply (pi_ok Hi).
  - intros p Hp [<-|X]. { apply Hlp. apply in_or_app; right. eapply in_firstn; eauto. }
    destruct fl as [|x fl]; [destruct Hp|]. cbn in Hp. destruct Hp as [<-|[]]. apply NoDup_remove_2 in Hnd. apply Hnd, in_or_app; auto.
Qed.

(** ** Bounds that grow *)
Lemma body_widen F k : forall h lo hi n es pg, (forall x, rlt x k -> hi_gt x hi) -> body F h lo (Some k) n es pg -> body F h lo hi n es pg.
Proof.
  induction h as [|h IH]; intros lo hi n es pg Hh Hb.
  - cbn [body] in *. destruct Hb as (B1 & B2 & B3 & B4 & B5 & B6 & B7 & B8). repeat split; auto. eapply Forall_impl; [|exact B7]. intros a [X Y]. split; auto.
  - rewrite body_S in *. destruct Hb as (o & os & b & e1 & e2 & p1 & p2 & B1 & B2 & B3 & B4 & B5 & B6 & B7).
    exists o, os, b, e1, e2, p1, p2. repeat (split; [solve [auto]|]). split; [|auto].
    assert (HR : forall lo off es pg, repr F h lo (Some k) off es pg -> repr F h lo hi off es pg).
    { intros lo' off es' pg' (n' & pg'' & X1 & X2 & X3). exists n', pg''. split; auto. }
    clear -B5 HR B2. revert B2. remember (Some k) as d. generalize (keys n), B5. clear B5. intros ks Hc. revert Heqd HR.
    induction Hc as [d|k' b d ks o os es1 es2 pg1 pg2 R Hc IHc]; intros Ed HR Hne; [congruence|].
    destruct ks as [|k2 ks].
    + inversion Hc; subst. econstructor; [|constructor]. apply HR; auto.
    + econstructor; [exact R|]. apply IHc; auto. discriminate.
Qed.
Lemma repr_widen F k h lo hi off es pg : (forall x, rlt x k -> hi_gt x hi) -> repr F h lo (Some k) off es pg -> repr F h lo hi off es pg.
Proof. intros H (n & pg' & X1 & X2 & X3). exists n, pg'. split; auto. split; auto. eapply body_widen; eauto. Qed.
Lemma NoDup_count (l : list Z) : NoDup l <-> forall x, (count_occ Z.eq_dec l x <= 1)%nat.
Proof. apply NoDup_count_occ. Qed.

Lemma lift_inv A (r r' : A) (s s' : st) : lift (Ok r) s = (Ok r', s') -> r' = r /\ s' = s.
Proof. unfold lift. intros E. injection E as <- <-. auto. Qed.

(** ** The split loop *)
Theorem ins_loop_crash c m f0 P0 (Q : smap -> Prop) : codec_ok c -> kw c <= 2016 -> forall rest s tr fl h lo hi off esL es esR pg pgs H root rlen esd pgsd,
  pf_inv s fl -> budget s = None -> slot_ok (file s) m ->
  root_at (file s) m = MP root rlen -> 0 < rlen < 2^32 ->
  ctx (node_at c (file s)) true h lo hi off rest esL esR pgs H root ->
  mp_off (tptr tr) = off -> page_ok (file s) off ->
  body (node_at c (file s)) h lo hi (tnode tr) es pg ->
  node_ok c (tnode tr) -> node_size (cwidth c) (tnode tr) <= pageSize + 30 + kw c ->
  NoDup (off :: (pg ++ pgs) ++ fl) -> ~ In (lp_off m) (off :: (pg ++ pgs) ++ fl) ->
  zlen (file s) + pageSize * (zlen rest + 2) < 2^62 ->
  sys c s m fl esd pgsd -> Q esd -> (forall a b z, esL ++ es ++ esR = a ++ b ++ z -> Q (a ++ z)) ->
  untouched f0 (file s) P0 (root_off m) -> (forall p, In p (off :: (pg ++ pgs) ++ fl) -> In p P0 \/ zlen f0 <= p) ->
  (slice f0 0 pageSize = enc_free [] -> fl = []) ->
  crashes (ins_loop c m tr rest) s (survives c m f0 P0 Q).
Proof.
  intros Hc Hkw. induction rest as [|p rest' IH];
    intros s tr fl h lo hi off esL es esR pg pgs H root rlen esd pgsd Hi Hb Hslot Hroot Hrlen Hctx Htr Hoff Hbody Hnok Hsz Hnd Hlp Hf Hsys HQ HQr U0 HP0 HZ.
  all: pose proof (pages_ok (body_pages Hbody)) as Hpgok; pose proof (pages_ok (ctx_pages Hctx)) as Hpgsok.
  all: assert (Hallok : Forall (page_ok (file s)) (pg ++ pgs)) by (apply Forall_app; split; auto).
  all: assert (Hlpf : lp_off m < zlen (file s)) by (destruct Hslot as ((_ & _ & X & _) & _); unfold pageSize in *; lia).
  all: assert (HPfl : forall p, In p fl -> In p P0 \/ zlen f0 <= p) by (intros x Hx; apply HP0; right; apply in_or_app; auto).
  all: assert (HPtl : forall p, In p (tl fl) -> In p P0 \/ zlen f0 <= p) by (intros x Hx; apply HPfl, in_tl; auto).
  all: assert (HPtt : forall p, In p (tl (tl fl)) -> In p P0 \/ zlen f0 <= p) by (intros x Hx; apply HPtl, in_tl; auto).
  all: assert (HZtl : slice f0 0 pageSize = enc_free [] -> tl fl = []) by (intros X; rewrite (HZ X); reflexivity).
  all: assert (HZtt : slice f0 0 pageSize = enc_free [] -> tl (tl fl) = []) by (intros X; rewrite (HZ X); reflexivity).
  all: pose proof (zlen_nonneg fl) as Zfl. all: pose proof U0 as [Lz0 _].
  all: cbn [ins_loop]; destruct (Z.ltb_spec pageSize (node_size (cwidth c) (tnode tr))) as [Hbig|Hfit];
    [|apply crashes_write_node; auto; exists s, fl, esd, pgsd; auto 7].
  all: assert (Hf0 : zlen (file s) + pageSize * 2 < 2^62)
     by (first [change (zlen (@nil trec)) with 0 in Hf; unfold pageSize in *; lia | rewrite zlen_cons in Hf; pose proof (zlen_nonneg rest'); unfold pageSize in *; lia]).
  all: destruct (@ins_split c m s tr fl h lo hi off es pg pgs) as
      (mk & mo & s1 & s2 & esA & esB & pgA & pgB & news & E1 & E2 & E3 & E4 & E5 & E6 & E7 & RA & RB & Fr & I2 & K2 & B2 & ND2 & LP2 & PM & FN & ZL & LPg & ZN & MO & UT);
      auto; try (unfold pageSize in *; lia).
  all: rewrite E1; rewrite E3.
  all: apply crashes_bind; auto; [apply writes_lift; discriminate|apply crashes_lift; discriminate|]; intros buf s0 E0; apply lift_inv in E0; destruct E0 as [-> ->].
  all: assert (ZR : zlen (enc_node (cwidth c) (split_right (tnode tr) (length (keys (tnode tr)) / 2))) <= pageSize)
     by (unfold new_page in E4; destruct (Z.ltb_spec pageSize (zlen (enc_node (cwidth c) (split_right (tnode tr) (length (keys (tnode tr)) / 2))))); [discriminate|lia]).
  all: apply crashes_bind; auto; [apply writes_new_page|eapply crash_new_page; eauto|].
  all: intros o s1' E4'; rewrite E4 in E4'; injection E4' as <- <-.
  all: destruct (@sys_new_page _ _ _ _ _ _ _ _ _ Hsys ZR E4) as [Hsys1 U1].
  all: assert (U01 : untouched f0 (file s1) P0 (root_off m)) by
     (eapply untouched_more; [exact U0|apply untouched_ro; exact U1|]; intros q Hq; apply HP0; right; apply in_or_app; right; eapply in_firstn; eauto).
  all: assert (B1 : budget s1 = None) by (destruct Hsys1 as (_ & _ & X & _); exact X).
  all: rewrite Htr; apply crashes_bind; auto; [apply writes_write_node|apply crashes_write_node; auto; exists s1, (tl fl), esd, pgsd; auto 7|].
  all: intros [] s2' E5'; rewrite E5 in E5'; injection E5' as <-.
  all: destruct MO as [MO1 MO2]; assert (Emo : mo mod 2^64 = mo) by (apply Z.mod_small; lia); rewrite Emo.
  (* the disk after the left half is written *)
  all: assert (Hle2 : zlen (file s) <= zlen (file s2)) by (pose proof (zlen_nonneg news); unfold pageSize in *; lia).
  all: assert (Hslot2 : slot_ok (file s2) m) by (eapply slot_ok_mono; [|exact Hslot]; auto).
  all: assert (Hroot2 : root_at (file s2) m = MP root rlen).
  1,3: rewrite <- Hroot; pose proof (root_off_bounds Hslot) as (Y1 & Y2 & Y3 & Y4 & Y5);
      eapply untouched_root_at with (P := off :: firstn 1 fl) (ro := 0); auto;
      [intros [X|X]; apply Hlp; [left; auto|]; right; apply in_or_app; right; eapply in_firstn; eauto
      |constructor; [destruct Hoff as (X1 & X2 & _); auto|]; apply Forall_firstn; eapply pages_aligned; apply (pi_ok Hi)
      |right; unfold pageSize in *; lia].
  all: assert (Hmk : forall x, rlt x mk -> hi_gt x hi).
  1,3: destruct (repr_good RB) as (G1 & _ & G3); destruct esB as [|[kb vb] esB']; [congruence|]; cbn [map fst] in G3; inversion G3 as [|? ? [G4 G5] _]; subst;
      intros x Hx; destruct hi as [hk|]; [|exact I]; cbn in *; eapply rlt_trans; [exact Hx|]; eapply rle_rlt_trans; eauto.
  all: pose proof (repr_widen hi Hmk RA) as RA'.
  - (* new root *)
    assert (Epgs : pgs = [] /\ esL = [] /\ esR = [] /\ lo = None /\ hi = None /\ off = root /\ h = H) by (inversion Hctx; subst; auto 10).
    destruct Epgs as (-> & -> & -> & -> & -> & -> & ->). rewrite app_nil_r in *.
    assert (Hsys2 : sys c s2 m (tl fl) esA pgA).
    { split; auto. split; auto. split; auto. split; auto. split; [right; exists H, root, rlen; auto|]. split.
      - eapply (NoDup_app_l _ pgB). eapply Permutation_NoDup; [|exact ND2]. clear -E7. perm_lia.
      - intros X. apply LP2. eapply Permutation_in with (l := (pgA ++ tl fl) ++ pgB); [clear -E7; perm_lia|]. apply in_or_app; auto. }
    assert (HQ2 : Q esA). { rewrite <- (app_nil_r esA). apply (HQr esA esB []). cbn [app]. rewrite !app_nil_r. auto. }
    assert (U02 : untouched f0 (file s2) P0 (root_off m)).
    { eapply untouched_more; [exact U0|apply UT|]. intros q [<-|Hq]; apply HP0; [left; auto|]. right. apply in_or_app; right. eapply in_firstn; eauto. }
    apply crashes_bind; auto; [apply writes_lift, marshal_nc|apply crashes_lift, marshal_nc|]. intros pbuf s3 Em.
    assert (Zp : zlen pbuf <= pageSize /\ s3 = s2).
    { unfold lift in Em. injection Em as Em <-. split; auto.
      assert (Hpn : node_ok c (mkNode [mk] [] [root; mo])).
      { assert (Hoff62 : 0 < root < 2^62) by (destruct Hoff as (X1 & X2 & X3 & X4); unfold pageSize in *; lia).
        split; [split; cbn; [discriminate|right; auto]|]. split; [change (zlen (keys (mkNode [mk] [] [root; mo]))) with 1; lia|].
        split; [constructor; auto|]. split; [constructor|]. constructor; [lia|]. constructor; [lia|constructor]. }
      rewrite (marshal_ok Hpn) in Em. injection Em as <-. rewrite (enc_node_size Hpn).
      unfold node_size. cbn [keys lptrs iptrs map]. rewrite !zsum_cons. cbn [zsum fold_right].
      assert (Hoff62 : 0 < root < 2^62) by (destruct Hoff as (X1 & X2 & X3 & X4); unfold pageSize in *; lia).
      pose proof (key_size_bounds Hc E2). pose proof (@iptr_size_bounds root ltac:(lia)). pose proof (@iptr_size_bounds mo ltac:(lia)). unfold pageSize; lia. }
    destruct Zp as [Zp ->].
    apply crashes_bind; auto; [apply writes_new_page|eapply crash_new_page; eauto|]. intros po s4 E6'.
    destruct (@sys_new_page _ _ _ _ _ _ _ _ _ Hsys2 Zp E6') as [Hsys4 U4].
    apply crashes_set_root; [destruct Hsys4 as (_ & _ & X & _); exact X|]. exists s4, (tl (tl fl)), esA, pgA. split; auto. split; auto. split; auto. split; auto.
    eapply untouched_more; [exact U02|apply untouched_ro; exact U4|]. intros q Hq. apply HP0. right. apply in_or_app; right. apply in_tl. eapply in_firstn; eauto.
  - (* update the parent *)
    assert (HctxF : ctx (node_at c (file s2)) true h lo hi off (p :: rest') esL esR pgs H root) by (eapply ctx_frame; [exact Hctx|]; intros; apply Fr; auto).
    destruct (ctx_plug HctxF RA') as (pgs2 & Rp & Pm).
    assert (Hsys2 : sys c s2 m (tl fl) (esL ++ esA ++ esR) pgs2).
    { split; auto. split; auto. split; auto. split; auto. split; [right; exists H, root, rlen; auto|]. split.
      - eapply (NoDup_app_l _ pgB). eapply Permutation_NoDup; [|exact ND2]. clear -E7 Pm. perm_lia.
      - intros X. apply LP2. eapply Permutation_in with (l := (pgs2 ++ tl fl) ++ pgB); [clear -E7 Pm; perm_lia|]. apply in_or_app; auto. }
    assert (HQ2 : Q (esL ++ esA ++ esR)).
    { rewrite app_assoc. apply (HQr (esL ++ esA) esB esR). rewrite E6, <- !app_assoc. reflexivity. }
    assert (U02 : untouched f0 (file s2) P0 (root_off m)).
    { eapply untouched_more; [exact U0|apply UT|]. intros q [<-|Hq]; apply HP0; [left; auto|]. right. apply in_or_app; right. eapply in_firstn; eauto. }
    rewrite zlen_cons in Hf. pose proof (zlen_nonneg rest') as Zr.
    inversion Hctx as [|h0 lo0 hi0 off0 lo' hi' kl ol kr or esl esr pgl pgr pn poff ptr rest0 esL0 esR0 pgs0 H0 root0 HF Hptr Hplp Hpk Hpne Hpi Hlc Hrc Hctx']; subst h0 lo0 hi0 off0 p rest0 esL esR pgs H0 root0.
    cbn [tnode tptr tidx].
    pose proof (lchain_len Hlc) as Hll.
    destruct (@parent_insert_ok c pn kl kr ol or mk off mo Hc (node_at_ok HF) (node_at_size HF) Hplp Hpk Hpi Hll E2 ltac:(lia))
      as (P1 & P2 & P3 & P4 & P5).
    set (q := parent_insert pn (Z.to_nat (zlen ol)) mk off mo) in *.
    assert (Hq : body (node_at c (file s2)) (S h) lo' hi' q (esl ++ es ++ esr) (pgl ++ pgA ++ (pgB ++ pgr))).
    { replace (esl ++ es ++ esr) with (esl ++ esA ++ (esB ++ esr)) by (subst es; rewrite <- app_assoc; reflexivity).
      eapply body_join with (kl := kl) (kr := mk :: kr) (ol := ol) (x := off) (or := mo :: or) (a := lo) (b := Some mk); auto.
      - rewrite P1. destruct kl; discriminate.
      - eapply lchain_frame; [exact Hlc|]. intros; apply Fr; auto. right. rewrite !in_app_iff. auto.
      - econstructor; [exact RB|]. eapply rchain_frame; [exact Hrc|]. intros; apply Fr; auto. right. rewrite !in_app_iff. auto. }
    assert (Hctx2 : ctx (node_at c (file s2)) true (S h) lo' hi' poff rest' esL0 esR0 pgs0 H root).
    { eapply ctx_frame; [exact Hctx'|]. intros; apply Fr; auto. right. rewrite !in_app_iff. auto. }
    assert (Hpoff : page_ok (file s2) poff).
    { eapply node_at_page_ok. apply Fr; [left; auto|exact HF]. }
    eapply (IH s2 (TR q (zlen ol) ptr) (tl fl) (S h) lo' hi' poff esL0 (esl ++ es ++ esr) esR0 (pgl ++ pgA ++ (pgB ++ pgr)) pgs0 H root rlen); auto; try eassumption.
    { eapply Permutation_NoDup; [|exact ND2]. clear -E7. perm_lia. }
    { intros X. apply LP2. eapply Permutation_in; [|exact X]. clear -E7. perm_lia. }
    { unfold pageSize in *. lia. }
    { intros a b z Ez. apply (HQr a b z). rewrite <- Ez, <- !app_assoc. reflexivity. }
    { intros x X.
      assert (X' : In x (off :: mo :: (pg ++ poff :: (pgl ++ pgr) ++ pgs0) ++ tl fl)).
      { eapply Permutation_in; [|exact X]. clear -E7. perm_lia. }
      destruct X' as [<-|[<-|X']]; [apply HP0; left; auto| |].
      - assert (Y : In mo (fl ++ news)) by (eapply Permutation_in; [exact PM|left; auto]).
        apply in_app_iff in Y. destruct Y as [Y|Y]; [apply HP0; right; apply in_or_app; auto|].
        right. rewrite Forall_forall in FN. specialize (FN _ Y). cbn beta in FN. lia.
      - apply HP0. right. apply in_app_iff in X'. apply in_or_app. destruct X'; auto. right. apply in_tl; auto. }
Qed.

(** ** Insert, up to its loop *)
Lemma bp_root_ext rd rd' r : (forall p, rd p = rd' p) -> bp_root rd r = bp_root rd' r.
Proof. intros H. unfold bp_root. destruct r; cbn [rbind]; auto. destruct (_ =? _); auto. rewrite H. reflexivity. Qed.
Lemma insert_budget c m k v s b :
  bp_insert c m k v (set_budget s b) =
  if negb (cwidth c =? 0) && negb (zlen (rv_val k) mod 2^16 =? (cwidth c - 1) mod 2^16)
  then (Err (EMsg "key does not match with BPTree width"), set_budget s b)
  else match bp_root (go_rd c s) (fst (lp_root m s)) with
    | Err e => (Err e, set_budget s b)
    | Panic => (Panic, set_budget s b) | Crash => (Crash, set_budget s b) | Hang => (Hang, set_budget s b)
    | Ok None =>
        (buf <- lift (marshal (cwidth c) (mkNode [k] [v] [])) ;;
         offset <- new_page buf ;;
         lp_set_root m (MP (offset mod 2^64) (zlen buf mod 2^32))) (set_budget s b)
    | Ok (Some (root, off)) =>
        match traverse (fuel_of s) (go_rd c s) k root off with
        | Err e => (Err e, set_budget s b)
        | Panic => (Panic, set_budget s b) | Crash => (Crash, set_budget s b) | Hang => (Hang, set_budget s b)
        | Ok [] => (Panic, set_budget s b)
        | Ok (leaf :: rest) =>
            let n := tnode leaf in
            let '(j, found) := bsearch (keys n) k in
            if found then (Err (EMsg "key already exists"), set_budget s b)
            else ins_loop c m (TR (mkNode (firstn j (keys n) ++ k :: skipn j (keys n))
                               (firstn j (lptrs n) ++ v :: skipn j (lptrs n)) (iptrs n)) (tidx leaf) (tptr leaf)) rest (set_budget s b)
        end
    end.
Proof.
  unfold bp_insert. destruct (_ && _); [reflexivity|]. rewrite lp_root_budget.
  assert (R : forall p, go_rd c (set_budget s b) p = go_rd c s p) by (intros p; apply read_node_budget).
  rewrite (@bp_root_ext _ _ (fst (lp_root m s)) R). destruct (bp_root (go_rd c s) _) as [[[root off]|]|e| | |]; auto.
  rewrite (@traverse_ext _ _ k R). reflexivity.
Qed.

(** an accepted Insert into an index that is not empty: the leaf it will change *)
Lemma insert_leaf c s m fl es pgs key value : kw c <= 2016 ->
  sys c s m fl es pgs -> zlen (file s) < 2^60 -> key_ok c key -> mptr_ok value -> ~ In key (map fst es) -> es <> [] ->
  exists tr mids lo hi off les esL esR pgs0 H root rlen,
    (forall b, bp_insert c m key value (set_budget s b) = ins_loop c m tr mids (set_budget s b)) /\
    root_at (file s) m = MP root rlen /\ 0 < rlen < 2^32 /\
    ctx (node_at c (file s)) true 0 lo hi off mids esL esR pgs0 H root /\
    mp_off (tptr tr) = off /\ page_ok (file s) off /\
    body (node_at c (file s)) 0 lo hi (tnode tr) (insert_entry key value les) [] /\
    node_ok c (tnode tr) /\ node_size (cwidth c) (tnode tr) <= pageSize + 30 + kw c /\
    NoDup (off :: ([] ++ pgs0) ++ fl) /\ ~ In (lp_off m) (off :: ([] ++ pgs0) ++ fl) /\
    zlen (file s) + pageSize * (zlen mids + 2) < 2^62 /\
    es = esL ++ les ++ esR /\ insert_entry key value es = esL ++ insert_entry key value les ++ esR /\ Permutation (off :: pgs0) pgs.
Proof.
  intros Hkw Hsys Hf Hkey Hval Hnew He. pose proof Hsys as (Hc & Hi & Hb & Hslot & Ht & Hnd & Hlp).
  assert (Hw : negb (cwidth c =? 0) && negb (zlen (rv_val key) mod 2^16 =? (cwidth c - 1) mod 2^16) = false).
  { destruct Hkey as [_ Hk]. destruct (cwidth c =? 0); cbn [negb andb]; auto. rewrite Hk, Z.eqb_refl. reflexivity. }
  destruct (descent key Hsys He) as (rootn & rp & leaf & mids & lo & hi & off & les & esL & esR & pgs0 & H & root & rlen &
    Er & Hrl & Eb & Et & Hn & Hp & Hbd & Hin & Hctx & Ees & Pm).
  pose proof (body_keys_sorted Hbd) as Hks.
  destruct (@leaf_in _ _ _ _ _ _ _ _ _ _ _ _ _ key Hctx Hbd Hin) as (Hiff & HL & HR).
  pose proof Hbd as Hbd0. cbn in Hbd0. destruct Hbd0 as (B1 & B2 & B3 & B4 & _ & B6 & B7 & B8).
  rewrite <- Ees in Hiff.
  set (n' := mkNode (firstn (lb (map fst les) key) (map fst les) ++ key :: skipn (lb (map fst les) key) (map fst les))
     (firstn (lb (map fst les) key) (lptrs (tnode leaf)) ++ value :: skipn (lb (map fst les) key) (lptrs (tnode leaf))) (iptrs (tnode leaf))).
  assert (Ek : keys n' = map fst (insert_entry key value les)).
  { unfold n', insert_entry. cbn [keys]. rewrite (below_firstn key B6), (from_skipn key B6).
    rewrite map_app. cbn [map fst]. rewrite firstn_map, skipn_map. reflexivity. }
  assert (El : lptrs n' = map snd (insert_entry key value les)).
  { unfold n', insert_entry. cbn [lptrs]. rewrite B3, (below_firstn key B6), (from_skipn key B6).
    rewrite map_app. cbn [map snd]. rewrite firstn_map, skipn_map. reflexivity. }
  assert (Hb' : body (node_at c (file s)) 0 lo hi n' (insert_entry key value les) []).
  { cbn [body]. split; [unfold insert_entry; destruct (below key les); discriminate|].
    split; auto. split; auto. split; [exact B4|]. split; auto. split; [apply insert_entry_sorted; auto|].
    - intros Y. apply Hnew, Hiff, Y.
    - split; [|destruct lo as [l|]; cbn in *; auto; apply in_map_iff in B8; destruct B8 as (e0 & <- & B8); apply in_map, insert_entry_in; auto].
      rewrite Forall_forall in *. intros x Hx. apply in_map_iff in Hx. destruct Hx as (e & <- & He').
      apply insert_entry_in in He'. destruct He' as [->|He']; [exact Hin|]. apply B7. apply in_map; auto. }
  pose proof (node_at_ok Hn) as Hnok0. pose proof (node_at_size Hn) as Hsz0.
  pose proof Hnok0 as (_ & _ & HK & HLp & HI).
  assert (Hsz' : node_size (cwidth c) n' = node_size (cwidth c) (tnode leaf) + key_size (cwidth c) key + lptr_size value).
  { unfold node_size, n'. cbn [keys lptrs iptrs]. rewrite !map_app. cbn [map]. rewrite !zsum_app, !zsum_cons, B2, B3.
    rewrite (zsum_split (key_size (cwidth c)) (map fst les) (lb (map fst les) key)).
    rewrite (zsum_split lptr_size (map snd les) (lb (map fst les) key)). lia. }
  pose proof (key_size_bounds Hc Hkey) as KB. pose proof (lptr_size_bounds Hval) as LB.
  assert (Hnok' : node_ok c n').
  { apply node_ok_intro; auto.
    - split; [rewrite Ek; unfold insert_entry; rewrite map_app; destruct (map fst (below key les)); discriminate|].
      left. split; [exact B4|]. rewrite Ek, El, !map_length. reflexivity.
    - unfold n'; cbn [keys]. rewrite B2 in HK. apply Forall_app; split; [apply Forall_firstn; auto|].
      constructor; auto. apply Forall_skipn; auto.
    - unfold n'; cbn [lptrs]. apply Forall_app; split; [apply Forall_firstn; auto|].
      constructor; auto. apply Forall_skipn; auto.
    - unfold pageSize in *; lia. }
  assert (Hpk : pageSize * zlen pgs <= zlen (file s)).
  { apply pages_count; [eapply NoDup_app_l; eauto|eapply tree_at_pages; eauto]. }
  destruct (ctx_len Hctx) as [_ Hlen].
  assert (Zp : zlen pgs = 1 + zlen pgs0) by (apply Permutation_length in Pm; cbn [length] in Pm; unfold zlen; lia).
  exists (TR n' (tidx leaf) (tptr leaf)), mids, lo, hi, off, les, esL, esR, pgs0, H, root, rlen. cbn [tnode tptr app].
  split.
  { intros b. rewrite insert_budget, Hw, Eb, Et. cbv zeta. rewrite (bsearch_spec key Hks), B2.
    destruct (in_dec rv_eq_dec key (map fst les)) as [X|X]; [exfalso; apply Hnew, Hiff, X|]. reflexivity. }
  split; auto. split; auto. split; auto. split; auto.
  split. { eapply node_at_page_ok; eauto. }
  split; auto. split; auto.
  split. { unfold pageSize in *; lia. }
  split. { eapply Permutation_NoDup; [|exact Hnd]. clear -Pm. cbn [app]. perm_lia. }
  split. { intros Y. apply Hlp. eapply Permutation_in; [|exact Y]. clear -Pm. cbn [app]. perm_lia. }
  split. { unfold zlen, pageSize in *. lia. }
  split; auto. split; auto.
  unfold insert_entry. rewrite Ees, !below_app, !from_app.
  destruct (@below_all key esL HL) as [-> ->].
  destruct (@below_none key esR ltac:(intros; apply rlt_rle; auto)) as [-> ->].
  rewrite app_nil_r. cbn [app]. rewrite <- !app_assoc. reflexivity.
Qed.

Lemma insert_split_off k v es : insert_entry k v es = below k es ++ [(k, v)] ++ from k es.
Proof. reflexivity. Qed.
Lemma crash_none {A} (m : M st A) s P r : (forall b, m (set_budget s b) = (r, set_budget s b)) -> r <> Crash -> crashes m s P.
Proof. intros H Hr k s' E. rewrite H in E. congruence. Qed.
Lemma insert_crash c m s fl es pgs k v (Q : smap -> Prop) : kw c <= 2016 -> sys c s m fl es pgs -> zlen (file s) < 2^60 -> op_ok c (k, v) ->
  (accepts (cwidth c) es k -> Q es /\ (es <> [] -> forall a b z, insert_entry k v es = a ++ b ++ z -> Q (a ++ z))) ->
  crashes (bp_insert c m k v) s (survives c m (file s) (pgs ++ fl) Q).
Proof.
  intros Hkw Hsys Hf Hop HQ0. pose proof Hsys as (Hc & Hi & Hb & Hslot & Ht & Hnd & Hlp).
  assert (Hcase : (cwidth c = 0 \/ zlen (rv_val k) = cwidth c - 1) \/ (cwidth c <> 0 /\ zlen (rv_val k) <> cwidth c - 1)) by lia.
  destruct Hcase as [Hw|[Hw1 Hw2]].
  2:{ apply (@crash_none _ _ _ _ (Err (EMsg "key does not match with BPTree width"))); [intros b; apply insert_wrong_width; auto|discriminate].
      destruct Hop as (_ & _ & _ & _ & H5 & _). cbn [fst] in H5. specialize (H5 Hw1). destruct Hc as [Hcw _].
      pose proof (zlen_nonneg (rv_val k)). rewrite !Z.mod_small by lia. auto. }
  destruct (op_key_ok Hop Hw) as [Hk Hv].
  assert (Hwb : negb (cwidth c =? 0) && negb (zlen (rv_val k) mod 2^16 =? (cwidth c - 1) mod 2^16) = false).
  { destruct Hw as [Hw|Hw]; rewrite Hw; [reflexivity|]. rewrite Z.eqb_refl. rewrite andb_false_r. reflexivity. }
  destruct (in_dec rv_eq_dec k (map fst es)) as [Hin|Hin].
  - (* present *)
    destruct (descent k Hsys) as (rootn & rp & leaf & mids & lo & hi & off & les & esL & esR & pgs0 & H & root & rlen &
        Er & Hrl & Eb & Et & Hn & Hp & Hbd & Hib & Hctx & Ees & Pm).
    { intros ->. destruct Hin. }
    apply (@crash_none _ _ _ _ (Err (EMsg "key already exists"))); [|discriminate]. intros b. rewrite insert_budget, Hwb, Eb, Et. cbv zeta. rewrite (bsearch_spec k (body_keys_sorted Hbd)).
    destruct (@leaf_in _ _ _ _ _ _ _ _ _ _ _ _ _ k Hctx Hbd Hib) as (Hiff & _).
    cbn in Hbd. destruct Hbd as (B1 & B2 & _). rewrite B2.
    destruct (in_dec rv_eq_dec k (map fst les)) as [X|X]; [reflexivity|].
    exfalso. apply X, Hiff. rewrite <- Ees. exact Hin.
  - destruct HQ0 as [HQ HQr]; [split; auto|].
    assert (HPf : forall p, In p fl -> In p (pgs ++ fl) \/ zlen (file s) <= p) by (intros p Hp; left; apply in_or_app; auto).
    assert (HZ : slice (file s) 0 pageSize = enc_free [] -> fl = []).
    { intros E0. rewrite (pi_page0 Hi) in E0. destruct (pi_ring Hi) as (t & T1 & T2 & _).
      rewrite <- (@read_offsets_enc_free fl), E0; [apply read_offsets_enc_free; [change (zlen (@nil Z)) with 0; lia|constructor]|lia|].
      eapply Forall_impl; [|exact (pi_ok Hi)]. intros a Ha. eapply page_ok_range; eauto. }
    assert (U0 : untouched (file s) (file s) (pgs ++ fl) (root_off m)) by (split; [lia|auto]).
    assert (He : es = [] \/ es <> []) by (destruct es; [left|right]; congruence). destruct He as [He|He].
    + (* empty *)
      assert (Hemp : es = [] /\ pgs = [] /\ root_at (file s) m = MP 0 0).
      { destruct Ht as [X|(H & root & rlen & _ & _ & R)]; auto. destruct (repr_good R) as (X & _). congruence. }
      assert (Hn : node_ok c (mkNode [k] [v] [])).
      { split; [split; cbn [keys lptrs iptrs]; [discriminate|left; auto]|].
        split; [change (zlen (keys (mkNode [k] [v] []))) with 1; lia|].
        split; [constructor; auto|]. split; constructor; auto. }
      assert (Hsz : node_size (cwidth c) (mkNode [k] [v] []) <= pageSize).
      { unfold node_size. cbn [keys lptrs iptrs map]. rewrite !zsum_cons. cbn [zsum fold_right].
        pose proof (key_size_bounds Hc Hk). pose proof (lptr_size_bounds Hv). unfold pageSize. lia. }
      set (prog := buf <- lift (marshal (cwidth c) (mkNode [k] [v] [])) ;; offset <- new_page buf ;; lp_set_root m (MP (offset mod 2^64) (zlen buf mod 2^32))).
      assert (Ep : forall b, bp_insert c m k v (set_budget s b) = prog (set_budget s b)).
      { intros b. rewrite insert_budget, Hwb, (@root_read_empty c s m es pgs Hslot Hemp). reflexivity. }
      intros j s' Ej. rewrite Ep in Ej. revert j s' Ej. change (crashes prog s (survives c m (file s) (pgs ++ fl) Q)). unfold prog.
      rewrite (marshal_ok Hn). pose proof (enc_node_size Hn) as ZE.
      assert (ZB : zlen (enc_node (cwidth c) (mkNode [k] [v] [])) <= pageSize) by (rewrite ZE; exact Hsz).
      apply crashes_bind; auto; [apply writes_lift; discriminate|apply crashes_lift; discriminate|].
      intros buf s0 E0. apply lift_inv in E0. destruct E0 as [-> ->].
      apply crashes_bind; auto; [apply writes_new_page|eapply crash_new_page; eauto|].
      intros o s1 E1. destruct (@sys_new_page _ _ _ _ _ _ _ _ _ Hsys ZB E1) as [Hsys1 U1].
      apply crashes_set_root; [destruct Hsys1 as (_ & _ & X & _); exact X|]. exists s1, (tl fl), es, pgs. split; auto. split; auto. split; auto. split; [|split; [intros p Hp; left; apply in_or_app; right; apply in_tl; auto|intros X; rewrite (HZ X); reflexivity]].
      eapply untouched_more; [exact U0|apply untouched_ro; exact U1|]. intros q Hq. left. apply in_or_app; right. eapply in_firstn; eauto.
    + destruct (@insert_leaf c s m fl es pgs k v Hkw Hsys Hf Hk Hv Hin He) as
        (tr & mids & lo & hi & off & les & esL & esR & pgs0 & H & root & rlen & Ep & X1 & X2 & X3 & X4 & X5 & X6 & X7 & X8 & X9 & X10 & X11 & X12 & X13 & X14).
      intros j s' Ej. rewrite Ep in Ej. revert j s' Ej. change (crashes (ins_loop c m tr mids) s (survives c m (file s) (pgs ++ fl) Q)).
      eapply ins_loop_crash with (es := insert_entry k v les) (esL := esL) (esR := esR) (pg := []); eauto.
      * intros a b z Ez. apply (HQr He a b z). congruence.
      * intros p Hp. left. eapply Permutation_in; [|exact Hp]. clear -X14. cbn [app]. perm_lia.
Qed.

(** ** The file decides the contents *)
Lemma page0_free s fl s' fl' : pf_inv s fl -> pf_inv s' fl' -> slice (file s) 0 pageSize = slice (file s') 0 pageSize -> fl = fl'.
Proof.
  intros I1 I2 E. rewrite (pi_page0 I1), (pi_page0 I2) in E.
  assert (R : forall s fl, pf_inv s fl -> read_offsets 512 (enc_free fl) = fl).
  { intros s2 fl2 I. destruct (pi_ring I) as (t & T1 & T2 & _). apply read_offsets_enc_free; [lia|].
    eapply Forall_impl; [|exact (pi_ok I)]. intros a Ha. eapply page_ok_range; eauto. }
  rewrite <- (R _ _ I1), <- (R _ _ I2), E. reflexivity.
Qed.
Lemma sys_same_file c s m fl es pgs s' fl' es' pgs' : sys c s m fl es pgs -> sys c s' m fl' es' pgs' -> file s = file s' -> es = es'.
Proof.
  intros H H' E. pose proof H as (Hc & Hi & Hb & Hslot & Ht & Hnd & Hlp). pose proof H' as (Hc' & Hi' & Hb' & Hslot' & Ht' & Hnd' & Hlp').
  assert (fl = fl') by (eapply page0_free; eauto; rewrite E; reflexivity). subst fl'.
  assert (H2 : sys c s m fl es' pgs') by (repeat (split; [solve [auto]|]); split; [rewrite E; auto|auto]).
  assert (W : forall n, firstn n es = firstn n es').
  { intros n.
    assert (Hl : forall e p, sys c s m fl e p -> walk c m s least n = Ok (firstn n e)).
    { intros e p He. assert (Hleast : forall x, In x (map fst e) -> rle least x).
      { intros x Hx. apply in_map_iff in Hx. destruct Hx as (y & <- & Hy). apply least_le. destruct (sys_keys_ok He _ Hy) as [X _]. exact X. }
      rewrite (@sys_walk c s m fl e p least n He (or_intror Hleast)). destruct (@below_none least e Hleast) as [_ ->]. reflexivity. }
    pose proof (Hl _ _ H) as W1. rewrite (Hl _ _ H2) in W1. congruence. }
  specialize (W (Nat.max (length es) (length es'))). rewrite !firstn_all2 in W by lia. auto.
Qed.

(** ** What a crash leaves *)
Lemma sys_reopen c s m fl es pgs k : sys c s m fl es pgs -> exists s2, new_page_file (open_rws k (file s)) = (Ok tt, s2) /\ sys c s2 m fl es pgs /\ file s2 = file s.
Proof.
  intros (Hc & Hi & Hb & Hslot & Ht & Hnd & Hlp). destruct (new_page_file_reopen k Hi) as (s2 & E & I & _ & F & _ & B & _).
  exists s2. split; auto. split; auto. repeat (split; [solve [rewrite ?F; auto]|]). auto.
Qed.
Lemma total_runs k v es : sorted (map fst es) -> without_a_run (insert_entry k v es) es.
Proof. intros Hs. exists (below k es), [(k, v)], (from k es). split; [apply insert_split_off|]. symmetry. apply below_from_app; auto. Qed.

(** C36, the part that holds: whatever the write at which the process dies, the
    file can be opened again and the index in it works: it holds the old entries
    and the new one in order, without a contiguous run of them. *)
Theorem C36_crash_leaves_an_index_partial : forall c m s es k v n f kd,
  kw c <= 2016 -> index_ready c s m es -> zlen (file s) < 2^60 -> op_ok c (k, v) -> dies c m k v s n f ->
  exists s2 es2 total, reopened kd f s2 /\ index_ready c s2 m es2 /\
    ascending total /\ Permutation total ((k, v) :: es) /\ without_a_run total es2.
Proof.
  intros c m s es k v n f kd Hkw (fl & pgs & Hsys) Hf Hop (s' & E & <-).
  destruct (bp_insert c m k v s) as [r s1] eqn:E1.
  pose proof Hsys as (_ & _ & _ & _ & Ht & _).
  set (Q := fun es2 => accepts (cwidth c) es k /\ without_a_run (insert_entry k v es) es2).
  assert (HQ0 : accepts (cwidth c) es k -> Q es /\ (es <> [] -> forall a b z, insert_entry k v es = a ++ b ++ z -> Q (a ++ z))).
  { intros Ha. split; [split; auto; apply total_runs; eapply tree_at_sorted; eauto|]. intros _ a b z Ez. split; auto. exists a, b, z. auto. }
  destruct (@insert_crash c m s fl es pgs k v Q Hkw Hsys Hf Hop HQ0 _ _ E) as (s2 & fl2 & es2 & pgs2 & F & Hs2 & (Ha & HQ) & _).
  destruct (insert_step Hkw Hsys Hf Hop E1) as [(_ & _ & fl' & pgs' & Hs1)|(N & _)]; [|contradiction].
  destruct (sys_reopen kd Hs2) as (s3 & R & Hs3 & _). rewrite F in R.
  exists s3, es2, (insert_entry k v es). split; auto. split; [exists fl2, pgs2; auto|]. split; [eapply sys_ascending; eauto|].
  split; [apply insert_entry_perm|]. exact HQ.
Qed.

(** ** An Insert that takes no page *)
Definition keeps {A} (m : M st A) : Prop := forall s, fcount (snd (m s)) <= fcount s.
Lemma keeps_bind {A B} (m : M st A) (k : A -> M st B) : keeps m -> (forall a, keeps (k a)) -> keeps (bind m k).
Proof. intros H1 H2 s. unfold bind. specialize (H1 s). destruct (m s) as [[a|e| | |] s1]; cbn [snd] in *; auto. specialize (H2 a s1). lia. Qed.
Lemma keeps_same {A} (m : M st A) : (forall s, fcount (snd (m s)) = fcount s) -> keeps m.
Proof. intros H s. rewrite H. lia. Qed.
Lemma keeps_seek_abs a : keeps (seek_abs a). Proof. intros s. unfold seek_abs. destruct (kind s); repeat match goal with |- context [if ?b then _ else _] => destruct b end; cbn; lia. Qed.
Lemma keeps_seek_cur : keeps seek_cur. Proof. intros s. apply keeps_seek_abs. Qed.
Lemma keeps_rws_write b : keeps (rws_write b).
Proof. intros s. unfold rws_write. destruct (budget s) as [[|k]|]; [cbn; lia| |]; (destruct (kind s) eqn:Ek; cbn [kind set_budget file pos]; rewrite ?Ek;
    repeat match goal with |- context [if ?b then _ else _] => destruct b end; cbn; lia). Qed.
Ltac kp := repeat first [ solve [auto using keeps_seek_abs, keeps_seek_cur, keeps_rws_write] | apply keeps_bind; intros | match goal with
  | |- keeps (if ?b then _ else _) => destruct b
  | |- keeps (match ?x with _ => _ end) => destruct x
  | |- keeps (let _ := _ in _) => cbv zeta
  | |- keeps (ret _) => intros ?s; cbn; lia
  | |- keeps (fail _) => intros ?s; cbn; lia
  | |- keeps panic => intros ?s; cbn; lia
  | |- keeps (lift _) => intros ?s; cbn; lia
  | |- keeps (seek_start _) => apply keeps_seek_abs
  | |- keeps seek_end => intros ?s; apply keeps_seek_abs
  end ].
Lemma keeps_pf_write b : keeps (pf_write b). Proof. unfold pf_write. kp. Qed.
Lemma keeps_wfpi : keeps write_free_page_indices.
Proof. intros s. unfold write_free_page_indices. destruct (_ && _); [cbn; lia|]. match goal with |- context [snd (?m s)] => assert (H : keeps m) by kp; apply H end. Qed.
Lemma keeps_fpi : keeps free_page_index.
Proof.
  intros s. unfold free_page_index. destruct (fcount s =? 0); [cbn; lia|]. destruct (znth _ _); [|cbn; lia].
  match goal with |- context [snd (?m ?x)] => assert (H : keeps m) by (apply keeps_bind; [apply keeps_wfpi|intros; kp]); pose proof (H x) as H1; cbn [fcount set_free] in H1 end. lia.
Qed.
Lemma keeps_new_page b : keeps (new_page b).
Proof. unfold new_page. repeat first [apply keeps_fpi | apply keeps_pf_write | progress kp | (intros ?s; cbn; lia)]. Qed.
Lemma keeps_write_node c o n : keeps (write_node c o n). Proof. unfold write_node. repeat first [apply keeps_pf_write | progress kp]. Qed.
Lemma keeps_set_root m p : keeps (lp_set_root m p). Proof. unfold lp_set_root. repeat first [apply keeps_pf_write | progress kp]. Qed.
Lemma keeps_ins_loop c m : forall rest tr, keeps (ins_loop c m tr rest).
Proof. induction rest as [|p rest IH]; intros tr; cbn [ins_loop]; repeat first [apply IH | apply keeps_new_page | apply keeps_write_node | apply keeps_set_root | progress kp]. Qed.

Lemma leaf_split_lengths F lo hi n es mk esA esB pgA pgB : body F 0 lo hi n es [] -> body F 0 lo (Some mk) (split_left n (length (keys n) / 2)) esA pgA ->
  body F 0 (Some mk) hi (split_right n (length (keys n) / 2)) esB pgB -> (length esB = length es - length es / 2)%nat.
Proof.
  intros B BA BB. pose proof (body_leaf_dec B) as Hlf. cbn in B, BB. destruct B as (_ & E & _). destruct BB as (_ & E2 & _).
  unfold split_right in E2. rewrite Hlf in E2. cbn [keys] in E2. apply (f_equal (@length rv)) in E2. rewrite skipn_length, E, !map_length in E2. symmetry; exact E2.
Qed.
Lemma leaf_three c n : codec_ok c -> kw c <= 2016 -> node_ok c n -> is_leaf n = true -> pageSize < node_size (cwidth c) n -> (3 <= length (keys n))%nat.
Proof.
  intros Hc Hkw (Hs & Hcnt & Hk & Hl & Hi) Hlf Hsz.
  assert (Hsh : iptrs n = [] /\ length (lptrs n) = length (keys n)).
  { destruct Hs as [_ [H|[H1 H2]]]; auto. unfold is_leaf in Hlf. rewrite H1 in Hlf. discriminate. }
  destruct Hsh as [Hi0 Hlen]. pose proof (kw_nonneg Hc) as Hkw0.
  destruct (Nat.lt_ge_cases (length (keys n)) 3); auto. exfalso.
  pose proof (ksum_bounds Hc Hk) as [_ K]. pose proof (lsum_bounds Hl) as [_ L]. unfold node_size in Hsz. rewrite Hi0 in Hsz. cbn [map zsum fold_right] in Hsz.
  assert (Z1 : zlen (keys n) = 0 \/ zlen (keys n) = 1 \/ zlen (keys n) = 2) by (unfold zlen; lia).
  assert (Z2 : zlen (lptrs n) = zlen (keys n)) by (unfold zlen; lia).
  rewrite Z2 in L. unfold pageSize in *. destruct Z1 as [Z1|[Z1|Z1]]; rewrite Z1 in *; lia.
Qed.
(** an accepted Insert into an index that is not empty: either it rewrites one
    page, or it splits a leaf and can die having written the left half. *)
Lemma insert_cases c s m fl es pgs k v s1 : kw c <= 2016 ->
  sys c s m fl es pgs -> zlen (file s) < 2^60 -> key_ok c k -> mptr_ok v -> ~ In k (map fst es) -> es <> [] ->
  bp_insert c m k v s = (Ok tt, s1) ->
  (exists o n, page_ok (file s) o /\ node_ok c n /\ node_size (cwidth c) n <= pageSize /\ forall b, bp_insert c m k v (set_budget s b) = write_node c o n (set_budget s b)) \/
  (exists s2 fl2 pgs2 a b z, crash_at (bp_insert c m k v) s (file s2) /\ sys c s2 m fl2 (a ++ z) pgs2 /\ insert_entry k v es = a ++ b ++ z /\ (2 <= length b)%nat /\
    (zlen (file s) < zlen (file s1) \/ slice (file s1) 0 pageSize <> slice (file s) 0 pageSize)).
Proof.
  intros Hkw Hsys Hf Hk Hv Hin He E. pose proof Hsys as (Hc & Hi & Hb & Hslot & Ht & Hnd & Hlp).
  destruct (@insert_new c s m fl es pgs k v Hkw Hsys Hf Hk Hv Hin) as (s1' & E' & Hpost). rewrite E in E'. injection E' as <-.
  destruct (ins_post_sys Hsys Hpost) as (fl' & pgs' & Hs' & _).
  destruct (@insert_leaf c s m fl es pgs k v Hkw Hsys Hf Hk Hv Hin He) as
    (tr & mids & lo & hi & off & les & esL & esR & pgs0 & H & root & rlen & Ep & X1 & X2 & X3 & X4 & X5 & X6 & X7 & X8 & X9 & X10 & X11 & X12 & X13 & X14).
  destruct (Z.ltb_spec pageSize (node_size (cwidth c) (tnode tr))) as [Hbig|Hfit].
  2:{ left. exists off, (tnode tr). repeat (split; [solve [auto]|]). intros b. rewrite Ep.
      destruct mids; cbn [ins_loop]; (destruct (Z.ltb_spec pageSize (node_size (cwidth c) (tnode tr))); [lia|]); rewrite X4; reflexivity. }
  right.
  pose proof (pages_ok (ctx_pages X3)) as Hpgsok.
  assert (Hall : Forall (page_ok (file s)) ([] ++ pgs0)) by auto.
  assert (Hs2 : pageSize < node_size (cwidth c) (tnode tr) <= pageSize + 30 + kw c) by lia.
  destruct (@split_ok c _ _ _ _ _ _ _ Hc Hkw X7 Hs2 X6) as (mk & esA & esB & pgA & pgB & E1 & E2 & E3 & E4 & BA & BB & NL & NR & SL & SR).
  set (mid := (length (keys (tnode tr)) / 2)%nat) in *.
  symmetry in E4. apply app_eq_nil in E4. destruct E4 as [-> ->].
  assert (HF : Forall (page_ok (file s)) (off :: [] ++ pgs0)) by (constructor; auto).
  destruct (@split_io c s fl off (split_left (tnode tr) mid) (split_right (tnode tr) mid) ([] ++ pgs0) Hi Hb ltac:(lia) NL NR SL SR HF X9)
    as (mo & t1 & t2 & news & W1 & W2 & I2 & K2 & B2 & NRat & NLat & Fr & ND2 & PM & FN & ZL & LP & ZN & MO & MOin & MO0 & UT).
  cbn [app] in *.
  assert (Hle2 : zlen (file s) <= zlen (file t2)) by (pose proof (zlen_nonneg news); unfold pageSize in *; lia).
  assert (Hslot2 : slot_ok (file t2) m) by (eapply slot_ok_mono; [|exact Hslot]; auto).
  assert (Hroot2 : root_at (file t2) m = MP root rlen).
  { rewrite <- X1. pose proof (root_off_bounds Hslot) as (Y1 & Y2 & Y3 & Y4 & Y5).
    eapply untouched_root_at with (P := off :: firstn 1 fl) (ro := 0); auto;
      [intros [X|X]; apply X10; [left; auto|]; right; apply in_or_app; right; eapply in_firstn; eauto
      |constructor; [destruct X5 as (Z1 & Z2 & _); auto|]; apply Forall_firstn; eapply pages_aligned; apply (pi_ok Hi)
      |right; unfold pageSize in *; lia]. }
  assert (RA : repr (node_at c (file t2)) 0 lo (Some mk) off esA [off]) by (exists (split_left (tnode tr) mid), []; auto).
  assert (Hmk : forall x, rlt x mk -> hi_gt x hi).
  { assert (RB : repr (node_at c (file t2)) 0 (Some mk) hi mo esB [mo]) by (exists (split_right (tnode tr) mid), []; auto).
    destruct (repr_good RB) as (G1 & _ & G3); destruct esB as [|[kb vb] esB']; [congruence|]; cbn [map fst] in G3; inversion G3 as [|? ? [G4 G5] _]; subst.
    intros x Hx; destruct hi as [hk|]; [|exact I]; cbn in *; eapply rlt_trans; [exact Hx|]; eapply rle_rlt_trans; eauto. }
  pose proof (repr_widen hi Hmk RA) as RA'.
  assert (HctxF : ctx (node_at c (file t2)) true 0 lo hi off mids esL esR pgs0 H root) by (eapply ctx_frame; [exact X3|]; intros; apply Fr; auto).
  destruct (ctx_plug HctxF RA') as (pgs2 & Rp & Pm).
  assert (Hsys2 : sys c t2 m (tl fl) (esL ++ esA ++ esR) pgs2).
  { split; auto. split; auto. split; auto. split; auto. split; [right; exists H, root, rlen; auto|]. split.
    - eapply (NoDup_app_l _ [mo]). eapply Permutation_NoDup; [|exact ND2]. clear -Pm. perm_lia.
    - intros X. assert (Y : In (lp_off m) (off :: pgs0 ++ tl fl)) by (eapply Permutation_in; [|exact X]; clear -Pm; perm_lia).
      apply X10. destruct Y as [Y|Y]; [left; auto|right]. apply in_app_iff in Y. apply in_or_app. destruct Y; auto. right; apply in_tl; auto. }
  assert (Hlb : (2 <= length esB)%nat).
  { rewrite (leaf_split_lengths X6 BA BB). pose proof (leaf_three Hc Hkw X7 (body_leaf_dec X6) ltac:(lia)) as M.
    cbn in X6. destruct X6 as (_ & Ek & _). rewrite Ek, map_length in M. clear -M. pose proof (Nat.div_mod (length (insert_entry k v les)) 2). pose proof (Nat.mod_upper_bound (length (insert_entry k v les)) 2). lia. }
  assert (ZR : zlen (enc_node (cwidth c) (split_right (tnode tr) mid)) <= pageSize) by (rewrite (enc_node_size NR); exact SR).
  destruct (@sys_new_page _ _ _ _ _ _ _ _ _ Hsys ZR W1) as [(_ & It1 & Bt1 & _) _].
  (* what is left to run *)
  assert (Hrest : exists rest : M st unit, rest t2 = (Ok tt, s1) /\ grows rest /\ keeps rest /\ writes rest t2 /\
     forall f, crash_at rest t2 f -> crash_at (ins_loop c m tr mids) s f).
  { rewrite <- (budget_none s Hb) in E. rewrite Ep, (budget_none s Hb) in E.
    destruct mids as [|p mids]; cbn [ins_loop] in *; (destruct (Z.ltb_spec pageSize (node_size (cwidth c) (tnode tr))); [|lia]); fold mid in E |- *; rewrite E1 in E |- *;
      rewrite (marshal_ok NR) in E |- *; rewrite X4 in E |- *;
      rewrite (@bind_ok _ _ _ (lift (Ok (enc_node (cwidth c) (split_right (tnode tr) mid)))) _ s _ s eq_refl) in E;
      rewrite (@bind_ok _ _ _ _ _ _ _ _ W1) in E; rewrite (@bind_ok _ _ _ _ _ _ _ _ W2) in E;
      (eexists; split; [exact E|]); (split; [|split; [|split]]).
    4,8: intros f Hcr; (eapply crash_at_bind; [auto|apply writes_lift; discriminate|reflexivity|]);
      (eapply crash_at_bind; [auto|apply writes_new_page|exact W1|]);
      (eapply crash_at_bind; [auto|apply writes_write_node|exact W2|exact Hcr]).
    - gr.
    - repeat first [apply keeps_new_page | apply keeps_set_root | progress kp].
    - apply writes_bind; [apply writes_lift, marshal_nc|intros pb u1 _ _]. apply writes_bind; [apply writes_new_page|intros po u2 _ _; apply writes_lp_set_root].
    - apply grows_ins_loop.
    - apply keeps_ins_loop.
    - apply writes_ins_loop. }
  destruct Hrest as (rest & R1 & R2 & R3 & R4 & R5).
  exists t2, (tl fl), pgs2, (esL ++ esA), esB, esR. rewrite <- app_assoc.
  split; [|split; [exact Hsys2|split; [rewrite X13, E3, <- !app_assoc; reflexivity|split; [exact Hlb|]]]].
  - (* it can die there *)
    assert (CA : crash_at (ins_loop c m tr mids) s (file t2)).
    2:{ destruct CA as (j & s' & C1 & C2). exists j, s'. rewrite Ep. auto. }
    apply R5, crash_at_once; auto. rewrite R1. cbn [snd]. intros Ef. pose proof (sys_same_file Hs' Hsys2 Ef) as X. rewrite X13, E3 in X.
    apply (f_equal (@length entry)) in X. rewrite !app_length in X. lia.
  - (* it takes a page *)
    pose proof (grows_then R2 R1) as Gr. pose proof (R3 t2) as Kp. rewrite R1 in Kp. cbn [snd] in Kp.
    destruct fl as [|x fl].
    + left. cbn [tl app] in PM. apply Permutation_length in PM. cbn [length] in PM. assert (zlen news = 1) by (unfold zlen; lia). unfold pageSize in *; lia.
    + right. intros X. pose proof Hs' as (_ & I1 & _). pose proof (page0_free I1 Hi X) as ->.
      destruct (pi_ring I1) as (t & _ & _ & _ & _ & C1). destruct (pi_ring I2) as (t' & _ & _ & _ & _ & C2). cbn [tl] in C2. rewrite zlen_cons in C1. lia.
Qed.

Lemma nd_r {A} (a b : list A) : NoDup (a ++ b) -> NoDup b.
Proof. induction a; auto. cbn. inversion 1; auto. Qed.
Lemma nd_disj {A} (a b : list A) x : NoDup (a ++ b) -> In x a -> In x b -> False.
Proof. induction a as [|y a IH]; [intros _ []|]. cbn. inversion 1 as [|? ? N D]; subst. intros [->|H1] H2; auto. apply N, in_or_app; auto. Qed.

(** C36, where it holds in full: an Insert into an empty index, or one that
    takes no new page (the file does not grow and the list of free pages is the
    same), loses nothing wherever it dies. *)
Theorem C36_nothing_lost_without_a_split_partial : forall c m s es k v n f kd s1,
  kw c <= 2016 -> index_ready c s m es -> zlen (file s) < 2^60 -> op_ok c (k, v) -> dies c m k v s n f ->
  bp_insert c m k v s = (Ok tt, s1) ->
  es = [] \/ (zlen (file s1) = zlen (file s) /\ slice (file s1) 0 pageSize = slice (file s) 0 pageSize) ->
  exists s2, reopened kd f s2 /\ index_ready c s2 m es /\ forall k' v', In (k', v') es -> go_find c m k' s2 = Ok (k', v').
Proof.
  intros c m s es k v n f kd s1 Hkw (fl & pgs & Hsys) Hf Hop (s' & E & <-) E1 Hno.
  assert (Hfin : forall t fl2 pgs2, file t = file s' -> sys c t m fl2 es pgs2 ->
    exists s2, reopened kd (file s') s2 /\ index_ready c s2 m es /\ forall k' v', In (k', v') es -> go_find c m k' s2 = Ok (k', v')).
  { intros t fl2 pgs2 Ft Ht. destruct (sys_reopen kd Ht) as (s3 & R & Hs3 & _). rewrite Ft in R. exists s3. split; auto. split; [exists fl2, pgs2; auto|].
    intros k' v' X. eapply sys_find; eauto. }
  assert (He : es = [] \/ es <> []) by (destruct es; [left|right]; congruence). destruct He as [->|He].
  - destruct (@insert_crash c m s fl [] pgs k v (fun e => e = []) Hkw Hsys Hf Hop ltac:(intros _; split; [reflexivity|congruence]) _ _ E) as (s2 & fl2 & es2 & pgs2 & F & Hs2 & -> & _). eauto.
  - destruct (insert_step Hkw Hsys Hf Hop E1) as [((Hw & Hin) & _)|(_ & (e & X) & _)]; [|discriminate].
    destruct (op_key_ok Hop Hw) as [Hk Hv]. pose proof Hsys as (_ & _ & Hb & _).
    destruct (@insert_cases c s m fl es pgs k v s1 Hkw Hsys Hf Hk Hv Hin He E1) as [(o & nd & P1 & P2 & P3 & P4)|(s2 & fl2 & pgs2 & a & b & z & _ & _ & _ & _ & [X|X])].
    + rewrite P4 in E. assert (Cr : crashes (write_node c o nd) s (fun f => f = file s)) by (apply crashes_write_node; auto).
      pose proof (Cr _ _ E) as F. cbn beta in F. eapply (Hfin s); eauto.
    + exfalso. destruct Hno as [Y|[Y _]]; [contradiction|lia].
    + exfalso. destruct Hno as [Y|[_ Y]]; contradiction.
Qed.

(** C36 as stated fails: whenever an Insert into an index with entries takes a
    new page, there is a write at which dying loses a key inserted before. *)
Theorem C36_a_split_can_lose_keys_refuted : forall c m s es k v s1,
  kw c <= 2016 -> index_ready c s m es -> es <> [] -> zlen (file s) < 2^60 -> op_ok c (k, v) ->
  bp_insert c m k v s = (Ok tt, s1) ->
  zlen (file s) < zlen (file s1) \/ slice (file s1) 0 pageSize <> slice (file s) 0 pageSize ->
  exists n f k' v', dies c m k v s n f /\ In (k', v') es /\ k' <> k /\
    forall kd s2 len l, reopened kd f s2 -> walk c m s2 least len = Ok l -> ~ In k' (map fst l).
Proof.
  intros c m s es k v s1 Hkw (fl & pgs & Hsys) He Hf Hop E1 Hpg.
  destruct (insert_step Hkw Hsys Hf Hop E1) as [((Hw & Hin) & _ & fl1 & pgs1 & Hs1)|(_ & (e & X) & _)]; [|discriminate].
  destruct (op_key_ok Hop Hw) as [Hk Hv]. pose proof Hsys as (_ & _ & Hb & _).
  destruct (@insert_cases c s m fl es pgs k v s1 Hkw Hsys Hf Hk Hv Hin He E1) as [(o & nd & P1 & P2 & P3 & P4)|(s2 & fl2 & pgs2 & a & b & z & (n & s' & C1 & C2) & C3 & C4 & C5 & _)].
  - exfalso. rewrite <- (budget_none s Hb) in E1. rewrite P4, (budget_none s Hb) in E1.
    destruct (@write_node_ok c s o nd Hb P1 P2 P3) as (p & Ew). rewrite Ew in E1. injection E1 as <-. cbn [file set_pos set_file] in Hpg.
    destruct P1 as (Q1 & Q2 & Q3 & Q4). pose proof (enc_node_size P2) as Zn.
    destruct Hpg as [X|X].
    + rewrite zlen_upd in X by (unfold pageSize in *; lia). unfold pageSize in *; lia.
    + apply X. apply slice_upd_disj; unfold pageSize in *; lia.
  - (* two entries are lost, so one of them is old *)
    assert (Hnd : NoDup (map fst (insert_entry k v es))).
    { apply sorted_NoDup. destruct Hs1 as (_ & _ & _ & _ & Ht & _). eapply tree_at_sorted; eauto. }
    rewrite C4, !map_app in Hnd.
    assert (Hx : exists k' v', In (k', v') b /\ k' <> k).
    { destruct b as [|[k1 v1] [|[k2 v2] b]]; cbn [length] in C5; try lia.
      destruct (rv_eq_dec k1 k) as [->|N1]; [|exists k1, v1; split; [left|]; auto].
      exists k2, v2. split; [right; left; auto|]. intros ->. apply nd_r in Hnd. cbn [map fst app] in Hnd. inversion Hnd as [|? ? N _]; subst. apply N; left; auto. }
    destruct Hx as (k' & v' & Hb' & Hne).
    assert (Hold : In (k', v') es).
    { assert (X : In (k', v') (insert_entry k v es)) by (rewrite C4, !in_app_iff; auto). apply insert_entry_in in X. destruct X as [X|X]; [congruence|auto]. }
    assert (Hkb : In k' (map fst b)) by (apply in_map_iff; exists (k', v'); auto).
    assert (Hgone : ~ In k' (map fst (a ++ z))).
    { rewrite map_app, in_app_iff. intros [X|X].
      - eapply nd_disj; [exact Hnd|exact X|]. apply in_or_app; auto.
      - apply nd_r in Hnd. eapply nd_disj; eauto. }
    exists n, (file s2), k', v'. split; [exists s'; auto|]. split; auto. split; auto.
    intros kd s3 len l R W. destruct (sys_reopen kd C3) as (s4 & R' & Hs4 & _). unfold reopened in R. rewrite R in R'. injection R' as <-.
    assert (Hleast : forall x, In x (map fst (a ++ z)) -> rle least x).
    { intros x Hx. apply in_map_iff in Hx. destruct Hx as (y & <- & Hy). apply least_le. destruct (sys_keys_ok Hs4 _ Hy) as [X _]. exact X. }
    rewrite (@sys_walk c s3 m fl2 (a ++ z) pgs2 least len Hs4 (or_intror Hleast)) in W. destruct (@below_none least (a ++ z) Hleast) as [_ Ew]. rewrite Ew in W. injection W as <-.
    intros X. apply Hgone. rewrite <- firstn_map in X. eapply in_firstn; eauto.
Qed.

(** ** Other indexes of the file *)
Lemma pages_apart L : forall k j x y p, NoDup (all_pages L) -> nth_error L k = Some x -> nth_error L j = Some y -> j <> k -> In p (c_pgs x) -> In p (c_pgs y) -> False.
Proof.
  induction L as [|c L IH]; intros k j x y p Hnd Hx Hy Hne Hp Hq; [destruct k; discriminate|].
  unfold all_pages in *. cbn [map concat] in Hnd. destruct k as [|k], j as [|j]; cbn [nth_error] in *; try congruence.
  - injection Hx as ->. eapply nd_disj; [exact Hnd|exact Hp|]. eapply in_all_pages; eauto.
  - injection Hy as ->. eapply nd_disj; [exact Hnd|exact Hq|]. eapply in_all_pages; eauto.
  - apply nd_r in Hnd. eapply (IH k j); eauto.
Qed.
Lemma cells_crash s fl ms L k x j y s2 fl2 : cells s fl ms L -> nth_error L k = Some x -> nth_error L j = Some y -> j <> k ->
  untouched (file s) (file s2) (c_pgs x ++ fl) (root_off (slot ms k)) -> pf_inv s2 fl2 -> budget s2 = None ->
  (forall p, In p fl2 -> In p (c_pgs x ++ fl) \/ zlen (file s) <= p) -> sys (c_codec y) s2 (slot ms j) fl2 (c_es y) (c_pgs y).
Proof.
  intros H Hx Hy Hne U I2 B2 Hfl2. pose proof (cells_lt _ H Hx) as Hk. pose proof (cells_lt _ H Hy) as Hj. pose proof (cells_slot _ H Hx) as Hso. pose proof (cells_slot _ H Hy) as Hsj. pose proof (cells_pages H) as Hok.
  pose proof (cells_sys _ H Hy) as (Yc & Yi & Yb & Ys & Yt & Yn & Yl). destruct H as [H1 H2 H3 H4 H5 H6 Hfree H6' H7]. subst fl. rewrite !app_nil_r in *.
  pose proof U as [Lz Hun]. rewrite Forall_forall in Hok.
  assert (Hndp : NoDup (all_pages L)) by (apply nd_r in H6; exact H6).
  assert (Hdp : forall p, In p (c_pgs y) -> ~ In p (c_pgs x)) by (intros p Y1 Y2; eapply pages_apart with (x := x) (y := y); eauto).
  assert (Hms : forall i x' p, (i < length L)%nat -> nth_error L i = Some x' -> In p (c_pgs x') -> forall i', (i' < length L)%nat -> p <> lp_off (slot ms i')).
  { intros i x' p Hi E Hp i' Hi' ->. eapply nd_disj; [exact H6| |eapply in_all_pages; [exact E|exact Hp]]. cbn [slot lp_off]. apply nth_In. eapply slot_idx; eauto. }
  assert (HA : Forall (fun q => q mod pageSize = 0) (c_pgs x)).
  { apply Forall_forall. intros q Hq. destruct (Hok q) as (_ & X & _); auto. apply in_or_app; right. exact (in_all_pages _ _ _ Hx Hq). }
  pose proof (root_off_bounds Hso) as (B1 & B3 & B4 & B5 & B6). pose proof (root_off_bounds Hsj) as (D1 & D2 & D3 & D4 & D5). pose proof Hso as ((P1 & P2 & P3 & P4) & _). pose proof Hsj as ((J1 & J2 & J3 & J4) & _).
  split; auto. split; auto. split; auto. split; [eapply slot_ok_mono; eauto|]. split; [|split].
  - eapply tree_at_frame; [exact Lz| | |exact Yt].
    + eapply untouched_root_at; [exact U|exact Hsj| |exact HA|].
      * intros X. eapply (Hms k x); eauto.
      * destruct (slot_disj H3 Hj Hk Hne); lia.
    + intros p Hp. destruct (Hok p) as (Q1 & Q2 & Q3 & Q4); [apply in_or_app; right; eapply in_all_pages; [exact Hy|assumption]|].
      unfold page. apply Hun; try (unfold pageSize in *; lia).
      * intros q Hq. rewrite Forall_forall in HA. apply aligned_disj; auto. intros ->. eapply Hdp; eauto.
      * assert (Hn : p <> lp_off (slot ms k)) by (eapply (Hms j y); eauto). destruct (aligned_disj Q2 P2 Hn); unfold pageSize in *; lia.
  - apply NoDup_app_intro; auto; [apply (pi_nodup I2)|].
    intros p Y1 Y2. destruct (Hfl2 _ Y2) as [X|X]; [eapply Hdp; eauto|].
    destruct (Hok p) as (Q1 & Q2 & Q3 & Q4); [apply in_or_app; right; eapply in_all_pages; [exact Hy|assumption]|]. unfold pageSize in *; lia.
  - intros X. apply in_app_iff in X. destruct X as [X|X]; [eapply (Hms j y); eauto|].
    destruct (Hfl2 _ X) as [Y|Y]; [eapply (Hms k x); eauto|]. unfold pageSize in *; lia.
Qed.

(** the other indexes of a file lose nothing when an Insert into one of them dies *)
Theorem C36_other_indexes_keep_everything_partial wd parse D fm l s ix k v n f kd : widths_ok wd -> ifile wd parse D fm l s -> In ix l ->
  zlen (file s) < 2^60 -> op_ok (ix_codec wd parse D (ix_type ix)) (k, v) ->
  dies (ix_codec wd parse D (ix_type ix)) (ix_at ix) k v s n f ->
  exists s2, reopened kd f s2 /\
    forall ix', In ix' l -> ix_at ix' <> ix_at ix ->
      exists es, index_ready (ix_codec wd parse D (ix_type ix')) s2 (ix_at ix') es /\ Permutation es (ix_es ix').
Proof.
  intros Hwd Hi Hin Hf Hop (s' & E & <-). destruct (ifile_holds Hwd Hi) as (HD & fl & ms & x0 & L & H).
  apply In_nth_error in Hin. destruct Hin as (j & Hj). destruct (holds_nth _ H Hj) as (x & Hx & (C1 & C2 & C3 & C4 & C5) & Ea).
  pose proof (cells_sys _ (ho_cells H) Hx) as Hsys. rewrite C4, <- Ea in Hsys.
  destruct (@insert_crash _ _ _ _ _ _ _ _ (fun _ => True) (@ix_codec_kw wd parse D _ Hwd) Hsys Hf Hop ltac:(auto) _ _ E) as (s2 & fl2 & es2 & pgs2 & F & Hs2 & _ & U & Hfl2 & _).
  destruct (sys_reopen kd Hs2) as (s3 & R & Hs3 & F3). rewrite F in R.
  exists s3. split; auto. intros ix' Hin' Hne. apply In_nth_error in Hin'. destruct Hin' as (j' & Hj'). destruct (holds_nth _ H Hj') as (y & Hy & (K1 & K2 & K3 & K4 & K5) & Ea').
  assert (Hjj : S j' <> S j) by (intros X; apply Hne; rewrite Ea, Ea', X; reflexivity).
  destruct Hs3 as (_ & I3 & B3 & _).
  assert (U3 : untouched (file s) (file s3) (c_pgs x ++ fl) (root_off (slot ms (S j)))) by (rewrite F3, F, <- Ea; exact U).
  pose proof (@cells_crash s fl ms (x0 :: L) (S j) x (S j') y s3 fl2 (ho_cells H) Hx Hy Hjj U3 I3 B3 Hfl2) as Hsy. rewrite K4, <- Ea' in Hsy.
  exists (c_es y). split; [exists fl2, (c_pgs y); exact Hsy|exact K5].
Qed.

(** ** Witnesses: an index of four keys of 1000 bytes; the fifth Insert splits its only leaf *)
Definition ops4 : list (rv * mptr) := firstn 4 ops5.
Definition s4 : st := inserts c1001 m0 ops4 (s0 KMmap).
Lemma s4_ready : exists es, index_ready c1001 s4 m0 es /\ es <> [].
Proof.
  destruct (fresh_ready KMmap c1001_ok) as [_ R0].
  assert (Hh : history c1001 m0 (s0 KMmap) ops4 (answers c1001 m0 ops4 (s0 KMmap)) s4) by (apply inserts_history; vm_compute; reflexivity).
  assert (Ho : Forall (op_ok c1001) ops4) by (apply Forall_firstn, ops5_ok).
  destruct (C28_tree_is_a_sorted_map (c:=c1001) ltac:(cbn; lia) R0 Ho Hh) as (final & es & _ & _ & _ & _ & R & Hw).
  exists es. split; auto. intros ->. specialize (Hw 1%nat).
  assert (X : match walk c1001 m0 s4 least 1 with Ok [] => false | _ => true end = true) by (vm_compute; reflexivity).
  rewrite Hw in X. discriminate.
Qed.
Lemma s4_splits : exists s1, bp_insert c1001 m0 (bigkey 30) (MP 130 7) s4 = (Ok tt, s1) /\ zlen (file s4) < zlen (file s1).
Proof.
  exists (snd (bp_insert c1001 m0 (bigkey 30) (MP 130 7) s4)). split; [|vm_compute; reflexivity].
  assert (X : match fst (bp_insert c1001 m0 (bigkey 30) (MP 130 7) s4) with Ok _ => true | _ => false end = true) by (vm_compute; reflexivity).
  destruct (bp_insert c1001 m0 (bigkey 30) (MP 130 7) s4) as [[[]|e| | |] s1]; cbn [fst snd] in *; try discriminate; reflexivity.
Qed.
(** ... so the property as stated is false of the program *)
Theorem C36_refuted : exists c m s es k v n f k' v',
  index_ready c s m es /\ op_ok c (k, v) /\ dies c m k v s n f /\ In (k', v') es /\ k' <> k /\
  exists s2, reopened KMmap f s2 /\ forall len l, walk c m s2 least len = Ok l -> ~ In k' (map fst l).
Proof.
  destruct s4_ready as (es & R & Hne). destruct s4_splits as (s1 & E & G).
  assert (Hop : op_ok c1001 (bigkey 30, MP 130 7)) by (apply op_okb_ok; vm_compute; reflexivity).
  assert (Hf : zlen (file s4) < 2^60) by (vm_compute; reflexivity).
  destruct (C36_a_split_can_lose_keys_refuted (c:=c1001) ltac:(cbn; lia) R Hne Hf Hop E (or_introl G)) as (n & f & k' & v' & Hd & Hin & Hk & Hl).
  destruct (@C36_crash_leaves_an_index_partial c1001 _ _ _ _ _ _ _ KMmap ltac:(cbn; lia) R Hf Hop Hd) as (s2 & _ & _ & Hr & _).
  exists c1001, m0, s4, es, (bigkey 30), (MP 130 7), n, f, k', v'. repeat (split; [assumption|]). exists s2. split; auto.
  intros len l. apply (Hl KMmap s2 len l Hr).
Qed.
(** an Insert that can die without losing anything: the first one *)
Example C36_first_insert_is_safe : exists f s1, dies c1001 m0 (bigkey 10) (MP 110 7) (s0 KMmap) 0 f /\
  bp_insert c1001 m0 (bigkey 10) (MP 110 7) (s0 KMmap) = (Ok tt, s1) /\ index_ready c1001 (s0 KMmap) m0 [] /\ op_ok c1001 (bigkey 10, MP 110 7).
Proof.
  exists (file (snd (bp_insert c1001 m0 (bigkey 10) (MP 110 7) (set_budget (s0 KMmap) (Some 0%nat))))), (snd (bp_insert c1001 m0 (bigkey 10) (MP 110 7) (s0 KMmap))).
  split.
  { assert (X : match fst (bp_insert c1001 m0 (bigkey 10) (MP 110 7) (set_budget (s0 KMmap) (Some 0%nat))) with Crash => true | _ => false end = true) by (vm_compute; reflexivity).
    unfold dies. destruct (bp_insert c1001 m0 (bigkey 10) (MP 110 7) (set_budget (s0 KMmap) (Some 0%nat))) as [[[]|e| | |] s']; cbn [fst snd] in *; try discriminate. eauto. }
  split.
  { assert (X : match fst (bp_insert c1001 m0 (bigkey 10) (MP 110 7) (s0 KMmap)) with Ok _ => true | _ => false end = true) by (vm_compute; reflexivity).
    destruct (bp_insert c1001 m0 (bigkey 10) (MP 110 7) (s0 KMmap)) as [[[]|e| | |] s1]; cbn [fst snd] in *; try discriminate; reflexivity. }
  split; [apply (fresh_ready KMmap c1001_ok)|apply op_okb_ok; vm_compute; reflexivity].
Qed.
