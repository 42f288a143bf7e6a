(** Insert keeps the stored B+ tree correct: the upward split loop, and Insert. *)
From Verif Require Import Base Varint Store PageFile RefValue Node LinkedPage BPTree BPRepr BPIter BPInsert.
From Coq Require Import Permutation.

(** ** What a change of the file leaves alone *)
(** every byte range of the old file outside page 0, the pages [P] and the root
    pointer at [ro] is the same in the new file *)
Definition untouched (f f' : bytes) (P : list Z) (ro : Z) : Prop :=
  zlen f <= zlen f' /\
  forall o l, pageSize <= o -> 0 <= l -> o + l <= zlen f ->
    (forall p, In p P -> o + l <= p \/ p + pageSize <= o) ->
    o + l <= ro \/ ro + 12 <= o ->
    slice f' o l = slice f o l.

Lemma untouched_refl f P ro : untouched f f P ro.
Proof. split; [lia|auto]. Qed.
Lemma untouched_trans f1 f2 f3 P1 P2 P ro :
  untouched f1 f2 P1 ro -> untouched f2 f3 P2 ro ->
  incl P1 P -> (forall p, In p P2 -> In p P \/ zlen f1 <= p) -> untouched f1 f3 P ro.
Proof.
  intros [L1 U1] [L2 U2] I1 I2. split; [lia|]. intros o l Ho Hl Hf HP Hro.
  rewrite U2; [apply U1; auto|lia|lia|lia| |auto].
  intros p Hp. destruct (I2 p Hp) as [H|H]; [auto|lia].
Qed.
Lemma untouched_incl f f' P P' ro : untouched f f' P ro -> incl P P' -> untouched f f' P' ro.
Proof. intros [L U] I. split; auto. Qed.
Lemma untouched_upd f o b P ro : pageSize <= o -> o + zlen b <= zlen f -> zlen b <= pageSize -> In o P ->
  untouched f (upd f o b) P ro.
Proof.
  intros Ho Hb Hz Hin. pose proof (zlen_nonneg b). unfold pageSize in *. split.
  - rewrite zlen_upd by lia. lia.
  - intros o' l Ho' Hl Hf HP _. specialize (HP o Hin). unfold pageSize in *. apply slice_upd_disj; lia.
Qed.
Lemma untouched_root f ro b P : pageSize <= ro -> ro + 12 <= zlen f -> zlen b = 12 -> untouched f (upd f ro b) P ro.
Proof.
  intros Ho Hb Hz. unfold pageSize in *. split.
  - rewrite zlen_upd by lia. lia.
  - intros o' l Ho' Hl Hf HP Hr. unfold pageSize in *. apply slice_upd_disj; lia.
Qed.
Lemma untouched_np s fl buf P ro : pf_inv s fl -> zlen buf <= pageSize ->
  (forall p, In p (firstn 1 fl) -> In p P) -> untouched (file s) (np_file s fl buf) P ro.
Proof.
  intros Hi Hb HP. split.
  - rewrite (zlen_np_file _ Hi Hb). destruct fl; unfold pageSize; lia.
  - intros o l Ho Hl Hf Hd _. apply np_frame; auto.
    destruct fl as [|x fl]; cbn [np_off]; [lia|]. apply Hd. apply HP. cbn; auto.
Qed.
(** a page outside the touched set keeps its content *)
Lemma untouched_page f f' P m p : untouched f f' P (root_off m) -> slot_ok f m -> page_ok f p ->
  ~ In p P -> Forall (fun q => q mod pageSize = 0) P -> p <> lp_off m -> page f' p = page f p.
Proof.
  intros [L U] Hs (H1 & H2 & H3 & H4) Hn HP Hm.
  pose proof (root_off_bounds Hs) as (B1 & B2 & B3 & B4 & B5).
  destruct Hs as ((G1 & G2 & G3 & G4) & G5 & G6).
  apply U; try (unfold pageSize in *; lia).
  - intros q Hq. rewrite Forall_forall in HP. specialize (HP q Hq).
    destruct (@aligned_disj p q H2 HP); auto. intros ->; auto.
Qed.
(** the root pointer itself *)
Lemma untouched_root_at f f' P m ro : untouched f f' P ro -> slot_ok f m ->
  ~ In (lp_off m) P -> Forall (fun q => q mod pageSize = 0) P -> (root_off m + 12 <= ro \/ ro + 12 <= root_off m) ->
  root_at f' m = root_at f m.
Proof.
  intros [L U] Hs Hn HP Hro. unfold root_at. f_equal.
  pose proof (root_off_bounds Hs) as (B1 & B2 & B3 & B4 & B5).
  destruct Hs as ((G1 & G2 & G3 & G4) & G5 & G6).
  apply U; try (unfold pageSize in *; lia).
  intros q Hq. rewrite Forall_forall in HP. specialize (HP q Hq).
  destruct (@aligned_disj (lp_off m) q G2 HP); unfold pageSize in *; try lia. intros E; subst; auto.
Qed.
Lemma slot_ok_mono f f' m : zlen f <= zlen f' -> slot_ok f m -> slot_ok f' m.
Proof. intros L (H1 & H2 & H3). split; auto. eapply page_ok_mono; eauto. Qed.

(** a non-empty tree stored at slot [m], with its pages *)
Definition stored (c : codec) (f : bytes) (m : lp) (es : list entry) (pgs : list Z) : Prop :=
  exists H root rlen, root_at f m = MP root rlen /\ 0 < rlen < 2^32 /\
    repr (node_at c f) H None None root es pgs.

(** ** Effect of a successful insert on the file *)
Definition ins_post (c : codec) (m : lp) (s : st) (fl P : list Z) (es : list entry) (s' : st) : Prop :=
  exists fl' pgs' news,
    pf_inv s' fl' /\ (exists k, fl' = skipn k fl) /\
    stored c (file s') m es pgs' /\
    NoDup (pgs' ++ fl') /\ Permutation (pgs' ++ fl') (P ++ fl ++ news) /\
    Forall (fun p => zlen (file s) <= p) news /\
    untouched (file s) (file s') (P ++ fl) (root_off m) /\
    kind s' = kind s /\ budget s' = None /\
    zlen (file s') = zlen (file s) + pageSize * zlen news /\
    lastPage s' = lastPage s + zlen news.

Lemma node_at_page_ok c f o n : node_at c f o n -> page_ok f o.
Proof. intros (H & _). exact H. Qed.
Lemma node_at_ok c f o n : node_at c f o n -> node_ok c n.
Proof. intros (_ & H & _). exact H. Qed.
Lemma pages_ok c f (pg : list Z) : Forall (fun o => exists m, node_at c f o m) pg -> Forall (page_ok f) pg.
Proof. apply Forall_impl. intros a (n & H). eapply node_at_page_ok; eauto. Qed.
Lemma pages_aligned f pg : Forall (page_ok f) pg -> Forall (fun q => q mod pageSize = 0) pg.
Proof. apply Forall_impl. intros a (H1 & H2 & _). exact H2. Qed.

Lemma node_at_write c f o n : page_ok f o -> node_ok c n -> node_size (cwidth c) n <= pageSize ->
  node_at c (upd f o (enc_node (cwidth c) n)) o n.
Proof.
  intros (H1 & H2 & H3 & H4) Hn Hs. pose proof (enc_node_size Hn) as Z. unfold pageSize in *.
  split; [|split; auto].
  - unfold page_ok. rewrite zlen_upd by lia. unfold pageSize. lia.
  - eexists. unfold page. rewrite slice_upd_prefix by (unfold pageSize; lia). reflexivity.
Qed.
Lemma node_at_np c s fl n : pf_inv s fl -> node_ok c n -> node_size (cwidth c) n <= pageSize ->
  zlen (file s) < 2^62 ->
  node_at c (np_file s fl (enc_node (cwidth c) n)) (np_off s fl) n.
Proof.
  intros Hi Hn Hs Hf. pose proof (enc_node_size Hn) as Z.
  assert (Zb : zlen (enc_node (cwidth c) n) <= pageSize) by lia.
  split; [|split; auto].
  - destruct (np_off_ok Hi) as (O1 & O2 & O3). unfold page_ok. rewrite (zlen_np_file _ Hi Zb).
    destruct fl as [|x fl]; cbn [np_off] in *; unfold pageSize in *; [lia|].
    destruct Hi as [_ _ _ Hok _ _]. inversion Hok as [|? ? Hx _]; subst. destruct Hx as (X1 & X2 & X3 & X4). unfold pageSize in *. lia.
  - eexists. apply np_new_page; auto.
Qed.

(** the page NewPage hands out is not in use *)
Lemma np_fresh s fl Q : pf_inv s fl -> Forall (page_ok (file s)) Q -> NoDup (Q ++ fl) ->
  ~ In (np_off s fl) Q /\ NoDup (np_off s fl :: Q ++ tl fl).
Proof.
  intros Hi HQ Hnd. destruct fl as [|x fl]; cbn [np_off tl].
  - assert (Hn : ~ In (zlen (file s)) Q).
    { intros Hin. rewrite Forall_forall in HQ. destruct (HQ _ Hin) as (_ & _ & H & _). unfold pageSize in *; lia. }
    split; auto. rewrite app_nil_r in *. constructor; auto.
  - pose proof (NoDup_remove_2 _ _ _ Hnd) as Hn. pose proof (NoDup_remove_1 _ _ _ Hnd) as Hr.
    split; [intros H; apply Hn, in_or_app; auto|]. constructor; auto.
Qed.

Lemma split_io c s fl off L R Q : pf_inv s fl -> budget s = None -> zlen (file s) < 2^62 ->
  node_ok c L -> node_ok c R -> node_size (cwidth c) L <= pageSize -> node_size (cwidth c) R <= pageSize ->
  Forall (page_ok (file s)) (off :: Q) -> NoDup (off :: Q ++ fl) ->
  exists mo s1 s2 news,
    new_page (enc_node (cwidth c) R) s = (Ok mo, s1) /\ write_node c off L s1 = (Ok tt, s2) /\
    pf_inv s2 (tl fl) /\ kind s2 = kind s /\ budget s2 = None /\
    node_at c (file s2) mo R /\ node_at c (file s2) off L /\
    (forall o n, In o Q -> node_at c (file s) o n -> node_at c (file s2) o n) /\
    NoDup (off :: mo :: Q ++ tl fl) /\
    Permutation (mo :: tl fl) (fl ++ news) /\ Forall (fun p => zlen (file s) <= p) news /\
    zlen (file s2) = zlen (file s) + pageSize * zlen news /\ lastPage s2 = lastPage s + zlen news /\
    zlen news <= 1 /\ mo < 2^62 /\ (In mo fl \/ zlen (file s) <= mo) /\ 0 < mo /\
    forall ro, untouched (file s) (file s2) (off :: firstn 1 fl) ro.
Proof.
  intros Hi Hb Hf HL HR SL SR Hok Hnd.
  pose proof (enc_node_size HL) as ZL. pose proof (enc_node_size HR) as ZR.
  assert (ZR' : zlen (enc_node (cwidth c) R) <= pageSize) by lia.
  destruct (@new_page_ok s fl (enc_node (cwidth c) R) Hi Hb ZR') as (s1 & E1 & F1 & I1 & K1 & B1 & L1 & P1).
  assert (Hoff : page_ok (file s) off) by (inversion Hok; auto).
  destruct (@np_fresh s fl (off :: Q) Hi Hok Hnd) as [Hfr Hnd2].
  set (mo := np_off s fl) in *.
  assert (Hle1 : zlen (file s) <= zlen (file s1)).
  { rewrite F1, (zlen_np_file _ Hi ZR'). destruct fl; unfold pageSize; lia. }
  assert (Hoff1 : page_ok (file s1) off) by (eapply page_ok_mono; eauto).
  destruct (@write_node_ok c s1 off L B1 Hoff1 HL SL) as (p & E2).
  pose proof (node_at_np Hi HR SR Hf) as NR. rewrite <- F1 in NR. fold mo in NR.
  pose proof (node_at_write Hoff1 HL SL) as NL.
  assert (Hmo : page_ok (file s1) mo) by (eapply node_at_page_ok; eauto).
  assert (Hlen2 : zlen (upd (file s1) off (enc_node (cwidth c) L)) = zlen (file s1)).
  { destruct Hoff1 as (Q1 & Q2 & Q3 & Q4). unfold pageSize in *. rewrite zlen_upd by lia. lia. }
  assert (Hpg : forall o, page_ok (file s1) o -> o <> off -> page (upd (file s1) off (enc_node (cwidth c) L)) o = page (file s1) o).
  { intros o (G1 & G2 & G3 & G4) Hne. destruct Hoff1 as (Q1 & Q2 & Q3 & Q4).
    unfold page. apply slice_upd_disj; try lia.
    - unfold pageSize in *; lia.
    - destruct (@aligned_disj o off G2 Q2 Hne); unfold pageSize in *; lia. }
  exists mo, s1, (set_pos (set_file s1 (upd (file s1) off (enc_node (cwidth c) L))) p), (match fl with [] => [mo] | _ => [] end).
  cbn [file set_pos set_file kind budget lastPage].
  split; auto. split; auto. split.
  { apply pf_inv_write; auto; destruct Hoff1 as (Q1 & Q2 & Q3 & Q4); unfold pageSize in *; lia. }
  split; auto. split; auto.
  assert (Hmoff : mo <> off) by (intros E; apply Hfr; left; auto).
  split. { eapply node_at_frame; [exact NR| |lia]. apply Hpg; auto. }
  split; auto. split.
  { intros o n Hin Hn. inversion Hnd as [|? ? Hni Hnd']; subst.
    assert (Ho : o <> off) by (intros ->; apply Hni, in_or_app; auto).
    assert (Hom : o <> mo) by (intros ->; apply Hfr; right; auto).
    pose proof (node_at_page_ok Hn) as Hp.
    eapply node_at_frame; [exact Hn| |lia]. rewrite Hpg; auto; [|eapply page_ok_mono; eauto].
    rewrite F1. unfold page. destruct Hp as (G1 & G2 & G3 & G4). destruct Hmo as (M1 & M2 & M3 & M4).
    apply np_frame; auto; [unfold pageSize in *; lia|]. fold mo.
    destruct (@aligned_disj o mo G2 M2 Hom); lia. }
  split.
  { inversion Hnd2 as [|? ? N1 N2]; subst. cbn [app] in *. inversion N2 as [|? ? N3 N4]; subst.
    constructor; [|constructor; auto].
    - intros [E|E]; auto.
    - intros E; apply N1; right; auto. }
  split.
  { destruct fl as [|x fl]; cbn [tl app].
    - apply Permutation_refl.
    - unfold mo; cbn [np_off]. rewrite app_nil_r. apply Permutation_refl. }
  split.
  { destruct fl; constructor; auto. unfold mo; cbn [np_off]; lia. }
  rewrite Hlen2, F1, L1, (zlen_np_file _ Hi ZR').
  split. { destruct fl; [change (zlen [mo]) with 1|change (zlen (@nil Z)) with 0]; unfold pageSize; lia. }
  split. { destruct fl; [change (zlen [mo]) with 1|change (zlen (@nil Z)) with 0]; lia. }
  split. { destruct fl; [change (zlen [mo]) with 1|change (zlen (@nil Z)) with 0]; lia. }
  split. { destruct fl as [|x fl]; unfold mo; cbn [np_off]; [lia|].
    destruct Hi as [_ _ _ Hk _ _]. inversion Hk as [|? ? Hx _]; subst. destruct Hx as (X1 & X2 & X3 & X4). unfold pageSize in *; lia. }
  split. { destruct fl as [|x fl]; unfold mo; cbn [np_off]; [right; lia|left; left; auto]. }
  split. { destruct Hmo as (M1 & _). exact M1. }
  intros ro. eapply untouched_trans with (f2 := np_file s fl (enc_node (cwidth c) R)) (P1 := firstn 1 fl) (P2 := [off]).
  - apply untouched_np; auto.
  - rewrite F1 in *. apply untouched_upd; try (destruct Hoff1 as (Q1 & Q2 & Q3 & Q4); unfold pageSize in *; lia). left; auto.
  - intros x Hx; right; auto.
  - intros x [<-|[]]. left; left; auto.
Qed.

Lemma zsum_cons x l : zsum (x :: l) = x + zsum l.
Proof. reflexivity. Qed.
Lemma skipn_tl {A} k (l : list A) : skipn k (tl l) = skipn (S k) l.
Proof. destruct l; [rewrite !skipn_nil; reflexivity|reflexivity]. Qed.
Lemma in_firstn {A} k (l : list A) x : In x (firstn k l) -> In x l.
Proof. intros H. rewrite <- (firstn_skipn k l). apply in_or_app; auto. Qed.
Lemma in_tl {A} (l : list A) x : In x (tl l) -> In x l.
Proof. destruct l; cbn; auto. Qed.

Lemma parent_insert_ok c p kl kr ol or mk off mo :
  codec_ok c -> node_ok c p -> node_size (cwidth c) p <= pageSize ->
  lptrs p = [] -> keys p = kl ++ kr -> iptrs p = ol ++ off :: or -> length kl = length ol ->
  key_ok c mk -> 0 <= mo < 2^64 ->
  let q := parent_insert p (Z.to_nat (zlen ol)) mk off mo in
  keys q = kl ++ mk :: kr /\ lptrs q = [] /\ iptrs q = ol ++ off :: mo :: or /\
  node_ok c q /\ node_size (cwidth c) q <= pageSize + 30 + kw c.
Proof.
  intros Hc Hp Hs Hl Hk Hi Hlen Hmk Hmo q.
  assert (Eq : keys q = kl ++ mk :: kr /\ lptrs q = [] /\ iptrs q = ol ++ off :: mo :: or).
  { unfold q, parent_insert. cbn [keys lptrs iptrs]. unfold zlen. rewrite Nat2Z.id, Hk, Hi, Hl.
    rewrite <- Hlen at 1 2. rewrite firstn_app_exact, skipn_app_exact by auto.
    rewrite firstn_app_exact by auto.
    replace (ol ++ off :: or) with ((ol ++ [off]) ++ or) by (rewrite <- app_assoc; reflexivity).
    rewrite skipn_app_exact by (rewrite app_length; cbn [length]; lia). auto. }
  destruct Eq as (E1 & E2 & E3). split; auto. split; auto. split; auto.
  destruct Hp as ((Hne & Hsh) & Hcnt & HK & HL & HI).
  assert (Hsz : node_size (cwidth c) q = node_size (cwidth c) p + key_size (cwidth c) mk + iptr_size mo).
  { unfold node_size. rewrite E1, E2, E3, Hk, Hi, Hl. rewrite !map_app. cbn [map]. rewrite !zsum_app, !zsum_cons. lia. }
  pose proof (key_size_bounds Hc Hmk). pose proof (iptr_size_bounds Hmo). pose proof (kw_nonneg Hc).
  assert (Hle : node_size (cwidth c) q <= pageSize + 30 + kw c) by lia.
  split; auto. apply node_ok_intro; auto.
  - split; [rewrite E1; destruct kl; discriminate|]. right. split; auto.
    destruct Hsh as [[X1 X2]|[X1 X2]].
    + rewrite X1 in Hi. destruct ol; discriminate.
    + rewrite Hi, Hk in X2. rewrite E1, E3. rewrite !app_length in *. cbn [length] in *. lia.
  - rewrite E1. rewrite Hk in HK. apply Forall_app in HK. destruct HK. apply Forall_app; split; auto.
  - rewrite E3. rewrite Hi in HI. apply Forall_app in HI. destruct HI as [I1 I2]. inversion I2; subst.
    apply Forall_app; split; auto.
  - unfold kw in *. destruct Hc as [Hw _]. destruct (cwidth c =? 0); unfold pageSize in *; lia.
Qed.

Lemma split_ok c F h lo hi n es pg : codec_ok c -> kw c <= 2016 -> node_ok c n ->
  pageSize < node_size (cwidth c) n <= pageSize + 30 + kw c -> body F h lo hi n es pg ->
  let mid := (length (keys n) / 2)%nat in
  exists mk esA esB pgA pgB,
    nth_error (keys n) mid = Some mk /\ key_ok c mk /\ es = esA ++ esB /\ pg = pgA ++ pgB /\
    body F h lo (Some mk) (split_left n mid) esA pgA /\ body F h (Some mk) hi (split_right n mid) esB pgB /\
    node_ok c (split_left n mid) /\ node_ok c (split_right n mid) /\
    node_size (cwidth c) (split_left n mid) <= pageSize /\ node_size (cwidth c) (split_right n mid) <= pageSize.
Proof.
  intros Hc Hkw Hn Hs Hb mid. pose proof (body_leaf_dec Hb) as Hlf.
  assert (HK : forall mk, nth_error (keys n) mid = Some mk -> key_ok c mk).
  { intros mk E. destruct Hn as (_ & _ & Hk & _). rewrite Forall_forall in Hk. apply Hk. eapply nth_error_In; eauto. }
  destruct h as [|h].
  - destruct (leaf_split_sizes Hc Hkw Hn Hlf Hs) as (M & N1 & N2 & S1 & S2). fold mid in M, N1, N2, S1, S2.
    destruct (body_leaf_split Hb M) as (mk & esA & esB & E1 & E2 & E3 & B1 & B2).
    exists mk, esA, esB, [], []. repeat (split; auto).
  - destruct (inner_split_sizes Hc Hkw Hn Hlf Hs) as (M1 & M2 & N1 & N2 & S1 & S2). fold mid in M1, M2, N1, N2, S1, S2.
    destruct (body_inner_split Hb M1 M2) as (mk & esA & esB & pgA & pgB & E1 & E2 & E3 & B1 & B2).
    exists mk, esA, esB, pgA, pgB. repeat (split; auto).
Qed.

Arguments split_ok {c F h lo hi n es pg}.
Arguments body_pages {F h lo hi n es pg}.
Arguments ctx_pages {F st h lo hi off rest esL esR pgs H root}.

(** the node fits: it is written in place *)
Lemma ins_fit c m s tr fl h lo hi off esL es esR pg pgs H root rlen rest :
  codec_ok c -> pf_inv s fl -> budget s = None -> slot_ok (file s) m ->
  root_at (file s) m = MP root rlen -> 0 < rlen < 2^32 ->
  ctx (node_at c (file s)) true h lo hi off rest esL esR pgs H root ->
  mp_off (tptr tr) = off -> page_ok (file s) off ->
  body (node_at c (file s)) h lo hi (tnode tr) es pg ->
  node_ok c (tnode tr) -> node_size (cwidth c) (tnode tr) <= pageSize ->
  NoDup (off :: (pg ++ pgs) ++ fl) -> ~ In (lp_off m) (off :: (pg ++ pgs) ++ fl) ->
  exists s', write_node c (mp_off (tptr tr)) (tnode tr) s = (Ok tt, s') /\
    ins_post c m s fl (off :: pg ++ pgs) (esL ++ es ++ esR) s'.
Proof.
  intros Hc Hi Hb Hslot Hroot Hrlen Hctx Htr Hoff Hbody Hnok Hfit Hnd Hlp.
  rewrite Htr. destruct (@write_node_ok c s off (tnode tr) Hb Hoff Hnok Hfit) as (q & E).
  eexists; split; [exact E|].
  pose proof (node_at_write Hoff Hnok Hfit) as NW.
  pose proof (enc_node_size Hnok) as ZE.
  pose proof Hoff as (O1 & O2 & O3 & O4).
  pose proof (@zlen_upd _ (file s) (enc_node (cwidth c) (tnode tr)) off ltac:(unfold pageSize in *; lia)) as ZU.
  set (f' := upd (file s) off (enc_node (cwidth c) (tnode tr))) in *.
  assert (Zf : zlen f' = zlen (file s)) by (unfold pageSize in *; lia).
  assert (U : untouched (file s) f' [off] (root_off m)).
  { apply untouched_upd; [unfold pageSize in *; lia|lia|lia|left; auto]. }
  assert (Hal1 : Forall (fun q => q mod pageSize = 0) [off]) by (constructor; auto).
  assert (Hlo : lp_off m <> off) by (intros E0; apply Hlp; left; auto).
  assert (Fr : forall o n, In o (pg ++ pgs) -> node_at c (file s) o n -> node_at c f' o n).
  { intros o n Hin Hn. eapply node_at_frame; [exact Hn| |lia].
    eapply untouched_page; [exact U|exact Hslot|eapply node_at_page_ok; eauto| |exact Hal1|].
    - intros [<-|[]]. inversion Hnd as [|? ? X _]; subst. apply X, in_or_app; auto.
    - intros ->. apply Hlp. right; apply in_or_app; auto. }
  assert (R : repr (node_at c f') h lo hi off es (off :: pg)).
  { exists (tnode tr), pg. split; [exact NW|split; [|auto]].
    eapply body_frame; [exact Hbody|]. intros; apply Fr; auto. apply in_or_app; auto. }
  assert (Hctx' : ctx (node_at c f') true h lo hi off rest esL esR pgs H root).
  { eapply ctx_frame; [exact Hctx|]. intros o n Hin Hn. apply Fr; auto. apply in_or_app; auto. }
  destruct (ctx_plug Hctx' R) as (pgs' & Rp & Pm).
  exists fl, pgs', []. cbn [file set_pos set_file kind budget lastPage]. fold f'.
  split; [apply pf_inv_write; auto; unfold pageSize in *; lia|].
  split; [exists 0%nat; auto|].
  split. { exists H, root, rlen. split; [|split; auto]. rewrite <- Hroot.
    eapply untouched_root_at with (P := [off]) (ro := 0); auto.
    - apply untouched_upd; [unfold pageSize in *; lia|lia|lia|left; auto].
    - intros [E0|[]]; auto.
    - right. pose proof (root_off_bounds Hslot). unfold pageSize in *; lia. }
  split; [eapply Permutation_NoDup; [|exact Hnd]; clear - Pm; perm_lia|].
  split; [clear - Pm; perm_lia|].
  split; [constructor|].
  split; [eapply untouched_incl; [exact U|]; intros x [<-|[]]; left; auto|].
  change (zlen (@nil Z)) with 0. repeat split; auto; lia.
Qed.

(** what the split of an overfull node leaves behind, before the parent is updated *)
Lemma ins_split c m s tr fl h lo hi off es pg pgs :
  codec_ok c -> kw c <= 2016 -> pf_inv s fl -> budget s = None ->
  page_ok (file s) off -> Forall (page_ok (file s)) (pg ++ pgs) ->
  body (node_at c (file s)) h lo hi (tnode tr) es pg ->
  node_ok c (tnode tr) -> pageSize < node_size (cwidth c) (tnode tr) <= pageSize + 30 + kw c ->
  NoDup (off :: (pg ++ pgs) ++ fl) -> ~ In (lp_off m) (off :: (pg ++ pgs) ++ fl) -> lp_off m < zlen (file s) ->
  zlen (file s) < 2^62 ->
  let n := tnode tr in let mid := (length (keys n) / 2)%nat in
  exists mk mo s1 s2 esA esB pgA pgB news,
    nth_error (keys n) mid = Some mk /\ key_ok c mk /\
    marshal (cwidth c) (split_right n mid) = Ok (enc_node (cwidth c) (split_right n mid)) /\
    new_page (enc_node (cwidth c) (split_right n mid)) s = (Ok mo, s1) /\
    write_node c off (split_left n mid) s1 = (Ok tt, s2) /\
    es = esA ++ esB /\ Permutation (pgA ++ pgB) (off :: mo :: pg) /\
    repr (node_at c (file s2)) h lo (Some mk) off esA pgA /\
    repr (node_at c (file s2)) h (Some mk) hi mo esB pgB /\
    (forall o n, In o pgs -> node_at c (file s) o n -> node_at c (file s2) o n) /\
    pf_inv s2 (tl fl) /\ kind s2 = kind s /\ budget s2 = None /\
    NoDup (off :: mo :: (pg ++ pgs) ++ tl fl) /\ ~ In (lp_off m) (off :: mo :: (pg ++ pgs) ++ tl fl) /\
    Permutation (mo :: tl fl) (fl ++ news) /\ Forall (fun p => zlen (file s) <= p) news /\
    zlen (file s2) = zlen (file s) + pageSize * zlen news /\ lastPage s2 = lastPage s + zlen news /\
    zlen news <= 1 /\ 0 < mo < 2^62 /\
    forall ro, untouched (file s) (file s2) (off :: firstn 1 fl) ro.
Proof.
  intros Hc Hkw Hi Hb Hoff Hpg Hbody Hn Hs Hnd Hlp Hlpf Hf n mid.
  destruct (split_ok Hc Hkw Hn Hs Hbody) as (mk & esA & esB & pgA & pgB & E1 & E2 & E3 & E4 & BA & BB & NL & NR & SL & SR).
  fold n mid in E1, BA, BB, NL, NR, SL, SR.
  destruct (@split_io c s fl off (split_left n mid) (split_right n mid) (pg ++ pgs) Hi Hb Hf NL NR SL SR ltac:(constructor; auto) Hnd)
    as (mo & s1 & s2 & news & W1 & W2 & I2 & K2 & B2 & NRat & NLat & Fr & ND2 & PM & FN & ZL & LP & ZN & MO & MOin & MO0 & UT).
  exists mk, mo, s1, s2, esA, esB, (off :: pgA), (mo :: pgB), news.
  split; auto. split; auto. split; [apply marshal_ok; auto|]. split; auto. split; auto. split; auto.
  split; [subst pg; clear; perm_lia|].
  split. { exists (split_left n mid), pgA. split; auto. split; auto. eapply body_frame; [exact BA|].
    intros; apply Fr; auto. subst pg. rewrite !in_app_iff; auto. }
  split. { exists (split_right n mid), pgB. split; auto. split; auto. eapply body_frame; [exact BB|].
    intros; apply Fr; auto. subst pg. rewrite !in_app_iff; auto. }
  split. { intros; apply Fr; auto. apply in_or_app; auto. }
  split; auto. split; auto. split; auto. split; auto. split.
  { intros [X|[X|X]].
    - apply Hlp; left; auto.
    - destruct MOin as [Y|Y]; [|lia]. apply Hlp. right. apply in_or_app; right. congruence.
    - apply Hlp. right. apply in_app_iff in X. apply in_or_app. destruct X; auto. right. apply in_tl; auto. }
  repeat (split; [solve [auto]|]). auto.
Qed.

(** a node in a new page becomes the root *)
Lemma new_root_ok c m s fl n Q : pf_inv s fl -> budget s = None -> slot_ok (file s) m ->
  node_ok c n -> node_size (cwidth c) n <= pageSize ->
  Forall (page_ok (file s)) Q -> NoDup (Q ++ fl) -> ~ In (lp_off m) (Q ++ fl) -> zlen (file s) < 2^62 ->
  exists po s3 s4 news,
    new_page (enc_node (cwidth c) n) s = (Ok po, s3) /\
    lp_set_root m (MP (po mod 2^64) (zlen (enc_node (cwidth c) n) mod 2^32)) s3 = (Ok tt, s4) /\
    pf_inv s4 (tl fl) /\ kind s4 = kind s /\ budget s4 = None /\
    node_at c (file s4) po n /\ (forall o q, In o Q -> node_at c (file s) o q -> node_at c (file s4) o q) /\
    root_at (file s4) m = MP po (node_size (cwidth c) n) /\ 0 < node_size (cwidth c) n < 2^32 /\
    NoDup (po :: Q ++ tl fl) /\ Permutation (po :: tl fl) (fl ++ news) /\
    Forall (fun p => zlen (file s) <= p) news /\
    zlen (file s4) = zlen (file s) + pageSize * zlen news /\ lastPage s4 = lastPage s + zlen news /\
    untouched (file s) (file s4) (firstn 1 fl) (root_off m).
Proof.
  intros Hi Hb Hslot Hn Hs HQ Hnd Hlp Hf.
  pose proof (enc_node_size Hn) as ZE.
  assert (ZE' : zlen (enc_node (cwidth c) n) <= pageSize) by lia.
  destruct (@new_page_ok s fl _ Hi Hb ZE') as (s3 & E1 & F1 & I1 & K1 & B1 & L1 & P1).
  destruct (@np_fresh s fl Q Hi HQ Hnd) as [Hfr Hnd2].
  pose proof (node_at_np Hi Hn Hs Hf) as NP. rewrite <- F1 in NP.
  set (po := np_off s fl) in *.
  assert (Zle : zlen (file s) <= zlen (file s3)).
  { rewrite F1, (zlen_np_file _ Hi ZE'). destruct fl; unfold pageSize; lia. }
  assert (Hslot3 : slot_ok (file s3) m) by (eapply slot_ok_mono; eauto).
  destruct (@lp_set_root_ok s3 m (MP (po mod 2^64) (zlen (enc_node (cwidth c) n) mod 2^32)) Hslot3 B1) as (p & E2).
  assert (Hpo : 0 < po < 2^62).
  { pose proof (node_at_page_ok NP) as (X1 & X2 & X3 & X4). split; auto.
    destruct fl as [|x fl']; unfold po; cbn [np_off]; [lia|].
    destruct Hi as [_ _ _ Hk _ _]. inversion Hk as [|? ? Hx _]; subst. destruct Hx as (Y1 & Y2 & Y3 & Y4). unfold pageSize in *; lia. }
  assert (Hsz : 4 <= node_size (cwidth c) n).
  { rewrite <- ZE. unfold enc_node. rewrite zlen_app, zlen_le.
    match goal with |- context [zlen ?l] => pose proof (zlen_nonneg l) end. lia. }
  assert (Em : MP (po mod 2^64) (zlen (enc_node (cwidth c) n) mod 2^32) = MP po (node_size (cwidth c) n)).
  { rewrite ZE. f_equal; apply Z.mod_small; unfold pageSize in *; lia. }
  pose proof (root_off_bounds Hslot3) as (R1 & R2 & R3 & R4 & R5).
  pose proof Hslot3 as ((G1 & G2 & G3 & G4) & G5 & G6).
  assert (Hro : root_off m + 12 <= zlen (file s3)) by (unfold pageSize in *; lia).
  assert (Zu : zlen (upd (file s3) (root_off m) (enc_mptr (MP po (node_size (cwidth c) n)))) = zlen (file s3)).
  { rewrite zlen_upd by (unfold pageSize in *; lia). rewrite zlen_enc_mptr. lia. }
  rewrite Em in E2.
  assert (Hpon : po <> lp_off m).
  { intros E. destruct fl as [|x fl']; unfold po in E; cbn [np_off] in E.
    - destruct Hslot as ((Y1 & Y2 & Y3 & Y4) & _). unfold pageSize in *; lia.
    - apply Hlp. rewrite E. apply in_or_app; right; left; auto. }
  assert (Hpg : forall o, page_ok (file s3) o -> o <> lp_off m ->
     page (upd (file s3) (root_off m) (enc_mptr (MP po (node_size (cwidth c) n)))) o = page (file s3) o).
  { intros o (Y1 & Y2 & Y3 & Y4) Hne. unfold page. apply slice_upd_disj.
    - unfold pageSize in *; lia.
    - lia.
    - rewrite zlen_enc_mptr. destruct (@aligned_disj o (lp_off m) Y2 G2 Hne); unfold pageSize in *; lia. }
  exists po, s3. eexists. exists (match fl with [] => [po] | _ => [] end).
  split; [exact E1|]. rewrite Em. split; [exact E2|]. cbn [file set_pos set_file kind budget lastPage].
  split. { apply pf_inv_write; auto; rewrite ?zlen_enc_mptr; unfold pageSize in *; lia. }
  split; auto. split; auto.
  split. { eapply node_at_frame; [exact NP| |lia]. apply Hpg; auto. eapply node_at_page_ok; eauto. }
  split.
  { intros o q Hin Hq. pose proof (node_at_page_ok Hq) as Hop.
    assert (Hop3 : page_ok (file s3) o) by (eapply page_ok_mono; eauto).
    eapply node_at_frame; [exact Hq| |lia]. rewrite Hpg; auto.
    - rewrite F1. unfold page. destruct Hop as (Y1 & Y2 & Y3 & Y4). apply np_frame; auto; [unfold pageSize in *; lia|].
      fold po. pose proof (node_at_page_ok NP) as (X1 & X2 & X3 & X4).
      destruct (@aligned_disj o po Y2 X2); auto. intros ->; auto.
    - intros ->. apply Hlp. apply in_or_app; auto. }
  split. { apply root_at_set; auto; cbn [mp_off mp_len]; unfold pageSize in *; lia. }
  split. { unfold pageSize in *; lia. }
  split; auto. split.
  { destruct fl as [|x fl']; cbn [tl app].
    - apply Permutation_refl.
    - unfold po; cbn [np_off]. rewrite app_nil_r. apply Permutation_refl. }
  split. { destruct fl; constructor; auto. unfold po; cbn [np_off]; lia. }
  rewrite Zu, L1.
  split. { rewrite F1, (zlen_np_file _ Hi ZE'). destruct fl; [change (zlen [po]) with 1|change (zlen (@nil Z)) with 0]; unfold pageSize; lia. }
  split. { destruct fl; [change (zlen [po]) with 1|change (zlen (@nil Z)) with 0]; lia. }
  eapply untouched_trans with (f2 := file s3) (P1 := firstn 1 fl) (P2 := []).
  - rewrite F1. apply untouched_np; auto.
  - apply untouched_root; [unfold pageSize in *; lia|auto|apply zlen_enc_mptr].
  - intros x; auto.
  - intros x [].
Qed.

Theorem ins_loop_ok c m : codec_ok c -> kw c <= 2016 -> forall rest s tr fl h lo hi off esL es esR pg pgs H root rlen,
  pf_inv s fl -> budget s = None -> slot_ok (file s) m ->
  root_at (file s) m = MP root rlen -> 0 < rlen < 2^32 ->
  ctx (node_at c (file s)) true h lo hi off rest esL esR pgs H root ->
  mp_off (tptr tr) = off -> page_ok (file s) off ->
  body (node_at c (file s)) h lo hi (tnode tr) es pg ->
  node_ok c (tnode tr) -> node_size (cwidth c) (tnode tr) <= pageSize + 30 + kw c ->
  NoDup (off :: (pg ++ pgs) ++ fl) -> ~ In (lp_off m) (off :: (pg ++ pgs) ++ fl) ->
  zlen (file s) + pageSize * (zlen rest + 2) < 2^62 ->
  exists s', ins_loop c m tr rest s = (Ok tt, s') /\
    ins_post c m s fl (off :: pg ++ pgs) (esL ++ es ++ esR) s'.
Proof.
  intros Hc Hkw. induction rest as [|p rest' IH];
    intros s tr fl h lo hi off esL es esR pg pgs H root rlen Hi Hb Hslot Hroot Hrlen Hctx Htr Hoff Hbody Hnok Hsz Hnd Hlp Hf.
  all: pose proof (pages_ok (body_pages Hbody)) as Hpgok; pose proof (pages_ok (ctx_pages Hctx)) as Hpgsok.
  all: assert (Hallok : Forall (page_ok (file s)) (pg ++ pgs)) by (apply Forall_app; split; auto).
  all: pose proof Hi as Hi0; destruct Hi0 as [_ _ _ Hflok _ _].
  all: assert (Hlpf : lp_off m < zlen (file s)) by (destruct Hslot as ((_ & _ & X & _) & _); unfold pageSize in *; lia).
  all: pose proof (zlen_nonneg fl) as Zfl.
  all: cbn [ins_loop]; destruct (Z.ltb_spec pageSize (node_size (cwidth c) (tnode tr))) as [Hbig|Hfit];
    [|eapply ins_fit; eauto].
  - (* new root *)
    change (zlen (@nil trec)) with 0 in Hf.
    destruct (@ins_split c m s tr fl h lo hi off es pg pgs) as
      (mk & mo & s1 & s2 & esA & esB & pgA & pgB & news & E1 & E2 & E3 & E4 & E5 & E6 & E7 & RA & RB & Fr & I2 & K2 & B2 & ND2 & LP2 & PM & FN & ZL & LPg & ZN & MO & UT);
      auto; try (unfold pageSize in *; lia).
    rewrite E1. rewrite E3. unfold bind at 1. cbn [lift].
    rewrite (@bind_ok _ _ _ _ _ _ _ _ E4). rewrite Htr. rewrite (@bind_ok _ _ _ _ _ _ _ _ E5).
    destruct MO as [MO1 MO2].
    assert (Emo : mo mod 2^64 = mo) by (apply Z.mod_small; lia).
    rewrite Emo.
    set (pn := mkNode [mk] [] [off; mo]).
    assert (Hoff62 : 0 < off < 2^62) by (destruct Hoff as (X1 & X2 & X3 & X4); unfold pageSize in *; lia).
    assert (Hpn : node_ok c pn).
    { unfold pn. split; [split; cbn; [discriminate|right; auto]|]. split; [change (zlen (keys (mkNode [mk] [] [off; mo]))) with 1; lia|].
      split; [constructor; auto|]. split; [constructor|]. constructor; [lia|]. constructor; [lia|constructor]. }
    assert (Hpns : node_size (cwidth c) pn <= pageSize).
    { unfold node_size, pn. cbn [keys lptrs iptrs map]. rewrite !zsum_cons. cbn [zsum fold_right].
      pose proof (key_size_bounds Hc E2). pose proof (@iptr_size_bounds off ltac:(lia)). pose proof (@iptr_size_bounds mo ltac:(lia)).
      unfold pageSize; lia. }
    rewrite (marshal_ok Hpn). unfold bind at 1. cbn [lift].
    assert (Epgs : pgs = [] /\ esL = [] /\ esR = [] /\ lo = None /\ hi = None) by (inversion Hctx; subst; auto).
    destruct Epgs as (-> & -> & -> & -> & ->).
    rewrite app_nil_r in *.
    assert (HQ : Forall (page_ok (file s2)) (pgA ++ pgB)).
    { apply Forall_app; split; eapply pages_ok; eapply repr_pages; eauto. }
    assert (Hslot2 : slot_ok (file s2) m) by (eapply slot_ok_mono; [|exact Hslot]; pose proof (zlen_nonneg news); unfold pageSize in *; lia).
    destruct (@new_root_ok c m s2 (tl fl) pn (pgA ++ pgB)) as
      (po & s3 & s4 & news2 & W1 & W2 & I4 & K4 & B4 & N4 & Fr4 & R4 & S4 & ND4 & PM4 & FN4 & Z4 & L4 & U4); auto.
    { eapply Permutation_NoDup; [|exact ND2]. clear -E7. perm_lia. }
    { intros X. apply LP2. eapply Permutation_in; [|exact X]. clear -E7. perm_lia. }
    { unfold pageSize in *. lia. }
    rewrite (@bind_ok _ _ _ _ _ _ _ _ W1). exists s4. split; [exact W2|].
    exists (tl (tl fl)), (po :: pgA ++ pgB), (news ++ news2).
    split; auto.
    split. { exists 2%nat. destruct fl as [|? [|? ?]]; reflexivity. }
    split. { exists (S h), po, (node_size (cwidth c) pn). split; auto. split; auto.
      exists pn, (pgA ++ pgB). split; auto. split; auto. rewrite body_S.
      exists off, [mo], (Some mk), esA, (esB ++ []), pgA, (pgB ++ []).
      split; auto. split; [discriminate|]. split; auto.
      split. { eapply repr_frame; [exact RA|]. intros; apply Fr4; auto. apply in_or_app; auto. }
      split. { cbn [keys pn]. econstructor; [|constructor].
        eapply repr_frame; [exact RB|]. intros; apply Fr4; auto. apply in_or_app; auto. }
      rewrite !app_nil_r. subst es. cbn [app]. auto. }
    split. { exact ND4. }
    split. { clear -E7 PM PM4. perm_lia. }
    split. { apply Forall_app; split; auto. eapply Forall_impl; [|exact FN4]. intros; cbn beta in *; pose proof (zlen_nonneg news); unfold pageSize in *; lia. }
    split. { eapply untouched_trans; [apply UT|exact U4| |].
      - intros x [<-|X]; [left; auto|]. right. apply in_or_app; right. eapply in_firstn; eauto.
      - intros x X. left. right. apply in_or_app; right. apply in_tl. eapply in_firstn; eauto. }
    rewrite zlen_app. repeat split; auto; try congruence; unfold pageSize in *; lia.
  - (* update the parent *)
    rewrite zlen_cons in Hf. pose proof (zlen_nonneg rest') as Zr.
    destruct (@ins_split c m s tr fl h lo hi off es pg pgs) as
      (mk & mo & s1 & s2 & esA & esB & pgA & pgB & news & E1 & E2 & E3 & E4 & E5 & E6 & E7 & RA & RB & Fr & I2 & K2 & B2 & ND2 & LP2 & PM & FN & ZL & LPg & ZN & MO & UT);
      auto; try (unfold pageSize in *; lia).
    rewrite E1. rewrite E3. unfold bind at 1. cbn [lift].
    rewrite (@bind_ok _ _ _ _ _ _ _ _ E4). rewrite Htr. rewrite (@bind_ok _ _ _ _ _ _ _ _ E5).
    destruct MO as [MO1 MO2].
    assert (Emo : mo mod 2^64 = mo) by (apply Z.mod_small; lia).
    rewrite Emo.
    inversion Hctx as [|h0 lo0 hi0 off0 lo' hi' kl ol kr or esl esr pgl pgr pn poff ptr rest0 esL0 esR0 pgs0 H0 root0 HF Hptr Hplp Hpk Hpne Hpi Hlc Hrc Hctx']; subst h0 lo0 hi0 off0 p rest0 esL esR pgs H0 root0.
    cbn [tnode tptr tidx].
    pose proof (lchain_len Hlc) as Hll.
    destruct (@parent_insert_ok c pn kl kr ol or mk off mo Hc (node_at_ok HF) (node_at_size HF) Hplp Hpk Hpi Hll E2 ltac:(lia))
      as (P1 & P2 & P3 & P4 & P5).
    set (q := parent_insert pn (Z.to_nat (zlen ol)) mk off mo) in *.
    assert (Hslot2 : slot_ok (file s2) m) by (eapply slot_ok_mono; [|exact Hslot]; pose proof (zlen_nonneg news); unfold pageSize in *; lia).
    assert (Hq : body (node_at c (file s2)) (S h) lo' hi' q (esl ++ es ++ esr) (pgl ++ pgA ++ (pgB ++ pgr))).
    { replace (esl ++ es ++ esr) with (esl ++ esA ++ (esB ++ esr)) by (subst es; rewrite <- app_assoc; reflexivity).
      eapply body_join with (kl := kl) (kr := mk :: kr) (ol := ol) (x := off) (or := mo :: or) (a := lo) (b := Some mk); auto.
      - rewrite P1. destruct kl; discriminate.
      - eapply lchain_frame; [exact Hlc|]. intros; apply Fr; auto. right. rewrite !in_app_iff. auto.
      - econstructor; [exact RB|]. eapply rchain_frame; [exact Hrc|]. intros; apply Fr; auto. right. rewrite !in_app_iff. auto. }
    assert (Hctx2 : ctx (node_at c (file s2)) true (S h) lo' hi' poff rest' esL0 esR0 pgs0 H root).
    { eapply ctx_frame; [exact Hctx'|]. intros; apply Fr; auto. right. rewrite !in_app_iff. auto. }
    assert (Hpoff : page_ok (file s2) poff).
    { eapply node_at_page_ok. apply Fr; [left; auto|exact HF]. }
    destruct (IH s2 (TR q (zlen ol) ptr) (tl fl) (S h) lo' hi' poff esL0 (esl ++ es ++ esr) esR0 (pgl ++ pgA ++ (pgB ++ pgr)) pgs0 H root rlen) as (s' & Es & Hpost); auto.
    { rewrite <- Hroot. pose proof (root_off_bounds Hslot) as (Y1 & Y2 & Y3 & Y4 & Y5).
      eapply untouched_root_at with (P := off :: firstn 1 fl) (ro := 0); auto.
      - intros [X|X]; apply Hlp; [left; auto|]. right. apply in_or_app; right. eapply in_firstn; eauto.
      - constructor; [destruct Hoff as (X1 & X2 & _); auto|]. apply Forall_firstn. eapply pages_aligned; eauto.
      - right. unfold pageSize in *; lia. }
    { eapply Permutation_NoDup; [|exact ND2]. clear -E7. perm_lia. }
    { intros X. apply LP2. eapply Permutation_in; [|exact X]. clear -E7. perm_lia. }
    { unfold pageSize in *. lia. }
    exists s'. split; [exact Es|].
    destruct Hpost as (fl' & pgs' & news2 & X1 & (k & X2) & X3 & X4 & X5 & X6 & X7 & X8 & X9 & X10 & X11).
    exists fl', pgs', (news ++ news2).
    split; auto.
    split. { exists (S k). rewrite X2. apply skipn_tl. }
    split. { replace ((esL0 ++ esl) ++ es ++ esr ++ esR0) with (esL0 ++ (esl ++ es ++ esr) ++ esR0) by (rewrite <- !app_assoc; reflexivity). exact X3. }
    split; auto.
    split. { clear -E7 PM X5. perm_lia. }
    split. { apply Forall_app; split; auto. eapply Forall_impl; [|exact X6]. intros; cbn beta in *; pose proof (zlen_nonneg news); unfold pageSize in *; lia. }
    split. { eapply untouched_trans; [apply UT|exact X7| |].
      - intros x [<-|X]; [left; auto|]. right. apply in_or_app; right. eapply in_firstn; eauto.
      - intros x X.
        assert (X' : In x (off :: mo :: (pg ++ poff :: (pgl ++ pgr) ++ pgs0) ++ tl fl)).
        { eapply Permutation_in; [|exact X]. clear -E7. perm_lia. }
        destruct X' as [<-|[<-|X']]; [left; left; auto| |].
        + assert (Y : In mo (fl ++ news)) by (eapply Permutation_in; [exact PM|left; auto]).
          apply in_app_iff in Y. destruct Y as [Y|Y]; [left; right; apply in_or_app; auto|].
          right. rewrite Forall_forall in FN. apply FN; auto.
        + left. right. apply in_app_iff in X'. apply in_or_app. destruct X'; auto. right. apply in_tl; auto. }
    rewrite zlen_app. repeat split; auto; try congruence; unfold pageSize in *; lia.
Qed.
