(** Insert keeps the stored B+ tree correct. *)
From Verif Require Import Base Varint Store PageFile RefValue Node LinkedPage BPTree BPRepr.

(** ** Nodes stored in pages *)
Definition node_at (c : codec) (f : bytes) (off : Z) (n : node) : Prop :=
  page_ok f off /\ node_ok c n /\ exists tail, page f off = enc_node (cwidth c) n ++ tail.

Lemma zlen_page f o : page_ok f o -> zlen (page f o) = pageSize.
Proof. intros (H1 & H2 & H3 & H4). unfold page. apply zlen_slice; unfold pageSize in *; lia. Qed.

Lemma node_at_size c f o n : node_at c f o n -> node_size (cwidth c) n <= pageSize.
Proof.
  intros (Hp & Hn & tail & E). rewrite <- (enc_node_size Hn).
  pose proof (zlen_page Hp) as L. rewrite E, zlen_app in L. pose proof (zlen_nonneg tail). lia.
Qed.
Lemma node_at_frame c f f' o n : node_at c f o n -> page f' o = page f o -> zlen f <= zlen f' -> node_at c f' o n.
Proof.
  intros (Hp & Hn & tail & E) E' Hl. split; [eapply page_ok_mono; eauto|]. split; auto.
  exists tail. congruence.
Qed.

Lemma go_rd_ok c s : codec_ok c -> rd_ok (go_rd c s) (node_at c (file s)).
Proof.
  intros Hc o l n ((H1 & H2 & H3 & H4) & Hn & tail & E).
  unfold go_rd, read_node. cbn [mp_off]. rewrite s64_small by lia.
  rewrite (@bind_ok _ _ _ _ _ _ _ _ (@seek_start_ok s o ltac:(unfold pageSize in *; lia))).
  rewrite (@bind_ok _ _ _ _ _ _ _ _ (@pf_read_ok (set_pos s o) pageSize
     ltac:(cbn; lia) ltac:(unfold pageSize; lia) ltac:(cbn; lia) ltac:(cbn [pos set_pos]; lia))).
  cbn [file pos set_pos lift fst]. unfold pad_page.
  assert (Hz : zlen (slice (file s) o pageSize) = pageSize) by (apply zlen_slice; unfold pageSize in *; lia).
  rewrite Hz, Z.sub_diag, zeros_0, app_nil_r.
  change (slice (file s) o pageSize) with (page (file s) o). rewrite E. apply unmarshal_enc; auto.
Qed.

Lemma write_node_ok c s off n : budget s = None -> page_ok (file s) off -> node_ok c n ->
  node_size (cwidth c) n <= pageSize ->
  exists p, write_node c off n s = (Ok tt, set_pos (set_file s (upd (file s) off (enc_node (cwidth c) n))) p).
Proof.
  intros Hb (H1 & H2 & H3 & H4) Hn Hs. unfold write_node. rewrite s64_small by lia.
  rewrite (@bind_ok _ _ _ _ _ _ _ _ (@seek_start_ok s off ltac:(unfold pageSize in *; lia))).
  rewrite (marshal_ok Hn). unfold bind at 1. cbn [lift].
  destruct (@pf_write_ok (set_pos s off) (enc_node (cwidth c) n)) as (k & p & E).
  { cbn; auto. }
  { cbn; unfold pageSize in *; lia. }
  { rewrite (enc_node_size Hn). cbn [pos set_pos]. lia. }
  rewrite (@bind_ok _ _ _ _ _ _ _ _ E). exists p. reflexivity.
Qed.

(** ** Sizes *)
Definition kw (c : codec) : Z := if cwidth c =? 0 then 0 else cwidth c - 1.
Lemma key_size_bounds c k : codec_ok c -> key_ok c k -> 2 + kw c <= key_size (cwidth c) k <= 15 + kw c.
Proof.
  intros [Hw _] [[Ho Hl] Hk]. unfold key_size, kw.
  pose proof (@size_varint_bounds (mp_off (rv_dp k)) ltac:(lia)).
  pose proof (@size_varint_bounds (mp_len (rv_dp k)) ltac:(lia)).
  assert (size_varint (mp_len (rv_dp k)) <= 5).
  { change 5 with (Z.of_nat 5). apply size_varint_le; [cbn; lia|lia]. }
  destruct (Z.eqb_spec (cwidth c) 0); cbn [negb] in *; [lia|]. rewrite Hk. lia.
Qed.

Lemma lptr_size_bounds p : mptr_ok p -> 2 <= lptr_size p <= 15.
Proof.
  intros [Ho Hl]. unfold lptr_size.
  pose proof (@size_varint_bounds (mp_off p) ltac:(lia)).
  pose proof (@size_varint_bounds (mp_len p) ltac:(lia)).
  assert (size_varint (mp_len p) <= 5).
  { change 5 with (Z.of_nat 5). apply size_varint_le; [cbn; lia|lia]. }
  lia.
Qed.
Lemma iptr_size_bounds o : 0 <= o < 2^64 -> 1 <= iptr_size o <= 10.
Proof. intros. unfold iptr_size. apply put_uvarint_length; lia. Qed.

Lemma zsum_bounds {A} (g : A -> Z) lo hi l : Forall (fun x => lo <= g x <= hi) l ->
  lo * zlen l <= zsum (map g l) <= hi * zlen l.
Proof.
  induction 1 as [|x l Hx _ IH]; [change (zlen (@nil A)) with 0; cbn; lia|].
  cbn [map zsum fold_right]. unfold zsum in *. rewrite zlen_cons. nia.
Qed.
Lemma ksum_bounds c ks : codec_ok c -> Forall (key_ok c) ks ->
  (2 + kw c) * zlen ks <= zsum (map (key_size (cwidth c)) ks) <= (15 + kw c) * zlen ks.
Proof. intros Hc H. apply zsum_bounds. eapply Forall_impl; [|exact H]. intros; apply key_size_bounds; auto. Qed.
Lemma lsum_bounds ps : Forall mptr_ok ps -> 2 * zlen ps <= zsum (map lptr_size ps) <= 15 * zlen ps.
Proof. intros H. apply zsum_bounds. eapply Forall_impl; [|exact H]. intros; apply lptr_size_bounds; auto. Qed.
Lemma isum_bounds os : Forall (fun o => 0 <= o < 2^64) os -> 1 * zlen os <= zsum (map iptr_size os) <= 10 * zlen os.
Proof. intros H. apply zsum_bounds. eapply Forall_impl; [|exact H]. intros; apply iptr_size_bounds; auto. Qed.

Lemma kw_nonneg c : codec_ok c -> 0 <= kw c.
Proof. intros [H _]. unfold kw. destruct (Z.eqb_spec (cwidth c) 0); lia. Qed.

(** a node with few bytes has few keys *)
Lemma node_ok_intro c n : codec_ok c -> shape_ok n -> Forall (key_ok c) (keys n) -> Forall mptr_ok (lptrs n) ->
  Forall (fun o => 0 <= o < 2^64) (iptrs n) -> node_size (cwidth c) n <= 2^20 -> node_ok c n.
Proof.
  intros Hc Hs Hk Hl Hi Hz. repeat split; auto.
  - apply Hs.
  - apply Hs.
  - unfold node_size in Hz. pose proof (ksum_bounds Hc Hk). pose proof (lsum_bounds Hl). pose proof (isum_bounds Hi).
    pose proof (zlen_nonneg (keys n)). pose proof (zlen_nonneg (lptrs n)). pose proof (zlen_nonneg (iptrs n)).
    pose proof (kw_nonneg Hc). nia.
Qed.

Lemma firstn_skipn_len {A} (l : list A) n : (n <= length l)%nat -> zlen (firstn n l) = Z.of_nat n /\ zlen (skipn n l) = zlen l - Z.of_nat n.
Proof. intros. unfold zlen. rewrite firstn_length, skipn_length. lia. Qed.
Lemma zsum_split {A} (g : A -> Z) l n : zsum (map g l) = zsum (map g (firstn n l)) + zsum (map g (skipn n l)).
Proof. rewrite <- (firstn_skipn n l) at 1. rewrite map_app, zsum_app. reflexivity. Qed.

(** ** Splitting a node *)
Lemma lb_div2 N : (2 <= N)%nat -> (1 <= N / 2 /\ N / 2 < N)%nat.
Proof.
  intros. split.
  - apply Nat.div_le_lower_bound; lia.
  - apply Nat.div_lt; lia.
Qed.

Lemma body_leaf_split F lo hi n es pg mid : body F 0 lo hi n es pg ->
  (1 <= mid < length (keys n))%nat ->
  exists midKey esA esB,
    nth_error (keys n) mid = Some midKey /\ es = esA ++ esB /\ pg = [] /\
    body F 0 lo (Some midKey) (split_left n mid) esA [] /\
    body F 0 (Some midKey) hi (split_right n mid) esB [].
Proof.
  intros Hb Hm. pose proof (body_leaf_dec Hb) as Hlf.
  cbn in Hb. destruct Hb as (B1 & B2 & B3 & B4 & B5 & B6 & B7 & B8).
  assert (Hlen : length (keys n) = length es) by (rewrite B2, map_length; auto).
  assert (Hlo : lo_in lo (map fst (firstn mid es))).
  { destruct lo as [l|]; cbn in *; auto. destruct es as [|e0 es0]; [congruence|]. destruct mid as [|mid]; [lia|].
    cbn [firstn map fst]. destruct B8 as [E|Hin]; [left; auto|].
    cbn [map] in B6, B7. apply sorted_cons in B6. destruct B6 as [_ B6]. specialize (B6 _ Hin).
    inversion B7 as [|? ? [L _] _]; subst. exfalso. apply (rlt_irrefl (a := l)). eapply rle_rlt_trans; eauto. }
  rewrite <- (firstn_skipn mid es) in B6, B7. rewrite map_app in B6, B7.
  destruct (skipn mid es) as [|[k v] esB] eqn:Es.
  { apply (f_equal (@length _)) in Es. rewrite skipn_length in Es. cbn in Es. lia. }
  exists k, (firstn mid es), ((k, v) :: esB).
  apply sorted_app in B6. destruct B6 as (S1 & S2 & S3). apply Forall_app in B7. destruct B7 as [F1 F2].
  cbn [map fst] in *. pose proof S2 as S2'. apply sorted_cons in S2'. destruct S2' as [S4 S5].
  split.
  { rewrite B2, nth_error_map. rewrite <- (firstn_skipn mid es), Es, nth_error_app2 by (rewrite firstn_length; lia).
    rewrite firstn_length. replace (mid - Nat.min mid (length es))%nat with 0%nat by lia. reflexivity. }
  split. { rewrite <- Es, firstn_skipn. reflexivity. }
  split; auto.
  unfold split_left, split_right. rewrite Hlf. cbn [body keys lptrs iptrs].
  split; split.
  - intros E. apply (f_equal (@length _)) in E. rewrite firstn_length in E. cbn in E. lia.
  - rewrite B2, B3, !firstn_map. repeat (split; [solve [auto]|]). split; auto.
    rewrite Forall_forall in *. intros x Hx. destruct (F1 x Hx) as [L1 L2]. split; auto. cbn.
    apply S3; auto. left; auto.
  - discriminate.
  - rewrite B2, B3, !skipn_map, Es. repeat (split; [solve [auto]|]). split; [|cbn; auto].
    rewrite Forall_forall in *. intros x Hx. destruct (F2 x Hx) as [L1 L2]. split; auto. cbn.
    destruct Hx as [<-|Hx]; [apply rle_refl|]. apply rlt_rle; auto.
Qed.

Lemma body_inner_split F h lo hi n es pg mid : body F (S h) lo hi n es pg ->
  (1 <= mid)%nat -> (mid + 1 < length (keys n))%nat ->
  exists midKey esA esB pgA pgB,
    nth_error (keys n) mid = Some midKey /\ es = esA ++ esB /\ pg = pgA ++ pgB /\
    body F (S h) lo (Some midKey) (split_left n mid) esA pgA /\
    body F (S h) (Some midKey) hi (split_right n mid) esB pgB.
Proof.
  intros Hb Hm1 Hm2. pose proof (body_leaf_dec Hb) as Hlf.
  destruct (@body_split F h lo hi n es pg mid Hb ltac:(lia))
    as (kl & kr & ol & x & or & a & b' & esl & esx & esr & pgl & pgx & pgr & E1 & E2 & E3 & E4 & E5 & E6 & E7 & E8 & E9).
  assert (Hkr : kr <> []). { intros ->. rewrite E1, app_nil_r in Hm2. lia. }
  inversion E7 as [|k b d ks o os e1 e2 p1 p2 HR Hrc]; subst; [congruence|].
  exists k, (esl ++ esx ++ []), (e1 ++ e2), (pgl ++ pgx ++ []), (p1 ++ p2).
  split. { rewrite E1, nth_error_app2 by lia. rewrite E4, Nat.sub_diag. reflexivity. }
  split. { rewrite app_nil_r, <- app_assoc. reflexivity. }
  split. { rewrite app_nil_r, <- app_assoc. reflexivity. }
  unfold split_left, split_right. rewrite Hlf. rewrite E1, E2.
  split.
  - eapply body_join with (kl := kl) (kr := []) (ol := ol) (or := []) (x := x) (a := a) (b := Some k); auto; cbn [keys lptrs iptrs].
    + rewrite firstn_app_exact by auto. rewrite app_nil_r. reflexivity.
    + rewrite firstn_app_exact by auto. destruct kl; [cbn in E4; lia|congruence].
    + replace (ol ++ x :: o :: os) with ((ol ++ [x]) ++ o :: os) by (rewrite <- app_assoc; reflexivity).
      rewrite firstn_app_exact by (rewrite app_length; cbn; lia). reflexivity.
    + constructor.
  - rewrite body_S. exists o, os, b, e1, e2, p1, p2. cbn [keys lptrs iptrs].
    replace (kl ++ k :: ks) with ((kl ++ [k]) ++ ks) by (rewrite <- app_assoc; reflexivity).
    rewrite skipn_app_exact by (rewrite app_length; cbn; lia).
    replace (ol ++ x :: o :: os) with ((ol ++ [x]) ++ o :: os) by (rewrite <- app_assoc; reflexivity).
    rewrite skipn_app_exact by (rewrite app_length; cbn; lia).
    repeat split; auto. intros ->. rewrite E1, app_length in Hm2. cbn in Hm2. lia.
Qed.

Lemma leaf_arith K N q a b d e : 0 <= K <= 2016 -> 1 <= q -> 2*q <= N <= 2*q+1 ->
  (2+K)*q <= a <= (15+K)*q -> (2+K)*(N-q) <= b <= (15+K)*(N-q) -> 2*q <= d <= 15*q -> 2*(N-q) <= e <= 15*(N-q) ->
  4096 < 4 + (a+b) + (d+e) <= 4126 + K -> 4 + a + d <= 4096 /\ 4 + b + e <= 4096.
Proof.
  intros HK Hq HN Ha Hb Hd He Hs.
  assert (H1 : K*2 <= K*q \/ q = 1) by (destruct (Z.eq_dec q 1); [right; auto|left; apply Z.mul_le_mono_nonneg_l; lia]).
  assert (H2 : N = 2*q \/ N = 2*q+1) by lia.
  destruct H1 as [H1| ->].
  - destruct (Z.le_gt_cases 22 K).
    + destruct H2 as [-> | ->]; split; lia.
    + assert (Hq39 : 38 <= q). { destruct (Z.le_gt_cases 38 q); auto. exfalso. assert (K*q <= 21*q) by (apply Z.mul_le_mono_nonneg_r; lia). lia. }
      assert (K*38 <= K*q) by (apply Z.mul_le_mono_nonneg_l; lia). destruct H2 as [-> | ->]; split; lia.
  - destruct H2 as [-> | ->]; split; lia.
Qed.
Lemma inner_arith K N q a b d e x : 0 <= K <= 2016 -> 3 <= N -> 2*q <= N <= 2*q+1 ->
  (2+K)*q <= a <= (15+K)*q -> (2+K)*(N-(q+1)) <= b <= (15+K)*(N-(q+1)) -> 1*(q+1) <= d <= 10*(q+1) ->
  1*(N+1-(q+1)) <= e <= 10*(N+1-(q+1)) -> 2+K <= x <= 15+K ->
  4096 < 4 + (a+x+b) + (d+e) <= 4126 + K -> 4 + a + d <= 4096 /\ 4 + b + e <= 4096.
Proof.
  intros HK H3 HN Ha Hb Hd He Hx Hs.
  assert (Hq : 1 <= q) by lia.
  assert (H1 : K*1 <= K*q) by (apply Z.mul_le_mono_nonneg_l; lia).
  assert (H2 : N = 2*q \/ N = 2*q+1) by lia.
  destruct (Z.le_gt_cases 26 K).
  - destruct H2 as [-> | ->]; split; try lia.
  - assert (Hq39 : 35 <= q). { destruct (Z.le_gt_cases 35 q); auto. exfalso. assert (K*q <= 25*q) by (apply Z.mul_le_mono_nonneg_r; lia). lia. }
    assert (K*35 <= K*q) by (apply Z.mul_le_mono_nonneg_l; lia). destruct H2 as [-> | ->]; split; lia.
Qed.

(** an overfull leaf splits into two leaves that fit a page *)
Lemma leaf_split_sizes c n : codec_ok c -> kw c <= 2016 -> node_ok c n -> is_leaf n = true ->
  pageSize < node_size (cwidth c) n <= pageSize + 30 + kw c ->
  let mid := (length (keys n) / 2)%nat in
  (1 <= mid < length (keys n))%nat /\
  node_ok c (split_left n mid) /\ node_ok c (split_right n mid) /\
  node_size (cwidth c) (split_left n mid) <= pageSize /\ node_size (cwidth c) (split_right n mid) <= pageSize.
Proof.
  intros Hc Hkw (Hs & Hcnt & Hk & Hl & Hi) Hlf Hsz mid.
  assert (Hsh : iptrs n = [] /\ length (lptrs n) = length (keys n)).
  { destruct Hs as [_ [H|[H1 H2]]]; auto. unfold is_leaf in Hlf. rewrite H1 in Hlf. discriminate. }
  destruct Hsh as [Hi0 Hlen]. pose proof (kw_nonneg Hc) as Hkw0.
  assert (HN : (2 <= length (keys n))%nat).
  { destruct (Nat.lt_ge_cases (length (keys n)) 2); auto. exfalso.
    pose proof (ksum_bounds Hc Hk). pose proof (lsum_bounds Hl). unfold node_size in Hsz. rewrite Hi0 in Hsz. cbn [map zsum fold_right] in Hsz.
    assert (zlen (keys n) <= 1) by (unfold zlen; lia). assert (zlen (lptrs n) <= 1) by (unfold zlen; lia).
    pose proof (zlen_nonneg (keys n)). unfold pageSize in *. nia. }
  destruct (lb_div2 HN) as [M1 M2]. fold mid in M1, M2.
  assert (Hdiv : (2 * mid <= length (keys n) <= 2 * mid + 1)%nat).
  { unfold mid. pose proof (Nat.div_mod (length (keys n)) 2). pose proof (Nat.mod_upper_bound (length (keys n)) 2). lia. }
  unfold split_left, split_right. rewrite Hlf.
  pose proof (Forall_firstn mid Hk) as HkL. pose proof (Forall_skipn mid Hk) as HkR.
  pose proof (Forall_firstn mid Hl) as HlL. pose proof (Forall_skipn mid Hl) as HlR.
  pose proof (ksum_bounds Hc HkL) as KL. pose proof (ksum_bounds Hc HkR) as KR.
  pose proof (lsum_bounds HlL) as LL. pose proof (lsum_bounds HlR) as LR.
  destruct (@firstn_skipn_len _ (keys n) mid ltac:(lia)) as [Z1 Z2].
  destruct (@firstn_skipn_len _ (lptrs n) mid ltac:(lia)) as [Z3 Z4].
  rewrite Z1 in KL. rewrite Z2 in KR. rewrite Z3 in LL. rewrite Z4 in LR.
  unfold node_size in *. cbn [keys lptrs iptrs]. rewrite Hi0 in Hsz. cbn [map zsum fold_right] in *.
  rewrite (zsum_split (key_size (cwidth c)) (keys n) mid) in Hsz.
  rewrite (zsum_split lptr_size (lptrs n) mid) in Hsz.
  set (a := zsum (map (key_size (cwidth c)) (firstn mid (keys n)))) in *.
  set (b := zsum (map (key_size (cwidth c)) (skipn mid (keys n)))) in *.
  set (d := zsum (map lptr_size (firstn mid (lptrs n)))) in *.
  set (e := zsum (map lptr_size (skipn mid (lptrs n)))) in *.
  assert (EN : zlen (lptrs n) = zlen (keys n)) by (unfold zlen; lia).
  rewrite EN in *. set (N := zlen (keys n)) in *. set (K := kw c) in *.
  assert (HMz : 2 * Z.of_nat mid <= N <= 2 * Z.of_nat mid + 1) by (unfold N, zlen; lia).
  assert (HMz1 : 1 <= Z.of_nat mid) by lia.
  set (q := Z.of_nat mid) in *.
  unfold pageSize in *.
  assert (Bnd : 4 + a + d <= 4096 /\ 4 + b + e <= 4096).
  { eapply leaf_arith with (K:=K) (N:=N) (q:=q); lia. }
  split; [lia|].
  assert (NOK : forall k l, Forall (key_ok c) k -> Forall mptr_ok l -> k <> [] -> length l = length k ->
     4 + zsum (map (key_size (cwidth c)) k) + zsum (map lptr_size l) <= 4096 -> node_ok c (mkNode k l [])).
  { intros k l K1 K2 K3 K4 K5. apply node_ok_intro; auto; cbn [keys lptrs iptrs].
    - split; cbn [keys lptrs iptrs]; auto.
    - constructor.
    - unfold node_size; cbn [keys lptrs iptrs map zsum fold_right]. unfold zsum in *. lia. }
  split; [|split; [|split]].
  - apply NOK; auto; try (unfold a, d in Bnd; lia).
    + intros E. rewrite E in Z1. change (zlen (@nil rv)) with 0 in Z1. lia.
    + rewrite !firstn_length; lia.
  - apply NOK; auto; try (unfold b, e in Bnd; lia).
    + intros E. rewrite E in Z2. change (zlen (@nil rv)) with 0 in Z2. fold N in Z2. lia.
    + rewrite !skipn_length; lia.
  - unfold zsum in *. lia.
  - unfold zsum in *. lia.
Qed.

Lemma inner_split_sizes c n : codec_ok c -> kw c <= 2016 -> node_ok c n -> is_leaf n = false ->
  pageSize < node_size (cwidth c) n <= pageSize + 30 + kw c ->
  let mid := (length (keys n) / 2)%nat in
  (1 <= mid)%nat /\ (mid + 1 < length (keys n))%nat /\
  node_ok c (split_left n mid) /\ node_ok c (split_right n mid) /\
  node_size (cwidth c) (split_left n mid) <= pageSize /\ node_size (cwidth c) (split_right n mid) <= pageSize.
Proof.
  intros Hc Hkw (Hs & Hcnt & Hk & Hl & Hi) Hlf Hsz mid.
  assert (Hsh : lptrs n = [] /\ length (iptrs n) = S (length (keys n))).
  { destruct Hs as [Hne [[H1 H2]|H]]; auto. unfold is_leaf in Hlf. destruct (lptrs n); auto; [|discriminate].
    destruct (keys n); [congruence|cbn in H2; lia]. }
  destruct Hsh as [Hl0 Hlen]. pose proof (kw_nonneg Hc) as Hkw0.
  assert (HN : (3 <= length (keys n))%nat).
  { destruct (Nat.lt_ge_cases (length (keys n)) 3); auto. exfalso.
    pose proof (ksum_bounds Hc Hk). pose proof (isum_bounds Hi). unfold node_size in Hsz. rewrite Hl0 in Hsz. cbn [map zsum fold_right] in Hsz.
    assert (zlen (keys n) <= 2) by (unfold zlen; lia). assert (zlen (iptrs n) <= 3) by (unfold zlen; lia).
    pose proof (zlen_nonneg (keys n)). unfold pageSize in *. nia. }
  assert (Hdiv : (2 * mid <= length (keys n) <= 2 * mid + 1)%nat).
  { unfold mid. pose proof (Nat.div_mod (length (keys n)) 2). pose proof (Nat.mod_upper_bound (length (keys n)) 2). lia. }
  unfold split_left, split_right. rewrite Hlf.
  pose proof (Forall_firstn mid Hk) as HkL. pose proof (Forall_skipn (S mid) Hk) as HkR.
  pose proof (Forall_firstn (S mid) Hi) as HiL. pose proof (Forall_skipn (S mid) Hi) as HiR.
  pose proof (ksum_bounds Hc HkL) as KL. pose proof (ksum_bounds Hc HkR) as KR.
  pose proof (isum_bounds HiL) as IL. pose proof (isum_bounds HiR) as IR.
  destruct (@firstn_skipn_len _ (keys n) mid ltac:(lia)) as [Z1 _].
  destruct (@firstn_skipn_len _ (keys n) (S mid) ltac:(lia)) as [_ Z2].
  destruct (@firstn_skipn_len _ (iptrs n) (S mid) ltac:(lia)) as [Z3 Z4].
  rewrite Z1 in KL. rewrite Z2 in KR. rewrite Z3 in IL. rewrite Z4 in IR.
  unfold node_size in *. cbn [keys lptrs iptrs]. rewrite Hl0 in Hsz. cbn [map zsum fold_right] in *.
  assert (Hmidk : exists k, nth_error (keys n) mid = Some k /\ zsum (map (key_size (cwidth c)) (keys n)) =
      zsum (map (key_size (cwidth c)) (firstn mid (keys n))) + key_size (cwidth c) k + zsum (map (key_size (cwidth c)) (skipn (S mid) (keys n)))).
  { destruct (nth_error (keys n) mid) as [k|] eqn:E; [|apply nth_error_None in E; lia].
    exists k. split; auto. rewrite (zsum_split (key_size (cwidth c)) (keys n) mid).
    apply nth_error_split in E. destruct E as (u & v & Eu & Lu).
    assert (S1 : skipn mid (keys n) = k :: v).
    { rewrite Eu, <- Lu, skipn_app, skipn_all, Nat.sub_diag. reflexivity. }
    assert (S2 : skipn (S mid) (keys n) = v).
    { rewrite Eu. replace (u ++ k :: v) with ((u ++ [k]) ++ v) by (rewrite <- app_assoc; reflexivity).
      apply skipn_app_exact. rewrite app_length, Lu. cbn [length]. lia. }
    rewrite S1, S2.
    cbn [map zsum fold_right]. unfold zsum. lia. }
  destruct Hmidk as (k & Ek & Esum). rewrite Esum in Hsz.
  assert (Hkk : key_ok c k) by (rewrite Forall_forall in Hk; apply Hk; eapply nth_error_In; eauto).
  pose proof (key_size_bounds Hc Hkk) as KK.
  rewrite (zsum_split iptr_size (iptrs n) (S mid)) in Hsz.
  set (a := zsum (map (key_size (cwidth c)) (firstn mid (keys n)))) in *.
  set (b := zsum (map (key_size (cwidth c)) (skipn (S mid) (keys n)))) in *.
  set (d := zsum (map iptr_size (firstn (S mid) (iptrs n)))) in *.
  set (e := zsum (map iptr_size (skipn (S mid) (iptrs n)))) in *.
  set (x := key_size (cwidth c) k) in *.
  assert (EN : zlen (iptrs n) = zlen (keys n) + 1) by (unfold zlen; lia).
  rewrite EN in *. set (N := zlen (keys n)) in *. set (K := kw c) in *.
  assert (HMz : 2 * Z.of_nat mid <= N <= 2 * Z.of_nat mid + 1) by (unfold N, zlen; lia).
  assert (HN3 : 3 <= N) by (unfold N, zlen; lia).
  replace (Z.of_nat (S mid)) with (Z.of_nat mid + 1) in * by lia.
  set (q := Z.of_nat mid) in *.
  unfold pageSize in *.
  assert (Bnd : 4 + a + d <= 4096 /\ 4 + b + e <= 4096).
  { eapply inner_arith with (K:=K) (N:=N) (q:=q) (x:=x); lia. }
  split; [lia|]. split; [lia|].
  assert (NOK : forall k l, Forall (key_ok c) k -> Forall (fun o => 0 <= o < 2^64) l -> k <> [] -> length l = S (length k) ->
     4 + zsum (map (key_size (cwidth c)) k) + zsum (map iptr_size l) <= 4096 -> node_ok c (mkNode k [] l)).
  { intros k' l K1 K2 K3 K4 K5. apply node_ok_intro; auto; cbn [keys lptrs iptrs].
    - split; cbn [keys lptrs iptrs]; auto.
    - constructor.
    - unfold node_size; cbn [keys lptrs iptrs map zsum fold_right]. unfold zsum in *. lia. }
  split; [|split; [|split]].
  - apply NOK; auto; try (unfold a, d in Bnd; lia).
    + intros E. rewrite E in Z1. change (zlen (@nil rv)) with 0 in Z1. lia.
    + rewrite !firstn_length; lia.
  - apply NOK; auto; try (unfold b, e in Bnd; lia).
    + intros E. rewrite E in Z2. change (zlen (@nil rv)) with 0 in Z2. fold N in Z2. lia.
    + rewrite !skipn_length; lia.
  - unfold zsum in *. lia.
  - unfold zsum in *. lia.
Qed.
