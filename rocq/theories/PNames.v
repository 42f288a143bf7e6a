(** C23, C40: field names near the limit of a slot (pkg/linkedpage/linkedpage.go:122-162). *)
From Verif Require Import Base Varint Store PageFile PageHist RefValue Node LinkedPage BPTree BPRepr BPIter BPInsert BPLoop BPTop PTree Meta Slots SlotAdd PSlots Cells IndexFile IFileInv PIndex Json Jsonl JsonDoc JsonlSpec PJsonl PJsonlEx.

Lemma slot_before f ms n k k' o b : mchain f ms n -> (k' < k)%nat -> (k < n)%nat ->
  root_off (slot ms k) <= o -> o + zlen b <= root_off (slot ms k) + 268 -> slot_same f (upd f o b) (slot ms k').
Proof.
  intros H Hlt Hk Ho Hb. assert (Hk' : (k' < n)%nat) by lia. pose proof (zlen_nonneg b).
  pose proof (slot_idx H Hk) as Hj0. destruct (nth_ok H Hj0) as [(P1 & P2 & P3 & P4) _]. pose proof (slot_idx H Hk') as Hj1. destruct (nth_ok H Hj1) as [(Q1 & Q2 & Q3 & Q4) _].
  rewrite (root_off_slot H Hk) in *. unfold slot_same. rewrite (root_off_slot H Hk').
  apply slice_upd_disj; [unfold pageSize in *; lia|unfold pageSize in *; lia|].
  destruct (Nat.eq_dec (k / 15) (k' / 15)) as [E|Hne].
  - rewrite E in *. assert (k = 15 * (k / 15) + k mod 15)%nat by (apply Nat.div_mod; lia). assert (k' = 15 * (k' / 15) + k' mod 15)%nat by (apply Nat.div_mod; lia).
    left. lia.
  - assert (Hn : nth (k / 15) ms 0 <> nth (k' / 15) ms 0) by (intros X; apply Hne, (nth_inj (mc_nd H)); auto).
    destruct (aligned_disj P2 Q2 Hn); unfold pageSize in *; lia.
Qed.
(** the walk over the slots, from the metadata alone *)
Lemma pass name ft ms n : forall d k fuel s, mchain (file s) ms n -> (d <= fuel)%nat -> (k + d < n)%nat ->
  (forall j, (k <= j < k + d)%nat -> exists b m, meta_is (file s) (slot ms (S j)) b /\ zlen b <= 252 /\ index_meta_unmarshal b = Ok m /\
     name_eqb (im_name m) name && (im_type m =? ft) = false) ->
  exists p, find_or_create_from fuel (slot ms k) name ft s = find_or_create_from (fuel - d) (slot ms (k + d)) name ft (set_pos s p).
Proof.
  induction d as [|d IH]; intros k fuel s H Hfu Hn Hno.
  - exists (pos s). rewrite Nat.sub_0_r, Nat.add_0_r. destruct s; reflexivity.
  - destruct fuel as [|fuel]; [lia|]. cbn [find_or_create_from].
    destruct (Hno k ltac:(lia)) as (b & m & Hb & Lb & Em & Ne).
    destruct (@lp_next_ok s ms n k H ltac:(lia)) as (p & E). rewrite E. destruct (Nat.ltb_spec (S k) n); [|lia].
    assert (Hsl : slot_ok (file s) (slot ms (S k))) by (apply (slot_okk H); lia).
    destruct (@lp_metadata_ok (set_pos s p) _ _ Hsl Hb) as (q & E2); [lia|].
    rewrite (@bind_ok _ _ _ _ _ _ _ _ E2). rewrite (@bind_ok _ _ _ (lift (index_meta_unmarshal b)) _ _ m (set_pos (set_pos s p) q)) by (unfold lift; rewrite Em; reflexivity).
    rewrite Ne. destruct (IH (S k) fuel (set_pos (set_pos s p) q)) as (r & Er).
    + exact H.
    + lia.
    + lia.
    + intros j Hj. apply Hno. lia.
    + exists r. rewrite Er. cbn [Nat.sub]. replace (S k + d)%nat with (k + S d)%nat by lia. reflexivity.
Qed.
(** C23 fails for names of 248 bytes: for every index file and every such name that is not an
    index yet, FindOrCreateIndex succeeds; but from then on FindOrCreateIndex panics for this
    name, and for every other name and type that was not an index before. *)
Theorem C23_longest_name_refuted wd parse D fm l s name ft : widths_ok wd -> ifile wd parse D fm l s ->
  (forall ix, In ix l -> ~ (ix_name ix = name /\ ix_type ix = ft)) -> zlen (file s) < 2^60 -> zlen name = 248 ->
  exists m s', find_or_create file_slot name ft s = (Ok (m, IM name ft (determine_type ft) 0), s') /\
    forall name2 ft2, (forall ix, In ix l -> ~ (ix_name ix = name2 /\ ix_type ix = ft2)) ->
      exists s2, find_or_create file_slot name2 ft2 s' = (Panic, s2).
Proof.
  intros Hwd Hi Hno Hf Hname. destruct (ifile_holds Hwd Hi) as (HD & fl & ms & x0 & L & H).
  assert (Hnos : forall n2 f2, (forall ix, In ix l -> ~ (ix_name ix = n2 /\ ix_type ix = f2)) -> forall j ix, (0 <= j)%nat -> nth_error l j = Some ix -> ~ same_index n2 f2 ix).
  { intros n2 f2 Hx j ix _ Hj X. eapply Hx; [eapply nth_error_In; eauto|exact X]. }
  destruct (@find_from_none _ name ft (length l) 0%nat (fuel_of s) s fm l fl ms x0 L H eq_refl (Hnos _ _ Hno) (holds_fuel H)) as (p & E).
  pose proof (holds_len H) as Hlen.
  destruct (@cells_add (set_pos s p) fl ms (x0 :: L) (ix_codec wd parse D 0) (cells_pos p (ho_cells H)) (@ix_codec_ok wd parse D 0 Hwd HD) Hf) as (s1 & ms' & fl' & E1 & C1 & K1 & S1 & Z1).
  cbn [length] in E1. rewrite tail_is_slot in E1. rewrite <- Hlen in E1.
  assert (Em : exists b, index_meta_marshal (IM name ft (determine_type ft) 0) = Ok b /\ zlen b = 255).
  { rewrite index_meta_marshal_eq by (cbn; lia). eexists. split; [reflexivity|]. cbn [im_name im_total im_type im_width]. rewrite !zlen_app, !zlen_le.
    change (zlen (put_uvarint 0)) with 1. lia. }
  destruct Em as (b & Em & Lb).
  set (n := length ((x0 :: L) ++ [Cell [] (ix_codec wd parse D 0) [] []])) in *.
  assert (Hn : n = S (S (length l))) by (unfold n; rewrite app_length; cbn [length]; lia).
  pose proof (cl_chain C1) as Hch. fold n in Hch.
  assert (Hso : slot_ok (file s1) (slot ms' (S (length l)))) by (apply (slot_okk Hch); lia).
  destruct (@lp_set_metadata_ok s1 _ b Hso (cl_bud C1)) as (q & Eset); [lia|].
  set (f2 := upd (file s1) (root_off (slot ms' (S (length l))) + 12) (zlen b :: b)) in *.
  assert (Hz : zlen (zlen b :: b) = 256) by (rewrite zlen_cons; lia).
  destruct (@mchain_slot_write (file s1) ms' n (S (length l)) (root_off (slot ms' (S (length l))) + 12) (zlen b :: b) Hch) as (Hch2 & _); [lia|lia|lia|].
  exists (slot ms' (S (length l))), (set_pos (set_file s1 f2) q). split.
  - unfold find_or_create. rewrite <- (holds_slot0 H). rewrite E. cbv zeta. rewrite (@bind_ok _ _ _ _ _ _ _ _ E1).
    rewrite (@bind_ok _ _ _ (lift (index_meta_marshal (IM name ft (determine_type ft) 0))) _ s1 b s1) by (unfold lift; rewrite Em; reflexivity).
    rewrite (@bind_ok _ _ _ _ _ _ _ _ Eset). reflexivity.
  - intros name2 ft2 Hno2. set (s2 := set_pos (set_file s1 f2) q).
    assert (E0 : slot ms' 0 = file_slot) by (unfold slot, file_slot; change (0 / 15)%nat with 0%nat; rewrite (cl_first C1); reflexivity).
    pose proof (cells_fuel C1) as Hfu. fold n in Hfu.
    assert (Hl2 : fuel_of s2 = fuel_of s1).
    { unfold fuel_of, s2. cbn [file set_pos set_file]. f_equal. unfold f2. apply Nat2Z.inj. change (zlen (upd (file s1) (root_off (slot ms' (S (length l))) + 12) (zlen b :: b)) = zlen (file s1)).
      pose proof (root_off_bounds Hso) as (B1 & B2 & B3 & B4 & B5). destruct Hso as ((P1 & P2 & P3 & P4) & _ & _). rewrite zlen_upd; rewrite ?Hz; unfold pageSize in *; lia. }
    destruct (@pass name2 ft2 ms' n (length l) 0%nat (fuel_of s2) s2 Hch2) as (r & Er); [lia|lia| |].
    { intros j Hj. destruct (nth_error l j) as [iy|] eqn:Ey; [|apply nth_error_None in Ey; lia].
      destruct (forall2_nth (ho_ix H) _ Ey) as (x & Hx & (D1 & D2 & D3 & D4 & D5)).
      assert (Hx' : nth_error ((x0 :: L) ++ [Cell [] (ix_codec wd parse D 0) [] []]) (S j) = Some x).
      { cbn [app nth_error]. rewrite nth_error_app1 by (apply nth_error_Some; congruence). exact Hx. }
      destruct (cl_at C1 _ Hx') as (M1 & M2 & _). exists (c_meta x), (ix_meta iy). split; [|split; [exact M2|split]].
      - apply (@slot_same_meta (file s1) f2 _ _ (cells_slot _ C1 Hx')); auto. apply (@slot_before (file s1) ms' n (S (length l))); auto; try lia.
      - apply index_unmarshal_exact; auto.
      - destruct (name_eqb (im_name (ix_meta iy)) name2 && (im_type (ix_meta iy) =? ft2)) eqn:Eb; auto. exfalso.
        apply (Hnos _ _ Hno2 j iy); [lia|auto|]. apply same_indexb_spec. exact Eb. }
    cbn [Nat.add] in Er. destruct (fuel_of s2 - length l)%nat as [|fu] eqn:Efu; [lia|].
    unfold find_or_create. rewrite <- E0, Er. cbn [find_or_create_from].
    destruct (@lp_next_ok (set_pos s2 r) ms' n (length l) Hch2) as (t & Et); [lia|]. rewrite Et. destruct (Nat.ltb_spec (S (length l)) n); [|lia].
    assert (Hso2 : slot_ok f2 (slot ms' (S (length l)))) by (apply (slot_okk Hch2); lia).
    destruct (@lp_metadata_gen (set_pos (set_pos s2 r) t) (slot ms' (S (length l))) b Hso2) as (v & Ev); [apply meta_is_upd; [exact Hso|lia]|lia|].
    rewrite Lb in Ev. cbn [Z.leb Z.compare] in Ev. unfold bind. change (255 <=? 254) with false in Ev. cbv iota in Ev. rewrite Ev. eexists. reflexivity.
Qed.

(** *** C40 *)
(** the line {"aa...a":"xx...x","b":"y"} with a name of [n] and a value of [k] letters *)
Definition long_line (n k : nat) : line := LN [] [] (MCons [] (repeat 97 n) [] [] (JStr (repeat 120 k)) [] (MCons [] [98] [] [] (JStr [121]) [] MNil)) [].
Lemma body_repeat c n : c <> 34 -> c <> 92 -> 32 <= c < 127 -> str_body (repeat c n).
Proof. intros H1 H2 H3. induction n as [|n IH]; cbn [repeat]; constructor; auto; lia. Qed.
Lemma long_line_wf n k : line_wf tf (long_line n k) /\ mtight (ln_members (long_line n k)).
Proof.
  unfold long_line, line_wf. cbn [ln_before ln_ws ln_members ln_after vwf mwf mtight vtight].
  assert (B : forall m, str_body (repeat 97 m)) by (intros; apply body_repeat; lia). assert (B' : forall m, str_body (repeat 120 m)) by (intros; apply body_repeat; lia).
  repeat match goal with |- _ /\ _ => split | |- ws [] => constructor | |- str_body (repeat _ _) => first [apply B|apply B'] | |- True => exact I | |- str_body [_] => body | |- [] = [] => reflexivity end.
Qed.
(** the data file: this line twice *)
Definition twice (n k : nat) : bytes := data_of [long_line n k; long_line n k] [].
Definition s247 : st := snd (sync (twice 247 1) (fresh KMmap)).
Definition found247 : res (lp * index_meta) * bool :=
  let r := find_or_create file_slot (repeat 97 247%nat) FTString s247 in
  (fst r, if list_eq_dec Z.eq_dec (file (snd r)) (file s247) then true else false).
Lemma find247 : found247 = (Ok (LP 4096 3, IM (repeat 97 247%nat) FTString (determine_type FTString) 3), true).
Proof. vm_compute. reflexivity. Qed.
Lemma reads_of {A} (m : M st A) s a b : (let r := m s in (fst r, if list_eq_dec Z.eq_dec (file (snd r)) (file s) then true else false)) = (Ok a, b) -> b = true -> reads s m a.
Proof.
  cbv zeta. destruct (m s) as [r q] eqn:E. cbn [fst snd]. destruct (list_eq_dec Z.eq_dec (file q) (file s)) as [Ef|]; intros H Hb; [|congruence]. exists q. split; [congruence|exact Ef].
Qed.
Lemma reads247 : reads s247 (find_or_create file_slot (repeat 97 247%nat) FTString) (LP 4096 3, IM (repeat 97 247%nat) FTString (determine_type FTString) 3).
Proof. apply (@reads_of _ _ s247 _ true); [exact find247|reflexivity]. Qed.
(** C40 fails for long names. A name of 247 bytes: Synchronize of the two lines succeeds,
    but the index of the field that FindOrCreateIndex finds has the second line only
    (storing the root of the next index changed the stored name, and the second line
    made a second index). *)
Theorem C40_long_name_loses_a_line_refuted : line_wf tf (long_line 247 1) /\ mtight (ln_members (long_line 247 1)) /\
  let D := twice 247 1 in let s := s247 in
  life D (fresh KMmap) /\ fst (sync D (fresh KMmap)) = Ok tt /\
  entries_of un tf gr [] (occs un 0 [long_line 247 1; long_line 247 1]) (repeat 97 247%nat, FTString) = [(RV (MP 251 3) [120], MP 0 263); (RV (MP 515 3) [120], MP 264 263)] /\
  exists m, reads s (find_or_create file_slot (repeat 97 247%nat) FTString) (m, IM (repeat 97 247%nat) FTString (determine_type FTString) 3) /\
    walk (mkCodec (determine_type FTString) D (jparse un tf)) m s least 5 = Ok [(RV (MP 515 3) [120], MP 264 263)].
Proof.
  destruct (long_line_wf 247 1) as [W T]. split; [exact W|]. split; [exact T|]. cbv zeta. split; [apply life_of; vm_compute; reflexivity|].
  split; [vm_compute; reflexivity|]. split; [vm_compute; reflexivity|]. exists (LP 4096 3). split; [exact reads247|vm_compute; reflexivity].
Qed.
(** A name of 246 bytes, or one of 245 bytes once its values have 128 bytes: Synchronize of
    the two lines panics (storing the total of the index changed the root of the next one). *)
Theorem C40_long_name_panics_refuted : line_wf tf (long_line 246 1) /\ line_wf tf (long_line 245 126) /\
  life (twice 246 1) (fresh KMmap) /\ life (twice 245 126) (fresh KMmap) /\
  fst (sync (twice 246 1) (fresh KMmap)) = Panic /\ fst (sync (twice 245 126) (fresh KMmap)) = Panic.
Proof.
  split; [apply long_line_wf|]. split; [apply long_line_wf|]. split; [apply life_of; vm_compute; reflexivity|]. split; [apply life_of; vm_compute; reflexivity|].
  split; vm_compute; reflexivity.
Qed.
(** the hypotheses of [C23_longest_name_refuted] are met by the empty index file *)
Example C23_longest_name_example : exists m s', find_or_create file_slot (repeat 97 248%nat) FTString (fresh KMmap) = (Ok (m, IM (repeat 97 248%nat) FTString (determine_type FTString) 0), s') /\
  exists s2, find_or_create file_slot (repeat 97 248%nat) FTString s' = (Panic, s2).
Proof.
  assert (Hwd : widths_ok determine_type) by (intros ft; pose proof (determine_type_range ft); lia).
  pose proof (@if_new determine_type (jparse un tf) KMmap 0 (opened KMmap) file_slot (fresh KMmap) ltac:(lia) ltac:(vm_compute; reflexivity) ltac:(vm_compute; reflexivity)) as Hi.
  destruct (@C23_longest_name_refuted _ _ _ _ _ _ (repeat 97 248%nat) FTString Hwd Hi) as (m & s' & E & G); [intros ix []|vm_compute; reflexivity|vm_compute; reflexivity|].
  exists m, s'. split; [exact E|]. apply G. intros ix [].
Qed.
