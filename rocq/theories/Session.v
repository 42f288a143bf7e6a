(** A browser session that stays open while the indexer runs again: src/file/multi.ts and
    src/file/index-file.ts, what they keep between queries. *)
From Coq Require Import Permutation.
From Verif Require Import Base Varint Store PageFile PageHist RefValue Node LinkedPage BPTree BPRepr BPIter BPInsert BPLoop BPTop PTree Meta TsCodec Slots SlotAdd PSlots Cells IndexFile IFileInv PIndex Query QTree TsFile Crash PCrash.

(** ** Model *)
(** The contents [f0] of the index file when the session made its first query, and the contents
    [f] now. LinkedMetaPage.getMetaPage (src/file/multi.ts:59-73) keeps the page it fetched, and
    next() (src/file/multi.ts:75-97) hands it on to the other slots of the same page. IndexFileV1.tree()
    (src/file/index-file.ts:54-63) keeps the first LinkedMetaPage for the life of the object, so the page at
    4096 is never fetched again; the objects for slots on other pages are made anew by each walk. *)
Definition src (f0 f : bytes) (m : lp) : bytes := if lp_off m =? lp_off ts_tree then f0 else f.
(** the walk of seek: src/file/index-file.ts:72-109 *)
Fixpoint ss_pages (fuel : nat) (f0 f : bytes) (m : lp) : res (list lp) :=
  match fuel with
  | O => Hang
  | S fuel' =>
      n <-- ts_mp_next (src f0 f m) m ;;;
      match n with
      | None => Ok [m]
      | Some m' => rest <-- ss_pages fuel' f0 f m' ;;; Ok (m :: rest)
      end
  end.
(** src/file/index-file.ts:76-80 *)
Definition ss_index_pages (fuel : nat) (f0 f : bytes) : res (list lp) :=
  n <-- ts_mp_next (src f0 f ts_tree) ts_tree ;;;
  match n with
  | None => Err (EMsg "failed to fetch meta pages")
  | Some m => ss_pages fuel f0 f m
  end.
(** src/file/index-file.ts:84-99 *)
Fixpoint ss_metas (f0 f : bytes) (ms : list lp) : res (list index_meta) :=
  match ms with
  | [] => Ok []
  | m :: rest => im <-- ts_index_meta (src f0 f m) m ;;; l <-- ss_metas f0 f rest ;;; Ok (im :: l)
  end.
(** seek: src/file/index-file.ts:72-109 *)
Definition ss_seek (fuel : nat) (f0 f : bytes) (name : bytes) (ft : Z) : res (list lp) :=
  ms <-- ss_index_pages fuel f0 f ;;;
  ims <-- ss_metas f0 f ms ;;;
  Ok (map fst (filter (fun x => ts_accepts name ft (snd x)) (combine ms ims))).
Section Run.
  Variable parse : bytes -> option bytes.
  (** one clause: src/db/database.ts:191-421; a BPTree is made for each clause, its nodes are read now *)
  Definition ss_clause (fuel : nat) (f0 f D : bytes) (headers : list bytes) (dir : qdir) (w : clause) (n : nat) : res (list bytes) :=
    if negb (existsb (name_eqb (w_key w)) headers) then Err (EMsg "field not found")
    else
      match process_where (w_val w) with
      | None => Err (EMsg "unable to process key")
      | Some (ft, valueBuf) =>
          mps <-- ss_seek fuel f0 f (w_key w) ft ;;;
          match mps with
          | [] => js_throw
          | mp :: _ =>
              im <-- ts_index_meta (src f0 f mp) mp ;;;
              where_tree fuel (ts_rd (mkCodec (im_width im) D parse) f) (ts_mp_root (src f0 f mp) mp) D (w_op w) dir valueBuf n
          end
      end.
  (** the loop over the clauses: src/db/database.ts:191-421 *)
  Fixpoint ss_clauses (fuel : nat) (f0 f D : bytes) (headers : list bytes) (dir : qdir) (ws : list clause) (n : nat) : res (list bytes) :=
    match ws with
    | [] => Ok []
    | w :: rest =>
        r <-- ss_clause fuel f0 f D headers dir w n ;;;
        r' <-- (if (length r <? n)%nat then ss_clauses fuel f0 f D headers dir rest (n - length r) else Ok []) ;;;
        Ok (r ++ r')
    end.
  (** query(query) on a Database opened when the index file was [f0]: src/db/database.ts:102-113 and
      191-422. The file metadata is in the kept page; the headers were collected by the first query
      (src/file/index-file.ts:111-147 keeps linkedMetaPages, and the metadata of their pages). [D] is the data
      file now. *)
  Definition ss_query (fuel : nat) (f0 f D : bytes) (q : query) (n : nat) : res (list bytes) :=
    if (1 <? length (first_appearances (map w_key (qy_where q))))%nat then Err (EMsg "composite indexes not supported... yet")
    else
      fm <-- ts_if_metadata f0 ;;;
      headers <-- ts_header_names fuel f0 ;;;
      ss_clauses fuel f0 f D headers (match qy_order q with d :: _ => d | [] => Asc end) (qy_where q) n.
End Run.

(** ** Sanity: with an unchanged file a session answers as a new one *)
Lemma src_same f m : src f f m = f.
Proof. unfold src. destruct (_ =? _); reflexivity. Qed.
Lemma ss_pages_same f : forall fuel m, ss_pages fuel f f m = ts_pages fuel f m.
Proof.
  induction fuel as [|fuel IH]; intros m; [reflexivity|]. cbn [ss_pages ts_pages]. rewrite src_same.
  destruct (ts_mp_next f m) as [[m'|]| | | |]; cbn [rbind]; auto. rewrite IH. reflexivity.
Qed.
Lemma ss_metas_same f : forall ms, ss_metas f f ms = ts_metas f ms.
Proof. induction ms as [|m ms IH]; [reflexivity|]. cbn [ss_metas ts_metas]. rewrite src_same, IH. reflexivity. Qed.
Lemma ss_query_same parse fuel f D q n : ss_query parse fuel f f D q n = ts_query parse fuel f D q n.
Proof.
  unfold ss_query, ts_query. destruct (1 <? _)%nat; [reflexivity|]. destruct (ts_if_metadata f); cbn [rbind]; auto. destruct (ts_header_names fuel f) as [hs| | | |]; cbn [rbind]; auto.
  generalize (match qy_order q with [] => Asc | d :: _ => d end); intros dir. revert n. induction (qy_where q) as [|w ws IH]; intros n; [reflexivity|].
  cbn [ss_clauses ts_clauses].
  assert (E : ss_clause parse fuel f f D hs dir w n = ts_clause parse fuel f D hs dir w n).
  { unfold ss_clause, ts_clause. destruct (negb _); auto. destruct (process_where (w_val w)) as [[ft vb]|]; auto.
    assert (ss_seek fuel f f (w_key w) ft = ts_seek fuel f (w_key w) ft) as ->.
    { unfold ss_seek, ts_seek, ss_index_pages, ts_index_pages. rewrite src_same. destruct (ts_mp_next f ts_tree) as [[m'|]| | | |]; cbn [rbind]; auto.
      rewrite ss_pages_same. destruct (ts_pages fuel f m'); cbn [rbind]; auto. rewrite ss_metas_same. reflexivity. }
    destruct (ts_seek fuel f (w_key w) ft) as [[|mp ?]| | | |]; cbn [rbind]; auto. rewrite src_same. reflexivity. }
  rewrite E. destruct (ts_clause parse fuel f D hs dir w n) as [r| | | |]; cbn [rbind]; auto. destruct (length r <? n)%nat; auto. rewrite IH. reflexivity.
Qed.

(** ** Subtrees *)
Lemma body_lo_widen F : forall h lo hi n es pg, body F h lo hi n es pg -> body F h None hi n es pg.
Proof.
  induction h as [|h IH]; intros lo hi n es pg Hb.
  - cbn [body] in *. destruct Hb as (B1 & B2 & B3 & B4 & B5 & B6 & B7 & B8). repeat split; auto.
    eapply Forall_impl; [|exact B7]. intros a [X Y]. split; [exact I|auto].
  - rewrite body_S in *. destruct Hb as (o & os & b & e1 & e2 & p1 & p2 & B1 & B2 & B3 & (n' & pg' & X1 & X2 & X3) & B5 & B6 & B7).
    exists o, os, b, e1, e2, p1, p2. repeat (split; [solve [auto]|]). split; [|auto]. exists n', pg'. split; auto. split; eauto.
Qed.
Lemma repr_open F h lo hi off es pg : repr F h lo hi off es pg -> repr F h None None off es pg.
Proof.
  intros (n & pg' & X1 & X2 & X3). exists n, pg'. split; auto. split; auto. apply body_lo_widen in X2. destruct hi as [k|]; auto.
  eapply body_widen; [|exact X2]. intros; exact I.
Qed.
Lemma body_two F h lo hi n es pg : body F (S h) lo hi n es pg -> (2 <= length es)%nat.
Proof.
  rewrite body_S. intros (o & os & b & e1 & e2 & p1 & p2 & B1 & B2 & B3 & B4 & B5 & -> & _). destruct (repr_good B4) as (G1 & _).
  inversion B5 as [? Ek|k b' d ks o' os' es1 es2 pg1 pg2 R Hc]; subst; [congruence|]. destruct (repr_good R) as (G2 & _). rewrite !app_length.
  destruct e1; [congruence|]. destruct es1; [congruence|]. cbn [length]. lia.
Qed.
Lemma repr_two F h lo hi o es pg : repr F (S h) lo hi o es pg -> (2 <= length es)%nat.
Proof. intros (n & pg' & _ & B & _). eapply body_two; eauto. Qed.

(** the tree below any page of a tree: a run of its entries *)
Theorem repr_sub F h : forall lo hi root es pgs p, repr F h lo hi root es pgs -> In p pgs ->
  exists h' lo' hi' a run z pg, repr F h' lo' hi' p run pg /\ es = a ++ run ++ z /\ (h' <= h)%nat /\ run <> [] /\ incl pg pgs /\
    (p = root -> h' = h /\ a = [] /\ z = []) /\ (p <> root -> a ++ z <> []).
Proof.
  induction h as [|h IH]; intros lo hi root es pgs p R Hp.
  - destruct R as (n & pg' & X1 & X2 & X3). pose proof X2 as X2'. cbn in X2'. destruct X2' as (Ne & _ & _ & _ & Epg & _). subst pgs pg'.
    destruct Hp as [<-|[]]. exists 0%nat, lo, hi, [], es, [], [root]. split; [exists n, []; auto|]. split; [rewrite app_nil_r; reflexivity|].
    split; auto. split; auto. split; [apply incl_refl|]. split; [auto|congruence].
  - destruct (Z.eq_dec p root) as [->|Hne].
    { exists (S h), lo, hi, [], es, [], pgs. split; auto. split; [rewrite app_nil_r; reflexivity|]. split; auto. split; [destruct (repr_good R); auto|]. split; [apply incl_refl|]. split; [auto|congruence]. }
    destruct R as (n & pg' & X1 & X2 & ->). destruct Hp as [E|Hp]; [congruence|].
    (* which child holds p *)
    assert (G : exists lo' hi' o esx pgx esl esr pgl pgr, repr F h lo' hi' o esx pgx /\ es = esl ++ esx ++ esr /\ pg' = pgl ++ pgx ++ pgr /\ In p pgx /\ esl ++ esr <> []).
    { rewrite body_S in X2. destruct X2 as (o & os & b & e1 & e2 & p1 & p2 & B1 & B2 & B3 & B4 & B5 & -> & ->).
      apply in_app_iff in Hp. destruct Hp as [Hp|Hp].
      - exists lo, b, o, e1, p1, [], e2, [], p2. split; auto. split; auto. split; auto. split; auto.
        inversion B5 as [? Ek|k b' d ks o' os' es1 es2 pg1 pg2 R Hc]; subst; [congruence|]. destruct (repr_good R) as (G2 & _). cbn [app]. destruct es1; [congruence|discriminate].
      - assert (Hin : exists lo' hi' o esx pgx esl esr pgl pgr, repr F h lo' hi' o esx pgx /\ e2 = esl ++ esx ++ esr /\ p2 = pgl ++ pgx ++ pgr /\ In p pgx).
        { clear -B5 Hp. revert Hp. generalize (keys n), B5. clear B5. intros ks B5. induction B5 as [d|k b d ks o os es1 es2 pg1 pg2 R Hc IHc]; intros Hp; [destruct Hp|].
          apply in_app_iff in Hp. destruct Hp as [Hp|Hp].
          - exists (Some k), b, o, es1, pg1, [], es2, [], pg2. auto.
          - destruct (IHc Hp) as (lo' & hi' & o' & esx & pgx & esl & esr & pgl & pgr & Y1 & Y2 & Y3 & Y4). subst es2 pg2.
            exists lo', hi', o', esx, pgx, (es1 ++ esl), esr, (pg1 ++ pgl), pgr. split; auto. rewrite <- !app_assoc. auto. }
        destruct Hin as (lo' & hi' & o' & esx & pgx & esl & esr & pgl & pgr & Y1 & Y2 & Y3 & Y4). subst e2 p2.
        exists lo', hi', o', esx, pgx, (e1 ++ esl), esr, (p1 ++ pgl), pgr. split; auto. rewrite <- !app_assoc. split; auto. split; auto. split; auto.
        destruct (repr_good B4) as (G1 & _). destruct e1; [congruence|discriminate]. }
    destruct G as (lo' & hi' & o & esx & pgx & esl & esr & pgl & pgr & Y1 & -> & -> & Y4 & Y5).
    destruct (IH _ _ _ _ _ _ Y1 Y4) as (h' & lo2 & hi2 & a & run & z & pg & Z1 & -> & Z3 & Z4 & Z5 & Z6 & Z7).
    exists h', lo2, hi2, (esl ++ a), run, (z ++ esr), pg. split; auto. split; [rewrite <- !app_assoc; reflexivity|]. split; [lia|]. split; auto.
    split. { intros x Hx. right. apply in_or_app; right. apply in_or_app; left. auto. }
    split; [congruence|]. intros _. destruct esl; [|discriminate]. cbn [app] in *. destruct a; [|discriminate]. destruct z; [exact Y5|discriminate].
Qed.

Lemma height_unique F rd h : rd_ok rd F -> forall h' off lo hi es pg lo' hi' es' pg', repr F h lo hi off es pg -> repr F h' lo' hi' off es' pg' -> h = h'.
Proof.
  intros Hrd. induction h as [|h IH]; intros h' off lo hi es pg lo' hi' es' pg' (n & q & X1 & X2 & _) (n' & q' & Y1 & Y2 & _).
  all: pose proof (Hrd off 0 _ X1) as E; rewrite (Hrd off 0 _ Y1) in E; injection E as <-.
  all: pose proof (body_leaf_dec X2) as LX; pose proof (body_leaf_dec Y2) as LY; rewrite LX in LY.
  - destruct h'; [reflexivity|discriminate].
  - destruct h' as [|h']; [discriminate|]. f_equal. rewrite body_S in X2, Y2.
    destruct X2 as (o & os & b & e1 & e2 & p1 & p2 & _ & _ & B3 & B4 & _). destruct Y2 as (o' & os' & b' & e1' & e2' & p1' & p2' & _ & _ & B3' & B4' & _).
    rewrite B3 in B3'. injection B3' as <- <-. eapply IH; eauto.
Qed.

Lemma ctx_root F st h lo hi off rest esL esR pgs H root : ctx F st h lo hi off rest esL esR pgs H root -> H = h \/ exists n, F root n /\ lptrs n = [] /\ keys n <> [].
Proof.
  induction 1 as [h off|h lo hi off lo' hi' kl ol kr or esl esr pgl pgr p poff ptr rest esL esR pgs H root HF Hs Hlp Hk Hne Hi Hlc Hrc Hctx IH]; [auto|].
  right. destruct rest as [|r rest].
  - inversion Hctx; subst. eauto.
  - destruct IH as [IH|IH]; [|exact IH]. exfalso. clear -IH Hctx.
    assert (forall k lo hi off rest esL esR pgs, ctx F st k lo hi off rest esL esR pgs H root -> H = (k + length rest)%nat) as G.
    { clear. intros k lo hi off rest esL esR pgs Hk. induction Hk; cbn [length] in *; lia. }
    apply G in Hctx. cbn [length] in Hctx. lia.
Qed.

(** ** When an insert moves the root *)
Lemma fit_root c m s tr fl h lo hi off esL es esR pg pgs H root rest s' :
  pf_inv s fl -> budget s = None -> slot_ok (file s) m ->
  ctx (node_at c (file s)) true h lo hi off rest esL esR pgs H root ->
  mp_off (tptr tr) = off -> page_ok (file s) off ->
  body (node_at c (file s)) h lo hi (tnode tr) es pg ->
  node_ok c (tnode tr) -> node_size (cwidth c) (tnode tr) <= pageSize ->
  NoDup (off :: (pg ++ pgs) ++ fl) -> ~ In (lp_off m) (off :: (pg ++ pgs) ++ fl) ->
  write_node c (mp_off (tptr tr)) (tnode tr) s = (Ok tt, s') ->
  root_at (file s') m = root_at (file s) m /\ exists pgs', repr (node_at c (file s')) H None None root (esL ++ es ++ esR) pgs'.
Proof.
  intros Hi Hb Hslot Hctx Htr Hoff Hbody Hnok Hfit Hnd Hlp Hrun.
  rewrite Htr in Hrun. destruct (@write_node_ok c s off (tnode tr) Hb Hoff Hnok Hfit) as (q & E). rewrite E in Hrun. injection Hrun as <-. cbn [file set_pos set_file].
  pose proof (node_at_write Hoff Hnok Hfit) as NW.
  pose proof (enc_node_size Hnok) as ZE.
  pose proof Hoff as (O1 & O2 & O3 & O4).
  pose proof (@zlen_upd _ (file s) (enc_node (cwidth c) (tnode tr)) off ltac:(unfold pageSize in *; lia)) as ZU.
  set (f' := upd (file s) off (enc_node (cwidth c) (tnode tr))) in *.
  assert (Zf : zlen f' = zlen (file s)) by (unfold pageSize in *; lia).
  assert (U : untouched (file s) f' [off] (root_off m)).
  { apply untouched_upd; [unfold pageSize in *; lia|lia|lia|left; auto]. }
  assert (Hal1 : Forall (fun q => q mod pageSize = 0) [off]) by (constructor; auto).
  assert (Hlo : lp_off m <> off) by (intros E0; apply Hlp; left; auto).
  assert (Fr : forall o n, In o (pg ++ pgs) -> node_at c (file s) o n -> node_at c f' o n).
  { intros o n Hin Hn. eapply node_at_frame; [exact Hn| |lia].
    eapply untouched_page; [exact U|exact Hslot|eapply node_at_page_ok; eauto| |exact Hal1|].
    - intros [<-|[]]. inversion Hnd as [|? ? X _]; subst. apply X, in_or_app; auto.
    - intros ->. apply Hlp. right; apply in_or_app; auto. }
  assert (R : repr (node_at c f') h lo hi off es (off :: pg)).
  { exists (tnode tr), pg. split; [exact NW|split; [|auto]].
    eapply body_frame; [exact Hbody|]. intros; apply Fr; auto. apply in_or_app; auto. }
  assert (Hctx' : ctx (node_at c f') true h lo hi off rest esL esR pgs H root).
  { eapply ctx_frame; [exact Hctx|]. intros o n Hin Hn. apply Fr; auto. apply in_or_app; auto. }
  destruct (ctx_plug Hctx' R) as (pgs' & Rp & Pm). split; [|eauto].
  eapply untouched_root_at with (P := [off]) (ro := 0); auto.
  - apply untouched_upd; [unfold pageSize in *; lia|lia|lia|left; auto].
  - intros [E0|[]]; auto.
  - right. pose proof (root_off_bounds Hslot). unfold pageSize in *; lia.
Qed.
Theorem ins_loop_root c m : codec_ok c -> kw c <= 2016 -> forall rest s tr fl h lo hi off esL es esR pg pgs H root rlen s',
  pf_inv s fl -> budget s = None -> slot_ok (file s) m ->
  root_at (file s) m = MP root rlen -> 0 < rlen < 2^32 ->
  ctx (node_at c (file s)) true h lo hi off rest esL esR pgs H root ->
  mp_off (tptr tr) = off -> page_ok (file s) off ->
  body (node_at c (file s)) h lo hi (tnode tr) es pg ->
  node_ok c (tnode tr) -> node_size (cwidth c) (tnode tr) <= pageSize + 30 + kw c ->
  NoDup (off :: (pg ++ pgs) ++ fl) -> ~ In (lp_off m) (off :: (pg ++ pgs) ++ fl) ->
  zlen (file s) + pageSize * (zlen rest + 2) < 2^62 ->
  ins_loop c m tr rest s = (Ok tt, s') ->
  (root_at (file s') m = root_at (file s) m /\ exists pgs', repr (node_at c (file s')) H None None root (esL ++ es ++ esR) pgs') \/
  exists h' esA esB pgA, esL ++ es ++ esR = esA ++ esB /\ (2 <= length esB)%nat /\ repr (node_at c (file s')) h' None None root esA pgA.
Proof.
  intros Hc Hkw. induction rest as [|p rest' IH];
    intros s tr fl h lo hi off esL es esR pg pgs H root rlen s' Hi Hb Hslot Hroot Hrlen Hctx Htr Hoff Hbody Hnok Hsz Hnd Hlp Hf Hrun.
  all: pose proof (pages_ok (body_pages Hbody)) as Hpgok; pose proof (pages_ok (ctx_pages Hctx)) as Hpgsok.
  all: assert (Hallok : Forall (page_ok (file s)) (pg ++ pgs)) by (apply Forall_app; split; auto).
  all: pose proof Hi as Hi0; destruct Hi0 as [_ _ _ Hflok _ _].
  all: assert (Hlpf : lp_off m < zlen (file s)) by (destruct Hslot as ((_ & _ & X & _) & _); unfold pageSize in *; lia).
  all: pose proof (zlen_nonneg fl) as Zfl.
  all: cbn [ins_loop] in Hrun; destruct (Z.ltb_spec pageSize (node_size (cwidth c) (tnode tr))) as [Hbig|Hfit].
  2,4: left; eapply fit_root; eauto.
  - (* new root *)
    right. change (zlen (@nil trec)) with 0 in Hf.
    destruct (@ins_split c m s tr fl h lo hi off es pg pgs) as
      (mk & mo & s1 & s2 & esA & esB & pgA & pgB & news & E1 & E2 & E3 & E4 & E5 & E6 & E7 & RA & RB & Fr & I2 & K2 & B2 & ND2 & LP2 & PM & FN & ZL & LPg & ZN & MO & UT);
      auto; try (unfold pageSize in *; lia).
    rewrite E1 in Hrun. rewrite E3 in Hrun. unfold bind at 1 in Hrun. cbn [lift] in Hrun.
    rewrite (@bind_ok _ _ _ _ _ _ _ _ E4) in Hrun. rewrite Htr in Hrun. rewrite (@bind_ok _ _ _ _ _ _ _ _ E5) in Hrun.
    destruct MO as [MO1 MO2].
    assert (Emo : mo mod 2^64 = mo) by (apply Z.mod_small; lia).
    rewrite Emo in Hrun.
    set (pn := mkNode [mk] [] [off; mo]) in *.
    assert (Hoff62 : 0 < off < 2^62) by (destruct Hoff as (X1 & X2 & X3 & X4); unfold pageSize in *; lia).
    assert (Hpn : node_ok c pn).
    { unfold pn. split; [split; cbn; [discriminate|right; auto]|]. split; [change (zlen (keys (mkNode [mk] [] [off; mo]))) with 1; lia|].
      split; [constructor; auto|]. split; [constructor|]. constructor; [lia|]. constructor; [lia|constructor]. }
    assert (Hpns : node_size (cwidth c) pn <= pageSize).
    { unfold node_size, pn. cbn [keys lptrs iptrs map]. rewrite !zsum_cons. cbn [zsum fold_right].
      pose proof (key_size_bounds Hc E2). pose proof (@iptr_size_bounds off ltac:(lia)). pose proof (@iptr_size_bounds mo ltac:(lia)).
      unfold pageSize; lia. }
    rewrite (marshal_ok Hpn) in Hrun. unfold bind at 1 in Hrun. cbn [lift] in Hrun.
    assert (Epgs : pgs = [] /\ esL = [] /\ esR = [] /\ lo = None /\ hi = None /\ off = root) by (clear -Hctx; inversion Hctx; subst; repeat split; reflexivity).
    destruct Epgs as (-> & -> & -> & -> & -> & Eoff). clear Hctx. subst root.
    rewrite app_nil_r in *.
    assert (HQ : Forall (page_ok (file s2)) (pgA ++ pgB)).
    { apply Forall_app; split; eapply pages_ok; eapply repr_pages; eauto. }
    assert (Hslot2 : slot_ok (file s2) m) by (eapply slot_ok_mono; [|exact Hslot]; pose proof (zlen_nonneg news); unfold pageSize in *; lia).
    destruct (@new_root_ok c m s2 (tl fl) pn (pgA ++ pgB)) as
      (po & s3 & s4 & news2 & W1 & W2 & I4 & K4 & B4 & N4 & Fr4 & R4 & S4 & ND4 & PM4 & FN4 & Z4 & L4 & U4); auto.
    { eapply Permutation_NoDup; [|exact ND2]. clear -E7. perm_lia. }
    { intros X. apply LP2. eapply Permutation_in; [|exact X]. clear -E7. perm_lia. }
    { unfold pageSize in *. lia. }
    rewrite (@bind_ok _ _ _ _ _ _ _ _ W1), W2 in Hrun. injection Hrun as <-.
    exists h, esA, esB, pgA. cbn [app]. split; [auto|]. split.
    + destruct h as [|h]; [|exact (repr_two RB)].
      pose proof (leaf_three Hc Hkw Hnok (body_leaf_dec Hbody) ltac:(lia)) as M. cbn in Hbody. destruct Hbody as (_ & Ek & _ & _ & _ & Sk & _).
      destruct (repr_good RA) as (_ & _ & G3).
      assert (Hla : (length esA <= length (keys (tnode tr)) / 2)%nat).
      { destruct (Nat.le_gt_cases (length esA) (length (keys (tnode tr)) / 2)) as [|Hgt]; auto. exfalso.
        rewrite Ek in E1. rewrite map_length in E1. rewrite E6, map_app, app_length in E1. rewrite Ek, E6, map_length, app_length in Hgt.
        rewrite nth_error_app1 in E1 by (rewrite map_length; lia). apply nth_error_In in E1. rewrite Forall_forall in G3. destruct (G3 _ E1) as [_ G]. cbn in G.
        unfold rlt in G. rewrite rv_cmp_refl in G. lia. }
      apply (f_equal (@length rv)) in Ek. rewrite map_length, E6, app_length in Ek. pose proof (Nat.div_mod (length (keys (tnode tr))) 2 ltac:(lia)). pose proof (Nat.mod_upper_bound (length (keys (tnode tr))) 2 ltac:(lia)). lia.
    + eapply repr_open. eapply repr_frame; [exact RA|]. intros; apply Fr4; auto. apply in_or_app; auto.
  - (* update the parent *)
    rewrite zlen_cons in Hf. pose proof (zlen_nonneg rest') as Zr.
    destruct (@ins_split c m s tr fl h lo hi off es pg pgs) as
      (mk & mo & s1 & s2 & esA & esB & pgA & pgB & news & E1 & E2 & E3 & E4 & E5 & E6 & E7 & RA & RB & Fr & I2 & K2 & B2 & ND2 & LP2 & PM & FN & ZL & LPg & ZN & MO & UT);
      auto; try (unfold pageSize in *; lia).
    rewrite E1 in Hrun. rewrite E3 in Hrun. unfold bind at 1 in Hrun. cbn [lift] in Hrun.
    rewrite (@bind_ok _ _ _ _ _ _ _ _ E4) in Hrun. rewrite Htr in Hrun. rewrite (@bind_ok _ _ _ _ _ _ _ _ E5) in Hrun.
    destruct MO as [MO1 MO2].
    assert (Emo : mo mod 2^64 = mo) by (apply Z.mod_small; lia).
    rewrite Emo in Hrun.
    inversion Hctx as [|h0 lo0 hi0 off0 lo' hi' kl ol kr or esl esr pgl pgr pn poff ptr rest0 esL0 esR0 pgs0 H0 root0 HF Hptr Hplp Hpk Hpne Hpi Hlc Hrc Hctx']; subst h0 lo0 hi0 off0 p rest0 esL esR pgs H0 root0.
    cbn [tnode tptr tidx] in Hrun.
    pose proof (lchain_len Hlc) as Hll.
    destruct (@parent_insert_ok c pn kl kr ol or mk off mo Hc (node_at_ok HF) (node_at_size HF) Hplp Hpk Hpi Hll E2 ltac:(lia))
      as (P1 & P2 & P3 & P4 & P5).
    set (q := parent_insert pn (Z.to_nat (zlen ol)) mk off mo) in *.
    assert (Hslot2 : slot_ok (file s2) m) by (eapply slot_ok_mono; [|exact Hslot]; pose proof (zlen_nonneg news); unfold pageSize in *; lia).
    assert (Hq : body (node_at c (file s2)) (S h) lo' hi' q (esl ++ es ++ esr) (pgl ++ pgA ++ (pgB ++ pgr))).
    { replace (esl ++ es ++ esr) with (esl ++ esA ++ (esB ++ esr)) by (subst es; rewrite <- app_assoc; reflexivity).
      eapply body_join with (kl := kl) (kr := mk :: kr) (ol := ol) (x := off) (or := mo :: or) (a := lo) (b := Some mk); auto.
      - rewrite P1. destruct kl; discriminate.
      - eapply lchain_frame; [exact Hlc|]. intros; apply Fr; auto. right. rewrite !in_app_iff. auto.
      - econstructor; [exact RB|]. eapply rchain_frame; [exact Hrc|]. intros; apply Fr; auto. right. rewrite !in_app_iff. auto. }
    assert (Hctx2 : ctx (node_at c (file s2)) true (S h) lo' hi' poff rest' esL0 esR0 pgs0 H root).
    { eapply ctx_frame; [exact Hctx'|]. intros; apply Fr; auto. right. rewrite !in_app_iff. auto. }
    assert (Hpoff : page_ok (file s2) poff).
    { eapply node_at_page_ok. apply Fr; [left; auto|exact HF]. }
    assert (Er2 : root_at (file s2) m = root_at (file s) m).
    { pose proof (root_off_bounds Hslot) as (Y1 & Y2 & Y3 & Y4 & Y5).
      eapply untouched_root_at with (P := off :: firstn 1 fl) (ro := 0); auto.
      - intros [X|X]; apply Hlp; [left; auto|]. right. apply in_or_app; right. eapply in_firstn; eauto.
      - constructor; [destruct Hoff as (X1 & X2 & _); auto|]. apply Forall_firstn. eapply pages_aligned; eauto.
      - right. unfold pageSize in *; lia. }
    destruct (IH s2 (TR q (zlen ol) ptr) (tl fl) (S h) lo' hi' poff esL0 (esl ++ es ++ esr) esR0 (pgl ++ pgA ++ (pgB ++ pgr)) pgs0 H root rlen s') as [(Hs & pgs' & Hr)|Hs]; auto.
    { congruence. }
    { eapply Permutation_NoDup; [|exact ND2]. clear -E7. perm_lia. }
    { intros X. apply LP2. eapply Permutation_in; [|exact X]. clear -E7. perm_lia. }
    { unfold pageSize in *. lia. }
    + left. split; [congruence|]. exists pgs'. replace ((esL0 ++ esl) ++ es ++ esr ++ esR0) with (esL0 ++ (esl ++ es ++ esr) ++ esR0) by (rewrite <- !app_assoc; reflexivity). exact Hr.
    + right. destruct Hs as (h' & esA' & esB' & pgA' & X1 & X2 & X3). exists h', esA', esB', pgA'. split; [|auto].
      rewrite <- X1. rewrite <- !app_assoc. reflexivity.
Qed.
Theorem insert_root c s m fl es pgs key value s' : kw c <= 2016 ->
  sys c s m fl es pgs -> zlen (file s) < 2^60 -> key_ok c key -> mptr_ok value -> ~ In key (map fst es) -> es <> [] ->
  bp_insert c m key value s = (Ok tt, s') ->
  (root_at (file s') m = root_at (file s) m /\ exists h pg, repr (node_at c (file s')) h None None (mp_off (root_at (file s) m)) (insert_entry key value es) pg /\
     (forall es0 pg0, repr (node_at c (file s)) 0 None None (mp_off (root_at (file s) m)) es0 pg0 -> h = 0%nat)) \/
  exists h esA esB pgA, insert_entry key value es = esA ++ esB /\ (2 <= length esB)%nat /\
    repr (node_at c (file s')) h None None (mp_off (root_at (file s) m)) esA pgA.
Proof.
  intros Hkw Hsys Hf Hkey Hval Hnew He Hrun.
  destruct (insert_leaf Hkw Hsys Hf Hkey Hval Hnew He) as (tr & mids & lo & hi & off & les & esL & esR & pgs0 & H & root & rlen & X1 & X2 & X3 & X4 & X5 & X6 & X7 & X8 & X9 & X10 & X11 & X12 & X13 & X14 & X15).
  pose proof Hsys as (Hc & Hi & Hb & Hslot & Ht & Hnd & Hlp).
  specialize (X1 None). rewrite (budget_none s Hb) in X1. rewrite X1 in Hrun.
  destruct (@ins_loop_root c m Hc Hkw mids s tr fl 0 lo hi off esL (insert_entry key value les) esR [] pgs0 H root rlen s' Hi Hb Hslot X2 X3 X4 X5 X6 X7 X8 X9 X10 X11 X12 Hrun) as [(G & pg & G')|(h & esA & esB & pgA & G1 & G2 & G3)]; rewrite X14, X2; cbn [mp_off]; [left|right].
  - split; [congruence|]. exists H, pg. split; auto. intros es0 pg0 R0.
    destruct (ctx_root X4) as [E|(n & N1 & N2 & N3)]; [exact E|exfalso]. destruct R0 as (n' & q & Y1 & Y2 & _).
    pose proof (@go_rd_ok c s Hc) as Hrd. pose proof (Hrd root 0 _ N1) as E1. rewrite (Hrd root 0 _ Y1) in E1. injection E1 as <-.
    cbn in Y2. destruct Y2 as (Z1 & _ & Z3 & _). rewrite N2 in Z3. destruct es0; [congruence|discriminate].
  - exists h, esA, esB, pgA. auto.
Qed.
