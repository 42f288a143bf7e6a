(** The browser's view of an index file: src/file/multi.ts, src/file/index-file.ts
    and the where part of src/db/database.ts. *)
From Coq Require Import Permutation.
From Verif Require Import Base Varint Store PageFile PageHist RefValue Node LinkedPage BPTree BPRepr BPIter BPInsert BPLoop BPTop PTree Meta TsCodec Slots SlotAdd PSlots Cells IndexFile IFileInv PIndex Query QTree.

(** ** Model *)
(** LinkedMetaPage: src/file/multi.ts:11-19. The resolver is that of a file [f] whose
    contents do not change while it is queried, so that getMetaPage
    (src/file/multi.ts:59-73) always returns the page at [lp_off m]. *)
Definition ts_page (f : bytes) (m : lp) : bytes := resolve f (lp_off m) (lp_off m + 4096 - 1).
(** rootMemoryPointerPageOffset(): src/file/multi.ts:99-105 *)
Definition ts_root_off (m : lp) : Z := 8 + 1 + lp_idx m * (8 + 1 + 256).
(** root(): src/file/multi.ts:21-45 *)
Definition ts_mp_root (f : bytes) (m : lp) : res mptr :=
  let data := js_slice (ts_page f m) (ts_root_off m) (ts_root_off m + 8 + 4) in
  if negb (zlen data =? 12) then Err (EMsg "failed to properly fetch root node")
  else Ok (dec_mptr data).
(** metadata(): src/file/multi.ts:47-57 *)
Definition ts_mp_metadata (f : bytes) (m : lp) : res bytes :=
  let metadata := js_slice_from (ts_page f m) (ts_root_off m + (8 + 4)) in
  match metadata with
  | [] => js_throw
  | len :: _ => Ok (js_slice metadata 1 (1 + len))
  end.
(** next(): src/file/multi.ts:75-97; [None] is null *)
Definition ts_mp_next (f : bytes) (m : lp) : res (option lp) :=
  let page := ts_page f m in
  match znth page 8 with
  | None => js_throw
  | Some count =>
      if lp_idx m <? count - 1 then Ok (Some (LP (lp_off m) (lp_idx m + 1)))
      else
        let nextOffset := unle (slice page 0 8) in
        if nextOffset =? maxUint64 then Ok None else Ok (Some (LP nextOffset 0))
  end.
(** tree(): src/file/index-file.ts:54-63, ReadMultiBPTree(resolver, 0):
    src/file/multi.ts:108-114 *)
Definition ts_tree : lp := LP ((0 + 1) * 4096) 0.
(** IndexFileV1.metadata(): src/file/index-file.ts:65-70 *)
Definition ts_if_metadata (f : bytes) : res file_meta := b <-- ts_mp_metadata f ts_tree ;;; ts_read_file_meta b.
(** the walk over the meta pages of fetchMetaPages and seek:
    src/file/index-file.ts:72-128 *)
Fixpoint ts_pages (fuel : nat) (f : bytes) (m : lp) : res (list lp) :=
  match fuel with
  | O => Hang
  | S fuel' =>
      n <-- ts_mp_next f m ;;;
      match n with
      | None => Ok [m]
      | Some m' => rest <-- ts_pages fuel' f m' ;;; Ok (m :: rest)
      end
  end.
(** src/file/index-file.ts:76-80 *)
Definition ts_index_pages (fuel : nat) (f : bytes) : res (list lp) :=
  n <-- ts_mp_next f ts_tree ;;;
  match n with
  | None => Err (EMsg "failed to fetch meta pages")
  | Some m => ts_pages fuel f m
  end.
(** readIndexMeta(await mp.metadata()): src/file/index-file.ts:84-99 *)
Definition ts_index_meta (f : bytes) (m : lp) : res index_meta := b <-- ts_mp_metadata f m ;;; ts_read_index_meta b.
(** src/file/index-file.ts:84-99 *)
Fixpoint ts_metas (f : bytes) (ms : list lp) : res (list index_meta) :=
  match ms with
  | [] => Ok []
  | m :: rest => im <-- ts_index_meta f m ;;; l <-- ts_metas f rest ;;; Ok (im :: l)
  end.
(** the test of seek: src/file/index-file.ts:84-99. Names are compared as strings in
    JavaScript, here as their UTF-8 bytes. *)
Definition ts_accepts (name : bytes) (ft : Z) (im : index_meta) : bool :=
  name_eqb (im_name im) name &&
  (if ft =? FTFloat64 then (im_type im =? FTFloat64) || (im_type im =? FTInt64) || (im_type im =? FTUint64)
   else ft =? im_type im).
(** seek(header, fieldType): src/file/index-file.ts:72-109. The loop decodes the
    metadata of each page before going to the next one; here the pages are
    collected first: the results are the same when nothing throws. *)
Definition ts_seek (fuel : nat) (f : bytes) (name : bytes) (ft : Z) : res (list lp) :=
  ms <-- ts_index_pages fuel f ;;;
  ims <-- ts_metas f ms ;;;
  Ok (map fst (filter (fun x => ts_accepts name ft (snd x)) (combine ms ims))).
(** indexHeaders(): src/file/index-file.ts:130-147, collectIndexMetas:
    src/file/meta.ts:84-103; query looks only for a header with a given name, so the
    headers are given as the list of their names, in order *)
Definition ts_header_names (fuel : nat) (f : bytes) : res (list bytes) :=
  ms <-- ts_index_pages fuel f ;;;
  ims <-- ts_metas f ms ;;;
  Ok (first_appearances (map im_name ims)).

(** values of a where clause: null, numbers (as the 8 bytes setFloat64 writes, big
    endian), booleans, strings (as UTF-8), anything else *)
Inductive wval := WNull | WNum (bits : bytes) | WBool (b : bool) | WStr (utf8 : bytes) | WOther.
(** processWhere: src/db/query-lang.ts:44-77 *)
Definition process_where (v : wval) : option (Z * bytes) :=
  match v with
  | WNull => Some (FTNull, [])
  | WNum bits => Some (FTFloat64, bits)
  | WBool b => Some (FTBoolean, [if b then 1 else 0])
  | WStr b => Some (FTString, b)
  | WOther => None
  end.
(** WhereNode: src/db/query-lang.ts:7-13 *)
Record clause := CW { w_key : bytes; w_op : qop; w_val : wval }.
(** a query without search. orderBy: only its first direction is used; the fields of
    select are taken from each record afterwards (handleSelect); limit is the
    builder's, src/db/query-builder.ts:68-75 *)
Record query := QY { qy_where : list clause; qy_order : list qdir; qy_limit : option nat }.

Section Run.
  (** the browser's parseValue: src/bptree/node.ts:202-241 *)
  Variable parse : bytes -> option bytes.
  (** one clause: src/db/database.ts:191-421 *)
  Definition ts_clause (fuel : nat) (f D : bytes) (headers : list bytes) (dir : qdir) (w : clause) (n : nat) : res (list bytes) :=
    if negb (existsb (name_eqb (w_key w)) headers) then Err (EMsg "field not found")
    else
      match process_where (w_val w) with
      | None => Err (EMsg "unable to process key")
      | Some (ft, valueBuf) =>
          mps <-- ts_seek fuel f (w_key w) ft ;;;
          match mps with
          | [] => js_throw
          | mp :: _ =>
              im <-- ts_index_meta f mp ;;;
              where_tree fuel (ts_rd (mkCodec (im_width im) D parse) f) (ts_mp_root f mp) D (w_op w) dir valueBuf n
          end
      end.
  (** the loop over the clauses; the records yielded before an exception are not kept *)
  (** the loop over the clauses, src/db/database.ts:191-421; the records yielded before an exception are not kept *)
  Fixpoint ts_clauses (fuel : nat) (f D : bytes) (headers : list bytes) (dir : qdir) (ws : list clause) (n : nat) : res (list bytes) :=
    match ws with
    | [] => Ok []
    | w :: rest =>
        r <-- ts_clause fuel f D headers dir w n ;;;
        r' <-- (if (length r <? n)%nat then ts_clauses fuel f D headers dir rest (n - length r) else Ok []) ;;;
        Ok (r ++ r')
    end.
  (** query(query): src/db/database.ts:102-113 and 191-422: the first [n] records a
      consumer asks for. limit is not looked at. *)
  Definition ts_query (fuel : nat) (f D : bytes) (q : query) (n : nat) : res (list bytes) :=
    if (1 <? length (first_appearances (map w_key (qy_where q))))%nat then Err (EMsg "composite indexes not supported... yet")
    else
      fm <-- ts_if_metadata f ;;;
      headers <-- ts_header_names fuel f ;;;
      ts_clauses fuel f D headers (match qy_order q with d :: _ => d | [] => Asc end) (qy_where q) n.
End Run.

(** ** Reading pages *)
Lemma page_len f o : page_ok f o -> zlen (slice f o 4096) = 4096.
Proof. intros (H1 & H2 & H3 & H4). rewrite zlen_slice by (unfold pageSize in *; lia). unfold pageSize in *; lia. Qed.
Lemma ts_page_eq f m : page_ok f (lp_off m) -> ts_page f m = slice f (lp_off m) 4096.
Proof. intros _. unfold ts_page, resolve. f_equal. lia. Qed.
Lemma js_slice_in b i j : 0 <= i -> i <= j -> j <= zlen b -> js_slice b i j = slice b i (j - i).
Proof.
  intros H1 H2 H3. unfold js_slice, js_pos. destruct (Z.ltb_spec i 0); [lia|]. destruct (Z.ltb_spec j 0); [lia|].
  rewrite !Z.min_l by lia. destruct (Z.ltb_spec j i); [lia|reflexivity].
Qed.
Lemma ts_mp_root_ok f m : slot_ok f m -> ts_mp_root f m = Ok (root_at f m).
Proof.
  intros H. pose proof (root_off_eq H) as E. pose proof (root_off_bounds H) as (B1 & B2 & B3 & B4 & B5). destruct H as (Hp & Hi & Ho).
  unfold ts_mp_root. rewrite ts_page_eq by auto. pose proof (page_len Hp) as Hl. unfold numSlots in Hi.
  assert (E' : ts_root_off m = root_off m - lp_off m) by (unfold ts_root_off; lia).
  rewrite js_slice_in by (rewrite ?Hl; lia). rewrite slice_slice by (unfold pageSize in *; lia).
  replace (lp_off m + ts_root_off m) with (root_off m) by lia. replace (ts_root_off m + 8 + 4 - ts_root_off m) with 12 by lia.
  assert (zlen (slice f (root_off m) 12) = 12) as -> by (destruct Hp as (P1 & P2 & P3 & P4); rewrite zlen_slice by (unfold pageSize in *; lia); unfold pageSize in *; lia).
  reflexivity.
Qed.
Lemma ts_mp_metadata_ok f m d : slot_ok f m -> meta_is f m d -> zlen d <= 252 -> ts_mp_metadata f m = Ok d.
Proof.
  intros H Hm Hd. pose proof (root_off_eq H) as E. pose proof (root_off_bounds H) as (B1 & B2 & B3 & B4 & B5). destruct H as (Hp & Hi & Ho).
  unfold ts_mp_metadata. rewrite ts_page_eq by auto. pose proof (page_len Hp) as Hl. unfold numSlots in Hi. pose proof (zlen_nonneg d) as Hd0.
  assert (E' : ts_root_off m = root_off m - lp_off m) by (unfold ts_root_off; lia).
  unfold js_slice_from, js_pos. destruct (Z.ltb_spec (ts_root_off m + (8 + 4)) 0); [lia|]. rewrite Z.min_l by (rewrite Hl; lia).
  set (a := ts_root_off m + (8 + 4)).
  assert (Es : skipn (Z.to_nat a) (slice f (lp_off m) 4096) = slice (slice f (lp_off m) 4096) a (4096 - a)).
  { unfold slice at 2. rewrite firstn_all2; [reflexivity|]. rewrite skipn_length. unfold zlen in Hl. lia. }
  rewrite Es, slice_slice by (unfold a; lia).
  replace (lp_off m + a) with (root_off m + 12) by (unfold a; lia).
  replace (4096 - a) with ((1 + zlen d) + (4096 - a - 1 - zlen d)) by lia.
  rewrite slice_split by (unfold pageSize, a in *; lia). unfold meta_is in Hm. rewrite Hm. cbn [app].
  rewrite js_slice_in by (rewrite ?zlen_cons, ?zlen_app; pose proof (zlen_nonneg (slice f (root_off m + 12 + (1 + zlen d)) (4096 - a - 1 - zlen d))); lia).
  f_equal. change (zlen d :: d ++ ?x) with ([zlen d] ++ d ++ x). apply slice_app_mid; [reflexivity|lia].
Qed.
Lemma ts_mp_next_ok f ms n k : mchain f ms n -> (k < n)%nat -> ts_mp_next f (slot ms k) = Ok (if (S k <? n)%nat then Some (slot ms (S k)) else None).
Proof.
  intros H Hk. pose proof (slot_idx H Hk) as Hj. destruct (nth_ok H Hj) as [Hp _].
  pose proof (mc_hdr H Hj) as Hh. pose proof (mc_n H) as Hn. pose proof (mc_n' H) as Hn'.
  unfold ts_mp_next. rewrite ts_page_eq by (cbn [slot lp_off]; auto). cbn [slot lp_off lp_idx].
  set (o := nth (k / 15) ms 0) in *. pose proof (page_len Hp) as Hl. destruct Hp as (P1 & P2 & P3 & P4).
  assert (E9 : slice (slice f o 4096) 0 9 = le 8 (next_of ms (k / 15)) ++ [count_of ms n (k / 15)]) by (rewrite slice_slice, Z.add_0_r by lia; exact Hh).
  assert (Ez : znth (slice f o 4096) 8 = Some (count_of ms n (k / 15))).
  { unfold znth. destruct (Z.ltb_spec 8 0); [lia|]. change (Z.to_nat 8) with 8%nat.
    apply (f_equal (fun l => nth_error l 8)) in E9. unfold slice at 1 in E9. change (Z.to_nat 0) with 0%nat in E9. change (Z.to_nat 9) with 9%nat in E9. cbn [skipn] in E9.
    rewrite nth_error_firstn' in E9. cbn [Nat.ltb Nat.leb] in E9. rewrite E9. pose proof (length_le 8 (next_of ms (k / 15))) as L8. rewrite nth_error_app2 by lia. rewrite L8. reflexivity. }
  rewrite Ez. pose proof (next_of_range (k / 15) H) as Hr.
  assert (E8 : unle (slice (slice f o 4096) 0 8) = next_of ms (k / 15)).
  { apply (f_equal (fun l => slice l 0 8)) in E9. rewrite slice_slice in E9 by lia. cbn [Z.add] in E9. rewrite E9.
    rewrite slice_app_l by (rewrite zlen_le; lia). replace 8 with (zlen (le 8 (next_of ms (k/15)))) at 2 by (rewrite zlen_le; reflexivity). rewrite slice_all. apply unle_le; lia. }
  rewrite E8. unfold count_of, maxUint64. destruct (Nat.ltb_spec (S (k / 15)) (length ms)) as [Hl'|Hl'].
  - destruct (Z.ltb_spec (Z.of_nat (k mod 15)) (15 - 1)) as [Hi|Hi].
    + destruct (Nat.ltb_spec (S k) n); [|lia]. f_equal. f_equal. unfold slot. f_equal; [unfold o; f_equal; lia|lia].
    + assert (Hnx : next_of ms (k / 15) = nth (S (k / 15)) ms 0) by (unfold next_of; rewrite (nth_error_nth' ms 0 Hl'); reflexivity).
      rewrite Hnx. destruct (nth_ok H Hl') as [(X & _) Y].
      destruct (Z.eqb_spec (nth (S (k / 15)) ms 0) (2^64 - 1)); [lia|].
      destruct (Nat.ltb_spec (S k) n); [|lia]. f_equal. f_equal. unfold slot. f_equal; [f_equal; lia|lia].
  - destruct (Z.ltb_spec (Z.of_nat (k mod 15)) (Z.of_nat n - 15 * Z.of_nat (k / 15) - 1)) as [Hi|Hi].
    + destruct (Nat.ltb_spec (S k) n); [|lia]. f_equal. f_equal. unfold slot. f_equal; [unfold o; f_equal; lia|lia].
    + assert (Hnx : next_of ms (k / 15) = 2^64 - 1) by (unfold next_of; rewrite (proj2 (nth_error_None ms (S (k / 15)))) by lia; reflexivity).
      rewrite Hnx, Z.eqb_refl. destruct (Nat.ltb_spec (S k) n); [lia|]. reflexivity.
Qed.
Lemma ts_pages_ok f ms n : mchain f ms n -> forall d k fuel, (S k + d = n)%nat -> (d < fuel)%nat ->
  ts_pages fuel f (slot ms k) = Ok (map (slot ms) (seq k (S d))).
Proof.
  intros H. induction d as [|d IH]; intros k fuel Hk Hf; (destruct fuel as [|fuel]; [lia|]); cbn [ts_pages]; rewrite (@ts_mp_next_ok f ms n k H) by lia; cbn [rbind].
  - destruct (Nat.ltb_spec (S k) n); [lia|]. reflexivity.
  - destruct (Nat.ltb_spec (S k) n); [|lia]. rewrite (IH (S k) fuel) by lia. reflexivity.
Qed.

(** ** What the browser sees of an index file *)
Section Sees.
  Variables (c : Z -> codec) (s : st) (fm : file_meta) (l : list ixr) (fl ms : list Z) (x0 : cell) (L : list cell).
  Hypothesis H : holds c s fm l fl ms x0 L.
  Hypothesis Htot : Forall (fun ix => ix_total ix < 2^31) l.
  Hypothesis Hent : fm_entries fm < 2^31.

  Lemma sees_tree : ts_tree = slot ms 0.
  Proof. unfold ts_tree, slot. cbn. rewrite (cl_first (ho_cells H)). reflexivity. Qed.
  Lemma sees_metadata : ts_if_metadata (file s) = Ok fm.
  Proof.
    unfold ts_if_metadata. rewrite sees_tree. pose proof (ho_cells H) as Hc.
    assert (H0 : nth_error (x0 :: L) 0 = Some x0) by reflexivity.
    destruct (cl_at Hc _ H0) as (M1 & M2 & _). rewrite (ts_mp_metadata_ok (cells_slot _ Hc H0) M1 M2). cbn [rbind].
    destruct (ho_fm H) as (F1 & F2 & F3). rewrite <- (app_nil_r (c_meta x0)). eapply ts_file_meta_roundtrip; eauto.
  Qed.
  Lemma sees_meta k ix : nth_error l k = Some ix -> ts_index_meta (file s) (ix_at ix) = Ok (ix_meta ix).
  Proof.
    intros Hk. destruct (holds_nth _ H Hk) as (x & Hx & (C1 & C2 & C3 & _) & ->). pose proof (ho_cells H) as Hc.
    destruct (cl_at Hc _ Hx) as (M1 & M2 & _). unfold ts_index_meta. rewrite (ts_mp_metadata_ok (cells_slot _ Hc Hx) M1 M2). cbn [rbind].
    rewrite <- (app_nil_r (c_meta x)). eapply ts_index_meta_roundtrip; eauto; cbn [ix_meta im_name im_total]; [lia|].
    rewrite Forall_forall in Htot. apply Htot. eapply nth_error_In; eauto.
  Qed.
  Lemma sees_root k ix : nth_error l k = Some ix -> ts_mp_root (file s) (ix_at ix) = Ok (root_at (file s) (ix_at ix)) /\ slot_ok (file s) (ix_at ix).
  Proof.
    intros Hk. destruct (holds_nth _ H Hk) as (x & Hx & _ & ->). pose proof (cells_slot _ (ho_cells H) Hx) as Hs. split; auto. apply ts_mp_root_ok; auto.
  Qed.
  Lemma sees_pages fuel : (length l <= fuel)%nat -> l <> [] -> ts_index_pages fuel (file s) = Ok (map ix_at l).
  Proof.
    intros Hf Hne. pose proof (cl_chain (ho_cells H)) as Hc. pose proof (holds_len H) as Hlen. cbn [length] in Hc.
    unfold ts_index_pages. rewrite sees_tree, (ts_mp_next_ok (k := 0) Hc) by lia. cbn [rbind].
    destruct l as [|ix l'] eqn:El; [congruence|]. rewrite <- El in *. assert (0 < length l)%nat by (rewrite El; cbn; lia).
    destruct (Nat.ltb_spec 1 (S (length L))); [|lia].
    rewrite (@ts_pages_ok (file s) ms _ Hc (length L - 1) 1 fuel) by lia. rewrite (ho_at H). f_equal. f_equal. f_equal. lia.
  Qed.
  Lemma sees_metas_from : forall l', (forall ix, In ix l' -> In ix l) -> ts_metas (file s) (map ix_at l') = Ok (map ix_meta l').
  Proof.
    induction l' as [|ix l' IH]; intros Hin; [reflexivity|]. cbn [map ts_metas].
    destruct (In_nth_error l ix) as (k & Hk); [apply Hin; left; auto|]. rewrite (sees_meta _ Hk). cbn [rbind].
    rewrite IH by (intros; apply Hin; right; auto). reflexivity.
  Qed.
  Lemma sees_metas : ts_metas (file s) (map ix_at l) = Ok (map ix_meta l).
  Proof. apply sees_metas_from; auto. Qed.
  Lemma sees_headers fuel : (length l <= fuel)%nat -> l <> [] -> ts_header_names fuel (file s) = Ok (first_appearances (map ix_name l)).
  Proof.
    intros Hf Hne. unfold ts_header_names. rewrite sees_pages by auto. cbn [rbind]. rewrite sees_metas. cbn [rbind]. rewrite map_map. reflexivity.
  Qed.
  Lemma sees_seek fuel name ft : (length l <= fuel)%nat -> l <> [] ->
    ts_seek fuel (file s) name ft = Ok (map ix_at (filter (fun ix => ts_accepts name ft (ix_meta ix)) l)).
  Proof.
    intros Hf Hne. unfold ts_seek. rewrite sees_pages by auto. cbn [rbind]. rewrite sees_metas. cbn [rbind]. f_equal.
    clear. induction l as [|ix l' IH]; [reflexivity|]. cbn [map combine filter fst snd]. destruct (ts_accepts name ft (ix_meta ix)); cbn [map fst]; rewrite IH; reflexivity.
  Qed.
End Sees.
