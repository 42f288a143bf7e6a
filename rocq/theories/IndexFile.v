(** pkg/appendable/index_file.go: the index file. *)
From Coq Require Import Permutation.
From Verif Require Import Base Varint Store PageFile PageHist RefValue Node LinkedPage BPTree BPRepr BPIter BPInsert BPLoop BPTop PTree Meta Slots SlotAdd PSlots Cells.

(** ** Model *)
(** CurrentVersion: pkg/appendable/index_file.go:14 *)
Definition currentVersion : Z := 1.
(** NewIndexFile(f, dataHandler, _) after NewPageFile(f) (model: [new_page_file],
    index_file.go:34-37) succeeded: pkg/appendable/index_file.go:39-84. [fmt] is
    dataHandler.Format(); the result is the IndexFile's [tree]. *)
Definition new_index_file (fmt : Z) : M st lp :=
  tree <- new_multi ;;
  fun s =>
    match lp_next tree s with
    | (Err EEof, s) =>
        (created <- lp_add_next tree ;;
         buf <- lift (file_meta_marshal (FM currentVersion fmt 0 0)) ;;
         lp_set_metadata created buf ;;;
         ret created) s
    | (Ok node, s) =>
        (buf <- lp_metadata node ;;
         m <- lift (file_meta_unmarshal buf) ;;
         if negb (fm_version m =? currentVersion) then fail (EMsg "unsupported version")
         else if negb (fm_format m =? fmt) then fail (EMsg "unsupported format")
         else ret node) s
    | (Err e, s) => (Err e, s)
    | (Panic, s) => (Panic, s)
    | (Crash, s) => (Crash, s)
    | (Hang, s) => (Hang, s)
    end.
(** Metadata(): pkg/appendable/index_file.go:86-94 *)
Definition if_metadata (tree : lp) : M st file_meta :=
  buf <- lp_metadata tree ;; lift (file_meta_unmarshal buf).
(** SetMetadata(metadata): pkg/appendable/index_file.go:96-102 *)
Definition if_set_metadata (tree : lp) (m : file_meta) : M st unit :=
  buf <- lift (file_meta_marshal m) ;; lp_set_metadata tree buf.
(** IsEmpty(): pkg/appendable/index_file.go:108-114 *)
Definition if_is_empty (tree : lp) : M st bool := fun s =>
  match lp_next tree s with
  | (Ok n, s) => (Ok true, s)
  | (Err EEof, s) => (Ok false, s)
  | (Err e, s) => (Err e, s)
  | (Panic, s) => (Panic, s)
  | (Crash, s) => (Crash, s)
  | (Hang, s) => (Hang, s)
  end.
(** IndexFieldNames(): pkg/appendable/index_file.go:116-147; the set
    uniqueFieldNames always holds exactly the names collected so far *)
Definition name_eqb (a b : bytes) : bool := if list_eq_dec Z.eq_dec a b then true else false.
(** IndexFieldNames(): the loop of pkg/appendable/index_file.go:116-147 *)
Fixpoint if_field_names_from (fuel : nat) (mp : lp) (acc : list bytes) : M st (list bytes) :=
  match fuel with
  | O => lift Hang
  | S fuel' => fun s =>
      match lp_next mp s with
      | (Err EEof, s) => (Ok acc, s)
      | (Ok next, s) =>
          (buf <- lp_metadata next ;;
           m <- lift (index_meta_unmarshal buf) ;;
           if_field_names_from fuel' next (if existsb (name_eqb (im_name m)) acc then acc else acc ++ [im_name m])) s
      | (Err e, s) => (Err e, s)
      | (Panic, s) => (Panic, s)
      | (Crash, s) => (Crash, s)
      | (Hang, s) => (Hang, s)
      end
  end.
(** IndexFieldNames(): pkg/appendable/index_file.go:116-147 *)
Definition if_field_names (tree : lp) : M st (list bytes) := fun s => if_field_names_from (fuel_of s) tree [] s.
(** FindOrCreateIndex(name, fieldType): pkg/appendable/index_file.go:149-187 *)
Fixpoint find_or_create_from (fuel : nat) (mp : lp) (name : bytes) (ft : Z) : M st (lp * index_meta) :=
  match fuel with
  | O => lift Hang
  | S fuel' => fun s =>
      match lp_next mp s with
      | (Err EEof, s) =>
          (next <- lp_add_next mp ;;
           let m := IM name ft (determine_type ft) 0 in
           buf <- lift (index_meta_marshal m) ;;
           lp_set_metadata next buf ;;;
           ret (next, m)) s
      | (Ok next, s) =>
          (buf <- lp_metadata next ;;
           m <- lift (index_meta_unmarshal buf) ;;
           if name_eqb (im_name m) name && (im_type m =? ft) then ret (next, m)
           else find_or_create_from fuel' next name ft) s
      | (Err e, s) => (Err e, s)
      | (Panic, s) => (Panic, s)
      | (Crash, s) => (Crash, s)
      | (Hang, s) => (Hang, s)
      end
  end.
(** FindOrCreateIndex(name, fieldType): pkg/appendable/index_file.go:149-187 *)
Definition find_or_create (tree : lp) (name : bytes) (ft : Z) : M st (lp * index_meta) := fun s =>
  find_or_create_from (fuel_of s) tree name ft s.
(** what handlers do with the metadata of an index after an insert:
    meta.MarshalBinary(), page.SetMetadata(buf), pkg/handlers/jsonl.go:299-306 *)
Definition save_index_meta (page : lp) (m : index_meta) : M st unit :=
  buf <- lift (index_meta_marshal m) ;; lp_set_metadata page buf.

(** ** Specification *)
(** One index: where it is, its name, type and running total, its contents. *)
Record ixr := IX { ix_at : lp; ix_name : bytes; ix_type : Z; ix_total : Z; ix_es : smap }.
Definition ix_meta (ix : ixr) : index_meta := IM (ix_name ix) (ix_type ix) (determine_type (ix_type ix)) (ix_total ix).
Definition same_index (name : bytes) (ft : Z) (ix : ixr) : Prop := ix_name ix = name /\ ix_type ix = ft.
Definition same_indexb (name : bytes) (ft : Z) (ix : ixr) : bool := name_eqb (ix_name ix) name && (ix_type ix =? ft).
Definition with_put (k : rv) (v : mptr) (ix : ixr) : ixr := IX (ix_at ix) (ix_name ix) (ix_type ix) (ix_total ix) ((k, v) :: ix_es ix).
Definition with_total (t : Z) (ix : ixr) : ixr := IX (ix_at ix) (ix_name ix) (ix_type ix) t (ix_es ix).
(** change the index at [m] only *)
Definition at_index (m : lp) (g : ixr -> ixr) (l : list ixr) : list ixr := map (fun ix => if lp_eqb (ix_at ix) m then g ix else ix) l.
(** the slot of the file metadata, and the handle of the file *)
Definition file_slot : lp := LP pageSize 0.

(** Histories of an index file. [ifile wd parse D fm l s]: after some calls, the
    file metadata should be [fm], the indexes should be [l], and the state is [s].
    [wd] is the key width the data handler uses for a field type, [parse] its
    Parse method, [D] the data file so far. Names are at most 245 bytes long and
    the metadata of an index at most 252 (see C19 and C24 for longer ones). Reads
    move the position of the storage ([if_read]). *)
Definition ix_codec (wd : Z -> Z) (parse : bytes -> option bytes) (D : bytes) (ft : Z) : codec := mkCodec (wd ft) D parse.
Inductive ifile (wd : Z -> Z) (parse : bytes -> option bytes) : bytes -> file_meta -> list ixr -> st -> Prop :=
| if_new k fmt s h s' : 0 <= fmt <= 1 -> new_page_file (open_rws k []) = (Ok tt, s) -> new_index_file fmt s = (Ok h, s') ->
    ifile wd parse [] (FM currentVersion fmt 0 0) [] s'
| if_index D fm l s name ft m im s' : ifile wd parse D fm l s -> zlen (file s) < 2^60 -> zlen name <= 245 -> 0 <= ft < 2^8 ->
    find_or_create file_slot name ft s = (Ok (m, im), s') ->
    ifile wd parse D fm (if existsb (same_indexb name ft) l then l else l ++ [IX m name ft 0 []]) s'
| if_put D fm l s ix k v s' : ifile wd parse D fm l s -> In ix l -> zlen (file s) < 2^60 ->
    op_ok (ix_codec wd parse D (ix_type ix)) (k, v) ->
    bp_insert (ix_codec wd parse D (ix_type ix)) (ix_at ix) k v s = (Ok tt, s') ->
    ifile wd parse D fm (at_index (ix_at ix) (with_put k v) l) s'
| if_total D fm l s ix t s' : ifile wd parse D fm l s -> In ix l -> 0 <= t < 2^64 ->
    6 + zlen (ix_name ix) + zlen (put_uvarint t) <= 252 ->
    save_index_meta (ix_at ix) (ix_meta (with_total t ix)) s = (Ok tt, s') ->
    ifile wd parse D fm (at_index (ix_at ix) (with_total t) l) s'
| if_meta D fm fm' l s s' : ifile wd parse D fm l s -> file_meta_ok fm' -> fm_format fm' <= 1 ->
    if_set_metadata file_slot fm' s = (Ok tt, s') -> ifile wd parse D fm' l s'
| if_open D fm l s k fmt s1 h s' : ifile wd parse D fm l s -> new_page_file (open_rws k (file s)) = (Ok tt, s1) ->
    new_index_file fmt s1 = (Ok h, s') -> ifile wd parse D fm l s'
| if_more D t fm l s : ifile wd parse D fm l s -> zlen (D ++ t) < 2^63 -> ifile wd parse (D ++ t) fm l s
| if_read D fm l s p : ifile wd parse D fm l s -> ifile wd parse D fm l (set_pos s p).

(** ** Invariant *)
Definition ix_cell (c : Z -> codec) (ix : ixr) (x : cell) : Prop :=
  index_meta_marshal (ix_meta ix) = Ok (c_meta x) /\ index_meta_ok (ix_meta ix) /\ zlen (ix_name ix) < 2^16 - 6 /\ c_codec x = c (ix_type ix) /\ Permutation (c_es x) (ix_es ix).
Record holds (c : Z -> codec) (s : st) (fm : file_meta) (l : list ixr) (fl ms : list Z) (x0 : cell) (L : list cell) : Prop := mkHolds {
  ho_cells : cells s fl ms (x0 :: L);
  ho_fm : file_meta_marshal fm = Ok (c_meta x0) /\ file_meta_ok fm /\ fm_format fm <= 1;
  ho_c0 : c_codec x0 = c 0 /\ c_es x0 = [];
  ho_ix : Forall2 (ix_cell c) l L;
  ho_at : map ix_at l = map (slot ms) (seq 1 (length l));
  ho_nd : NoDup (map (fun ix => (ix_name ix, ix_type ix)) l) }.

Lemma name_eqb_spec a b : name_eqb a b = true <-> a = b.
Proof. unfold name_eqb. destruct (list_eq_dec Z.eq_dec a b); split; auto; discriminate. Qed.
Lemma same_indexb_spec name ft ix : same_indexb name ft ix = true <-> same_index name ft ix.
Proof. unfold same_indexb, same_index. rewrite andb_true_iff, name_eqb_spec, Z.eqb_eq. reflexivity. Qed.

Lemma forall2_len {A B} (R : A -> B -> Prop) l L : Forall2 R l L -> length l = length L.
Proof. induction 1; cbn [length]; auto. Qed.
Lemma holds_len c s fm l fl ms x0 L : holds c s fm l fl ms x0 L -> length l = length L.
Proof. intros H. eapply forall2_len, (ho_ix H). Qed.
Lemma forall2_nth {A B} (R : A -> B -> Prop) l L : Forall2 R l L -> forall k a, nth_error l k = Some a -> exists b, nth_error L k = Some b /\ R a b.
Proof. induction 1; intros [|k] a' E; cbn in *; try discriminate; [injection E as <-; eauto|eauto]. Qed.
Lemma forall2_nth_r {A B} (R : A -> B -> Prop) l L : Forall2 R l L -> forall k b, nth_error L k = Some b -> exists a, nth_error l k = Some a /\ R a b.
Proof. induction 1; intros [|k] a' E; cbn in *; try discriminate; [injection E as <-; eauto|eauto]. Qed.
Lemma holds_nth c s fm l fl ms x0 L k ix : holds c s fm l fl ms x0 L -> nth_error l k = Some ix ->
  exists x, nth_error (x0 :: L) (S k) = Some x /\ ix_cell c ix x /\ ix_at ix = slot ms (S k).
Proof.
  intros H Hk. destruct (forall2_nth (ho_ix H) _ Hk) as (x & Hx & Hc). exists x. split; auto. split; auto.
  pose proof (f_equal (fun q => nth_error q k) (ho_at H)) as E. cbn beta in E. rewrite !nth_error_map, Hk in E. cbn [option_map] in E.
  assert (Hlt : (k < length l)%nat) by (apply nth_error_Some; congruence).
  rewrite (nth_error_nth' (seq 1 (length l)) 0%nat) in E by (rewrite seq_length; auto). rewrite seq_nth in E by auto. cbn [option_map] in E.
  injection E as E. exact E.
Qed.
Lemma holds_inj c s fm l fl ms x0 L i j a b : holds c s fm l fl ms x0 L -> nth_error l i = Some a -> nth_error l j = Some b -> ix_at a = ix_at b -> i = j.
Proof.
  intros H Hi Hj E. destruct (holds_nth _ H Hi) as (xa & Xa & _ & Ea). destruct (holds_nth _ H Hj) as (xb & Xb & _ & Eb).
  rewrite Ea, Eb in E. apply (slot_inj (cl_chain (ho_cells H))) in E; [lia| |]; apply nth_error_Some; congruence.
Qed.
Lemma at_index_lset c s fm l fl ms x0 L k ix g : holds c s fm l fl ms x0 L -> nth_error l k = Some ix -> at_index (ix_at ix) g l = lset l k (g ix).
Proof.
  intros H Hk. assert (Hlt : (k < length l)%nat) by (apply nth_error_Some; congruence).
  apply nth_error_ext. intros j. rewrite nth_lset by auto. unfold at_index. rewrite nth_error_map.
  destruct (Nat.eq_dec j k) as [->|Hne].
  - rewrite Hk. cbn [option_map]. rewrite lp_eqb_refl. reflexivity.
  - destruct (nth_error l j) as [b|] eqn:Ej; [|reflexivity]. cbn [option_map]. rewrite lp_eqb_neq; auto.
    intros X. apply Hne. eapply holds_inj; eauto.
Qed.
Lemma forall2_lset {A B} (R : A -> B -> Prop) l L k a b : Forall2 R l L -> (k < length l)%nat -> R a b -> Forall2 R (lset l k a) (lset L k b).
Proof.
  intros H. revert k. induction H as [|x y l L Hxy H IH]; intros k Hk Hab; cbn [length] in Hk; [lia|].
  destruct k as [|k]; [unfold lset; cbn; constructor; auto|]. change (lset (x :: l) (S k) a) with (x :: lset l k a). change (lset (y :: L) (S k) b) with (y :: lset L k b).
  constructor; auto. apply IH; auto. lia.
Qed.
Lemma map_lset {A B} (f : A -> B) l k x : map f (lset l k x) = lset (map f l) k (f x).
Proof. unfold lset. rewrite map_app, firstn_map. cbn [map]. rewrite <- skipn_map. reflexivity. Qed.
Lemma lset_same {A} (l : list A) k x : nth_error l k = Some x -> lset l k x = l.
Proof. intros H. unfold lset. symmetry. apply lset_split; auto. Qed.
Lemma holds_pos c s fm l fl ms x0 L p : holds c s fm l fl ms x0 L -> holds c (set_pos s p) fm l fl ms x0 L.
Proof. intros [A B B' C D E]. constructor; auto. apply cells_pos; auto. Qed.
Lemma index_unmarshal_exact m b : index_meta_ok m -> zlen (im_name m) < 2^16 - 6 -> index_meta_marshal m = Ok b -> index_meta_unmarshal b = Ok m.
Proof.
  intros H Hn E. destruct (index_meta_roundtrip [] H Hn) as (b' & E1 & E2 & _). rewrite E in E1. injection E1 as <-. rewrite app_nil_r in E2. exact E2.
Qed.
Lemma file_unmarshal_exact m b : file_meta_ok m -> fm_format m <= 1 -> file_meta_marshal m = Ok b -> file_meta_unmarshal b = Ok m /\ zlen b <= 20.
Proof.
  intros H Hn E. destruct (file_meta_roundtrip [] H Hn) as (b' & E1 & E2 & E3). rewrite E in E1. injection E1 as <-. rewrite app_nil_r in E2. split; auto.
  destruct H as (_ & _ & _ & H). pose proof (put_uvarint_length H). lia.
Qed.
Lemma holds_metadata c s fm l fl ms x0 L k ix : holds c s fm l fl ms x0 L -> nth_error l k = Some ix ->
  exists b p, lp_metadata (slot ms (S k)) s = (Ok b, set_pos s p) /\ index_meta_unmarshal b = Ok (ix_meta ix).
Proof.
  intros H Hk. destruct (holds_nth _ H Hk) as (x & Hx & (C1 & C2 & C3 & C4 & C5) & Ea).
  destruct (cl_at (ho_cells H) _ Hx) as (M1 & M2 & _). destruct (@lp_metadata_ok s _ _ (cells_slot _ (ho_cells H) Hx) M1) as (p & E); [lia|].
  exists (c_meta x), p. split; auto. apply index_unmarshal_exact; auto.
Qed.
Lemma holds_file_metadata c s fm l fl ms x0 L : holds c s fm l fl ms x0 L ->
  exists b p, lp_metadata (slot ms 0) s = (Ok b, set_pos s p) /\ file_meta_unmarshal b = Ok fm.
Proof.
  intros H. destruct (ho_fm H) as (F1 & F2 & F3). assert (Hx : nth_error (x0 :: L) 0 = Some x0) by reflexivity.
  destruct (cl_at (ho_cells H) _ Hx) as (M1 & M2 & _). destruct (@lp_metadata_ok s _ _ (cells_slot _ (ho_cells H) Hx) M1) as (p & E); [lia|].
  exists (c_meta x0), p. split; auto. apply file_unmarshal_exact; auto.
Qed.
Lemma holds_slot0 c s fm l fl ms x0 L : holds c s fm l fl ms x0 L -> slot ms 0 = file_slot.
Proof. intros H. unfold slot, file_slot. change (0 / 15)%nat with 0%nat. rewrite (cl_first (ho_cells H)). reflexivity. Qed.

(** the walk over the slots *)
Lemma holds_next c s fm l fl ms x0 L k : holds c s fm l fl ms x0 L -> (k <= length l)%nat ->
  exists p, lp_next (slot ms k) s = ((if Nat.ltb k (length l) then Ok (slot ms (S k)) else Err EEof), set_pos s p).
Proof.
  intros H Hk. pose proof (cl_chain (ho_cells H)) as Hc. rewrite (holds_len H) in *. cbn [length] in Hc.
  destruct (@lp_next_ok s ms _ k Hc ltac:(lia)) as (p & E). exists p. rewrite E.
  destruct (Nat.ltb_spec (S k) (S (length L))), (Nat.ltb_spec k (length L)); auto; lia.
Qed.

Lemma find_from_found c name ft : forall d k fuel s fm l fl ms x0 L, holds c s fm l fl ms x0 L ->
  (exists ix, nth_error l (k + d) = Some ix /\ same_index name ft ix) ->
  (forall j ix, (k <= j < k + d)%nat -> nth_error l j = Some ix -> ~ same_index name ft ix) -> (d < fuel)%nat ->
  exists p ix, nth_error l (k + d) = Some ix /\ find_or_create_from fuel (slot ms k) name ft s = (Ok (ix_at ix, ix_meta ix), set_pos s p).
Proof.
  induction d as [|d IH]; intros k fuel s fm l fl ms x0 L H (ix & Hix & Hsame) Hno Hfuel; (destruct fuel as [|fuel]; [lia|]); cbn [find_or_create_from].
  - rewrite Nat.add_0_r in *. assert (Hlt : (k < length l)%nat) by (apply nth_error_Some; congruence).
    destruct (@holds_next _ _ _ _ _ _ _ _ _ H (Nat.lt_le_incl _ _ Hlt)) as (p & E). rewrite E. destruct (Nat.ltb_spec k (length l)); [|lia].
    destruct (holds_metadata _ (holds_pos p H) Hix) as (b & q & Em & Eu). rewrite (@bind_ok _ _ _ _ _ _ _ _ Em).
    rewrite (@bind_ok _ _ _ (lift (index_meta_unmarshal b)) _ _ (ix_meta ix) (set_pos (set_pos s p) q)) by (unfold lift; rewrite Eu; reflexivity).
    destruct (holds_nth _ H Hix) as (_ & _ & _ & Ea). destruct Hsame as [S1 S2]. cbn [ix_meta im_name im_type]. rewrite S1, S2, Z.eqb_refl.
    rewrite (proj2 (name_eqb_spec name name) eq_refl). cbn [andb]. exists q, ix. split; auto. rewrite <- Ea. unfold ret, ix_meta. rewrite S1, S2. reflexivity.
  - assert (Hlt : (k + S d < length l)%nat) by (apply nth_error_Some; congruence).
    destruct (@holds_next c s fm l fl ms x0 L k H ltac:(lia)) as (p & E). rewrite E. destruct (Nat.ltb_spec k (length l)); [|lia].
    destruct (nth_error l k) as [iy|] eqn:Ey; [|apply nth_error_None in Ey; lia].
    destruct (holds_metadata _ (holds_pos p H) Ey) as (b & q & Em & Eu). rewrite (@bind_ok _ _ _ _ _ _ _ _ Em).
    rewrite (@bind_ok _ _ _ (lift (index_meta_unmarshal b)) _ _ (ix_meta iy) (set_pos (set_pos s p) q)) by (unfold lift; rewrite Eu; reflexivity).
    cbn [ix_meta im_name im_type]. destruct (name_eqb (ix_name iy) name && (ix_type iy =? ft)) eqn:Eb.
    { exfalso. apply (Hno k iy); [lia|auto|]. apply same_indexb_spec. exact Eb. }
    destruct (IH (S k) fuel (set_pos (set_pos s p) q) fm l fl ms x0 L) as (r & iz & Ez & Ef).
    + apply holds_pos, holds_pos; auto.
    + exists ix. replace (S k + d)%nat with (k + S d)%nat by lia. auto.
    + intros j iw Hj. apply Hno. lia.
    + lia.
    + exists r, iz. split; [replace (k + S d)%nat with (S k + d)%nat by lia; auto|exact Ef].
Qed.
Lemma find_from_none c name ft : forall d k fuel s fm l fl ms x0 L, holds c s fm l fl ms x0 L -> (k + d = length l)%nat ->
  (forall j ix, (k <= j)%nat -> nth_error l j = Some ix -> ~ same_index name ft ix) -> (d < fuel)%nat ->
  exists p, find_or_create_from fuel (slot ms k) name ft s =
    (next <- lp_add_next (slot ms (length l)) ;; let m := IM name ft (determine_type ft) 0 in
     buf <- lift (index_meta_marshal m) ;; lp_set_metadata next buf ;;; ret (next, m)) (set_pos s p).
Proof.
  induction d as [|d IH]; intros k fuel s fm l fl ms x0 L H Hk Hno Hfuel; (destruct fuel as [|fuel]; [lia|]); cbn [find_or_create_from].
  - rewrite Nat.add_0_r in *. subst k. destruct (@holds_next c s fm l fl ms x0 L (length l) H ltac:(lia)) as (p & E). rewrite E.
    destruct (Nat.ltb_spec (length l) (length l)); [lia|]. exists p. reflexivity.
  - destruct (@holds_next c s fm l fl ms x0 L k H ltac:(lia)) as (p & E). rewrite E. destruct (Nat.ltb_spec k (length l)); [|lia].
    destruct (nth_error l k) as [iy|] eqn:Ey; [|apply nth_error_None in Ey; lia].
    destruct (holds_metadata _ (holds_pos p H) Ey) as (b & q & Em & Eu). rewrite (@bind_ok _ _ _ _ _ _ _ _ Em).
    rewrite (@bind_ok _ _ _ (lift (index_meta_unmarshal b)) _ _ (ix_meta iy) (set_pos (set_pos s p) q)) by (unfold lift; rewrite Eu; reflexivity).
    cbn [ix_meta im_name im_type]. destruct (name_eqb (ix_name iy) name && (ix_type iy =? ft)) eqn:Eb.
    { exfalso. apply (Hno k iy); [lia|auto|]. apply same_indexb_spec. exact Eb. }
    destruct (IH (S k) fuel (set_pos (set_pos s p) q) fm l fl ms x0 L) as (r & Ef).
    + apply holds_pos, holds_pos; auto.
    + lia.
    + intros j iw Hj. apply Hno. lia.
    + lia.
    + exists r. exact Ef.
Qed.
(** the number of slots is bounded by the file, so the fuel suffices *)
Lemma holds_fuel c s fm l fl ms x0 L : holds c s fm l fl ms x0 L -> (length l < fuel_of s)%nat.
Proof.
  intros H. pose proof (cl_chain (ho_cells H)) as Hc. pose proof (mc_n Hc) as Hn. rewrite (holds_len H). cbn [length] in Hn.
  assert (Hp : pageSize * zlen ms <= zlen (file s)).
  { apply pages_count; [apply (mc_nd Hc)|]. eapply Forall_impl; [|exact (mc_ok Hc)]. intros a [X _]; auto. }
  unfold fuel_of, zlen, pageSize in *. lia.
Qed.
Lemma exists_first {A} (P : A -> bool) l : existsb P l = true -> exists d x, nth_error l d = Some x /\ P x = true /\ forall j y, (j < d)%nat -> nth_error l j = Some y -> P y = false.
Proof.
  induction l as [|a l IH]; [discriminate|]. cbn [existsb]. destruct (P a) eqn:Ea.
  - intros _. exists 0%nat, a. split; auto. split; auto. intros; lia.
  - intros E. destruct (IH E) as (d & x & H1 & H2 & H3). exists (S d), x. split; auto. split; auto.
    intros [|j] y Hj Hy; cbn in Hy; [congruence|]. eapply H3; eauto. lia.
Qed.
Lemma existsb_false_all {A} (P : A -> bool) l : existsb P l = false -> forall j y, nth_error l j = Some y -> P y = false.
Proof.
  intros H j y Hy. destruct (P y) eqn:E; auto. assert (X : existsb P l = true) by (apply existsb_exists; exists y; split; auto; eapply nth_error_In; eauto). congruence.
Qed.

(** an index that exists is found and nothing changes *)
Lemma find_existing c s fm l fl ms x0 L name ft : holds c s fm l fl ms x0 L -> existsb (same_indexb name ft) l = true ->
  exists p ix, In ix l /\ same_index name ft ix /\ find_or_create file_slot name ft s = (Ok (ix_at ix, ix_meta ix), set_pos s p).
Proof.
  intros H Hex. destruct (exists_first _ _ Hex) as (d & ix & H1 & H2 & H3). apply same_indexb_spec in H2.
  assert (Hd : (d < length l)%nat) by (apply nth_error_Some; congruence). pose proof (holds_fuel H).
  destruct (@find_from_found c name ft d 0%nat (fuel_of s) s fm l fl ms x0 L H) as (p & iy & E1 & E2).
  - exists ix. auto.
  - intros j iz Hj Hz X. apply same_indexb_spec in X. rewrite (H3 j iz) in X; [discriminate|lia|auto].
  - lia.
  - cbn [Nat.add] in E1. rewrite E1 in H1. injection H1 as ->. exists p, ix. split; [eapply nth_error_In; eauto|]. split; auto.
    unfold find_or_create. rewrite <- (holds_slot0 H). exact E2.
Qed.
Lemma tail_is_slot ms n : tail_of ms (S n) = slot ms n.
Proof. reflexivity. Qed.
Lemma marshal_new_len name ft : zlen name <= 2^16 - 7 -> index_meta_marshal (IM name ft (determine_type ft) 0) = Ok (le 2 ft ++ le 2 (determine_type ft) ++ le 2 (zlen name) ++ name ++ [0]) /\
  zlen (le 2 ft ++ le 2 (determine_type ft) ++ le 2 (zlen name) ++ name ++ [0]) = 7 + zlen name.
Proof.
  intros H. rewrite index_meta_marshal_eq by (cbn; lia). cbn [im_type im_width im_name im_total]. split; [reflexivity|].
  rewrite !zlen_app, !zlen_le. change (zlen [0]) with 1. lia.
Qed.
Lemma determine_type_range ft : 0 <= determine_type ft <= 9.
Proof. unfold determine_type. repeat match goal with |- context [if ?b then _ else _] => destruct b end; lia. Qed.

(** an index that does not exist is created *)
Lemma find_new c s fm l fl ms x0 L name ft : (forall ft, codec_ok (c ft)) -> holds c s fm l fl ms x0 L -> existsb (same_indexb name ft) l = false ->
  zlen (file s) < 2^60 -> zlen name <= 245 -> 0 <= ft < 2^8 ->
  exists s' fl' ms' L', find_or_create file_slot name ft s = (Ok (slot ms' (S (length l)), IM name ft (determine_type ft) 0), s') /\
    kind s' = kind s /\ zlen (file s) <= zlen (file s') <= zlen (file s) + pageSize /\
    holds c s' fm (l ++ [IX (slot ms' (S (length l))) name ft 0 []]) fl' ms' x0 L' /\ grown L L'.
Proof.
  intros Hc H Hno Hf Hname Hft. pose proof (holds_fuel H) as Hfu. pose proof (holds_len H) as Hlen.
  destruct (@find_from_none c name ft (length l) 0%nat (fuel_of s) s fm l fl ms x0 L H eq_refl) as (p & E).
  { intros j ix _ Hj X. apply same_indexb_spec in X. rewrite (existsb_false_all _ _ Hno _ Hj) in X. discriminate. }
  { auto. }
  unfold find_or_create. rewrite <- (holds_slot0 H). rewrite E. clear E. cbv zeta.
  destruct (@cells_add (set_pos s p) fl ms (x0 :: L) (c ft) (cells_pos p (ho_cells H)) (Hc ft) Hf) as (s1 & ms' & fl' & E1 & C1 & K1 & S1 & Z1).
  cbn [length] in E1. rewrite tail_is_slot in E1. rewrite <- Hlen in E1. rewrite (@bind_ok _ _ _ _ _ _ _ _ E1).
  destruct (marshal_new_len name ft ltac:(lia)) as [Em Lm]. set (b := le 2 ft ++ _) in *.
  rewrite (@bind_ok _ _ _ (lift (index_meta_marshal (IM name ft (determine_type ft) 0))) _ s1 b s1) by (unfold lift; rewrite Em; reflexivity).
  assert (Hx : nth_error ((x0 :: L) ++ [Cell [] (c ft) [] []]) (S (length l)) = Some (Cell [] (c ft) [] [])).
  { rewrite nth_error_app2 by (cbn [length]; lia). cbn [length]. replace (S (length l) - S (length L))%nat with 0%nat by lia. reflexivity. }
  destruct (@cells_set s1 fl' ms' _ (S (length l)) _ b C1 Hx ltac:(lia)) as (q & E2 & C2 & Z2). rewrite (@bind_ok _ _ _ _ _ _ _ _ E2). cbn [c_codec c_es c_pgs] in C2.
  eexists _, fl', ms', (L ++ [Cell b (c ft) [] []]). split; [reflexivity|]. split; [exact K1|]. split; [cbn [file set_pos set_file] in *; lia|].
  assert (EL : lset ((x0 :: L) ++ [Cell [] (c ft) [] []]) (S (length l)) (Cell b (c ft) [] []) = x0 :: L ++ [Cell b (c ft) [] []]).
  { unfold lset. rewrite firstn_app_exact by (cbn [length]; lia). rewrite skipn_all2 by (rewrite app_length; cbn [length]; lia). reflexivity. }
  rewrite EL in C2. split; [|apply grown_app]. constructor; auto.
  - apply (ho_fm H).
  - apply (ho_c0 H).
  - apply Forall2_app; [apply (ho_ix H)|]. constructor; [|constructor]. split; [exact Em|]. split; [|split; [|split]]; cbn [ix_meta ix_name ix_type ix_total ix_es c_codec c_es]; auto.
    + unfold index_meta_ok, ix_meta. cbn [im_type im_width im_total ix_type ix_total]. pose proof (determine_type_range ft). lia.
    + lia.
  - rewrite map_app, app_length. cbn [map length ix_at]. rewrite Nat.add_1_r, seq_S, map_app. cbn [map]. f_equal.
    rewrite (ho_at H). apply map_ext_in. intros k Hk. apply in_seq in Hk. symmetry. apply S1. cbn [length]. lia.
  - rewrite map_app. cbn [map ix_name ix_type].
    assert (Hn : ~ In (name, ft) (map (fun ix => (ix_name ix, ix_type ix)) l)).
    { intros X. apply in_map_iff in X. destruct X as (ix & Ex & Hix). apply In_nth_error in Hix. destruct Hix as (j & Hj).
      pose proof (existsb_false_all _ _ Hno _ Hj) as X. assert (Y : same_indexb name ft ix = true) by (apply same_indexb_spec; injection Ex as <- <-; split; auto). congruence. }
    pose proof (ho_nd H) as Hnd. revert Hnd Hn. generalize (map (fun ix => (ix_name ix, ix_type ix)) l). clear. intros q. induction q as [|a q IH]; intros Hnd Hn; cbn [app].
    + constructor; [intros []|constructor].
    + inversion Hnd; subst. constructor; [|apply IH; auto; intros X; apply Hn; right; auto].
      rewrite in_app_iff. intros [X|[X|[]]]; [auto|]. apply Hn. left; auto.
Qed.
