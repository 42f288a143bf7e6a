(** C96: what stands on a line of a JSONL file after its object. The handler stops at the
    closing brace: the rest of the line may be anything, and it is neither indexed nor
    reported. *)
From Coq Require Import Permutation.
From Verif Require Import Base Varint Store PageFile RefValue Node LinkedPage BPTree PTree Meta IndexFile IFileInv PIndex Json Jsonl JsonDoc JsonlSpec PJsonl PJsonlEx JsParse.

Section A.
Variables (unquote : bytes -> bytes) (to_float : bytes -> option bytes) (grams : bytes -> Z -> res (list (bytes * Z * Z))) (hdrs : list bytes).
Hypothesis float_8 : forall t f, to_float t = Some f -> zlen f = 8.
(** *** Specification: the line [x] with the text [t] after its object *)
Definition with_after (x : line) (t : bytes) : line := LN (ln_before x) (ln_ws x) (ln_members x) t.
(** the fields of some lines, in order: names and values *)
Definition named (ls : list line) : list (bytes * jv) := map (fun o => (fd_name (fst o), fd_value (fst o))) (occs unquote 0 ls).

(** *** Proofs *)
Lemma named_fields path d v : forall pos, map (fun f => (fd_name f, fd_value f)) (vfields unquote path (pos + d) v) = map (fun f => (fd_name f, fd_value f)) (vfields unquote path pos v)
with named_members path d l : forall pos first, map (fun f => (fd_name f, fd_value f)) (mfields unquote path (pos + d) first l) = map (fun f => (fd_name f, fd_value f)) (mfields unquote path pos first l).
Proof.
  - intros pos. destruct v as [| | | |w l|w l]; try reflexivity. cbn [vfields]. replace (pos + d + 1 + zlen w) with (pos + 1 + zlen w + d) by lia. apply named_members.
  - intros pos first. destruct l as [|w1 k w2 w3 v w4 t]; [reflexivity|]. cbn [mfields]. cbn [map]. rewrite !map_app. cbn [fd_name fd_value].
    replace (pos + d + zlen (comma first) + zlen w1 + zlen k + 2 + zlen w2 + 1 + zlen w3) with (pos + zlen (comma first) + zlen w1 + zlen k + 2 + zlen w2 + 1 + zlen w3 + d) by lia.
    rewrite named_fields.
    replace (pos + zlen (comma first) + zlen w1 + zlen k + 2 + zlen w2 + 1 + zlen w3 + d + zlen (vtext v) + zlen w4) with (pos + zlen (comma first) + zlen w1 + zlen k + 2 + zlen w2 + 1 + zlen w3 + zlen (vtext v) + zlen w4 + d) by lia.
    rewrite named_members. reflexivity.
Qed.
Lemma occs_named : forall ls at_, map (fun o => (fd_name (fst o), fd_value (fst o))) (occs unquote at_ ls) = flat_map (fun x => map (fun f => (fd_name f, fd_value f)) (mfields unquote [] 0 true (ln_members x))) ls.
Proof.
  induction ls as [|x ls IH]; intros at_; [reflexivity|]. cbn [occs flat_map]. rewrite map_app, map_map, IH. f_equal. cbn [fst].
  change (at_ + zlen (ln_before x) + 1 + zlen (ln_ws x)) with (0 + at_ + zlen (ln_before x) + 1 + zlen (ln_ws x)).
  replace (0 + at_ + zlen (ln_before x) + 1 + zlen (ln_ws x)) with (0 + (at_ + zlen (ln_before x) + 1 + zlen (ln_ws x))) by lia. apply named_members.
Qed.

(** *** C96: any text without a line break may follow the object; the line is indexed all
    the same, whole file and all, with the fields it would have without the text *)
Theorem C96_any_text_may_follow D s a x t b tail r s' : PJsonl.life unquote to_float grams hdrs D s ->
  PJsonl.fits unquote to_float grams hdrs (data_of (a ++ x :: b) tail) (a ++ x :: b) tail ->
  ~ In 10 t -> zlen (line_text (with_after x t)) < 2^32 ->
  D = data_of (a ++ with_after x t :: b) tail -> Forall (name_fits unquote grams hdrs) (occs unquote 0 (a ++ with_after x t :: b)) ->
  jsonl_sync unquote to_float grams hdrs file_slot D s = (r, s') -> zlen (file s') < 2^60 ->
  r = Ok tt /\ named (a ++ with_after x t :: b) = named (a ++ x :: b) /\
  reads s' (if_metadata file_slot) (FM 1 0 (zlen D - zlen tail) (zlen a + 1 + zlen b)) /\
  (forall i, In i (ids unquote to_float grams hdrs (occs unquote 0 (a ++ with_after x t :: b))) ->
    index_shows unquote to_float D s' i (total_of unquote to_float grams hdrs (occs unquote 0 (a ++ with_after x t :: b)) i) (entries_of unquote to_float grams hdrs (occs unquote 0 (a ++ with_after x t :: b)) i)) /\
  (forall i, legal_id i -> exists_index s' i -> In i (ids unquote to_float grams hdrs (occs unquote 0 (a ++ with_after x t :: b)))).
Proof.
  intros Hl Hf Ht Hz HD Hn E Hs. assert (F : PJsonl.fits unquote to_float grams hdrs D (a ++ with_after x t :: b) tail).
  { destruct Hf as (_ & T & F & _). split; [exact HD|]. split; [exact T|]. split; [|exact Hn]. apply Forall_app in F. destruct F as [Fa Fx]. apply Forall_app. split; [exact Fa|].
    inversion Fx as [|? ? Hx Fb]; subst. constructor; [|exact Fb]. destruct Hx as ((X1 & X2 & _) & X4 & _). split; [split; [exact X1|split; [exact X2|exact Ht]]|split; [exact X4|exact Hz]]. }
  destruct (C37_read_offset_and_entries float_8 Hl F E Hs) as [E1 R]. destruct (C40_every_field_and_nothing_else_partial float_8 Hl F E Hs) as (_ & S1 & S2 & _).
  split; [exact E1|]. split; [unfold named; rewrite !occs_named, !flat_map_app; reflexivity|]. split; [|split; [exact S1|exact S2]].
  replace (zlen D - zlen tail) with (zlen (lines_text (a ++ with_after x t :: b))) by (rewrite HD; unfold data_of; rewrite zlen_app; lia).
  replace (zlen a + 1 + zlen b) with (zlen (a ++ with_after x t :: b)) by (rewrite zlen_app, zlen_cons; lia). exact R.
Qed.
End A.

(** {"a":1} followed by x, and by a second object *)
Definition xs : bytes := [120].
Definition Dx (t : bytes) : bytes := data_of [with_after line1 t; line2] [].
Definition second : bytes := [123; 34; 97; 34; 58; 50; 125].
Lemma fits_x t : ~ In 10 t -> zlen (line_text (with_after line1 t)) < 2^32 -> Forall (name_fits un gr []) (occs un 0 [with_after line1 t; line2]) -> fits (Dx t) [with_after line1 t; line2] [].
Proof.
  intros Ht Hz Hn. destruct fits12 as (_ & _ & F & _). inversion F as [|? ? F1 F2]; subst. destruct F1 as ((A & B & _) & C & _).
  split; [reflexivity|]. split; [intros []|]. split; [|exact Hn]. constructor; [|exact F2]. split; [split; [exact A|split; [exact B|exact Ht]]|split; [exact C|exact Hz]].
Qed.
(** Refuted: a line that is not a JSON text is refused. Synchronize takes both files and
    counts two entries; the second object of the line is in no index; the client's
    JSON.parse refuses the line. *)
Theorem C96_damaged_line_refuted k t : t = xs \/ t = second ->
  fst (sync (Dx t) (fresh k)) = Ok tt /\ reads (snd (sync (Dx t) (fresh k))) (if_metadata file_slot) (FM 1 0 (zlen (Dx t)) 2) /\
  json_parse (fun b => b) (fun _ => []) (line_text (with_after line1 t)) = Err (EMsg "SyntaxError") /\
  ids un tf gr [] (occs un 0 [with_after line1 t; line2]) = ids un tf gr [] (occs un 0 [line1; line2]).
Proof.
  intros Ht. assert (L : life (Dx t) (fresh k)) by (apply life_of; destruct Ht as [->| ->]; reflexivity).
  assert (F : fits (Dx t) [with_after line1 t; line2] []).
  { apply fits_x; [destruct Ht as [->| ->]; cbn; intuition discriminate|destruct Ht as [->| ->]; reflexivity|apply unsearched; destruct Ht as [->| ->]; vm_compute; repeat constructor; discriminate]. }
  destruct (@C37_read_offset_and_entries un tf gr [] tf_8 (Dx t) (fresh k) _ _ (fst (sync (Dx t) (fresh k))) (snd (sync (Dx t) (fresh k))) L F) as [E R].
  - destruct (sync (Dx t) (fresh k)). reflexivity.
  - apply Z.ltb_lt. destruct Ht as [->| ->]; destruct k; vm_compute; reflexivity.
  - split; [exact E|]. split; [|split; destruct Ht as [->| ->]; vm_compute; reflexivity].
    replace (zlen (Dx t)) with (zlen (lines_text [with_after line1 t; line2])) by (unfold Dx, data_of; rewrite app_nil_r; reflexivity). exact R.
Qed.
