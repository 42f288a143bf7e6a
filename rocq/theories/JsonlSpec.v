(** Specification for C37-C42: what a JSONL data file contains and what its
    indexes should hold. Independent of the handler; only the JSON texts of
    JsonDoc.v (first section) are used. *)
From Verif Require Import Base RefValue Meta PTree Json JsonDoc.

Section Spec.
Variables (unquote : bytes -> bytes) (to_float : bytes -> option bytes).
(** the n-grams of a text: words, with their offsets in the text and their lengths; the fields to be searched *)
Variables (grams : bytes -> Z -> res (list (bytes * Z * Z))) (hdrs : list bytes).

(** ** Data files: lines, each one object, and an unfinished last line *)
Record line := LN { ln_before : bytes; ln_ws : bytes; ln_members : jmembers; ln_after : bytes }.
Definition line_text (x : line) : bytes := ln_before x ++ vtext (JObj (ln_ws x) (ln_members x)) ++ ln_after x.
Definition line_wf (x : line) : Prop := ws (ln_before x) /\ vwf to_float (JObj (ln_ws x) (ln_members x)) /\ ws (ln_after x).
(** what the handler asks of a line: it begins with an object; after the object there may be anything *)
Definition line_taken (x : line) : Prop := ws (ln_before x) /\ vwf to_float (JObj (ln_ws x) (ln_members x)) /\ ~ In 10 (ln_after x).
Lemma wf_taken x : line_wf x -> line_taken x.
Proof. intros (A & B & C). split; [exact A|]. split; [exact B|]. intros X. unfold ws in C. rewrite Forall_forall in C. specialize (C 10 X). cbn in C. lia. Qed.
Fixpoint lines_text (l : list line) : bytes := match l with [] => [] | x :: t => line_text x ++ 10 :: lines_text t end.
Definition data_of (l : list line) (tail : bytes) : bytes := lines_text l ++ tail.

(** ** The fields of a line *)
(** the names of a field: the keys on the way to it, joined by dots *)
Fixpoint dotted (path : list bytes) : bytes := match path with [] => [] | [x] => x | x :: t => x ++ 46 :: dotted t end.
(** a field: its name, its value, where the value's text range starts and ends in
    the data file. The range starts one byte after the quote that closes the key. *)
Record field := FD { fd_name : bytes; fd_value : jv; fd_from : Z; fd_to : Z }.
(** the fields of the members [l] whose text starts at [pos]; [path] leads to them *)
Fixpoint vfields (path : list bytes) (pos : Z) (v : jv) : list field :=
  match v with JObj w l => mfields path (pos + 1 + zlen w) true l | _ => [] end
with mfields (path : list bytes) (pos : Z) (first : bool) (l : jmembers) : list field :=
  match l with
  | MNil => []
  | MCons w1 k w2 w3 v w4 t =>
      let key_end := pos + zlen (comma first) + zlen w1 + zlen k + 2 in
      let value_start := key_end + zlen w2 + 1 + zlen w3 in
      let value_end := value_start + zlen (vtext v) in
      let path' := path ++ [unquote k] in
      FD (dotted path') v (key_end + 1) value_end :: vfields path' value_start v ++ mfields path (value_end + zlen w4) false t
  end.
(** the field type, and the key bytes of a scalar *)
Definition type_of (v : jv) : Z := match v with JNull => FTNull | JBool _ => FTBoolean | JNum _ => FTFloat64 | JStr _ => FTString | JArr _ _ => FTArray | JObj _ _ => FTObject end.
Definition key_bytes (v : jv) : option bytes :=
  match v with
  | JNull => Some [] | JBool b => Some [if b then 1 else 0]
  | JNum t => Some (match to_float t with Some f => f | None => [] end)
  | JStr b => Some (unquote b)
  | _ => None
  end.
(** an occurrence: a field and the byte range of its line *)
Definition occ := (field * mptr)%type.
Definition occ_id (o : occ) : bytes * Z := (fd_name (fst o), type_of (fd_value (fst o))).
Fixpoint occs (at_ : Z) (l : list line) : list occ :=
  match l with
  | [] => []
  | x :: t =>
      map (fun f => (f, MP at_ (zlen (line_text x)))) (mfields [] (at_ + zlen (ln_before x) + 1 + zlen (ln_ws x)) true (ln_members x))
      ++ occs (at_ + zlen (line_text x) + 1) t
  end.
(** the entries an occurrence contributes: a scalar gives one, its key is the value
    with the value's range, its pointer is the line's range *)
Definition entry (o : occ) : smap :=
  match key_bytes (fd_value (fst o)) with
  | Some b => [(RV (MP (fd_from (fst o)) (fd_to (fst o) - fd_from (fst o))) b, snd o)]
  | None => []
  end.
(** what it adds to TotalFieldValueLength *)
Definition weight (o : occ) : Z := match fd_value (fst o) with JBool _ => 1 | JNum _ | JStr _ => fd_to (fst o) - fd_from (fst o) | _ => 0 end.
Definition id_eqb (a b : bytes * Z) : bool := (if list_eq_dec Z.eq_dec (fst a) (fst b) then true else false) && (snd a =? snd b).
(** a posting: the index it belongs to, its entries, what it adds to the total of the index *)
Record posting := PO { po_id : bytes * Z; po_entries : smap; po_weight : Z }.
(** a string field that is searched is also posted to the indexes of its unigrams, bigrams
    and trigrams: an entry for each n-gram, whose key is the n-gram, at its place behind the
    start of the field's range, with the length of the whole text *)
Definition searched (name : bytes) : bool := existsb (fun h => if list_eq_dec Z.eq_dec name h then true else false) hdrs.
Definition pieces (text : bytes) (n : Z) : list (bytes * Z * Z) := match grams text n with Ok l => l | _ => [] end.
Definition gram_posting (o : occ) (text : bytes) (n ft : Z) : posting :=
  PO (fd_name (fst o), ft) (map (fun w => (RV (MP (fd_from (fst o) + snd (fst w)) (zlen text)) (fst (fst w)), snd o)) (pieces text n))
    (fold_right (fun w t => snd w + t) 0 (pieces text n)).
Definition gram_postings (o : occ) (b : bytes) : list posting :=
  [gram_posting o (unquote b) 1 FTUnigram; gram_posting o (unquote b) 2 FTBigram; gram_posting o (unquote b) 3 FTTrigram].
Definition postings (o : occ) : list posting :=
  PO (occ_id o) (entry o) (weight o) ::
  match fd_value (fst o) with JStr b => if searched (fd_name (fst o)) then gram_postings o b else [] | _ => [] end.
Definition posts (l : list occ) : list posting := flat_map postings l.
(** the contents of the index [i]: its total and its entries *)
Definition total_of (l : list occ) (i : bytes * Z) : Z := fold_right (fun p t => po_weight p + t) 0 (filter (fun p => id_eqb (po_id p) i) (posts l)) mod 2^64.
Definition entries_of (l : list occ) (i : bytes * Z) : smap := flat_map po_entries (filter (fun p => id_eqb (po_id p) i) (posts l)).
(** the indexes, in order of first appearance *)
Fixpoint firsts (l : list (bytes * Z)) : list (bytes * Z) :=
  match l with [] => [] | x :: t => x :: filter (fun y => negb (id_eqb y x)) (firsts t) end.
Definition ids (l : list occ) : list (bytes * Z) := firsts (map po_id (posts l)).

(** ** Limits *)
(** no white space between the key of a string and its colon; every name has at most 236 bytes *)
Fixpoint vtight (v : jv) : Prop := match v with JObj _ l => mtight l | _ => True end
with mtight (l : jmembers) : Prop := match l with MNil => True | MCons _ _ w2 _ v _ t => match v with JStr _ => w2 = [] | _ => True end /\ vtight v /\ mtight t end.
(** of a searched field: a string below 2^32 bytes whose n-grams are words of n bytes at
    different offsets within the range of the field *)
Definition gram_fits (o : occ) : Prop :=
  match fd_value (fst o) with
  | JStr b => zlen (unquote b) < 2^32 /\ forall n, 1 <= n <= 3 -> exists l, grams (unquote b) n = Ok l /\ NoDup (map (fun w : bytes * Z * Z => snd (fst w)) l) /\
      Forall (fun w : bytes * Z * Z => zlen (fst (fst w)) = n /\ 0 <= snd (fst w) < fd_to (fst o) - fd_from (fst o)) l
  | _ => False
  end.
Definition search_fits (o : occ) : Prop := searched (fd_name (fst o)) = true -> gram_fits o.
Definition short_names (l : list occ) : Prop := Forall (fun o => zlen (fd_name (fst o)) <= 236) l.
End Spec.
