(** Specification for C43, C44, C62: what a CSV data file contains and what its
    indexes should hold. Independent of the handler. *)
From Verif Require Import Base RefValue Meta PTree.

(** an occurrence of a cell: the index (name, type) and its entry: key bytes with the range of
    the cell, and the range of the row *)
Notation cocc := ((bytes * Z) * (rv * mptr))%type.
Section Spec.
(** what a number text stands for: its 8 bytes *)
Variable num : bytes -> option bytes.
(** ** Data files: a header row, rows, and an unfinished last line *)
(** a row without quoting: its cells, and whether it ends in a carriage return *)
Record row := RW { cells : list bytes; cr : bool }.
Fixpoint commas (l : list bytes) : bytes := match l with [] => [] | [x] => x | x :: t => x ++ 44 :: commas t end.
Definition row_text (r : row) : bytes := commas (cells r) ++ if cr r then [13] else [].
Fixpoint rows_text (l : list row) : bytes := match l with [] => [] | r :: t => row_text r ++ 10 :: rows_text t end.
(** a cell without comma, quote and newline *)
Definition cell_plain (v : bytes) : Prop := ~ In 44 v /\ ~ In 34 v /\ ~ In 10 v.
(** a row of such cells, not blank *)
Definition row_plain (r : row) : Prop :=
  Forall cell_plain (cells r) /\ commas (cells r) <> [] /\ (cr r = false -> last (row_text r) 0 <> 13) /\ zlen (row_text r) < 2^32.

(** ** The cells of a data file *)
(** the texts of the two truth values *)
Definition yes : list bytes := [[49]; [116]; [84]; [84; 82; 85; 69]; [116; 114; 117; 101]; [84; 114; 117; 101]].
Definition no : list bytes := [[48]; [102]; [70]; [70; 65; 76; 83; 69]; [102; 97; 108; 115; 101]; [70; 97; 108; 115; 101]].
Definition text_in (v : bytes) (l : list bytes) : bool := if in_dec (list_eq_dec Z.eq_dec) v l then true else false.
(** the field type and the key bytes of a cell *)
Definition cell_type (v : bytes) : Z :=
  if text_in v [[]] then FTNull else match num v with Some _ => FTFloat64 | None => if text_in v (yes ++ no) then FTBoolean else FTString end.
Definition cell_key (v : bytes) : bytes :=
  if text_in v [[]] then [] else match num v with Some f => f | None => if text_in v yes then [1] else if text_in v no then [0] else v end.
(** the occurrences of a row's cells [cs] under the names [hs]; the text of the first starts at [pos] *)
Fixpoint cell_occs (line : mptr) (pos : Z) (hs cs : list bytes) : list cocc :=
  match hs, cs with
  | h :: hs', v :: cs' => ((h, cell_type v), (RV (MP pos (zlen v)) (cell_key v), line)) :: cell_occs line (pos + zlen v + 1) hs' cs'
  | _, _ => []
  end.
Fixpoint row_occs (at_ : Z) (hs : list bytes) (l : list row) : list cocc :=
  match l with
  | [] => []
  | r :: t => cell_occs (MP at_ (zlen (row_text r))) at_ hs (cells r) ++ row_occs (at_ + zlen (row_text r) + 1) hs t
  end.
(** the occurrences of the rows [l] below the header [h] *)
Definition csv_occs (h : row) (l : list row) : list cocc := row_occs (zlen (row_text h) + 1) (cells h) l.
Definition same_idb (a b : bytes * Z) : bool := (if list_eq_dec Z.eq_dec (fst a) (fst b) then true else false) && (snd a =? snd b).
(** the entries of the index [i] *)
Definition centries (l : list cocc) (i : bytes * Z) : smap := map snd (filter (fun o => same_idb (fst o) i) l).
(** A data file within the limits of the theorems: a header of different names of at
    most 245 bytes; rows that are not longer than the header, the first one as long;
    no quoting; an unfinished last line. *)
Definition cfits (D : bytes) (h : row) (rows : list row) (tail : bytes) : Prop :=
  D = row_text h ++ 10 :: rows_text rows ++ tail /\ ~ In 10 tail /\
  row_plain h /\ NoDup (cells h) /\ Forall (fun n => zlen n <= 245) (cells h) /\
  Forall row_plain rows /\ Forall (fun r => (length (cells r) <= length (cells h))%nat) rows /\
  match rows with [] => True | r :: _ => length (cells r) = length (cells h) end.
End Spec.
