(** The CSV handler: pkg/handlers/csv.go. The conversion of number texts
    (strconv.Atoi, strconv.ParseFloat) is a parameter. *)
From Verif Require Import Base Varint Store PageFile RefValue Node LinkedPage BPTree Meta IndexFile Json Jsonl.

(** ** encoding/csv: Reader.Read on one line without its newline *)
(** readLine at the end of the input drops one carriage return: encoding/csv/reader.go (Go 1.21) readLine *)
Definition drop_cr (l : bytes) : bytes := if last l 0 =? 13 then removelast l else l.
(** where in a field the reader is: at its start, inside plain text, inside quotes, after a quote inside quotes *)
(** encoding/csv, called at pkg/handlers/csv.go:54-64, 153-170: where in a field the reader is *)
Inductive cst := FStart | FPlain | FQuoted | FQuote.
Definition rcons {A} (a : A) (r : res (list A)) : res (list A) := rbind r (fun l => Ok (a :: l)).
(** readRecord, with Comma ',' and without LazyQuotes and TrimLeadingSpace. [acc] is the current field, reversed. *)
(** encoding/csv readRecord, called at pkg/handlers/csv.go:54-64, 153-170, with Comma and without LazyQuotes and TrimLeadingSpace; [acc] is the current field, reversed *)
Fixpoint csv_scan (q : cst) (acc : bytes) (l : bytes) : res (list bytes) :=
  match l with
  | [] => match q with FQuoted => Err (EMsg "extraneous or missing quote in quoted-field") | _ => Ok [rev acc] end
  | c :: t =>
      match q with
      | FStart => if c =? 34 then csv_scan FQuoted acc t else if c =? 44 then rcons (rev acc) (csv_scan FStart [] t) else csv_scan FPlain (c :: acc) t
      | FPlain => if c =? 34 then Err (EMsg "bare quote in non-quoted-field") else if c =? 44 then rcons (rev acc) (csv_scan FStart [] t) else csv_scan FPlain (c :: acc) t
      | FQuoted => if c =? 34 then csv_scan FQuote acc t else csv_scan FQuoted (c :: acc) t
      | FQuote => if c =? 34 then csv_scan FQuoted (34 :: acc) t else if c =? 44 then rcons (rev acc) (csv_scan FStart [] t) else Err (EMsg "extraneous or missing quote in quoted-field")
      end
  end.
(** an empty line is skipped, and then the input has ended *)
(** csv.NewReader(...).Read(), called at pkg/handlers/csv.go:54-64, 153-170: an empty line is skipped, and then the input has ended *)
Definition csv_read (line : bytes) : res (list bytes) :=
  match drop_cr line with [] => Err EEof | l => csv_scan FStart [] l end.

(** ** Values *)
(** strconv.ParseBool: strconv/atob.go *)
Definition trues : list bytes := [[49]; [116]; [84]; [84; 82; 85; 69]; [116; 114; 117; 101]; [84; 114; 117; 101]].
Definition falses : list bytes := [[48]; [102]; [70]; [70; 65; 76; 83; 69]; [102; 97; 108; 115; 101]; [70; 97; 108; 115; 101]].
Definition parse_bool (v : bytes) : option bool :=
  if existsb (name_eqb v) trues then Some true else if existsb (name_eqb v) falses then Some false else None.
Section Handler.
(** Atoi, then ParseFloat, then the big-endian bits of the float: the 8 bytes Parse stores for a number text *)
Variable num : bytes -> option bytes.
(** InferCSVField: pkg/handlers/csv.go:107-127; the field type *)
Definition infer (v : bytes) : Z :=
  match v with
  | [] => FTNull
  | _ => match num v with
         | Some _ => FTFloat64
         | None => match parse_bool v with Some _ => FTBoolean | None => FTString end
         end
  end.
(** Parse: pkg/handlers/csv.go:129-151 *)
Definition csv_parse (v : bytes) : bytes :=
  match v with
  | [] => []
  | _ => match num v with
         | Some f => f
         | None => match parse_bool v with Some b => [if b then 1 else 0] | None => v end
         end
  end.
(** the b+tree of an index as the handler opens it, with Width 0: pkg/handlers/csv.go:187 *)
Definition ccodec (df : bytes) : codec := mkCodec 0 df (fun v => Some (csv_parse v)).
(** handleCSVLine, the loop over the fields: pkg/handlers/csv.go:160-194; [path] is always empty *)
Fixpoint csv_fields (tree : lp) (df : bytes) (data : mptr) (hs rec : list bytes) (cum : Z) {struct rec} : M st unit :=
  match rec with
  | [] => ret tt
  | v :: rec' =>
      match hs with
      | [] => fail (EMsg "field index is out of bounds with header")
      | name :: hs' =>
          pm <- find_or_create tree name (infer v) ;;
          bp_insert (ccodec df) (fst pm) (RV (MP (u64 (mp_off data + cum)) (u32 (zlen v))) (csv_parse v)) data ;;;
          csv_fields tree df data hs' rec' (u64 (cum + u32 (u32 (zlen v) + 1)))
      end
  end.
(** the loop of Synchronize: pkg/handlers/csv.go:46-74, with handleCSVLine's read, 153-157 *)
Fixpoint csv_loop (fuel : nat) (tree : lp) (df : bytes) (hs : list bytes) (m : file_meta) : M st file_meta :=
  match fuel with
  | O => lift Hang
  | S fuel' =>
      let ro := fm_read_offset m in
      if zlen df <? ro then panic
      else
        match index_byte 10 (skipn (Z.to_nat ro) df) with
        | None => ret m
        | Some i =>
            rec <- lift (csv_read (slice df ro i)) ;;
            let m' := FM (fm_version m) (fm_format m) (u64 (ro + i + 1)) (fm_entries m) in
            match hs with
            | [] => csv_loop fuel' tree df rec m'
            | _ => csv_fields tree df (MP ro (u32 i)) hs rec 0 ;;; csv_loop fuel' tree df hs m'
            end
        end
  end.
(** Synchronize: pkg/handlers/csv.go:29-85 *)
Definition csv_sync (tree : lp) (df : bytes) : M st unit :=
  m <- if_metadata tree ;;
  hs <- if_field_names tree ;;
  m <- csv_loop (S (length df)) tree df hs m ;;
  if_set_metadata tree m.
End Handler.
