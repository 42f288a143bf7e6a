(** pkg/handlers/jsonl.go: the JSONL data handler. *)
From Verif Require Import Base Varint Store PageFile RefValue Node LinkedPage BPTree Meta IndexFile Json.

(** strings.Join(l, "."), pkg/handlers/jsonl.go:151 *)
Fixpoint join (l : list bytes) : bytes := match l with [] => [] | x :: t => match t with [] => x | _ => x ++ 46 :: join t end end.
(** bytes.IndexByte(b, c), pkg/handlers/jsonl.go:34 *)
Fixpoint index_byte (c : Z) (b : bytes) : option Z := match b with [] => None | x :: t => if x =? c then Some 0 else option_map Z.succ (index_byte c t) end.
(** jsonTypeToFieldType: pkg/handlers/jsonl.go:75-94 *)
Definition json_field_type (t : tok) : res Z :=
  match t with
  | TDelim c => if c =? 123 then Ok FTObject else if c =? 91 then Ok FTArray else Panic
  | TNum _ => Ok FTFloat64
  | TStr _ => Ok FTString
  | TBool _ => Ok FTBoolean
  | TNull => Ok FTNull
  end.
Definition u64 (x : Z) : Z := x mod 2^64.
Definition u32 (x : Z) : Z := x mod 2^32.
Definition is_gram (ft : Z) : bool := (ft =? FTUnigram) || (ft =? FTBigram) || (ft =? FTTrigram).

Section Handler.
Variables (unquote : bytes -> bytes) (to_float : bytes -> option bytes).
(** ngram.BuildNgram(value, n): the words with their offsets and lengths (see
    PNgram.v for a model of it); any result is allowed here *)
Variable grams : bytes -> Z -> res (list (bytes * Z * Z)).
(** IndexFile.searchHeaders, pkg/appendable/index_file.go:30 *)
Variable hdrs : list bytes.
(** IsSearch: pkg/appendable/index_file.go:205-213 *)
Definition is_search (name : bytes) : bool := existsb (name_eqb name) hdrs.

(** Parse: pkg/handlers/jsonl.go:96-130. A token that cannot be read gives nil. *)
Definition jparse (value : bytes) : option bytes :=
  match token unquote to_float (new_dec value) with
  | Ok (TStr v, _) => Some v
  | Ok (TNum v, _) => Some v
  | Ok (TBool b, _) => Some [if b then 1 else 0]
  | Ok (TNull, _) => Some []
  | Ok (TDelim _, _) => None
  | Panic => None
  | _ => Some []
  end.
Definition jcodec (width : Z) (r : bytes) : codec := mkCodec width r jparse.
(** skipping an array: pkg/handlers/jsonl.go:268-285 *)
Fixpoint skip_array (fuel : nat) (depth : Z) (d : dec) : res dec :=
  match fuel with
  | O => Hang
  | S fuel' =>
      x <-- token unquote to_float d ;;;
      let depth := match fst x with TDelim c => if c =? 91 then depth + 1 else if c =? 93 then depth - 1 else depth | _ => depth end in
      if depth =? 0 then Ok (snd x) else skip_array fuel' depth (snd x)
  end.
(** the ngrams of a value: pkg/handlers/jsonl.go:192-206; the result is meta.TotalFieldValueLength *)
Fixpoint put_grams (c : codec) (page : lp) (mp : mptr) (len : Z) (data : mptr) (l : list (bytes * Z * Z)) (total : Z) : M st Z :=
  match l with
  | [] => ret total
  | (w, o, n) :: t =>
      bp_insert c page (RV (MP (u64 (mp_off mp + o)) (u32 len)) w) data ;;;
      put_grams c page mp len data t (u64 (total + n))
  end.
(** the read of the closing '}': pkg/handlers/jsonl.go:54-56, 292-294 *)
Definition close_object (d : dec) : res dec :=
  match token unquote to_float d with
  | Ok (TDelim c, d') => if c =? 125 then Ok d' else jerr
  | Panic => Panic | Crash => Crash | Hang => Hang
  | _ => jerr
  end.
(** the insertions for one field type of one field, pkg/handlers/jsonl.go:163-300:
    the decoder afterwards and the new meta.TotalFieldValueLength. [page], [meta]
    come from FindOrCreateIndex, [obj] is the recursive call for a nested object,
    [fo] is fieldOffset. *)
Definition index_value (page : lp) (meta : index_meta) (r : bytes) (data : mptr) (value : tok) (fo : Z) (obj : dec -> M st dec) (d : dec) (ft : Z) : M st (dec * Z) :=
  let c := jcodec (im_width meta) r in
  let mp := MP (u64 (mp_off data + fo)) (u32 (d_off d - fo)) in
  if ft =? FTString then
    match value with
    | TStr v => bp_insert c page (RV mp v) data ;;; ret (d, u64 (im_total meta + mp_len mp))
    | _ => fail (EMsg "expected string")
    end
  else if is_gram ft then
    match value with
    | TStr v => l <- lift (grams v (im_width meta - 1)) ;; t <- put_grams c page mp (zlen v) data l (im_total meta) ;; ret (d, t)
    | _ => fail (EMsg "expected string")
    end
  else if ft =? FTNull then bp_insert c page (RV mp []) data ;;; ret (d, im_total meta)
  else if (ft =? FTFloat64) || (ft =? FTUint64) || (ft =? FTInt64) then
    bp_insert c page (RV mp (match value with TNum v => v | _ => zeros 8 end)) data ;;; ret (d, u64 (im_total meta + mp_len mp))
  else if ft =? FTBoolean then
    match value with
    | TBool b => bp_insert c page (RV mp [if b then 1 else 0]) data ;;; ret (d, u64 (im_total meta + 1))
    | _ => fail (EMsg "expected bool type")
    end
  else if (ft =? FTArray) || (ft =? FTObject) then
    match value with
    | TDelim ch =>
        if ch =? 91 then d' <- lift (skip_array (S (length (d_rest d))) 1 d) ;; ret (d', im_total meta)
        else if ch =? 123 then d' <- obj d ;; d'' <- lift (close_object d') ;; ret (d'', im_total meta)
        else ret (d, im_total meta)
    | _ => ret (d, im_total meta)
    end
  else fail (EMsg "unrecognized type").
(** one field type of one field: pkg/handlers/jsonl.go:158-309 *)
Definition index_ft (tree : lp) (r : bytes) (data : mptr) (name : bytes) (value : tok) (fo : Z) (obj : dec -> M st dec) (d : dec) (ft : Z) : M st dec :=
  pm <- find_or_create tree name ft ;;
  let page := fst pm in
  let meta := snd pm in
  dt <- index_value page meta r data value fo obj d ft ;;
  save_index_meta page (IM (im_name meta) (im_type meta) (im_width meta) (snd dt)) ;;;
  ret (fst dt).
(** the loop over the field types of a field: pkg/handlers/jsonl.go:158-309 *)
Fixpoint index_fts (f : dec -> Z -> M st dec) (fts : list Z) (d : dec) : M st dec :=
  match fts with [] => ret d | ft :: t => d' <- f d ft ;; index_fts f t d' end.
(** handleJSONLObject: pkg/handlers/jsonl.go:132-314. Every iteration and every
    nested call reads a token, so the length of the input bounds them. *)
Fixpoint handle_object (fuel : nat) (tree : lp) (r : bytes) (data : mptr) (path : list bytes) (d : dec) : M st dec :=
  match fuel with
  | O => lift Hang
  | S fuel' =>
      if negb (more d) then ret d
      else
        kd <- lift (token unquote to_float d) ;;
        match fst kd with
        | TStr key =>
            let fo := d_off (snd kd) + 1 in
            vd <- lift (token unquote to_float (snd kd)) ;;
            let name := join (path ++ [key]) in
            ft <- lift (json_field_type (fst vd)) ;;
            d' <- index_fts (index_ft tree r data name (fst vd) fo (handle_object fuel' tree r data (path ++ [key])))
                    (ft :: if is_search name then [FTUnigram; FTBigram; FTTrigram] else []) (snd vd) ;;
            handle_object fuel' tree r data path d'
        | _ => fail (EMsg "expected string key")
        end
  end.
(** the loop over lines: pkg/handlers/jsonl.go:33-65 *)
Fixpoint sync_loop (fuel : nat) (tree : lp) (df : bytes) (m : file_meta) : M st file_meta :=
  match fuel with
  | O => lift Hang
  | S fuel' =>
      let ro := fm_read_offset m in
      if zlen df <? ro then panic
      else
        match index_byte 10 (skipn (Z.to_nat ro) df) with
        | None => ret m
        | Some i =>
            x <- lift (match token unquote to_float (new_dec (slice df ro i)) with
                       | Ok (TDelim c, d) => if c =? 123 then Ok d else Err (EMsg "only json objects are supported at the root")
                       | Panic => Panic | Crash => Crash | Hang => Hang
                       | _ => Err (EMsg "only json objects are supported at the root")
                       end) ;;
            d <- handle_object (S (length (slice df ro i))) tree df (MP ro (u32 i)) [] x ;;
            lift (close_object d) ;;;
            sync_loop fuel' tree df (FM (fm_version m) (fm_format m) (u64 (ro + i + 1)) (u64 (fm_entries m + 1)))
        end
  end.
(** Synchronize: pkg/handlers/jsonl.go:27-73 *)
Definition jsonl_sync (tree : lp) (df : bytes) : M st unit :=
  m <- if_metadata tree ;;
  m <- sync_loop (S (length df)) tree df m ;;
  if_set_metadata tree m.
End Handler.
