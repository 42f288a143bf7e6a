(** The token reader of Go's encoding/json (Decoder.Token, More, InputOffset), which
    pkg/handlers/jsonl.go:39-312 drives. The library is not in /repo: this is a
    model of its documented behaviour (Go 1.22, encoding/json/stream.go and
    scanner.go) on an input that is completely available, which is the case here
    (bytes.NewReader). Two of its functions are left open, as parameters of every
    definition and theorem:
    - [unquote]: the text between the quotes of a string to its value (escapes,
      invalid UTF-8 replaced), decode.go:unquote;
    - [to_float]: the text of a number to the 8 bytes of its float64, big-endian;
      [None] if it is out of range (strconv.ParseFloat fails). *)
From Verif Require Import Base.

(** ** Tokens *)
Inductive tok := TDelim (c : Z) | TStr (v : bytes) | TNum (v : bytes) | TBool (b : bool) | TNull.
(** Decoder.tokenState: encoding/json/stream.go *)
Inductive tstate := TopValue | ArrayStart | ArrayValue | ArrayComma | ObjectStart | ObjectKey | ObjectColon | ObjectValue | ObjectComma.
(** A Decoder: the unread input, InputOffset(), tokenState and tokenStack *)
Record dec := DE { d_rest : bytes; d_off : Z; d_st : tstate; d_stack : list tstate }.
(** json.NewDecoder(bytes.NewReader(b)) *)
Definition new_dec (b : bytes) : dec := DE b 0 TopValue [].

(** isSpace: encoding/json/scanner.go *)
Definition is_space (c : Z) : bool := (c =? 32) || (c =? 9) || (c =? 13) || (c =? 10).
(** Decoder.peek: skips white space; [None] at the end of the input *)
Fixpoint skip_space (b : bytes) : bytes := match b with c :: t => if is_space c then skip_space t else b | [] => [] end.
Definition skip_d (d : dec) : dec := DE (skip_space (d_rest d)) (d_off d + (zlen (d_rest d) - zlen (skip_space (d_rest d)))) (d_st d) (d_stack d).
(** Decoder.More() *)
Definition more (d : dec) : bool := match skip_space (d_rest d) with c :: _ => negb (c =? 93) && negb (c =? 125) | [] => false end.

(** ** Scalars: the scanner's states for strings, numbers and literals *)
Inductive sstate := InStr | InEsc | InU (n : nat).
Definition is_hex (c : Z) : bool := ((48 <=? c) && (c <=? 57)) || ((97 <=? c) && (c <=? 102)) || ((65 <=? c) && (c <=? 70)).
Definition is_esc (c : Z) : bool := (c =? 34) || (c =? 92) || (c =? 47) || (c =? 98) || (c =? 102) || (c =? 110) || (c =? 114) || (c =? 116).
Definition consf {A B} (c : A) (r : option (list A * B)) : option (list A * B) := match r with Some (l, x) => Some (c :: l, x) | None => None end.
(** stateInString, stateInStringEsc, stateInStringEscU...: the body up to the
    closing quote, and what follows *)
Fixpoint str_end (m : sstate) (b : bytes) : option (bytes * bytes) :=
  match b with
  | [] => None
  | c :: t =>
      match m with
      | InStr => if c =? 34 then Some ([], t) else if c =? 92 then consf c (str_end InEsc t) else if c <? 32 then None else consf c (str_end InStr t)
      | InEsc => if is_esc c then consf c (str_end InStr t) else if c =? 117 then consf c (str_end (InU 3) t) else None
      | InU n => if is_hex c then consf c (str_end (match n with O => InStr | S n' => InU n' end) t) else None
      end
  end.
Inductive nstate := NNeg | N0 | N1 | NDot | NDot0 | NE | NESign | NE0.
Definition is_digit (c : Z) : bool := (48 <=? c) && (c <=? 57).
(** stateNeg, state0, state1, stateDot, stateDot0, stateE, stateESign, stateE0;
    [None]: not part of the number *)
Definition nstep (m : nstate) (c : Z) : option nstate :=
  match m with
  | NNeg => if c =? 48 then Some N0 else if is_digit c then Some N1 else None
  | N0 => if c =? 46 then Some NDot else if (c =? 101) || (c =? 69) then Some NE else None
  | N1 => if is_digit c then Some N1 else if c =? 46 then Some NDot else if (c =? 101) || (c =? 69) then Some NE else None
  | NDot => if is_digit c then Some NDot0 else None
  | NDot0 => if is_digit c then Some NDot0 else if (c =? 101) || (c =? 69) then Some NE else None
  | NE => if (c =? 43) || (c =? 45) then Some NESign else if is_digit c then Some NE0 else None
  | NESign => if is_digit c then Some NE0 else None
  | NE0 => if is_digit c then Some NE0 else None
  end.
Definition naccept (m : nstate) : bool := match m with N0 | N1 | NDot0 | NE0 => true | _ => false end.
Fixpoint num_end (m : nstate) (b : bytes) : option (bytes * bytes) :=
  match b with
  | [] => if naccept m then Some ([], []) else None
  | c :: t => match nstep m c with Some m' => consf c (num_end m' t) | None => if naccept m then Some ([], b) else None end
  end.
(** stateT, stateTr, ...: the rest of a literal *)
Fixpoint strip_prefix (p b : bytes) : option bytes :=
  match p, b with
  | [], _ => Some b
  | x :: p', y :: b' => if x =? y then strip_prefix p' b' else None
  | _, [] => None
  end.
Definition lit_true : bytes := [116; 114; 117; 101].
Definition lit_false : bytes := [102; 97; 108; 115; 101].
Definition lit_null : bytes := [110; 117; 108; 108].

Section Decoder.
Variables (unquote : bytes -> bytes) (to_float : bytes -> option bytes).

(** Decoder.Decode(&x) for an interface x, on a scalar value: its token and the
    remaining input (readValue, then decodeState.unmarshal) *)
Definition scalar (b : bytes) : option (tok * bytes) :=
  match b with
  | [] => None
  | c :: t =>
      if c =? 34 then match str_end InStr t with Some (v, r) => Some (TStr (unquote v), r) | None => None end
      else if (c =? 45) || is_digit c then
        match num_end (if c =? 45 then NNeg else if c =? 48 then N0 else N1) t with
        | Some (v, r) => match to_float (c :: v) with Some f => Some (TNum f, r) | None => None end
        | None => None
        end
      else if c =? 116 then match strip_prefix lit_true b with Some r => Some (TBool true, r) | None => None end
      else if c =? 102 then match strip_prefix lit_false b with Some r => Some (TBool false, r) | None => None end
      else if c =? 110 then match strip_prefix lit_null b with Some r => Some (TNull, r) | None => None end
      else None
  end.
(** tokenValueAllowed: encoding/json/stream.go *)
Definition value_allowed (s : tstate) : bool := match s with TopValue | ArrayStart | ArrayValue | ObjectValue => true | _ => false end.
(** tokenValueEnd: encoding/json/stream.go *)
Definition value_end (s : tstate) : tstate := match s with ArrayStart | ArrayValue => ArrayComma | ObjectValue => ObjectComma | s => s end.
Definition jerr {A} : res A := Err (EMsg "json").
(** the state after a scalar that ends where [r] begins *)
Definition after (d : dec) (r : bytes) (s : tstate) : dec := DE r (d_off d + (zlen (d_rest d) - zlen r)) s (d_stack d).
Definition pop_state (d : dec) (r : bytes) : res dec :=
  match d_stack d with s :: k => Ok (DE r (d_off d + 1) (value_end s) k) | [] => Panic end.
(** Decoder.Token(): encoding/json/stream.go. The loop consumes one byte per
    iteration, ':' or ','. *)
Fixpoint token_loop (fuel : nat) (d : dec) : res (tok * dec) :=
  match fuel with
  | O => Hang
  | S fuel' =>
      let d := skip_d d in
      match d_rest d with
      | [] => Err EEof
      | c :: t =>
          if c =? 91 then if value_allowed (d_st d) then Ok (TDelim c, DE t (d_off d + 1) ArrayStart (d_st d :: d_stack d)) else jerr
          else if c =? 93 then
            match d_st d with ArrayStart | ArrayComma => d' <-- pop_state d t ;;; Ok (TDelim c, d') | _ => jerr end
          else if c =? 123 then if value_allowed (d_st d) then Ok (TDelim c, DE t (d_off d + 1) ObjectStart (d_st d :: d_stack d)) else jerr
          else if c =? 125 then
            match d_st d with ObjectStart | ObjectComma => d' <-- pop_state d t ;;; Ok (TDelim c, d') | _ => jerr end
          else if c =? 58 then
            match d_st d with ObjectColon => token_loop fuel' (DE t (d_off d + 1) ObjectValue (d_stack d)) | _ => jerr end
          else if c =? 44 then
            match d_st d with
            | ArrayComma => token_loop fuel' (DE t (d_off d + 1) ArrayValue (d_stack d))
            | ObjectComma => token_loop fuel' (DE t (d_off d + 1) ObjectKey (d_stack d))
            | _ => jerr
            end
          else
            match (if c =? 34 then match d_st d with ObjectStart | ObjectKey => true | _ => false end else false) with
            | true => match scalar (d_rest d) with Some (v, r) => Ok (v, after d r ObjectColon) | None => jerr end
            | false =>
                if value_allowed (d_st d) then
                  match scalar (d_rest d) with Some (v, r) => Ok (v, after d r (value_end (d_st d))) | None => jerr end
                else jerr
            end
      end
  end.
Definition token (d : dec) : res (tok * dec) := token_loop (S (length (d_rest d))) d.
End Decoder.
