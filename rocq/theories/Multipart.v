(** Model of src/resolver/multipart.ts: the reader over a stream of chunks, the
    4096 byte ring buffer, and the parser of multipart/byteranges bodies.

    The stream is the list of the chunks it will deliver; after the last one
    every read() answers {done: true, value: undefined}, as the Streams standard
    has it. The BYOB branch (multipart.ts:8-9) is dead, since getReader() without
    a mode never gives such a reader. Strings are byte strings: header lines and
    boundaries are taken to be ASCII. *)
From Verif Require Import Base.

(** what a piece of the parser does: goes on with a value, returns from the
    generator, throws, or never comes back *)
Inductive pr (A : Type) := Next (a : A) | Return | Throw (why : String.string) | Stuck.
Arguments Next {A} a. Arguments Return {A}. Arguments Throw {A} why%string_scope. Arguments Stuck {A}.
Definition P (S A : Type) := S -> pr A * S.
Definition pbind {S A B} (p : P S A) (k : A -> P S B) : P S B := fun s =>
  match p s with (Next a, s') => k a s' | (Return, s') => (Return, s') | (Throw w, s') => (Throw w, s') | (Stuck, s') => (Stuck, s') end.
Definition pret {S A} (a : A) : P S A := fun s => (Next a, s).
Definition pthrow {S A} (w : String.string) : P S A := fun s => (Throw w, s).
Arguments pthrow {S A} w%string_scope.
Definition preturn {S A} : P S A := fun s => (Return, s).
Declare Scope mp_scope. Open Scope mp_scope.
Notation "x <~ m ;; k" := (pbind m (fun x => k)) (at level 80, m at level 79, right associativity) : mp_scope.
Notation "m ;~ k" := (pbind m (fun _ => k)) (at level 80, right associativity) : mp_scope.

(** ** The reader and the ring buffer *)
(** buf, ptr, length: multipart.ts:69-71; residual and the chunks still to come: 2-4 *)
Record ring := mkRing { rbuf : bytes; rptr : Z; rlen : Z; resid : option bytes; chunks : list bytes }.
(** the length of buf: src/resolver/multipart.ts:69 *)
Definition ringLen : Z := 4096.

(** one call of the function getReader returns, with a buffer of [m] bytes:
    multipart.ts:10-30. At the end of the stream the loop of 11-29 has nothing
    left to copy and never returns: [None]. Before that readDone is false, so
    the answer is never done. *)
Definition read_from (m : Z) (cs : list bytes) (r : option bytes) : option (bytes * option bytes * list bytes) :=
  match r with
  | Some r => let n := Z.min (zlen r) m in
      Some (firstn (Z.to_nat n) r, (if zlen (skipn (Z.to_nat n) r) =? 0 then None else Some (skipn (Z.to_nat n) r)), cs)
  | None => match cs with
      | [] => None
      | c :: cs => let n := Z.min (zlen c) m in
          Some (firstn (Z.to_nat n) c, (if zlen (skipn (Z.to_nat n) c) =? 0 then None else Some (skipn (Z.to_nat n) c)), cs)
      end
  end.

(** extend: multipart.ts:73-87; the answer is [done] *)
Definition extend : P ring bool := fun s =>
  if rlen s =? ringLen then (Throw "no buffer space left", s)
  else
    let lo := if ringLen <=? rptr s + rlen s then (rptr s + rlen s) mod ringLen else rptr s + rlen s in
    let hi := if ringLen <=? rptr s + rlen s then rptr s else ringLen in
    match read_from (Z.max 0 (hi - lo)) (chunks s) (resid s) with
    | None => (Stuck, s)
    | Some (value, r, cs) => (Next false, mkRing (upd (rbuf s) lo value) (rptr s) (rlen s + zlen value) r cs)
    end.
(** while (length === 0) { if (await extend()) return; }, as in multipart.ts:92-96.
    Each turn uses up a chunk or the residual, which bounds the turns. *)
Fixpoint fill (fuel : nat) : P ring unit :=
  match fuel with
  | O => fun s => (Stuck, s)
  | S fuel => fun s =>
      if rlen s =? 0 then (d <~ extend ;; if d then preturn else fill fuel) s
      else (Next tt, s)
  end.
(** ... followed by a look at buf[ptr] *)
(** a look at buf[ptr] after filling: src/resolver/multipart.ts:71-100 *)
Definition ring_byte : P ring Z := fun s =>
  (fill (S (S (S (length (chunks s))))) ;~ fun s => (Next (nth (Z.to_nat (rptr s)) (rbuf s) 0), s)) s.
(** ptr = (ptr + 1) % buf.length; length--;: multipart.ts:101-102 *)
Definition ring_adv (s : ring) : ring := mkRing (rbuf s) ((rptr s + 1) mod ringLen) (rlen s - 1) (resid s) (chunks s).
(** new Uint8Array(4096), ptr 0, length 0: multipart.ts:69-71 *)
Definition ring_open (cs : list bytes) : ring := mkRing (zeros ringLen) 0 0 None cs.

(** ** Strings *)
Definition cr : Z := 13. Definition lf : Z := 10. Definition dash : Z := 45. Definition colon : Z := 58.
Definition space : Z := 32. Definition slash : Z := 47. Definition semi : Z := 59. Definition equals : Z := 61.
Fixpoint str (s : String.string) : bytes := match s with String.EmptyString => [] | String.String a s => Z.of_nat (Ascii.nat_of_ascii a) :: str s end.
Arguments str s%string_scope.
(** s.split(c): all the pieces *)
Fixpoint split_on (c : Z) (s : bytes) : list bytes :=
  match s with
  | [] => [[]]
  | x :: s => if x =? c then [] :: split_on c s
              else match split_on c s with [] => [[x]] | p :: ps => (x :: p) :: ps end
  end.
(** white space of String.prototype.trim, the ASCII part *)
Definition is_ws (x : Z) : bool := (x =? 32) || ((9 <=? x) && (x <=? 13)).
Fixpoint trim_l (s : bytes) : bytes := match s with [] => [] | x :: r => if is_ws x then trim_l r else s end.
Definition trim (s : bytes) : bytes := rev (trim_l (rev (trim_l s))).
(** Number(s) for a string of decimal digits; the empty string is 0; every other
    string is taken to be NaN ([None]): signs, fractions, exponents, 0x and
    surrounding spaces are not modelled. *)
Definition is_digit (x : Z) : bool := (48 <=? x) && (x <=? 57).
Definition js_number (s : bytes) : option Z :=
  if forallb is_digit s then Some (fold_left (fun a x => 10 * a + (x - 48)) s 0) else None.

(** the headers object: a later value of a name replaces the earlier one, in place *)
Definition headers := list (bytes * bytes).
Definition beq (a b : bytes) : bool := if list_eq_dec Z.eq_dec a b then true else false.
(** headers[key] = value: src/resolver/multipart.ts:66-198 *)
Fixpoint hset (k v : bytes) (h : headers) : headers :=
  match h with [] => [(k, v)] | (k', v') :: h => if beq k k' then (k, v) :: h else (k', v') :: hset k v h end.
Fixpoint hget (k : bytes) (h : headers) : option bytes :=
  match h with [] => None | (k', v') :: h => if beq k k' then Some v' else hget k h end.

(** a header line, with its \r: multipart.ts:138-144. split(":", 2) keeps the
    first two pieces and drops the others. Assigning a string to the name __proto__
    of an object does nothing (JavaScript). The object's own order puts names that
    are array indices first; the list keeps the order of first assignment. *)
Definition header_line (l : bytes) (h : headers) : pr headers :=
  match split_on colon l with
  | k :: v :: _ => Next (if beq (trim k) (str "__proto__") then h else hset (trim k) (trim v) h)
  | _ => Throw "Invalid header"
  end.
(** parseContentRangeHeader and the checks after it: multipart.ts:34-46, 155-167.
    The answer is the length of the part; NaN makes an empty array. *)
Definition content_length (h : headers) : pr Z :=
  match hget (str "Content-Range") h with
  | None | Some [] => Throw "Missing Content-Range header"
  | Some v =>
      match split_on space v with
      | [unit; r] =>
          let range := hd [] (split_on slash r) in
          let start := js_number (hd [] (split_on dash range)) in
          let end_ := match split_on dash range with _ :: e :: _ => js_number e | _ => None end in
          if negb (beq unit (str "bytes")) then Throw "Invalid Content-Range header"
          else match start, end_ with
               | Some a, Some b => if b - a + 1 <? 0 then Throw "RangeError" else Next (b - a + 1)
               | _, _ => Next 0
               end
      | _ => Throw "Invalid Content-Range header"
      end
  end.

(** what the generator yields *)
Record part := Part { p_data : bytes; p_headers : headers }.

(** ** The parser, over a source of bytes: [byte] waits for a byte and looks at
    it, [adv] steps over it. *)
Section Parser.
Context {S : Type} (byte : P S Z) (adv : S -> S).
Definition step : P S unit := fun s => (Next tt, adv s).

(** read boundary: multipart.ts:91-104 *)
Fixpoint boundary_loop (b : bytes) : P S unit :=
  match b with
  | [] => pret tt
  | c :: b => x <~ byte ;; if negb (x =? c) then pthrow "Invalid boundary" else step ;~ boundary_loop b
  end.
(** read the boundary terminator: multipart.ts:106-123 *)
Fixpoint terminator_loop (l : bytes) : P S unit :=
  match l with
  | [] => pret tt
  | c :: l => x <~ byte ;; if x =? c then step ;~ terminator_loop l
              else if x =? dash then preturn else pthrow "Invalid boundary"
  end.
(** read the trailing \r\n: multipart.ts:183-197 *)
Fixpoint trailing_loop (l : bytes) : P S unit :=
  match l with
  | [] => pret tt
  | c :: l => x <~ byte ;; if x =? c then step ;~ trailing_loop l else pthrow "Invalid boundary"
  end.
(** read headers: multipart.ts:125-151; [header] is the line so far, in reverse.
    Each turn consumes a byte, which bounds the turns. *)
Fixpoint headers_loop (fuel : nat) (last : Z) (header : bytes) (h : headers) : P S headers :=
  match fuel with
  | O => fun s => (Stuck, s)
  | Datatypes.S fuel =>
      x <~ byte ;; step ;~
      if (last =? cr) && (x =? lf) then
        if zlen header =? 1 then pret h
        else match header_line (rev header) h with
             | Next h' => headers_loop fuel x [] h'
             | Return => preturn | Throw w => pthrow w | Stuck => fun s => (Stuck, s)
             end
      else headers_loop fuel x (x :: header) h
  end.
(** the body of a part: multipart.ts:168-180 *)
Fixpoint data_loop (n : nat) : P S bytes :=
  match n with
  | O => pret []
  | Datatypes.S n => x <~ byte ;; step ;~ d <~ data_loop n ;; pret (x :: d)
  end.
(** one turn of the outer loop, up to the yield: multipart.ts:89-181 *)
Definition read_part (fuel : nat) (boundary : bytes) : P S part :=
  boundary_loop boundary ;~ terminator_loop [cr; lf] ;~
  h <~ headers_loop fuel 0 [] [] ;;
  n <~ (fun s => (content_length h, s)) ;;
  d <~ data_loop (Z.to_nat n) ;;
  pret (Part d h).
(** the outer loop: what is yielded, and how the generator ends. Each turn
    consumes bytes, which bounds the turns. *)
(** the outer loop: what is yielded, and how the generator ends, src/resolver/multipart.ts:66-198 *)
Fixpoint parts_loop (fuel hfuel : nat) (boundary : bytes) (s : S) : list part * pr unit :=
  match fuel with
  | O => ([], Stuck)
  | Datatypes.S fuel =>
      match read_part hfuel boundary s with
      | (Next p, s') =>
          match trailing_loop [cr; lf] s' with
          | (Next _, s'') => let (ps, e) := parts_loop fuel hfuel boundary s'' in (p :: ps, e)
          | (Return, _) => ([p], Return) | (Throw w, _) => ([p], Throw w) | (Stuck, _) => ([p], Stuck)
          end
      | (Return, _) => ([], Return) | (Throw w, _) => ([], Throw w) | (Stuck, _) => ([], Stuck)
      end
  end.
End Parser.

(** contentType.split(";") and the boundary token: multipart.ts:53-64 *)
Fixpoint starts_with (p s : bytes) : bool :=
  match p, s with [], _ => true | x :: p, y :: s => (x =? y) && starts_with p s | _, _ => false end.
(** the boundary token: src/resolver/multipart.ts:52-64 *)
Definition boundary_of (contentType : bytes) : pr bytes :=
  let tokens := split_on semi contentType in
  if negb (beq (hd [] tokens) (str "multipart/byteranges")) then Throw "Not a multipart/byteranges body"
  else match find (starts_with (str "boundary=")) (map trim tokens) with
       | None => Throw "No boundary found"
       | Some t => match split_on equals t with
                   | _ :: (_ :: _) as b :: _ => Next b
                   | _ => Throw "No boundary found"
                   end
       end.

(** parseMultipartBody(contentType, stream): multipart.ts:48-199. What it yields
    and how it ends. *)
Definition parse_multipart (contentType : bytes) (cs : list bytes) : list part * pr unit :=
  match boundary_of contentType with
  | Next b => let fuel := Datatypes.S (length (concat cs)) in
      parts_loop ring_byte ring_adv fuel fuel (str "--" ++ b) (ring_open cs)
  | Return => ([], Return) | Throw w => ([], Throw w) | Stuck => ([], Stuck)
  end.
