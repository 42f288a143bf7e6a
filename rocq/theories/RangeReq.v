(** Model of src/resolver/range-request.ts: asking a server for byte ranges, in
    one multipart request or one by one, and of DataFile.get. *)
From Verif Require Import Base Multipart.

(** what fetch gives: the parts of a Response the code looks at. [rs_body] None is
    a null body; the header values are None when absent. *)
Record response := Resp { rs_status : Z; rs_type : option bytes; rs_range : option bytes; rs_body : option (list bytes) }.
(** a requested range: start and end, both included, and expectedLength *)
Record range := Rng { r_start : Z; r_end : Z; r_expected : option Z }.
(** the server, as a function of the ranges in the Range header. The text of the
    header is not modelled; a server that changes its answers over time is one
    function per call of requestRanges. *)
Definition server := list (Z * Z) -> response.
Definition ends (r : range) : Z * Z := (r_start r, r_end r).
(** the bytes and the totalLength; None is NaN *)
Definition answer := (bytes * option Z)%type.

(** Number(header.split("/")[1]): undefined is NaN. range-request.ts:17-19, 89-91 *)
Definition total_of (content_range : bytes) : option Z :=
  match split_on slash content_range with _ :: t :: _ => js_number t | _ => None end.
(** response.arrayBuffer(): the whole body; a null body is empty *)
Definition array_buffer (r : response) : bytes := match rs_body r with Some cs => concat cs | None => [] end.
(** one turn of resolveIndividualPromises: range-request.ts:10-28. The status is
    not looked at. *)
Definition resolve_one (srv : server) (r : range) : pr answer :=
  let res := srv [ends r] in
  match rs_range res with
  | None => Throw "TypeError"
  | Some cr =>
      let total := total_of cr in
      let expected := match r_expected r with Some e => if e =? 0 then None else Some e | None => None end in
      match expected, total with
      | None, _ => Next (array_buffer res, total)
      | Some e, Some t => if t =? e then Next (array_buffer res, total) else Throw "LengthIntegrityError"
      | Some _, None => Throw "LengthIntegrityError"
      end
  end.
(** Promise.all over the ranges: range-request.ts:5-30. When several fail the
    first of the list is reported here. *)
Fixpoint resolve_all (srv : server) (rs : list range) : pr (list answer) :=
  match rs with
  | [] => Next []
  | r :: rs => match resolve_one srv r with
               | Next a => match resolve_all srv rs with Next l => Next (a :: l) | Return => Return | Throw w => Throw w | Stuck => Stuck end
               | Return => Return | Throw w => Throw w | Stuck => Stuck
               end
  end.
(** s.includes(p) *)
Fixpoint includes (p s : bytes) : bool :=
  starts_with p s || match s with [] => false | _ :: s => includes p s end.
(** headers["content-range"]?.split("/")[1], then parseInt or 0: range-request.ts:81-84.
    parseInt is only modelled on digits. *)
Definition part_total (h : headers) : option Z :=
  match hget (str "content-range") h with
  | None => Some 0
  | Some v => match split_on slash v with
              | _ :: (_ :: _) as t :: _ => js_number t
              | _ => Some 0
              end
  end.
(** requestRanges: range-request.ts:32-110. [multi] is useMultipartByteRanges !== false.
    The parts the parser yields before it fails are dropped with the exception. *)
Definition request_ranges (multi : bool) (srv : server) (rs : list range) : pr (list answer) :=
  if negb multi then resolve_all srv rs
  else if existsb (fun r => r_end r - r_start r <=? 0) rs then Throw "Invalid range"
  else
    let res := srv (map ends rs) in
    if rs_status res =? 200 then resolve_all srv rs
    else if rs_status res =? 206 then
      match rs_type res with
      | None | Some [] => Throw "Missing Content-Type in response"
      | Some ct =>
          if includes (str "multipart/byteranges") ct then
            match rs_body res with
            | None => Throw "response body is null"
            | Some cs =>
                match parse_multipart ct cs with
                | (_, Throw w) => Throw w
                | (_, Stuck) => Stuck
                | ([], _) => Throw "TypeError"
                | (ps, _) => Next (map (fun p => (p_data p, part_total (p_headers p))) ps)
                end
            end
          else match rs_range res with
               | Some cr => Next [(array_buffer res, total_of cr)]
               | None => Throw "Unexpected response format"
               end
      end
    else if rs_status res =? 416 then Throw "Resolver cannot serve the requested ranges"
    else Throw "Expected 206 or 200 response".

(** DataFile.get(start, end) up to the decoding of the text: data-file.ts:28-35 *)
Definition data_get (multi : bool) (srv : server) (start end_ : Z) : pr bytes :=
  if end_ <=? start then Throw "Invalid range"
  else match request_ranges multi srv [Rng start end_ None] with
       | Next ((d, _) :: _) => Next d
       | Next [] => Throw "TypeError"
       | Return => Return | Throw w => Throw w | Stuck => Stuck
       end.
