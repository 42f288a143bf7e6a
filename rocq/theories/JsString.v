(** What the text of a JSON string stands for: to the indexer (Go's encoding/json) and to
    the browser (TextDecoder, JSON.parse, TextEncoder). Both libraries are outside /repo;
    these are models of their documented behaviour, used to instantiate the parameter
    [unquote] of the handler and to state C92. *)
From Coq Require Import Lia.
From Verif Require Import Base Json JsonDoc.

(** ** UTF-8 and UTF-16 *)
(** utf8.EncodeRune and TextEncoder, on a scalar value *)
Definition utf8 (c : Z) : bytes :=
  if c <? 128 then [c]
  else if c <? 2048 then [192 + c / 64; 128 + c mod 64]
  else if c <? 65536 then [224 + c / 4096; 128 + (c / 64) mod 64; 128 + c mod 64]
  else [240 + c / 262144; 128 + (c / 4096) mod 64; 128 + (c / 64) mod 64; 128 + c mod 64].
Definition high (u : Z) : bool := (55296 <=? u) && (u <? 56320).
Definition low (u : Z) : bool := (56320 <=? u) && (u <? 57344).
Definition surrogate (u : Z) : bool := (55296 <=? u) && (u <? 57344).
(** utf16.DecodeRune of a valid pair; the code point of a surrogate pair *)
Definition pair_of (h l : Z) : Z := (h - 55296) * 1024 + (l - 56320) + 65536.
(** what follows a leading byte: how many bytes, and the range of the first of them. The
    table first/acceptRanges of unicode/utf8/utf8.go and the UTF-8 decoder of the Encoding
    Standard are the same here. *)
Definition lead (c : Z) : option (nat * Z * Z) :=
  if c <? 194 then None
  else if c <? 224 then Some (1%nat, 128, 191)
  else if c =? 224 then Some (2%nat, 160, 191)
  else if c =? 237 then Some (2%nat, 128, 159)
  else if c <? 240 then Some (2%nat, 128, 191)
  else if c =? 240 then Some (3%nat, 144, 191)
  else if c <? 244 then Some (3%nat, 128, 191)
  else if c =? 244 then Some (3%nat, 128, 143)
  else None.
Definition within (lo hi c : Z) : bool := (lo <=? c) && (c <=? hi).
Definition rune_error : Z := 65533.

(** ** The indexer *)
(** utf8.DecodeRune on a non-empty input: the rune and the number of bytes; an ill-formed
    sequence gives the replacement character for ONE byte *)
Definition go_rune (b : bytes) : Z * nat :=
  match b with
  | [] => (rune_error, 0%nat)
  | c0 :: t =>
      if c0 <? 128 then (c0, 1%nat)
      else match lead c0, t with
           | Some (1%nat, lo, hi), c1 :: _ => if within lo hi c1 then ((c0 - 192) * 64 + (c1 - 128), 2%nat) else (rune_error, 1%nat)
           | Some (2%nat, lo, hi), c1 :: c2 :: _ => if within lo hi c1 && within 128 191 c2 then ((c0 - 224) * 4096 + (c1 - 128) * 64 + (c2 - 128), 3%nat) else (rune_error, 1%nat)
           | Some (3%nat, lo, hi), c1 :: c2 :: c3 :: _ =>
               if within lo hi c1 && within 128 191 c2 && within 128 191 c3 then ((c0 - 240) * 262144 + (c1 - 128) * 4096 + (c2 - 128) * 64 + (c3 - 128), 4%nat) else (rune_error, 1%nat)
           | _, _ => (rune_error, 1%nat)
           end
  end.
Definition hexv (c : Z) : Z := if c <? 65 then c - 48 else if c <? 97 then c - 55 else c - 87.
Definition hex4 (a b c d : Z) : Z := hexv a * 4096 + hexv b * 256 + hexv c * 16 + hexv d.
(** getu4: encoding/json/decode.go *)
Definition getu4 (b : bytes) : option Z :=
  match b with
  | 92 :: 117 :: a :: b :: c :: d :: _ => if is_hex a && is_hex b && is_hex c && is_hex d then Some (hex4 a b c d) else None
  | _ => None
  end.
(** the bytes of the escapes of one letter *)
Definition simple (e : Z) : Z := if e =? 98 then 8 else if e =? 102 then 12 else if e =? 110 then 10 else if e =? 114 then 13 else if e =? 116 then 9 else e.
Definition ocons (p : bytes) (r : option bytes) : option bytes := match r with Some l => Some (p ++ l) | None => None end.
(** the loop of unquoteBytes: encoding/json/decode.go (Go 1.22); every round consumes a byte *)
Fixpoint go_loop (fuel : nat) (b : bytes) : option bytes :=
  match fuel with
  | O => None
  | S fuel =>
      match b with
      | [] => Some []
      | c :: t =>
          if c =? 92 then
            match t with
            | [] => None
            | e :: t' =>
                if (e =? 34) || (e =? 92) || (e =? 47) || (e =? 39) then ocons [e] (go_loop fuel t')
                else if (e =? 98) || (e =? 102) || (e =? 110) || (e =? 114) || (e =? 116) then ocons [simple e] (go_loop fuel t')
                else if e =? 117 then
                  match getu4 b with
                  | None => None
                  | Some rr =>
                      let r := skipn 6 b in
                      if surrogate rr then
                        match getu4 r with
                        | Some rr1 => if high rr && low rr1 then ocons (utf8 (pair_of rr rr1)) (go_loop fuel (skipn 6 r)) else ocons (utf8 rune_error) (go_loop fuel r)
                        | None => ocons (utf8 rune_error) (go_loop fuel r)
                        end
                      else ocons (utf8 rr) (go_loop fuel r)
                  end
                else None
            end
          else if (c =? 34) || (c <? 32) then None
          else if c <? 128 then ocons [c] (go_loop fuel t)
          else let '(rr, n) := go_rune b in ocons (utf8 rr) (go_loop fuel (skipn n b))
      end
  end.
(** its first loop: the part without anything unusual is copied *)
Fixpoint go_plain (fuel : nat) (b : bytes) : bytes * bytes :=
  match fuel with
  | O => ([], b)
  | S fuel =>
      match b with
      | [] => ([], [])
      | c :: t =>
          if (c =? 92) || (c =? 34) || (c <? 32) then ([], b)
          else if c <? 128 then let '(p, r) := go_plain fuel t in (c :: p, r)
          else let '(rr, n) := go_rune b in
               if (rr =? rune_error) && Nat.eqb n 1 then ([], b)
               else let '(p, r) := go_plain fuel (skipn n b) in (firstn n b ++ p, r)
      end
  end.
(** unquote(s), on the text between the quotes; a failure gives "" *)
Definition go_unquote (b : bytes) : bytes :=
  let '(p, r) := go_plain (length b) b in match go_loop (S (length r)) r with Some l => p ++ l | None => [] end.

(** ** The browser *)
(** One step of TextDecoder's UTF-8 decoder: the code point and the number of bytes it
    took. An ill-formed sequence gives one replacement character for its longest part that
    could have begun a character. *)
Definition js_rune (b : bytes) : Z * nat :=
  match b with
  | [] => (rune_error, 0%nat)
  | c0 :: t =>
      if c0 <? 128 then (c0, 1%nat)
      else match lead c0 with
           | None => (rune_error, 1%nat)
           | Some (k, lo, hi) =>
               match t with
               | [] => (rune_error, 1%nat)
               | c1 :: t1 =>
                   if negb (within lo hi c1) then (rune_error, 1%nat)
                   else match k, t1 with
                        | 1%nat, _ => ((c0 - 192) * 64 + (c1 - 128), 2%nat)
                        | _, [] => (rune_error, 2%nat)
                        | _, c2 :: t2 =>
                            if negb (within 128 191 c2) then (rune_error, 2%nat)
                            else match k, t2 with
                                 | 2%nat, _ => ((c0 - 224) * 4096 + (c1 - 128) * 64 + (c2 - 128), 3%nat)
                                 | _, [] => (rune_error, 3%nat)
                                 | _, c3 :: _ => if negb (within 128 191 c3) then (rune_error, 3%nat) else ((c0 - 240) * 262144 + (c1 - 128) * 4096 + (c2 - 128) * 64 + (c3 - 128), 4%nat)
                                 end
                        end
               end
           end
  end.
(** new TextDecoder().decode(data): src/bptree/node.ts:203. A byte order mark at the start of
    the data would be dropped; the text of a string starts with a quote. *)
Fixpoint js_decode (fuel : nat) (b : bytes) : list Z :=
  match fuel, b with
  | S fuel, _ :: _ => let '(c, n) := js_rune b in c :: js_decode fuel (skipn n b)
  | _, _ => []
  end.
(** a JavaScript string is a sequence of UTF-16 code units *)
Definition utf16 (c : Z) : list Z := if c <? 65536 then [c] else [55296 + (c - 65536) / 1024; 56320 + (c - 65536) mod 1024].
(** the value of a string literal in JSON.parse: src/bptree/node.ts:207; the scanner has
    already accepted the text *)
Fixpoint js_unescape (u : list Z) : list Z :=
  match u with
  | [] => []
  | c :: t =>
      if c =? 92 then
        match t with
        | [] => []
        | e :: t' =>
            if e =? 117 then match t' with a :: b :: c :: d :: r => hex4 a b c d :: js_unescape r | _ => [] end
            else simple e :: js_unescape t'
        end
      else c :: js_unescape t
  end.
(** new TextEncoder().encode(string): src/bptree/node.ts:229; an unpaired surrogate is
    written as the replacement character *)
Fixpoint usv (u : list Z) : list Z :=
  match u with
  | [] => []
  | h :: t =>
      match t with
      | l :: t' => if high h && low l then pair_of h l :: usv t' else (if surrogate h then rune_error else h) :: usv t
      | [] => [if surrogate h then rune_error else h]
      end
  end.
Definition js_unquote (b : bytes) : bytes := flat_map utf8 (usv (js_unescape (flat_map utf16 (js_decode (length b) b)))).

(** ** Specification *)
(** the characters of a string's text: itself, an escape of one letter, \u and four digits *)
Inductive ch := Raw (c : Z) | Esc (e : Z) | Uni (a b c d : Z).
Definition scalar_value (c : Z) : Prop := 0 <= c < 1114112 /\ surrogate c = false.
Definition ch_ok (x : ch) : Prop :=
  match x with
  | Raw c => scalar_value c /\ 32 <= c /\ c <> 34 /\ c <> 92
  | Esc e => is_esc e = true
  | Uni a b c d => is_hex a && is_hex b && is_hex c && is_hex d = true
  end.
Definition ch_text (x : ch) : bytes := match x with Raw c => utf8 c | Esc e => [92; e] | Uni a b c d => [92; 117; a; b; c; d] end.
(** the letters of the escapes and the characters they stand for; the digits *)
Definition escapes : list (Z * Z) := [(34, 34); (92, 92); (47, 47); (98, 8); (102, 12); (110, 10); (114, 13); (116, 9)].
Definition digit_values : list (Z * Z) := [(48, 0); (49, 1); (50, 2); (51, 3); (52, 4); (53, 5); (54, 6); (55, 7); (56, 8); (57, 9);
  (97, 10); (98, 11); (99, 12); (100, 13); (101, 14); (102, 15); (65, 10); (66, 11); (67, 12); (68, 13); (69, 14); (70, 15)].
Definition look (l : list (Z * Z)) (c : Z) : Z := match find (fun p => fst p =? c) l with Some p => snd p | None => 0 end.
Definition code4 (a b c d : Z) : Z := 16^3 * look digit_values a + 16^2 * look digit_values b + 16 * look digit_values c + look digit_values d.
(** a surrogate pair: the ten low bits of each, above the first 2^16 code points *)
Definition first_of_pair (u : Z) : bool := u / 2^10 =? 54.
Definition second_of_pair (u : Z) : bool := u / 2^10 =? 55.
Definition combined (h l : Z) : Z := 2^16 + 2^10 * (h mod 2^10) + l mod 2^10.
(** the code points: two \u escapes in a row that are a surrogate pair are one, any other
    surrogate is replaced *)
Fixpoint runes (l : list ch) : list Z :=
  match l with
  | [] => []
  | Raw c :: t => c :: runes t
  | Esc e :: t => look escapes e :: runes t
  | Uni a b c d :: t =>
      let u := code4 a b c d in
      if first_of_pair u || second_of_pair u then
        match t with
        | Uni a' b' c' d' :: t' => if first_of_pair u && second_of_pair (code4 a' b' c' d') then combined u (code4 a' b' c' d') :: runes t' else 65533 :: runes t
        | _ => 65533 :: runes t
        end
      else u :: runes t
  end.
(** the string as it is compared in an index *)
Definition value (l : list ch) : bytes := flat_map utf8 (runes l).

(** ** Proofs *)
(** the same in terms of the model's functions *)
Fixpoint runes0 (l : list ch) : list Z :=
  match l with
  | [] => []
  | Raw c :: t => c :: runes0 t
  | Esc e :: t => simple e :: runes0 t
  | Uni a b c d :: t =>
      let u := hex4 a b c d in
      if surrogate u then
        match t with
        | Uni a' b' c' d' :: t' => if high u && low (hex4 a' b' c' d') then pair_of u (hex4 a' b' c' d') :: runes0 t' else rune_error :: runes0 t
        | _ => rune_error :: runes0 t
        end
      else u :: runes0 t
  end.
(** the string as it is compared in an index *)
Definition value0 (l : list ch) : bytes := flat_map utf8 (runes0 l).
Ltac zb := repeat match goal with
  | |- context [?a <? ?b] => destruct (Z.ltb_spec a b); try lia
  | |- context [?a =? ?b] => destruct (Z.eqb_spec a b); try lia
  | |- context [?a <=? ?b] => destruct (Z.leb_spec a b); try lia
  end.
Lemma surrogate_spec c : surrogate c = false <-> c < 55296 \/ 57344 <= c.
Proof. unfold surrogate. zb; cbn; split; intros; try lia; try discriminate; auto. Qed.
(** a character that is encoded is decoded again, whatever follows *)
Lemma decode_eq : forall c r, scalar_value c -> go_rune (utf8 c ++ r) = (c, length (utf8 c)) /\ js_rune (utf8 c ++ r) = (c, length (utf8 c)).
Proof.
  intros c r [[H0 H1] Hs]. apply surrogate_spec in Hs. unfold utf8.
  destruct (Z.ltb_spec c 128) as [L|L]; [cbn [app go_rune js_rune length]; zb; auto|].
  destruct (Z.ltb_spec c 2048) as [L2|L2].
  { pose proof (Z.div_mod c 64 ltac:(lia)). pose proof (Z.mod_pos_bound c 64 ltac:(lia)). set (q := c / 64) in *. set (m := c mod 64) in *.
    cbn [app go_rune js_rune length]. assert (E : (192 + q <? 128) = false) by (apply Z.ltb_ge; lia). rewrite E.
    assert (El : lead (192 + q) = Some (1%nat, 128, 191)) by (unfold lead; zb; reflexivity). rewrite El.
    assert (Ew : within 128 191 (128 + m) = true) by (unfold within; zb; reflexivity). rewrite Ew. cbn [negb]. split; (f_equal; lia). }
  destruct (Z.ltb_spec c 65536) as [L3|L3].
  { pose proof (Z.div_mod c 64 ltac:(lia)). pose proof (Z.mod_pos_bound c 64 ltac:(lia)). pose proof (Z.div_mod (c / 64) 64 ltac:(lia)). pose proof (Z.mod_pos_bound (c / 64) 64 ltac:(lia)).
    assert (Ed : c / 4096 = c / 64 / 64) by (rewrite Z.div_div by lia; reflexivity). rewrite Ed.
    set (m := c mod 64) in *. set (m1 := (c / 64) mod 64) in *. set (q := c / 64) in *. set (q1 := q / 64) in *.
    cbn [app go_rune js_rune length]. assert (E : (224 + q1 <? 128) = false) by (apply Z.ltb_ge; lia). rewrite E.
    assert (El : exists lo hi, lead (224 + q1) = Some (2%nat, lo, hi) /\ within lo hi (128 + m1) = true).
    { unfold lead. zb; eexists _, _; (split; [reflexivity|]); unfold within; zb; reflexivity. }
    destruct El as (lo & hi & El & Ew). rewrite El, Ew.
    assert (Ew2 : within 128 191 (128 + m) = true) by (unfold within; zb; reflexivity). rewrite Ew2. cbn [negb andb]. split; (f_equal; lia). }
  { pose proof (Z.div_mod c 64 ltac:(lia)). pose proof (Z.mod_pos_bound c 64 ltac:(lia)). pose proof (Z.div_mod (c / 64) 64 ltac:(lia)). pose proof (Z.mod_pos_bound (c / 64) 64 ltac:(lia)).
    pose proof (Z.div_mod (c / 64 / 64) 64 ltac:(lia)). pose proof (Z.mod_pos_bound (c / 64 / 64) 64 ltac:(lia)).
    assert (Ed : c / 4096 = c / 64 / 64) by (rewrite Z.div_div by lia; reflexivity). assert (Ed2 : c / 262144 = c / 64 / 64 / 64) by (rewrite !Z.div_div by lia; reflexivity). rewrite Ed2, Ed.
    set (m2 := (c / 64 / 64) mod 64) in *. set (m := c mod 64) in *. set (m1 := (c / 64) mod 64) in *. set (q := c / 64) in *. set (q1 := q / 64) in *. set (q2 := q1 / 64) in *.
    cbn [app go_rune js_rune length]. assert (E : (240 + q2 <? 128) = false) by (apply Z.ltb_ge; lia). rewrite E.
    assert (El : exists lo hi, lead (240 + q2) = Some (3%nat, lo, hi) /\ within lo hi (128 + m2) = true).
    { unfold lead. zb; eexists _, _; (split; [reflexivity|]); unfold within; zb; reflexivity. }
    destruct El as (lo & hi & El & Ew). rewrite El, Ew.
    assert (Ew1 : within 128 191 (128 + m1) = true) by (unfold within; zb; reflexivity). rewrite Ew1.
    assert (Ew2 : within 128 191 (128 + m) = true) by (unfold within; zb; reflexivity). rewrite Ew2. cbn [negb andb]. split; (f_equal; lia). }
Qed.
Lemma utf8_cons c : scalar_value c -> exists a t, utf8 c = a :: t /\ (c < 128 -> a = c /\ t = []) /\ (128 <= c -> 128 <= a /\ Forall (fun x => 128 <= x) t).
Proof.
  intros [[H0 H1] _]. unfold utf8. pose proof (Z.div_pos c 64 ltac:(lia) ltac:(lia)). pose proof (Z.div_pos c 4096 ltac:(lia) ltac:(lia)). pose proof (Z.div_pos c 262144 ltac:(lia) ltac:(lia)).
  pose proof (Z.mod_pos_bound c 64 ltac:(lia)). pose proof (Z.mod_pos_bound (c / 64) 64 ltac:(lia)). pose proof (Z.mod_pos_bound (c / 4096) 64 ltac:(lia)).
  zb; eexists _, _; (split; [reflexivity|]); split; intros; try lia; auto; (split; [lia|repeat constructor; lia]).
Qed.
Lemma js_decode_text : forall cps fuel, Forall scalar_value cps -> (length (flat_map utf8 cps) <= fuel)%nat -> js_decode fuel (flat_map utf8 cps) = cps.
Proof.
  induction cps as [|c cps IH]; intros fuel H Hf; [destruct fuel; reflexivity|]. inversion H as [|? ? Hc Hr]; subst. cbn [flat_map] in *. rewrite app_length in Hf.
  destruct (utf8_cons Hc) as (a & t & E & _). destruct fuel as [|fuel]; [rewrite E in Hf; cbn [length] in Hf; lia|].
  cbn [js_decode]. rewrite E at 1. cbn [app]. rewrite (proj2 (decode_eq (flat_map utf8 cps) Hc)). f_equal. rewrite skipn_app, skipn_all, Nat.sub_diag. cbn [app skipn]. apply IH; auto. rewrite E in Hf. cbn [length] in Hf. lia.
Qed.
Lemma hexv_range c : is_hex c = true -> 0 <= hexv c < 16.
Proof.
  unfold is_hex, hexv. intros H. zb; try (apply orb_prop in H; destruct H as [H|H]; [apply orb_prop in H; destruct H as [H|H]|]); try (apply andb_prop in H; destruct H as [A B]; apply Z.leb_le in A, B); lia.
Qed.
Lemma hex4_range a b c d : is_hex a && is_hex b && is_hex c && is_hex d = true -> 0 <= hex4 a b c d < 65536.
Proof.
  intros H. apply andb_prop in H. destruct H as [H Hd]. apply andb_prop in H. destruct H as [H Hc]. apply andb_prop in H. destruct H as [Ha Hb].
  pose proof (hexv_range _ Ha). pose proof (hexv_range _ Hb). pose proof (hexv_range _ Hc). pose proof (hexv_range _ Hd). unfold hex4. lia.
Qed.
(** the code points of the text *)
Definition ch_cps (x : ch) : list Z := match x with Raw c => [c] | Esc e => [92; e] | Uni a b c d => [92; 117; a; b; c; d] end.
Definition ch_units (x : ch) : list Z := match x with Raw c => utf16 c | Esc e => [simple e] | Uni a b c d => [hex4 a b c d] end.
Lemma is_esc_ascii e : is_esc e = true -> 32 <= e < 128 /\ e <> 117.
Proof. unfold is_esc. intros H. repeat (apply orb_prop in H; destruct H as [H|H]); apply Z.eqb_eq in H; lia. Qed.
Lemma is_hex_ascii c : is_hex c = true -> 32 <= c < 128.
Proof. unfold is_hex. intros H. apply orb_prop in H. destruct H as [H|H]; [apply orb_prop in H; destruct H as [H|H]|]; apply andb_prop in H; destruct H as [A B]; apply Z.leb_le in A, B; lia. Qed.
Lemma ascii_scalar c : 0 <= c < 128 -> scalar_value c.
Proof. intros H. split; [lia|]. apply surrogate_spec. lia. Qed.
Lemma utf8_ascii c : c < 128 -> utf8 c = [c].
Proof. intros H. unfold utf8. zb; reflexivity. Qed.
Lemma utf16_ascii c : c < 128 -> utf16 c = [c].
Proof. intros H. unfold utf16. zb; reflexivity. Qed.
Lemma ch_cps_ok x : ch_ok x -> Forall scalar_value (ch_cps x) /\ ch_text x = flat_map utf8 (ch_cps x) /\
  forall r, js_unescape (flat_map utf16 (ch_cps x) ++ r) = ch_units x ++ js_unescape r.
Proof.
  destruct x as [c|e|a b c d]; cbn [ch_ok ch_cps ch_text ch_units flat_map].
  - intros (Hc & H1 & H2 & H3). split; [auto|]. split; [rewrite app_nil_r; reflexivity|]. intros r. rewrite app_nil_r. unfold utf16.
    destruct (Z.ltb_spec c 65536); cbn [app js_unescape].
    + destruct (Z.eqb_spec c 92); [contradiction|reflexivity].
    + pose proof (Z.div_pos (c - 65536) 1024 ltac:(lia) ltac:(lia)). pose proof (Z.mod_pos_bound (c - 65536) 1024 ltac:(lia)). zb; reflexivity.
  - intros He. destruct (is_esc_ascii _ He) as [H1 H2]. split; [repeat constructor; apply ascii_scalar; lia|]. rewrite !utf8_ascii, !utf16_ascii by lia. split; [reflexivity|].
    intros r. cbn [app js_unescape]. change (92 =? 92) with true. cbv iota. destruct (Z.eqb_spec e 117); [contradiction|reflexivity].
  - intros H. pose proof H as H'. apply andb_prop in H. destruct H as [H Hd]. apply andb_prop in H. destruct H as [H Hc]. apply andb_prop in H. destruct H as [Ha Hb].
    pose proof (is_hex_ascii _ Ha). pose proof (is_hex_ascii _ Hb). pose proof (is_hex_ascii _ Hc). pose proof (is_hex_ascii _ Hd).
    split; [repeat constructor; apply ascii_scalar; lia|]. rewrite !utf8_ascii, !utf16_ascii by lia. split; [reflexivity|]. intros r. reflexivity.
Qed.
Lemma text_cps l : Forall ch_ok l -> Forall scalar_value (flat_map ch_cps l) /\ flat_map ch_text l = flat_map utf8 (flat_map ch_cps l) /\
  js_unescape (flat_map utf16 (flat_map ch_cps l)) = flat_map ch_units l.
Proof.
  induction 1 as [|x l Hx H IH]; [cbn; auto|]. destruct IH as (I1 & I2 & I3). destruct (ch_cps_ok x Hx) as (E1 & E2 & E3). cbn [flat_map].
  split; [apply Forall_app; auto|]. rewrite !flat_map_app, E3, I3, <- E2, <- I2. auto.
Qed.
Lemma high_surr u : high u = true -> surrogate u = true.
Proof. unfold high, surrogate. intros H. apply andb_prop in H. destruct H as [A B]. apply Z.leb_le in A. apply Z.ltb_lt in B. zb; reflexivity. Qed.
Lemma low_surr u : low u = true -> surrogate u = true.
Proof. unfold low, surrogate. intros H. apply andb_prop in H. destruct H as [A B]. apply Z.leb_le in A. apply Z.ltb_lt in B. zb; reflexivity. Qed.
Lemma not_low u : surrogate u = false -> low u = false.
Proof. destruct (low u) eqn:E; auto. apply low_surr in E. congruence. Qed.
Lemma not_high u : surrogate u = false -> high u = false.
Proof. destruct (high u) eqn:E; auto. apply high_surr in E. congruence. Qed.
Lemma usv_plain u t : surrogate u = false -> usv (u :: t) = u :: usv t.
Proof. intros H. cbn [usv]. rewrite (not_high _ H), H. cbn [andb]. destruct t; reflexivity. Qed.
Lemma usv_lone u t : surrogate u = true -> (forall l t', t = l :: t' -> high u && low l = false) -> usv (u :: t) = rune_error :: usv t.
Proof. intros H Hn. cbn [usv]. rewrite H. destruct t as [|l t']; [reflexivity|]. rewrite (Hn l t' eq_refl). reflexivity. Qed.
Lemma usv_raw c t : scalar_value c -> usv (utf16 c ++ t) = c :: usv t.
Proof.
  intros [[H0 H1] Hs]. unfold utf16. destruct (Z.ltb_spec c 65536); [apply usv_plain; exact Hs|].
  pose proof (Z.div_mod (c - 65536) 1024 ltac:(lia)). pose proof (Z.mod_pos_bound (c - 65536) 1024 ltac:(lia)). set (q := (c - 65536) / 1024) in *. set (m := (c - 65536) mod 1024) in *.
  cbn [app usv]. assert (E : high (55296 + q) && low (56320 + m) = true) by (unfold high, low; zb; reflexivity). rewrite E. f_equal. unfold pair_of. lia.
Qed.
Lemma simple_plain e : is_esc e = true -> surrogate (simple e) = false /\ scalar_value (simple e).
Proof.
  intros H. destruct (is_esc_ascii _ H) as [H1 _]. assert (R : 0 <= simple e < 128) by (unfold simple; zb). split; [apply surrogate_spec; lia|apply ascii_scalar; lia].
Qed.
Lemma low_not_first c : 65536 <= c < 1114112 -> low (55296 + (c - 65536) / 1024) = false.
Proof.
  intros H. assert (Hq : 0 <= (c - 65536) / 1024 < 1024) by (split; [apply Z.div_pos; lia|apply Z.div_lt_upper_bound; lia]). revert Hq. generalize ((c - 65536) / 1024). intros q Hq.
  unfold low. apply andb_false_iff. left. apply Z.leb_gt. lia.
Qed.
Lemma usv_units : forall n l, (length l <= n)%nat -> Forall ch_ok l -> usv (flat_map ch_units l) = runes0 l.
Proof.
  induction n as [|n IH]; intros l Hl H; [destruct l; [reflexivity|cbn in Hl; lia]|]. destruct l as [|x l]; [reflexivity|]. cbn [length] in Hl. inversion H as [|? ? Hx Hr]; subst.
  cbn [flat_map]. destruct x as [c|e|a b c d]; cbn [ch_units runes0].
  - rewrite usv_raw by apply Hx. f_equal. apply IH; auto. lia.
  - cbn [app]. rewrite usv_plain by apply (simple_plain _ Hx). f_equal. apply IH; auto. lia.
  - set (u := hex4 a b c d) in *. cbn [app]. destruct (surrogate u) eqn:Es; [|rewrite usv_plain by auto; f_equal; apply IH; auto; lia].
    destruct l as [|[c'|e'|a' b' c' d'] l]; cbn [flat_map ch_units app].
    + rewrite usv_lone; auto. intros l' t' E. discriminate.
    + rewrite usv_lone; auto.
      * f_equal. apply (IH (Raw c' :: l)); auto. lia.
      * inversion Hr as [|? ? Hc' _]; subst. destruct Hc' as [[[A B] Sc] _]. intros l' t' E. assert (El : l' = hd 0 (utf16 c' ++ flat_map ch_units l)) by (rewrite E; reflexivity). rewrite El. clear E El. unfold utf16. destruct (Z.ltb_spec c' 65536); cbn [app hd].
        -- rewrite (not_low _ Sc). apply andb_false_r.
        -- rewrite low_not_first by lia. apply andb_false_r.
    + rewrite usv_lone; auto.
      * f_equal. apply (IH (Esc e' :: l)); auto. lia.
      * inversion Hr as [|? ? He' _]; subst. intros l' t' E. injection E as <- _. rewrite (not_low _ (proj1 (simple_plain _ He'))). apply andb_false_r.
    + destruct (high u && low (hex4 a' b' c' d')) eqn:Ep.
      * cbn [usv]. rewrite Ep. f_equal. cbn [length] in Hl. inversion Hr; subst. apply IH; auto. lia.
      * rewrite usv_lone; auto; [|intros l' t' E; injection E as <- _; exact Ep]. f_equal. apply (IH (Uni a' b' c' d' :: l)); auto. lia.
Qed.
Lemma js_value0 l : Forall ch_ok l -> js_unquote (flat_map ch_text l) = value0 l.
Proof.
  intros H. destruct (text_cps H) as (E1 & E2 & E3). unfold js_unquote, value0. rewrite E2, js_decode_text by auto. rewrite E3, (@usv_units (length l)) by auto. reflexivity.
Qed.
(** *** the indexer *)
Lemma go_uni a b c d t : is_hex a && is_hex b && is_hex c && is_hex d = true -> getu4 (92 :: 117 :: a :: b :: c :: d :: t) = Some (hex4 a b c d).
Proof. intros H. cbn [getu4]. rewrite H. reflexivity. Qed.
Lemma go_not_uni x t : ch_ok x -> (forall a b c d, x <> Uni a b c d) -> getu4 (ch_text x ++ t) = None.
Proof.
  intros Hx Hn. destruct x as [c|e|a b c d]; [| |exfalso; eapply Hn; reflexivity]; cbn [ch_text].
  - destruct Hx as (Hc & _ & _ & H92). destruct (utf8_cons Hc) as (a & t' & E & E1 & E2). rewrite E. cbn [app].
    assert (a <> 92) by (destruct (Z_lt_ge_dec c 128) as [L|L]; [destruct (E1 L); lia|destruct (E2 ltac:(lia)); lia]).
    unfold getu4. repeat match goal with |- match ?x with _ => _ end = None => destruct x; try reflexivity; try lia end.
  - destruct (is_esc_ascii _ Hx) as [_ H]. cbn [app]. unfold getu4. repeat match goal with |- match ?x with _ => _ end = None => destruct x; try reflexivity; try lia end.
Qed.
Lemma go_value : forall n l fuel, (length l <= n)%nat -> Forall ch_ok l -> (length (flat_map ch_text l) < fuel)%nat -> go_loop fuel (flat_map ch_text l) = Some (value0 l).
Proof.
  induction n as [|n IH]; intros l fuel Hl H Hf; (destruct fuel as [|fuel]; [lia|]); [destruct l; [reflexivity|cbn in Hl; lia]|]. destruct l as [|x l]; [reflexivity|]. cbn [length] in Hl. inversion H as [|? ? Hx Hr]; subst.
  cbn [flat_map] in *. rewrite app_length in Hf. unfold value0 in *. destruct x as [c|e|a b c d]; cbn [ch_text runes0 flat_map] in *.
  - destruct Hx as (Hc & H1 & H2 & H3). destruct (utf8_cons Hc) as (a & t & E & E1 & E2).
    assert (Hlen : (length (flat_map ch_text l) < fuel)%nat) by (rewrite E in Hf; cbn [length] in Hf; lia).
    destruct (Z_lt_ge_dec c 128) as [L|L].
    + destruct (E1 L) as [-> ->]. rewrite E. cbn [app go_loop]. destruct (Z.eqb_spec c 92); [contradiction|]. destruct (Z.eqb_spec c 34); [contradiction|]. zb. cbn [orb]. rewrite IH by (auto; lia). reflexivity.
    + destruct (E2 ltac:(lia)) as [La _]. pose proof (proj1 (decode_eq (flat_map ch_text l) Hc)) as Er. rewrite E in Er at 1. rewrite E at 1. cbn [app go_loop] in *. zb. cbn [orb]. rewrite Er.
      replace (a :: t ++ flat_map ch_text l) with (utf8 c ++ flat_map ch_text l) by (rewrite E; reflexivity). rewrite skipn_app, skipn_all, Nat.sub_diag. cbn [app skipn]. rewrite IH by (auto; lia). reflexivity.
  - cbn [app go_loop]. change (92 =? 92) with true. cbv iota. rewrite IH by (auto; cbn [length] in Hf; lia). destruct (is_esc_ascii _ Hx) as [Ha Hn]. cbn [ch_ok] in Hx.
    assert (Eu : utf8 (simple e) = [simple e]) by (apply utf8_ascii; unfold simple; zb). rewrite Eu. cbn [ocons app].
    unfold is_esc in Hx. unfold simple. clear - Hx. destruct (Z.eqb_spec e 34); [subst; reflexivity|]. destruct (Z.eqb_spec e 92); [subst; reflexivity|]. destruct (Z.eqb_spec e 47); [subst; reflexivity|].
    destruct (Z.eqb_spec e 39); [subst; discriminate|]. destruct (Z.eqb_spec e 98); [subst; reflexivity|]. destruct (Z.eqb_spec e 102); [subst; reflexivity|]. destruct (Z.eqb_spec e 110); [subst; reflexivity|].
    destruct (Z.eqb_spec e 114); [subst; reflexivity|]. destruct (Z.eqb_spec e 116); [subst; reflexivity|]. discriminate.
  - cbn [ch_ok] in Hx. cbn [app go_loop]. change (92 =? 92) with true. change (117 =? 34) with false. change (117 =? 92) with false. change (117 =? 47) with false. change (117 =? 39) with false. change (117 =? 98) with false. change (117 =? 102) with false. change (117 =? 110) with false. change (117 =? 114) with false. change (117 =? 116) with false. change (117 =? 117) with true. cbn [orb]. cbv iota.
    rewrite go_uni by auto. cbv zeta. cbn [skipn]. set (u := hex4 a b c d) in *. cbn [length] in Hf.
    assert (Hgo : go_loop fuel (flat_map ch_text l) = Some (flat_map utf8 (runes0 l))) by (apply IH; auto; lia).
    destruct (surrogate u) eqn:Es; [|rewrite Hgo; reflexivity].
    destruct l as [|x l].
    { cbn [flat_map getu4] in *. rewrite Hgo. reflexivity. }
    destruct x as [c'|e'|a' b' c' d'].
    + inversion Hr; subst. cbn [flat_map] in *. rewrite go_not_uni by (auto; discriminate). rewrite Hgo. reflexivity.
    + inversion Hr; subst. cbn [flat_map] in *. rewrite go_not_uni by (auto; discriminate). rewrite Hgo. reflexivity.
    + inversion Hr as [|? ? Hx' Hr']; subst. cbn [ch_ok] in Hx'. cbn [flat_map ch_text app] in *. rewrite go_uni by auto. destruct (high u && low (hex4 a' b' c' d')) eqn:Ep.
      * cbn [skipn]. cbn [length] in *. rewrite IH by (auto; lia). reflexivity.
      * rewrite Hgo. reflexivity.
Qed.
Lemma go_plain_text : forall l fuel, Forall ch_ok l -> (length (flat_map ch_text l) <= fuel)%nat -> exists p l', l = map Raw p ++ l' /\ go_plain fuel (flat_map ch_text l) = (flat_map utf8 p, flat_map ch_text l').
Proof.
  induction l as [|x l IH]; intros fuel H Hf; [exists [], []; split; [reflexivity|destruct fuel; reflexivity]|]. inversion H as [|? ? Hx Hr]; subst. cbn [flat_map] in *. rewrite app_length in Hf.
  destruct x as [c|e|a b c d].
  - destruct Hx as (Hc & H1 & H2 & H3). cbn [ch_text] in *. destruct (utf8_cons Hc) as (a & t & E & E1 & E2).
    destruct fuel as [|fuel]; [rewrite E in Hf; cbn [length] in Hf; lia|].
    destruct (IH fuel Hr) as (p & l' & El & Ep); [rewrite E in Hf; cbn [length] in Hf; lia|]. exists (c :: p), l'. split; [cbn [map app]; rewrite El; reflexivity|].
    destruct (Z_lt_ge_dec c 128) as [L|L].
    + destruct (E1 L) as [-> ->]. rewrite E at 1. cbn [app go_plain flat_map]. destruct (Z.eqb_spec c 92); [contradiction|]. destruct (Z.eqb_spec c 34); [contradiction|]. zb. cbn [orb]. rewrite Ep, E. reflexivity.
    + destruct (E2 ltac:(lia)) as [La _]. pose proof (proj1 (decode_eq (flat_map ch_text l) Hc)) as Er. rewrite E in Er at 1. rewrite E at 1. cbn [app go_plain flat_map] in *. zb. cbn [orb]. rewrite Er.
      assert (Hb : (c =? rune_error) && Nat.eqb (length (utf8 c)) 1 = false).
      { apply andb_false_iff. destruct (Z.eqb_spec c rune_error) as [-> |]; [right; reflexivity|left; reflexivity]. }
      rewrite Hb. replace (a :: t ++ flat_map ch_text l) with (utf8 c ++ flat_map ch_text l) by (rewrite E; reflexivity). rewrite skipn_app, skipn_all, Nat.sub_diag. cbn [app skipn]. rewrite Ep.
      rewrite firstn_app, firstn_all, Nat.sub_diag. cbn [firstn]. rewrite app_nil_r. reflexivity.
  - exists [], (Esc e :: l). split; [reflexivity|]. destruct fuel as [|fuel]; [cbn [ch_text length] in Hf; lia|]. reflexivity.
  - exists [], (Uni a b c d :: l). split; [reflexivity|]. destruct fuel as [|fuel]; [cbn [ch_text length] in Hf; lia|]. reflexivity.
Qed.
Lemma runes_raw p l : runes0 (map Raw p ++ l) = p ++ runes0 l.
Proof. induction p as [|c p IH]; [reflexivity|]. cbn [map app runes0]. rewrite IH. reflexivity. Qed.
Lemma go_is_value0 l : Forall ch_ok l -> go_unquote (flat_map ch_text l) = value0 l.
Proof.
  intros H. unfold go_unquote. destruct (@go_plain_text l (length (flat_map ch_text l)) H (le_n _)) as (p & l' & E & Ep). rewrite Ep. rewrite E in H. apply Forall_app in H. destruct H as [_ H].
  rewrite (@go_value (length l') l') by (auto; lia). unfold value0. rewrite E, runes_raw, flat_map_app. reflexivity.
Qed.
(** the functions of the model give what the specification says *)
Lemma look_escape e : is_esc e = true -> look escapes e = simple e.
Proof.
  unfold is_esc. intros H. repeat (apply orb_prop in H; destruct H as [H|H]); apply Z.eqb_eq in H; subst e; reflexivity.
Qed.
Lemma look_digit c : is_hex c = true -> look digit_values c = hexv c.
Proof.
  intros H. unfold is_hex in H. apply orb_prop in H. destruct H as [H|H]; [apply orb_prop in H; destruct H as [H|H]|]; apply andb_prop in H; destruct H as [A B]; apply Z.leb_le in A, B.
  - assert (E : c = 48 \/ c = 49 \/ c = 50 \/ c = 51 \/ c = 52 \/ c = 53 \/ c = 54 \/ c = 55 \/ c = 56 \/ c = 57) by lia. clear A B. repeat (destruct E as [-> |E]; [reflexivity|]). subst c. reflexivity.
  - assert (E : c = 97 \/ c = 98 \/ c = 99 \/ c = 100 \/ c = 101 \/ c = 102) by lia. clear A B. repeat (destruct E as [-> |E]; [reflexivity|]). subst c. reflexivity.
  - assert (E : c = 65 \/ c = 66 \/ c = 67 \/ c = 68 \/ c = 69 \/ c = 70) by lia. clear A B. repeat (destruct E as [-> |E]; [reflexivity|]). subst c. reflexivity.
Qed.
Lemma code4_hex4 a b c d : is_hex a && is_hex b && is_hex c && is_hex d = true -> code4 a b c d = hex4 a b c d.
Proof.
  intros H. apply andb_prop in H. destruct H as [H Hd]. apply andb_prop in H. destruct H as [H Hc]. apply andb_prop in H. destruct H as [Ha Hb]. unfold code4, hex4. rewrite !look_digit by auto. change (16^3) with 4096. change (16^2) with 256. lia.
Qed.
Lemma tenth u k : 0 <= u -> (u / 2^10 =? k) = ((k * 1024 <=? u) && (u <? k * 1024 + 1024)).
Proof.
  intros H. change (2^10) with 1024. pose proof (Z.div_mod u 1024 ltac:(lia)). pose proof (Z.mod_pos_bound u 1024 ltac:(lia)). set (q := u / 1024) in *. set (m := u mod 1024) in *. clearbody q m.
  destruct (Z.eqb_spec q k); destruct (Z.leb_spec (k * 1024) u); destruct (Z.ltb_spec u (k * 1024 + 1024)); cbn [andb]; try reflexivity; lia.
Qed.
Lemma first_high u : 0 <= u -> first_of_pair u = high u.
Proof. intros H. unfold first_of_pair, high. rewrite tenth by auto. reflexivity. Qed.
Lemma second_low u : 0 <= u -> second_of_pair u = low u.
Proof. intros H. unfold second_of_pair, low. rewrite tenth by auto. reflexivity. Qed.
Lemma either_surrogate u : high u || low u = surrogate u.
Proof. unfold high, low, surrogate. destruct (Z.leb_spec 55296 u), (Z.ltb_spec u 56320), (Z.leb_spec 56320 u), (Z.ltb_spec u 57344); cbn; try reflexivity; lia. Qed.
Lemma combined_pair h l : high h = true -> low l = true -> combined h l = pair_of h l.
Proof.
  unfold high, low, combined, pair_of. intros H1 H2. apply andb_prop in H1, H2. destruct H1 as [A B], H2 as [C D]. apply Z.leb_le in A, C. apply Z.ltb_lt in B, D. change (2^16) with 65536. change (2^10) with 1024.
  pose proof (Z.div_mod h 1024 ltac:(lia)). pose proof (Z.mod_pos_bound h 1024 ltac:(lia)). pose proof (Z.div_mod l 1024 ltac:(lia)). pose proof (Z.mod_pos_bound l 1024 ltac:(lia)).
  set (q := h / 1024) in *. set (m := h mod 1024) in *. set (q' := l / 1024) in *. set (m' := l mod 1024) in *. clearbody q m q' m'. assert (q = 54) by lia. assert (q' = 55) by lia. lia.
Qed.
Lemma runes_eq : forall n l, (length l <= n)%nat -> Forall ch_ok l -> runes l = runes0 l.
Proof.
  induction n as [|n IH]; intros l Hl H; [destruct l; [reflexivity|cbn in Hl; lia]|]. destruct l as [|x l]; [reflexivity|]. cbn [length] in Hl. inversion H as [|? ? Hx Hr]; subst.
  destruct x as [c|e|a b c d]; cbn [runes runes0].
  - f_equal. apply IH; auto. lia.
  - rewrite look_escape by exact Hx. f_equal. apply IH; auto. lia.
  - cbn [ch_ok] in Hx. rewrite (@code4_hex4 a b c d Hx). pose proof (@hex4_range a b c d Hx) as Ru. set (u := hex4 a b c d) in *. clearbody u. rewrite first_high, second_low by lia. rewrite either_surrogate. cbv zeta.
    destruct (surrogate u); [|f_equal; apply IH; auto; lia].
    destruct l as [|[c'|e'|a' b' c' d'] l].
    + reflexivity.
    + f_equal. apply IH; auto. lia.
    + f_equal. apply IH; auto. lia.
    + inversion Hr as [|? ? Hx' Hr']; subst. cbn [ch_ok] in Hx'. rewrite (@code4_hex4 _ _ _ _ Hx'). pose proof (@hex4_range _ _ _ _ Hx') as Ru'. rewrite second_low by lia. destruct (high u && low (hex4 a' b' c' d')) eqn:Ep.
      * apply andb_prop in Ep. destruct Ep as [P1 P2]. rewrite combined_pair by auto. f_equal. apply IH; auto. cbn [length] in Hl. lia.
      * f_equal. apply IH; auto. lia.
Qed.
Theorem js_value l : Forall ch_ok l -> js_unquote (flat_map ch_text l) = value l.
Proof. intros H. rewrite js_value0 by auto. unfold value, value0. rewrite (@runes_eq (length l)) by auto. reflexivity. Qed.
Theorem go_is_value l : Forall ch_ok l -> go_unquote (flat_map ch_text l) = value l.
Proof. intros H. rewrite go_is_value0 by auto. unfold value, value0. rewrite (@runes_eq (length l)) by auto. reflexivity. Qed.
(** *** texts in UTF-8 *)
Definition is_utf8 (b : bytes) : Prop := exists cps, Forall scalar_value cps /\ b = flat_map utf8 cps.
Lemma utf8_head c t cps : c < 128 -> Forall scalar_value cps -> flat_map utf8 cps = c :: t -> exists cps', cps = c :: cps' /\ t = flat_map utf8 cps' /\ Forall scalar_value cps'.
Proof.
  intros Hc H E. destruct cps as [|x cps]; [discriminate|]. inversion H as [|? ? Hx Hr]; subst. cbn [flat_map] in E. destruct (utf8_cons Hx) as (a & t' & Ex & E1 & E2). rewrite Ex in E. cbn [app] in E. injection E as -> Et.
  destruct (Z_lt_ge_dec x 128) as [L|L]; [|destruct (E2 ltac:(lia)); lia]. destruct (E1 L) as [-> ->]. exists cps. auto.
Qed.
Lemma app_high l1 : forall r pre c post, Forall (fun x => 128 <= x) l1 -> c < 128 -> l1 ++ r = pre ++ c :: post -> exists pre', pre = l1 ++ pre' /\ r = pre' ++ c :: post.
Proof.
  induction l1 as [|a l1 IH]; intros r pre c post H Hc E; [exists pre; auto|]. inversion H as [|? ? Ha Hr]; subst. destruct pre as [|p pre]; cbn [app] in E; injection E as E1 E2; [lia|].
  destruct (IH r pre c post Hr Hc E2) as (pre' & -> & ->). exists pre'. subst. auto.
Qed.
(** a text in UTF-8 can be cut at any ASCII character *)
Lemma utf8_cut pre c post : c < 128 -> is_utf8 (pre ++ c :: post) -> is_utf8 pre /\ is_utf8 post.
Proof.
  intros Hc (cps & H & E). revert pre E. induction H as [|x cps Hx H IH]; intros pre E; [destruct pre; discriminate|].
  cbn [flat_map] in E. destruct (utf8_cons Hx) as (a & t & Ex & E1 & E2). destruct (Z_lt_ge_dec x 128) as [L|L].
  - destruct (E1 L) as [-> ->]. rewrite Ex in E. cbn [app] in E. destruct pre as [|p pre]; cbn [app] in E; injection E as E3 E4.
    + split; [exists []; auto|exists cps; auto].
    + destruct (IH pre E4) as [(cp & F1 & F2) Hpost]. split; [|auto]. exists (x :: cp). split; [constructor; auto|]. cbn [flat_map]. rewrite Ex, E3, F2. reflexivity.
  - destruct (E2 ltac:(lia)) as [La Lt]. destruct (@app_high (utf8 x) (flat_map utf8 cps) pre c post) as (pre' & -> & E4); [rewrite Ex; constructor; auto|auto|auto|].
    destruct (IH pre' (eq_sym E4)) as [(cp & F1 & F2) Hpost]. split; [|auto]. exists (x :: cp). split; [constructor; auto|]. cbn [flat_map]. rewrite F2. reflexivity.
Qed.
Lemma body_skip t0 : forall r, Forall (fun x => 128 <= x) t0 -> str_body (t0 ++ r) -> str_body r.
Proof. induction t0 as [|a t0 IH]; intros r H B; [exact B|]. inversion H as [|? ? Ha Hr]; subst. cbn [app] in B. inversion B; subst; try lia. apply IH; auto. Qed.
Lemma esc_in c : In c [34; 92; 47; 98; 102; 110; 114; 116] -> is_esc c = true /\ c < 128.
Proof. cbn [In]. intros H. intuition subst; split; reflexivity. Qed.
(** every text of a string that is in UTF-8 is of this form *)
Lemma body_chars : forall n cps b, (length cps <= n)%nat -> Forall scalar_value cps -> b = flat_map utf8 cps -> str_body b -> exists l, Forall ch_ok l /\ b = flat_map ch_text l.
Proof.
  induction n as [|n IH]; intros cps b Hn H E B.
  { destruct cps; [|cbn in Hn; lia]. subst. exists []. auto. }
  assert (Hx : forall x cps', cps = x :: cps' -> 128 <= x -> exists l, Forall ch_ok l /\ b = flat_map ch_text l).
  { intros x cps' -> Lx. inversion H as [|? ? Hc Hr]; subst. cbn [length flat_map] in *. destruct (utf8_cons Hc) as (a & t & Ex & E1 & E2). destruct (E2 Lx) as [La Lt].
    destruct (IH cps' (flat_map utf8 cps')) as (l & Hl & El); [lia|auto|auto|eapply (@body_skip (a :: t)); [constructor; auto|rewrite <- Ex; exact B]|].
    exists (Raw x :: l). split; [constructor; [|auto]; cbn [ch_ok]; repeat split; try apply Hc; lia|]. cbn [flat_map ch_text]. rewrite El. reflexivity. }
  destruct B as [|c t Hc H34 H92 B|c t Hc B|a b c d t Ha Hb Hc Hd B].
  - exists []. auto.
  - destruct (Z_lt_ge_dec c 128) as [L|L].
    + destruct (@utf8_head c t cps L H) as (cps' & -> & -> & Hr); [auto|]. cbn [length] in Hn. destruct (IH cps' (flat_map utf8 cps')) as (l & Hl & El); auto; [lia|].
      exists (Raw c :: l). split; [constructor; [|auto]; cbn [ch_ok]; split; [apply ascii_scalar; lia|lia]|]. cbn [flat_map ch_text]. rewrite utf8_ascii, El by auto. reflexivity.
    + destruct cps as [|x cps]; [discriminate E|]. apply (Hx x cps eq_refl). inversion H as [|? ? Hsx Hr]; subst. cbn [flat_map] in E. destruct (utf8_cons Hsx) as (a & t' & Ex & E1 & E2). rewrite Ex in E. cbn [app] in E. injection E as E3 _.
      destruct (Z_lt_ge_dec x 128) as [Lx|Lx]; [destruct (E1 Lx); lia|lia].
  - destruct (@esc_in c Hc) as [He Hl]. destruct (@utf8_head 92 (c :: t) cps) as (c1 & -> & E1 & H1); [lia|auto|auto|]. destruct (@utf8_head c t c1) as (c2 & -> & -> & H2); [auto|auto|auto|].
    cbn [length] in Hn. destruct (IH c2 (flat_map utf8 c2)) as (l & Hl' & El); auto; [lia|]. exists (Esc c :: l). split; [constructor; auto|]. cbn [flat_map ch_text app]. rewrite El. reflexivity.
  - apply hex_true in Ha, Hb, Hc, Hd. pose proof (is_hex_ascii _ Ha) as Xa. pose proof (is_hex_ascii _ Hb) as Xb. pose proof (is_hex_ascii _ Hc) as Xc. pose proof (is_hex_ascii _ Hd) as Xd.
    destruct (@utf8_head 92 (117 :: a :: b :: c :: d :: t) cps) as (c1 & -> & E1 & H1); [lia|auto|auto|]. destruct (@utf8_head 117 (a :: b :: c :: d :: t) c1) as (c2 & -> & E2 & H2); [lia|auto|auto|].
    destruct (@utf8_head a (b :: c :: d :: t) c2) as (c3 & -> & E3 & H3); [lia|auto|auto|]. destruct (@utf8_head b (c :: d :: t) c3) as (c4 & -> & E4 & H4); [lia|auto|auto|].
    destruct (@utf8_head c (d :: t) c4) as (c5 & -> & E5 & H5); [lia|auto|auto|]. destruct (@utf8_head d t c5) as (c6 & -> & -> & H6); [lia|auto|auto|].
    cbn [length] in Hn. destruct (IH c6 (flat_map utf8 c6)) as (l & Hl' & El); auto; [lia|]. exists (Uni a b c d :: l). split; [constructor; auto|]; cbn [ch_ok flat_map ch_text app]; [rewrite Ha, Hb, Hc, Hd; reflexivity|rewrite El; reflexivity].
Qed.
(** the decoder stops at an ASCII character: decoding the whole text and cutting it at the
    quotes is the same as cutting it and decoding the parts *)
Lemma js_rune_cut a t c post : c < 128 -> js_rune ((a :: t) ++ c :: post) = js_rune (a :: t) /\ (1 <= snd (js_rune (a :: t)) <= length (a :: t))%nat.
Proof.
  intros Hc. assert (Hw : forall lo, 128 <= lo -> forall hi, within lo hi c = false) by (intros lo Hlo hi; unfold within; zb; reflexivity).
  assert (Hlead : forall k lo hi, lead a = Some (k, lo, hi) -> 128 <= lo) by (intros k lo hi; unfold lead; zb; intros E; try discriminate; injection E; intros; lia).
  cbn [app js_rune length]. destruct (a <? 128); [cbn; split; [reflexivity|lia]|]. destruct (lead a) as [[[k lo] hi]|]; [|cbn; split; [reflexivity|lia]]. specialize (Hlead k lo hi eq_refl).
  destruct t as [|c1 t]; cbn [app]; [rewrite Hw by auto; cbn; split; [reflexivity|lia]|]. destruct (within lo hi c1); cbn [negb]; [|cbn; split; [reflexivity|lia]].
  destruct k as [|[|k]]; destruct t as [|c2 t]; cbn [app length snd]; rewrite ?Hw by lia; cbn [negb]; try (split; [reflexivity|cbn; lia]).
  - destruct (within 128 191 c2); cbn [negb]; [|cbn; split; [reflexivity|lia]]. destruct t as [|c3 t]; cbn [app]; rewrite ?Hw by lia; cbn [negb]; [split; [reflexivity|cbn; lia]|]. destruct (within 128 191 c3); cbn; split; (reflexivity || lia).
  - destruct (within 128 191 c2); cbn [negb]; [|cbn; split; [reflexivity|lia]]. destruct k as [|k]; destruct t as [|c3 t]; cbn [app]; rewrite ?Hw by lia; cbn [negb]; try (split; [reflexivity|cbn; lia]). destruct (within 128 191 c3); cbn; split; (reflexivity || lia).
Qed.
Lemma js_decode_more : forall n b fuel fuel', (length b <= n)%nat -> (length b <= fuel)%nat -> (length b <= fuel')%nat -> js_decode fuel b = js_decode fuel' b.
Proof.
  induction n as [|n IH]; intros b fuel fuel' Hn H H'; [destruct b; [destruct fuel, fuel'; reflexivity|cbn in Hn; lia]|]. destruct b as [|a t]; [destruct fuel, fuel'; reflexivity|].
  destruct fuel as [|fuel]; [cbn in H; lia|]. destruct fuel' as [|fuel']; [cbn in H'; lia|]. cbn [js_decode]. pose proof (proj2 (@js_rune_cut a t 0 [] ltac:(lia))) as R. destruct (js_rune (a :: t)) as [c k]. cbn [snd] in R. f_equal.
  pose proof (skipn_length k (a :: t)) as L. cbn [length] in *. apply IH; lia.
Qed.
Lemma js_decode_cut : forall n pre c post, (length pre <= n)%nat -> 0 <= c < 128 ->
  js_decode (length (pre ++ c :: post)) (pre ++ c :: post) = js_decode (length pre) pre ++ c :: js_decode (length post) post.
Proof.
  induction n as [|n IH]; intros pre c post Hn Hc.
  { destruct pre; [|cbn in Hn; lia]. cbn [app length js_decode js_rune]. zb. reflexivity. }
  destruct pre as [|a t]; [cbn [app length js_decode js_rune]; zb; reflexivity|]. destruct (@js_rune_cut a t c post ltac:(lia)) as [E R].
  cbn [length app js_decode] in *. rewrite E. destruct (js_rune (a :: t)) as [x k] eqn:Ex. cbn [snd] in R. cbn [app]. f_equal.
  assert (Es : skipn k (a :: t ++ c :: post) = skipn k (a :: t) ++ c :: post).
  { change (a :: t ++ c :: post) with ((a :: t) ++ c :: post). rewrite skipn_app. replace (k - length (a :: t))%nat with 0%nat by (cbn [length]; lia). reflexivity. }
  rewrite Es. pose proof (skipn_length k (a :: t)) as L. cbn [length] in L.
  rewrite (@js_decode_more _ _ (length (t ++ c :: post)) (length (skipn k (a :: t) ++ c :: post)) (le_n _)); [|rewrite !app_length; cbn [length]; lia|lia].
  rewrite (@js_decode_more _ (skipn k (a :: t)) (length t) (length (skipn k (a :: t))) (le_n _)) by lia. apply IH; auto. lia.
Qed.
