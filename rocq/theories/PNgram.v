(** C45-C47: n-gram tokens. Strings are sequences of Unicode code points
    (runes); what golang.org/x/text/unicode/norm does is not modelled: the
    theorems hold for whatever text NFKD normalisation returns. *)
From Verif Require Import Base Varint Meta Cells.
From Coq Require Import Permutation.

(** ** Specification *)
Definition ascii_upper (c : Z) : bool := (65 <=? c) && (c <=? 90).
Definition ascii_letter (c : Z) : bool := ascii_upper c || ((97 <=? c) && (c <=? 122)).
Definition ascii_digit (c : Z) : bool := (48 <=? c) && (c <=? 57).
Definition alnum (c : Z) : bool := ascii_letter c || ascii_digit c.
Definition ascii_space (c : Z) : bool := (c =? 32) || ((9 <=? c) && (c <=? 13)).
Definition lower (c : Z) : Z := if ascii_upper c then c + 32 else c.
(** The characters of a text with their positions: (character, position). *)
Definition positioned (text : list Z) : list (Z * Z) := combine text (map Z.of_nat (seq 0 (length text))).
(** split at white space *)
Fixpoint split_words (l : list (Z * Z)) : list (list (Z * Z)) :=
  match l with
  | [] => [[]]
  | c :: t => if ascii_space (fst c) then [] :: split_words t
              else match split_words t with w :: ws => (c :: w) :: ws | [] => [[c]] end
  end.
(** all windows of [n] consecutive elements *)
Definition windows {A} (n : nat) (w : list A) : list (list A) := map (fun i => firstn n (skipn i w)) (seq 0 (length w + 1 - n)).
(** the words of a text: white space separates, everything but letters and digits is dropped *)
Definition words_of (l : list (Z * Z)) : list (list (Z * Z)) := map (filter (fun c => alnum (fst c))) (split_words l).
Record token := Tok { t_word : list Z; t_off : Z; t_len : Z }.
(** the token of a window: lower-cased characters; from the position of the first to that of the last *)
Definition token_of (w : list (Z * Z)) : token :=
  let first := snd (hd (0, 0) w) in let last := snd (last w (0, 0)) in
  Tok (map (fun c => lower (fst c)) w) first ((last - first + 1) mod 2^32).
Definition ngrams (n : nat) (l : list (Z * Z)) : list token := map token_of (flat_map (windows n) (words_of l)).
(** the ASCII characters of a text, with their positions in the text *)
Definition ascii_part (text : list Z) : list (Z * Z) := filter (fun c => fst c <=? 127) (positioned text).

(** ** Model *)
(** utf8.RuneLen *)
Definition rune_len (r : Z) : Z :=
  if r <? 0 then -1 else if r <=? 127 then 1 else if r <=? 2047 then 2
  else if (55296 <=? r) && (r <=? 57343) then -1 else if r <=? 65535 then 3 else if r <=? 1114111 then 4 else -1.
(** normalizeToAscii(s): pkg/ngram/tokenizer.go:28-51. [norm] is NFKD(s) as
    `range` decodes it: runes with the number of bytes each takes ((65533, 1) for
    an invalid byte). The result pairs each character of the returned string
    with its entry in ogOffsets. *)
Fixpoint normalize_from (norm : list (Z * Z)) (i additional : Z) : list (Z * Z) :=
  match norm with
  | [] => []
  | (r, w) :: t =>
      let additional := if 1 <? rune_len r then additional + (rune_len r - 1) else additional in
      if r <=? 127 then (r, i - additional) :: normalize_from t (i + w) additional
      else normalize_from t (i + w) additional
  end.
Definition normalize (norm : list (Z * Z)) : list (Z * Z) := normalize_from norm 0 0.
(** unicode.IsLetter, IsDigit, IsSpace and strings.ToLower on ASCII, as
    pkg/ngram/tokenizer.go:86-88, 114 use them (the runes are ASCII there) *)
Definition go_letter (r : Z) : bool := ((65 <=? r) && (r <=? 90)) || ((97 <=? r) && (r <=? 122)).
Definition go_digit (r : Z) : bool := (48 <=? r) && (r <=? 57).
Definition go_space (r : Z) : bool := (r =? 9) || (r =? 10) || (r =? 11) || (r =? 12) || (r =? 13) || (r =? 32).
Definition go_lower (r : Z) : Z := if (65 <=? r) && (r <=? 90) then r + 32 else r.
(** the loop over the runes: pkg/ngram/tokenizer.go:83-99; [i] is the loop
    index, [curr] is currWord *)
Fixpoint collect (runes : list Z) (i : nat) (curr : list nat) (gl : nat) : list (list nat) :=
  let done := if Nat.leb gl (length curr) then [curr] else [] in
  match runes with
  | [] => done
  | r :: t =>
      if go_letter r || go_digit r then collect t (S i) (curr ++ [i]) gl
      else if go_space r then done ++ collect t (S i) [] gl
      else collect t (S i) curr gl
  end.
(** x[i], panicking out of range *)
Definition at_ {A} (l : list A) (i : nat) : res A := match nth_error l i with Some x => Ok x | None => Panic end.
Fixpoint traverse {A B} (f : A -> res B) (l : list A) : res (list B) :=
  match l with [] => Ok [] | x :: t => rbind (f x) (fun y => rbind (traverse f t) (fun ys => Ok (y :: ys))) end.
(** the body of the window loop: pkg/ngram/tokenizer.go:104-117 *)
Definition token_at (clean : list (Z * Z)) (w : list nat) (gl i : nat) : res token :=
  rbind (traverse (fun j => rbind (at_ w j) (fun x => at_ clean x)) (seq i gl)) (fun str =>
  let p := match gl with O => 0%nat | S _ => (i + gl - 1)%nat end in
  rbind (at_ w i) (fun x => rbind (at_ clean x) (fun q =>
  rbind (at_ w p) (fun y => rbind (at_ clean y) (fun e =>
  Ok (Tok (map (fun c => go_lower (fst c)) str) (snd q) ((snd e - snd q + 1) mod 2^32))))))).
(** BuildNgram(phrase, gl): pkg/ngram/tokenizer.go:75-123, for gl >= 0; [norm] as above *)
Definition build_ngram (norm : list (Z * Z)) (gl : nat) : res (list token) :=
  let clean := normalize norm in
  rbind (traverse (fun w => traverse (token_at clean w gl) (seq 0 (S (length w - gl)))) (collect (map fst clean) 0 [] gl))
    (fun l => Ok (concat l)).
(** Shuffle's loop, for i := len-1; i > 0; i--: pkg/ngram/tokenizer.go:61-73 and
    shuffle(): src/ngram/tokenizer.ts:76-86; [choose i] is the random index for i *)
Definition swap {A} (l : list A) (i j : nat) : res (list A) :=
  rbind (at_ l i) (fun x => rbind (at_ l j) (fun y => Ok (lset (lset l i y) j x))).
Fixpoint shuffle_loop {A} (choose : nat -> nat) (i : nat) (soup : list A) : res (list A) :=
  match i with O => Ok soup | S i' => rbind (swap soup i (choose i)) (shuffle_loop choose i') end.
Definition shuffle {A} (choose : nat -> nat) (l : list A) : res (list A) := shuffle_loop choose (length l - 1) l.

(** The browser client. The regular expression [a-zA-Z0-9]: src/ngram/tokenizer.ts:33 *)
Definition js_alnum (c : Z) : bool := ((97 <=? c) && (c <=? 122)) || ((65 <=? c) && (c <=? 90)) || ((48 <=? c) && (c <=? 57)).
(** /\s/ of JavaScript: src/ngram/tokenizer.ts:35 *)
Definition js_space (c : Z) : bool :=
  ((9 <=? c) && (c <=? 13)) || (c =? 32) || (c =? 160) || (c =? 5760) || ((8192 <=? c) && (c <=? 8202)) || (c =? 8232) || (c =? 8233) || (c =? 8239) || (c =? 8287) || (c =? 12288) || (c =? 65279).
(** the UTF-16 code units of a string *)
Definition utf16 (s : list Z) : list Z := flat_map (fun c => if c <=? 65535 then [c] else [55296 + (c - 65536) / 1024; 56320 + (c - 65536) mod 1024]) s.
(** the forEach over Array.from(phrase): src/ngram/tokenizer.ts:32-45 *)
Fixpoint ts_collect (chars : list Z) (i : nat) (curr : list nat) (min : nat) : list (list nat) :=
  let done := if Nat.leb min (length curr) then [curr] else [] in
  match chars with
  | [] => done
  | c :: t => if js_alnum c then ts_collect t (S i) (curr ++ [i]) min
              else if js_space c then done ++ ts_collect t (S i) [] min
              else ts_collect t (S i) curr min
  end.
(** allGrams: src/ngram/tokenizer.ts:13-17 *)
Definition gram_type (n : nat) : option Z := match n with 1%nat => Some FTUnigram | 2%nat => Some FTBigram | 3%nat => Some FTTrigram | _ => None end.
(** phrase[i]: a code unit, or "undefined" appended as text when out of range *)
Definition undefined_text : list Z := [117; 110; 100; 101; 102; 105; 110; 101; 100].
Definition unit_at (units : list Z) (i : nat) : list Z := match nth_error units i with Some u => [u] | None => undefined_text end.
(** the tokens of one gram length: src/ngram/tokenizer.ts:48-70; [tl] is toLowerCase() *)
Definition ts_grams (tl : list Z -> list Z) (phrase : list Z) (words : list (list nat)) (n : nat) : res (list (list Z * Z)) :=
  match gram_type n with
  | None => Err (EMsg "Unrecognized gram type for gram length")
  | Some ty => Ok (flat_map (fun w => map (fun i => (tl (flat_map (fun j => unit_at (utf16 phrase) (nth j w 0%nat)) (seq i n)), ty)) (seq 0 (length w + 1 - n))) words)
  end.
(** tokens(phrase): src/ngram/tokenizer.ts:26-74 *)
Definition ts_tokens (tl : list Z -> list Z) (min max : nat) (phrase : list Z) : res (list (list Z * Z)) :=
  let words := ts_collect phrase 0 [] min in
  rbind (traverse (ts_grams tl phrase words) (seq min (max + 1 - min))) (fun l => Ok (concat l)).

(** ** Proofs *)
Lemma go_alnum c : go_letter c || go_digit c = alnum c.
Proof. unfold go_letter, go_digit, alnum, ascii_letter, ascii_upper, ascii_digit. lia. Qed.
Lemma go_space_ok c : go_space c = ascii_space c.
Proof. unfold go_space, ascii_space. lia. Qed.
Lemma js_alnum_ok c : js_alnum c = alnum c.
Proof. unfold js_alnum, alnum, ascii_letter, ascii_upper, ascii_digit. lia. Qed.
Lemma traverse_ok {A B} (f : A -> res B) (g : A -> B) l : (forall x, In x l -> f x = Ok (g x)) -> traverse f l = Ok (map g l).
Proof.
  induction l as [|a l IH]; intros H; [reflexivity|]. cbn [traverse map]. rewrite H by (left; auto). cbn [rbind]. rewrite IH by (intros; apply H; right; auto). reflexivity.
Qed.
Lemma at_ok {A} (l : list A) i d : (i < length l)%nat -> at_ l i = Ok (nth i l d).
Proof. intros H. unfold at_. rewrite (nth_error_nth' l d H). reflexivity. Qed.

(** the words, as positions of characters *)
Definition long {A} (gl : nat) (w : list A) : bool := Nat.leb gl (length w).
Definition glue (w : list (Z * Z)) (ws : list (list (Z * Z))) : list (list (Z * Z)) := match ws with x :: t => (w ++ x) :: t | [] => [w] end.
Lemma alnum_not_space c : alnum c = true -> ascii_space c = false.
Proof.
  unfold alnum, ascii_letter, ascii_upper, ascii_digit, ascii_space. intros H. destruct ((c =? 32) || ((9 <=? c) && (c <=? 13))) eqn:E; auto. exfalso. lia.
Qed.
Lemma glue_nil ws : ws <> [] -> glue [] ws = ws.
Proof. destruct ws; [congruence|reflexivity]. Qed.
Lemma words_of_ne l : words_of l <> [].
Proof. unfold words_of. destruct l as [|a l]; [discriminate|]. cbn [split_words]. destruct (ascii_space (fst a)); [discriminate|]. destruct (split_words l); discriminate. Qed.
Lemma words_of_cons c l : words_of (c :: l) =
  if ascii_space (fst c) then [] :: words_of l else if alnum (fst c) then glue [c] (words_of l) else words_of l.
Proof.
  unfold words_of. cbn [split_words]. destruct (ascii_space (fst c)) eqn:Es; [reflexivity|].
  assert (split_words l <> []).
  { destruct l as [|a l]; [discriminate|]. cbn [split_words]. destruct (ascii_space (fst a)); [discriminate|]. destruct (split_words l); discriminate. }
  destruct (split_words l) as [|w ws]; [congruence|]. cbn [map filter]. destruct (alnum (fst c)); reflexivity.
Qed.
Lemma glue_glue a b ws : glue a (glue b ws) = glue (a ++ b) ws.
Proof. destruct ws; cbn; rewrite ?app_assoc; reflexivity. Qed.
Lemma collect_spec (all : list (Z * Z)) gl : (1 <= gl)%nat -> forall rest i curr, skipn i all = rest -> (forall k, In k curr -> (k < length all)%nat) ->
  map (map (fun k => nth k all (0, 0))) (collect (map fst rest) i curr gl) = filter (long gl) (glue (map (fun k => nth k all (0, 0)) curr) (words_of rest)) /\
  Forall (Forall (fun k => (k < length all)%nat)) (collect (map fst rest) i curr gl).
Proof.
  intros Hgl. induction rest as [|c rest IH]; intros i curr Hs Hc.
  - cbn [map collect words_of split_words filter glue]. unfold long. rewrite app_nil_r, map_length.
    destruct (Nat.leb gl (length curr)); cbn [map]; split; auto. constructor; [|constructor]. apply Forall_forall; auto.
  - assert (Hi : nth i all (0, 0) = c /\ (i < length all)%nat /\ skipn (S i) all = rest).
    { clear - Hs. revert i Hs. induction all as [|a all IH]; intros [|i] Hs; cbn in *; try discriminate; [injection Hs as <- <-; repeat split; lia|].
      destruct (IH i Hs) as (H1 & H2 & H3). repeat split; auto. lia. }
    destruct Hi as (H1 & H2 & H3). cbn [map collect]. rewrite words_of_cons, go_alnum, go_space_ok.
    destruct (alnum (fst c)) eqn:Ea.
    + rewrite (alnum_not_space _ Ea). rewrite glue_glue.
      destruct (IH (S i) (curr ++ [i]) H3) as [I1 I2]; [intros k Hk; apply in_app_iff in Hk; destruct Hk as [Hk|[<-|[]]]; auto|].
      rewrite I1. rewrite map_app. cbn [map]. rewrite H1. split; auto.
    + destruct (ascii_space (fst c)).
      * cbn [glue]. rewrite app_nil_r. destruct (IH (S i) [] H3) as [I1 I2]; [intros k []|]. cbn [map] in I1. rewrite (glue_nil (words_of_ne rest)) in I1.
        rewrite map_app, I1. cbn [filter]. unfold long at 2. rewrite map_length. destruct (Nat.leb gl (length curr)); cbn [map app]; split; auto.
        constructor; auto. apply Forall_forall; auto.
      * destruct (IH (S i) curr H3 Hc) as [I1 I2]. rewrite I1. split; auto.
Qed.
Lemma map_nth_seq {A} (d : A) l i n : (i + n <= length l)%nat -> map (fun j => nth j l d) (seq i n) = firstn n (skipn i l).
Proof.
  revert i n. induction l as [|a l IH]; intros i n H; cbn [length] in H.
  - assert (i = 0 /\ n = 0)%nat as [-> ->] by lia. reflexivity.
  - destruct i as [|i].
    + destruct n as [|n]; [reflexivity|]. cbn [seq map nth skipn firstn]. f_equal. rewrite <- seq_shift, map_map. specialize (IH 0%nat n ltac:(lia)). cbn [skipn] in IH. exact IH.
    + cbn [skipn]. rewrite <- (IH i n) by lia. rewrite <- seq_shift, map_map. reflexivity.
Qed.
Lemma last_firstn {A} (d : A) n l : (1 <= n <= length l)%nat -> last (firstn n l) d = nth (n - 1) l d.
Proof.
  revert l. induction n as [|n IH]; intros l H; [lia|]. destruct l as [|a l]; cbn [length] in H; [lia|].
  destruct n as [|n]; [reflexivity|]. change (firstn (S (S n)) (a :: l)) with (a :: firstn (S n) l).
  assert (firstn (S n) l <> []) by (destruct l; [cbn in H; lia|discriminate]).
  replace (S (S n) - 1)%nat with (S (S n - 1)) by lia. cbn [nth]. rewrite <- IH by lia.
  destruct (firstn (S n) l); [congruence|reflexivity].
Qed.
Lemma nth_skipn' {A} (d : A) i j l : nth j (skipn i l) d = nth (i + j) l d.
Proof. revert l. induction i as [|i IH]; intros [|a l]; cbn; auto. destruct j; reflexivity. Qed.
Lemma token_at_ok clean w gl i : (1 <= gl)%nat -> (i + gl <= length w)%nat -> Forall (fun k => (k < length clean)%nat) w ->
  token_at clean w gl i = Ok (token_of (firstn gl (skipn i (map (fun k => nth k clean (0, 0)) w)))).
Proof.
  intros Hgl Hi Hw. rewrite Forall_forall in Hw. unfold token_at.
  assert (Hget : forall j, (j < length w)%nat -> rbind (at_ w j) (fun x => at_ clean x) = Ok (nth j (map (fun k => nth k clean (0, 0)) w) (0, 0))).
  { intros j Hj. rewrite (at_ok w 0%nat) by auto. cbn [rbind]. rewrite (at_ok clean (0, 0)) by (apply Hw, nth_In; auto).
    f_equal. rewrite (nth_indep (map (fun k => nth k clean (0, 0)) w) (0, 0) (nth 0 clean (0, 0))) by (rewrite map_length; auto). rewrite (map_nth (fun k => nth k clean (0, 0))). reflexivity. }
  set (u := map (fun k => nth k clean (0, 0)) w) in *. assert (Lu : length u = length w) by apply map_length.
  rewrite (traverse_ok _ (fun j => nth j u (0, 0))) by (intros j Hj; apply in_seq in Hj; apply Hget; lia).
  cbn [rbind]. rewrite (map_nth_seq (0, 0)) by lia.
  destruct gl as [|g]; [lia|]. set (gl := S g) in *.
  assert (Hhd : nth i u (0, 0) = hd (0, 0) (firstn gl (skipn i u))).
  { rewrite <- (Nat.add_0_r i) at 1. rewrite <- nth_skipn'. subst gl. destruct (skipn i u) eqn:E; [|reflexivity]. reflexivity. }
  assert (B : forall {B} (a : res nat) (f : Z * Z -> res B), rbind a (fun x => rbind (at_ clean x) f) = rbind (rbind a (fun x => at_ clean x)) f) by (intros B [?| | | |] f; reflexivity).
  rewrite B, Hget by lia. cbn [rbind]. rewrite B, Hget by lia. cbn [rbind]. unfold token_of. f_equal. f_equal.
  - rewrite Hhd. reflexivity.
  - rewrite last_firstn by (rewrite skipn_length; lia). rewrite nth_skipn'. rewrite Hhd. replace (i + gl - 1)%nat with (i + (gl - 1))%nat by lia. reflexivity.
Qed.
Lemma windows_short {A} n (w : list A) : (length w < n)%nat -> windows n w = [].
Proof. intros H. unfold windows. replace (length w + 1 - n)%nat with 0%nat by lia. reflexivity. Qed.
Lemma flat_map_filter_long {A} n (ws : list (list A)) : flat_map (windows n) (filter (long n) ws) = flat_map (windows n) ws.
Proof.
  induction ws as [|w ws IH]; [reflexivity|]. cbn [filter flat_map]. unfold long at 1. destruct (Nat.leb_spec n (length w)); cbn [flat_map]; rewrite IH; [reflexivity|].
  rewrite windows_short by lia. reflexivity.
Qed.
Lemma forall2_map_concat {A B C} (f : A -> list C) (g : B -> list C) (h : A -> B) l : (forall x, In x l -> f x = g (h x)) -> concat (map f l) = flat_map g (map h l).
Proof. induction l as [|a l IH]; intros H; [reflexivity|]. cbn. rewrite H by (left; auto). rewrite IH by (intros; apply H; right; auto). reflexivity. Qed.

(** C45: for every text, every gram length >= 1: BuildNgram never panics and
    returns the tokens of the words, in order, with the recorded offsets. *)
Lemma build_ngram_spec norm gl : (1 <= gl)%nat -> build_ngram norm gl = Ok (ngrams gl (normalize norm)).
Proof.
  intros Hgl. unfold build_ngram. cbv zeta. set (clean := normalize norm).
  destruct (@collect_spec clean gl Hgl clean 0%nat [] eq_refl) as [E F]; [intros k []|]. cbn [map] in E. rewrite (glue_nil (words_of_ne clean)) in E.
  set (ws := collect (map fst clean) 0 [] gl) in *.
  assert (Hlen : Forall (fun w => (gl <= length w)%nat) ws).
  { assert (G : forall rest i curr, Forall (fun w => (gl <= length w)%nat) (collect rest i curr gl)).
    { clear. induction rest as [|c rest IH]; intros i curr; cbn [collect].
      - destruct (Nat.leb_spec gl (length curr)); repeat constructor; auto.
      - destruct (go_letter c || go_digit c); [apply IH|]. destruct (go_space c); [|apply IH]. apply Forall_app. split; [|apply IH].
        destruct (Nat.leb_spec gl (length curr)); repeat constructor; auto. }
    apply G. }
  rewrite Forall_forall in Hlen, F.
  rewrite (traverse_ok _ (fun w => map (fun i => token_of (firstn gl (skipn i (map (fun k => nth k clean (0, 0)) w)))) (seq 0 (S (length w - gl))))).
  2:{ intros w Hw. apply traverse_ok. intros i Hi. apply in_seq in Hi. apply token_at_ok; auto. specialize (Hlen _ Hw). lia. }
  cbn [rbind]. f_equal. unfold ngrams. rewrite <- (flat_map_filter_long gl (words_of clean)), <- E.
  rewrite (@forall2_map_concat _ _ _ _ (fun u => map token_of (windows gl u)) (map (fun k => nth k clean (0, 0)))).
  - clear. induction (map (map (fun k => nth k clean (0, 0))) ws) as [|u us IH]; [reflexivity|]. cbn. rewrite map_app, IH. reflexivity.
  - intros w Hw. unfold windows. rewrite map_map. rewrite map_length. specialize (Hlen _ Hw). replace (length w + 1 - gl)%nat with (S (length w - gl)) by lia. reflexivity.
Qed.
Lemma normalize_ascii norm : map fst (normalize norm) = filter (fun c => c <=? 127) (map fst norm).
Proof.
  unfold normalize. generalize 0 at 1 as i. generalize 0 as a. induction norm as [|[r w] t IH]; intros a i; [reflexivity|].
  cbn [normalize_from map fst filter]. destruct (r <=? 127); cbn [map fst]; rewrite IH; reflexivity.
Qed.

(** *** Statements *)
(** all characters of every token are lower-case ASCII letters or digits, and there are exactly [n] *)
Definition gram_char (c : Z) : bool := ((97 <=? c) && (c <=? 122)) || ascii_digit c.
Theorem C45_tokens_are_ngrams norm n : (1 <= n)%nat ->
  exists toks, build_ngram norm n = Ok toks /\ toks = ngrams n (normalize norm) /\
    Forall (fun t => length (t_word t) = n /\ Forall (fun c => gram_char c = true) (t_word t)) toks.
Proof.
  intros Hn. exists (ngrams n (normalize norm)). split; [apply build_ngram_spec; auto|]. split; auto.
  apply Forall_forall. intros t Ht. unfold ngrams in Ht. apply in_map_iff in Ht. destruct Ht as (w & <- & Hw). apply in_flat_map in Hw. destruct Hw as (u & Hu & Hw).
  unfold words_of in Hu. apply in_map_iff in Hu. destruct Hu as (u0 & <- & _). unfold windows in Hw. apply in_map_iff in Hw. destruct Hw as (i & <- & Hi). apply in_seq in Hi.
  cbn [token_of t_word]. split.
  - rewrite map_length, firstn_length, skipn_length. lia.
  - apply Forall_forall. intros c Hc. apply in_map_iff in Hc. destruct Hc as (x & <- & Hx).
    assert (Hin : In x (filter (fun c => alnum (fst c)) u0)).
    { revert Hx. clear. set (l := filter _ u0). intros Hx. rewrite <- (firstn_skipn i l). apply in_or_app. right. rewrite <- (firstn_skipn n (skipn i l)). apply in_or_app. left. exact Hx. }
    apply filter_In in Hin. destruct Hin as [_ Ha]. unfold alnum, ascii_letter, ascii_upper, ascii_digit in Ha. unfold gram_char, lower, ascii_upper, ascii_digit.
    destruct ((65 <=? fst x) && (fst x <=? 90)) eqn:E; lia.
Qed.
(** the words of the tokens depend only on the ASCII characters of the normalised text *)
Definition gram_words (n : nat) (text : list Z) : list (list Z) := map (map lower) (flat_map (windows n) (map (map fst) (words_of (positioned text)))).
Lemma words_of_fst (a b : list (Z * Z)) : map fst a = map fst b -> map (map fst) (words_of a) = map (map fst) (words_of b).
Proof.
  revert b. induction a as [|x a IH]; intros [|y b] E; cbn [map] in E; try discriminate; [reflexivity|]. assert (fst x = fst y) by congruence.
  assert (E' : map fst a = map fst b) by congruence. specialize (IH b E'). rewrite !words_of_cons. rewrite H.
  destruct (ascii_space (fst y)); [cbn [map]; rewrite IH; reflexivity|]. destruct (alnum (fst y)); auto.
  destruct (words_of a) as [|u us] eqn:Ea; [exfalso; eapply words_of_ne; eauto|]. destruct (words_of b) as [|v vs] eqn:Eb; [exfalso; eapply words_of_ne; eauto|].
  cbn [map glue app] in *. rewrite H. congruence.
Qed.
Lemma positioned_fst t : map fst (positioned t) = t.
Proof.
  unfold positioned. assert (G : forall (t : list Z) i, map fst (combine t (map Z.of_nat (seq i (length t)))) = t); [|apply G].
  clear. induction t as [|a t IH]; intros i; [reflexivity|]. cbn [length seq map combine fst]. rewrite IH. reflexivity.
Qed.
Lemma windows_map {A B} (f : A -> B) n w : windows n (map f w) = map (map f) (windows n w).
Proof. unfold windows. rewrite map_length, map_map. apply map_ext. intros i. rewrite skipn_map, firstn_map. reflexivity. Qed.
Lemma ngrams_words n l : map t_word (ngrams n l) = map (map lower) (flat_map (windows n) (map (map fst) (words_of l))).
Proof.
  unfold ngrams. rewrite map_map. induction (words_of l) as [|w ws IH]; [reflexivity|]. cbn [flat_map map]. rewrite !map_app, IH, windows_map, !map_map. f_equal.
  apply map_ext. intros u. unfold token_of; cbn [t_word]. rewrite map_map. reflexivity.
Qed.
Theorem C45_words norm n : (1 <= n)%nat ->
  exists toks, build_ngram norm n = Ok toks /\ map t_word toks = gram_words n (filter (fun c => c <=? 127) (map fst norm)).
Proof.
  intros Hn. exists (ngrams n (normalize norm)). split; [apply build_ngram_spec; auto|]. rewrite ngrams_words. unfold gram_words. f_equal. f_equal.
  apply words_of_fst. rewrite positioned_fst. apply normalize_ascii.
Qed.
(** for well-formed text the offset and length of a token are positions in the normalised text *)
Theorem C45_offsets norm n : (1 <= n)%nat -> Forall (fun rw => snd rw = rune_len (fst rw) /\ 1 <= snd rw) norm ->
  build_ngram norm n = Ok (ngrams n (ascii_part (map fst norm))).
Proof.
  intros Hn Hv. rewrite build_ngram_spec by auto. f_equal. f_equal. unfold normalize, ascii_part, positioned.
  assert (G : forall norm i a k, Forall (fun rw => snd rw = rune_len (fst rw) /\ 1 <= snd rw) norm -> i - a = Z.of_nat k ->
    normalize_from norm i a = filter (fun c => fst c <=? 127) (combine (map fst norm) (map Z.of_nat (seq k (length (map fst norm)))))).
  { clear. induction norm as [|[r w] t IH]; intros i a k Hv E; [reflexivity|]. inversion Hv as [|? ? [H1 H2] Hv']; subst. cbn [fst snd] in *.
    cbn [normalize_from map fst length seq combine filter].
    assert (R : 1 <= rune_len r) by lia. destruct (Z.leb_spec r 127).
    - assert (Hr : rune_len r = 1).
      { revert R. unfold rune_len. destruct (Z.ltb_spec r 0); [lia|]. destruct (Z.leb_spec r 127); lia. }
      rewrite H1, Hr. cbn [Z.ltb]. change (1 <? 1) with false. cbv iota. rewrite (IH (i + 1) a (S k)) by (auto; lia). f_equal. f_equal. lia.
    - destruct (Z.ltb_spec 1 (rune_len r)).
      + apply IH; auto. lia.
      + apply IH; auto. assert (rune_len r = 1) by lia. lia. }
  apply G; auto.
Qed.
(** the tokens fit the width of the index they go to (C34) *)
Theorem C45_tokens_have_the_index_width norm n ft toks t : gram_type n = Some ft -> build_ngram norm n = Ok toks -> In t toks ->
  determine_type ft <> 0 /\ zlen (t_word t) = determine_type ft - 1.
Proof.
  intros Hg E Ht. assert (Hn : (1 <= n)%nat) by (destruct n; [discriminate|lia]). destruct (C45_tokens_are_ngrams norm Hn) as (toks' & E' & _ & F).
  rewrite E in E'. injection E' as <-. rewrite Forall_forall in F. destruct (F _ Ht) as [L _]. unfold zlen. rewrite L.
  destruct n as [|[|[|[|n]]]]; cbn in Hg; try discriminate; injection Hg as <-; split; try discriminate; reflexivity.
Qed.
(** "go*lang 1" in bigrams *)
Example C45_example : build_ngram [(71, 1); (111, 1); (42, 1); (769, 2); (108, 1); (32, 1); (49, 1)] 2 = Ok [Tok [103; 111] 0 2; Tok [111; 108] 1 4].
Proof. reflexivity. Qed.

(** *** C46 *)
Lemma ts_collect_spec (all : list Z) m : (1 <= m)%nat -> Forall (fun c => c <= 127) all -> ts_collect all 0 [] m = collect all 0 [] m.
Proof.
  intros Hm H. generalize 0%nat as i. generalize (@nil nat) as curr. induction H as [|c t Hc H IH]; intros curr i; [reflexivity|].
  cbn [ts_collect collect]. rewrite js_alnum_ok, go_alnum, go_space_ok. assert (E : js_space c = ascii_space c) by (unfold js_space, ascii_space; lia). rewrite E, !IH. reflexivity.
Qed.
Lemma utf16_ascii l : Forall (fun c => c <= 127) l -> utf16 l = l.
Proof. induction 1 as [|c t Hc H IH]; [reflexivity|]. unfold utf16 in *. cbn [flat_map]. destruct (Z.leb_spec c 65535); [|lia]. rewrite IH. reflexivity. Qed.
Lemma unit_at_flat all idx : Forall (fun k => (k < length all)%nat) idx -> flat_map (unit_at all) idx = map (fun k => nth k all 0) idx.
Proof. induction 1 as [|k idx Hk H IH]; [reflexivity|]. cbn [flat_map map]. unfold unit_at at 1. rewrite (nth_error_nth' all 0 Hk). cbn [app]. rewrite IH. reflexivity. Qed.
Lemma flat_map_map' {A B C} (f : A -> B) (g : B -> list C) l : flat_map g (map f l) = flat_map (fun x => g (f x)) l.
Proof. induction l; cbn; congruence. Qed.
(** For ASCII phrases (which NFKD leaves alone: [norm] is the phrase) the client's
    tokens for gram lengths min..max are the words the indexer makes for these
    lengths. *)
Theorem C46_same_tokens_partial tl phrase norm min max : Forall (fun c => 0 <= c <= 127) phrase -> norm = map (fun c => (c, 1)) phrase ->
  (forall s, Forall (fun c => 0 <= c <= 127) s -> tl s = map lower s) -> (1 <= min <= max)%nat -> (max <= 3)%nat ->
  exists toks, ts_tokens tl min max phrase = Ok (concat toks) /\
    Forall2 (fun n l => exists g ft, build_ngram norm n = Ok g /\ gram_type n = Some ft /\ l = map (fun t => (t_word t, ft)) g) (seq min (max + 1 - min)) toks.
Proof.
  intros Hp -> Htl Hmm Hmax.
  assert (Hp' : Forall (fun c => c <= 127) phrase) by (eapply Forall_impl; [|exact Hp]; cbn; lia).
  assert (Hn : map fst (map (fun c : Z => (c, 1)) phrase) = phrase) by (rewrite map_map; apply map_id).
  assert (Hf : filter (fun c => c <=? 127) phrase = phrase).
  { clear - Hp'. induction Hp' as [|c t Hc H IH]; [reflexivity|]. cbn [filter]. destruct (Z.leb_spec c 127); [|lia]. congruence. }
  set (g := fun n => match gram_type n with Some ft => map (fun w => (w, ft)) (gram_words n phrase) | None => [] end).
  exists (map g (seq min (max + 1 - min))). split.
  - unfold ts_tokens. cbv zeta. rewrite (traverse_ok _ g); [reflexivity|]. intros n Hn'. apply in_seq in Hn'. unfold ts_grams, g.
    assert (Hg : exists ft, gram_type n = Some ft) by (destruct n as [|[|[|[|n]]]]; cbn; eauto; lia). destruct Hg as (ft & ->). f_equal.
    assert (1 <= min)%nat as Hm1 by lia. rewrite (ts_collect_spec Hm1 Hp'). rewrite (utf16_ascii Hp').
    destruct (@collect_spec (positioned phrase) min ltac:(lia) (positioned phrase) 0%nat [] eq_refl) as [E F]; [intros k []|]. cbn [map] in E.
    rewrite positioned_fst in E, F. rewrite (glue_nil (words_of_ne _)) in E. set (ws := collect phrase 0 [] min) in *.
    assert (Lp : length (positioned phrase) = length phrase) by (rewrite <- (positioned_fst phrase) at 2; rewrite map_length; reflexivity). rewrite Lp in F. rewrite Forall_forall in F.
    (* the words as characters *)
    assert (E2 : map (map (fun k => nth k phrase 0)) ws = filter (long min) (map (map fst) (words_of (positioned phrase)))).
    { transitivity (map (map fst) (map (map (fun k => nth k (positioned phrase) (0, 0))) ws)).
      - rewrite map_map. apply map_ext_in. intros w Hw. rewrite map_map. apply map_ext_in. intros k Hk. rewrite <- (positioned_fst phrase) at 1.
        change 0 with (fst (0, 0)) at 1. apply map_nth.
      - rewrite E. clear. induction (words_of (positioned phrase)) as [|w q IH]; [reflexivity|]. cbn [filter map].
        assert (Ll : long min (map fst w) = long min w) by (unfold long; rewrite map_length; reflexivity). rewrite Ll.
        destruct (long min w); cbn [map]; rewrite IH; reflexivity. }
    unfold gram_words.
    assert (E3 : flat_map (windows n) (map (map fst) (words_of (positioned phrase))) = flat_map (windows n) (map (map (fun k => nth k phrase 0)) ws)).
    { rewrite E2. clear - Hn'. induction (map (map fst) (words_of (positioned phrase))) as [|w q IH]; [reflexivity|]. cbn [flat_map filter]. unfold long at 1.
      destruct (Nat.leb_spec min (length w)); cbn [flat_map]; rewrite IH; [reflexivity|]. rewrite windows_short by lia. reflexivity. }
    rewrite E3. clear E E2 E3. rewrite !map_map. rewrite flat_map_map'.
    clearbody ws. induction ws as [|w ws IH]; [reflexivity|]. cbn [flat_map]. rewrite map_app. f_equal; [|apply IH; intros x Hx; apply F; right; auto].
    unfold windows. rewrite map_length, map_map. apply map_ext_in. intros i Hi. apply in_seq in Hi. f_equal.
    assert (Hw : Forall (fun k => (k < length phrase)%nat) w) by (apply F; left; auto).
    assert (Es : flat_map (fun j => unit_at phrase (nth j w 0%nat)) (seq i n) = firstn n (skipn i (map (fun k => nth k phrase 0) w))).
    { rewrite <- (flat_map_map' (fun j => nth j w 0%nat) (unit_at phrase)). rewrite (map_nth_seq 0%nat) by lia. rewrite unit_at_flat.
      - rewrite <- firstn_map, <- skipn_map. reflexivity.
      - rewrite Forall_forall in *. intros k Hk. apply Hw. rewrite <- (firstn_skipn i w). apply in_or_app. right. rewrite <- (firstn_skipn n (skipn i w)). apply in_or_app. left. exact Hk. }
    rewrite Es. apply Htl. rewrite Forall_forall in *. intros c Hc.
    assert (Hc' : In c (map (fun k => nth k phrase 0) w)).
    { rewrite <- (firstn_skipn i (map _ w)). apply in_or_app. right. rewrite <- (firstn_skipn n (skipn i (map _ w))). apply in_or_app. left. exact Hc. }
    apply in_map_iff in Hc'. destruct Hc' as (k & <- & Hk). apply Hp, nth_In, Hw, Hk.
  - assert (G : forall l, (forall n, In n l -> (1 <= n <= 3)%nat) -> Forall2 (fun n l0 => exists g0 ft, build_ngram (map (fun c => (c, 1)) phrase) n = Ok g0 /\ gram_type n = Some ft /\ l0 = map (fun t => (t_word t, ft)) g0) l (map g l)).
    { induction l as [|n l IH]; intros Hl; cbn [map]; constructor; [|apply IH; intros; apply Hl; right; auto].
      assert (Hn' : (1 <= n <= 3)%nat) by (apply Hl; left; auto). destruct (@C45_words (map (fun c => (c, 1)) phrase) n ltac:(lia)) as (toks & E1 & E2).
      rewrite Hn, Hf in E2. assert (Hg : exists ft, gram_type n = Some ft) by (destruct n as [|[|[|[|n]]]]; cbn; eauto; lia). destruct Hg as (ft & Hg).
      exists toks, ft. split; auto. split; auto. unfold g. rewrite Hg, <- E2, map_map. reflexivity. }
    apply G. intros n Hn'. apply in_seq in Hn'. lia.
Qed.
(** C46 fails in general. After a character outside the basic plane (U+1F600) the
    client picks the wrong characters, whatever toLowerCase does with them, as
    long as it leaves "a" alone. *)
Theorem C46_same_tokens_refuted tl : tl [97] = [97] -> forall norm, norm = [(128512, 4); (97, 1); (98, 1)] ->
  exists toks g, ts_tokens tl 1 1 [128512; 97; 98] = Ok toks /\ build_ngram norm 1 = Ok g /\ map fst toks <> map t_word g.
Proof.
  intros Htl norm ->. eexists _, _. split; [reflexivity|]. split; [reflexivity|]. cbn. rewrite Htl. intros X. discriminate.
Qed.
(** ... and letters with accents, which NFKD splits (U+00E9 into "e" and U+0301), get no token. *)
Theorem C46_accents_refuted tl norm : norm = [(101, 1); (769, 2)] ->
  ts_tokens tl 1 1 [233] = Ok [] /\ build_ngram norm 1 = Ok [Tok [101] 0 1].
Proof. intros ->. split; reflexivity. Qed.
Example C46_example : ts_tokens (map lower) 1 2 [72; 105; 32; 121] = Ok [([104], FTUnigram); ([105], FTUnigram); ([121], FTUnigram); ([104; 105], FTBigram)].
Proof. reflexivity. Qed.

(** *** C47 *)
Lemma lset_perm_swap {A} (l : list A) i j x y : nth_error l i = Some x -> nth_error l j = Some y -> Permutation (lset (lset l i y) j x) l.
Proof.
  intros Hi Hj. assert (Li : (i < length l)%nat) by (apply nth_error_Some; congruence). assert (Lj : (j < length l)%nat) by (apply nth_error_Some; congruence).
  destruct (Nat.eq_dec i j) as [->|Hne].
  - rewrite Hi in Hj. injection Hj as <-. replace (lset (lset l j x) j x) with l; [reflexivity|]. apply nth_error_ext. intros k. rewrite nth_lset by (rewrite length_lset; auto). rewrite nth_lset by auto.
    destruct (Nat.eq_dec k j) as [->|]; auto.
  - apply Permutation_nth_error. rewrite !length_lset by (rewrite ?length_lset; auto). split; [reflexivity|].
    exists (fun k => if Nat.eq_dec k i then j else if Nat.eq_dec k j then i else k). split.
    + intros a b. destruct (Nat.eq_dec a i), (Nat.eq_dec b i), (Nat.eq_dec a j), (Nat.eq_dec b j); congruence.
    + intros k. rewrite nth_lset by (rewrite length_lset; auto). rewrite nth_lset by auto.
      destruct (Nat.eq_dec k i) as [Ei|Ni]; [|destruct (Nat.eq_dec k j) as [Ej|Nj]]; subst;
        repeat match goal with |- context [Nat.eq_dec ?a ?b] => destruct (Nat.eq_dec a b) end; congruence.
Qed.
(** Shuffle returns a permutation, whatever random numbers are drawn, and never panics. *)
Theorem C47_shuffle_permutes {A} (choose : nat -> nat) (l : list A) : (forall i, (0 < i < length l)%nat -> (choose i <= i)%nat) ->
  exists r, shuffle choose l = Ok r /\ Permutation r l.
Proof.
  intros Hc. unfold shuffle.
  assert (G : forall i (soup : list A), (i < length l \/ i = 0)%nat -> length soup = length l -> exists r, shuffle_loop choose i soup = Ok r /\ Permutation r soup).
  { induction i as [|i IH]; intros soup Hi Hl; [exists soup; split; auto; reflexivity|]. cbn [shuffle_loop]. unfold swap.
    assert (H1 : (S i < length soup)%nat) by lia. assert (H2 : (choose (S i) < length soup)%nat) by (specialize (Hc (S i)); lia).
    unfold at_. destruct (nth_error soup (S i)) as [x|] eqn:E1; [|apply nth_error_None in E1; lia].
    destruct (nth_error soup (choose (S i))) as [y|] eqn:E2; [|apply nth_error_None in E2; lia]. cbn [rbind].
    pose proof (lset_perm_swap _ _ _ E1 E2) as P. destruct (IH (lset (lset soup (S i) y) (choose (S i)) x)) as (r & Er & Pr); [lia|rewrite (Permutation_length P); auto|].
    exists r. split; auto. eapply Permutation_trans; eauto. }
  apply G; [destruct (length l); lia|reflexivity].
Qed.
Example C47_example : shuffle (fun _ => 0%nat) [1; 2; 3] = Ok [2; 3; 1].
Proof. reflexivity. Qed.
