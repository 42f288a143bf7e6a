(** C81, C82: from the data file to a search: a JSONL data file is synchronized with
    search headers, then the browser searches a field. *)
From Coq Require Import Permutation Sorted.
From Verif Require Import Base Varint Store PageFile PageHist RefValue Node LinkedPage BPTree BPRepr BPIter BPInsert BPLoop BPTop PTree Meta TsCodec Slots SlotAdd PSlots Cells IndexFile IFileInv PIndex Json Jsonl Grows JsonlRun JsonDoc JsonlDoc JsonlSpec JsonlHist PJsonl Query QTree TsFile PNgram PClient PQuery PJsonlQuery Search PSearch.

Section P.
Variables (unquote : bytes -> bytes) (to_float : bytes -> option bytes) (hdrs : list bytes).
(** NFKD(s) as `range` decodes it: characters with the number of bytes each takes *)
Variable nfkd : bytes -> list (Z * Z).
Hypothesis float_8 : forall t f, to_float t = Some f -> zlen f = 8.
(** ngram.BuildNgram(value, n) as the handler uses it: pkg/handlers/jsonl.go:190-205,
    pkg/ngram/tokenizer.go:75-123 *)
Definition grams_of (v : bytes) (n : Z) : res (list (bytes * Z * Z)) :=
  rbind (build_ngram (nfkd v) (Z.to_nat n)) (fun l => Ok (map (fun t => (t_word t, t_off t, t_len t)) l)).
Notation sync := (jsonl_sync unquote to_float grams_of hdrs file_slot).
Notation parse := (jparse unquote to_float).
Notation occs := (occs unquote).
Notation mfields := (mfields unquote).
Notation entries_of := (entries_of unquote to_float grams_of hdrs).
Notation total_of := (total_of unquote to_float grams_of hdrs).
Notation ids := (JsonlSpec.ids unquote to_float grams_of hdrs).
Notation posts := (posts unquote to_float grams_of hdrs).
Notation life := (life unquote to_float grams_of hdrs).
Notation fits := (fits unquote to_float grams_of hdrs).
Notation all_fields := (all_fields unquote).

(** ** Specification *)
(** the text of a string field, and the words of [n] letters or digits in it: the ASCII
    characters of the normalised text, without accents and other marks, in lower case *)
Definition text_of (f : field) : bytes := match fd_value f with JStr b => unquote b | _ => [] end.
Definition words_in (n : nat) (f : field) : list (list Z) := gram_words n (filter (fun c => c <=? 127) (map fst (nfkd (text_of f)))).
Definition called (name : bytes) (x : line * field) : bool := if list_eq_dec Z.eq_dec (fd_name (snd x)) name then true else false.
(** the lines in which [w] is one of the words of [n] characters of the field [name], once
    for each place *)
Definition lines_with (ls : list line) (name : bytes) (n : nat) (w : list Z) : list bytes :=
  flat_map (fun x => repeat (line_text (fst x)) (count_occ (list_eq_dec Z.eq_dec) (words_in n (snd x)) w)) (filter (called name) (all_fields ls)).
(** the n-grams of a search text, for all lengths from [min] to [max] *)
Definition ngrams_of (min max : nat) (like : list Z) : list (nat * list Z) :=
  flat_map (fun n => map (pair n) (gram_words n like)) (seq min (max + 1 - min)).
(** well-formed text: every character takes the bytes it needs *)
Definition well_formed (norm : list (Z * Z)) : Prop := Forall (fun rw => snd rw = rune_len (fst rw) /\ 1 <= snd rw) norm.
(** FindOrCreateIndex finds an index whose root page is a leaf *)
Definition fits_one_page (D : bytes) (s : st) (name : bytes) (ty : Z) : Prop :=
  exists m im n, reads s (find_or_create file_slot name ty) (m, im) /\
    ts_rd (mkCodec (determine_type ty) D parse) (file s) (root_at (file s) m) = Ok n /\ is_leaf n = true.

(** ** The tokens of a well-formed text fit *)
Lemma windows_hd {A} (d : A) n w : (1 <= n)%nat -> map (hd d) (windows n w) = firstn (length w + 1 - n) w.
Proof.
  intros Hn. unfold windows. rewrite map_map. transitivity (map (fun i => nth i w d) (seq 0 (length w + 1 - n))).
  - apply map_ext_in. intros i Hi. apply in_seq in Hi. destruct n as [|n]; [lia|]. rewrite <- (Nat.add_0_r i) at 2. rewrite <- nth_skipn'. destruct (skipn i w); reflexivity.
  - rewrite map_nth_seq by lia. reflexivity.
Qed.
Lemma concat_words l : concat (words_of l) = filter (fun c => alnum (fst c)) l.
Proof.
  induction l as [|c l IH]; [reflexivity|]. rewrite words_of_cons. cbn [filter]. destruct (ascii_space (fst c)) eqn:Es.
  - cbn [concat app]. destruct (alnum (fst c)) eqn:Ea; [rewrite (alnum_not_space _ Ea) in Es; discriminate|exact IH].
  - destruct (alnum (fst c)); [|exact IH]. destruct (words_of l) as [|w ws] eqn:Ew; [exfalso; eapply words_of_ne; eauto|]. cbn [glue concat app]. rewrite <- IH. reflexivity.
Qed.
Lemma nodup_left {A} (a b : list A) : NoDup (a ++ b) -> NoDup a.
Proof. induction a as [|x a IH]; intros H; [constructor|]. inversion H; subst. constructor; [intros X; apply H2, in_or_app; auto|auto]. Qed.
Lemma firstn_nodup {A} (l : list A) n : NoDup l -> NoDup (firstn n l).
Proof. intros H. rewrite <- (firstn_skipn n l) in H. exact (nodup_left _ _ H). Qed.
Lemma nodup_heads {A} (k : list A -> nat) ws : NoDup (concat ws) -> NoDup (flat_map (fun w => firstn (k w) w) ws).
Proof.
  induction ws as [|w ws IH]; intros H; [constructor|]. cbn [concat flat_map] in *. apply nodup_app_intro.
  - apply firstn_nodup. exact (nodup_left _ _ H).
  - apply IH. clear -H. induction w as [|x w IH]; [exact H|]. inversion H; auto.
  - intros x Hx Hy. assert (In x w) by (rewrite <- (firstn_skipn (k w) w); apply in_or_app; auto).
    assert (In x (concat ws)). { apply in_flat_map in Hy. destruct Hy as (u & Hu & Hy). apply in_concat. exists u. split; auto. rewrite <- (firstn_skipn (k u) u). apply in_or_app; auto. }
    clear -H H0 H1. induction w as [|y w IH]; [destruct H0|]. inversion H; subst. destruct H0 as [->|H0]; [apply H4, in_or_app; auto|auto].
Qed.
Lemma nodup_map_filter {A B} (f : A -> B) p l : NoDup (map f l) -> NoDup (map f (filter p l)).
Proof.
  induction l as [|x l IH]; intros H; [exact H|]. cbn [map] in H. inversion H; subst. cbn [filter]. destruct (p x); [|auto]. cbn [map]. constructor; auto.
  intros X. apply H2. apply in_map_iff in X. destruct X as (y & <- & Hy). apply filter_In in Hy. apply in_map. tauto.
Qed.
Lemma ngrams_offsets n l : (1 <= n)%nat -> map t_off (ngrams n l) = map snd (flat_map (fun w => firstn (length w + 1 - n) w) (words_of l)).
Proof.
  intros Hn. unfold ngrams. rewrite map_map. induction (words_of l) as [|w ws IH]; [reflexivity|]. cbn [flat_map]. rewrite !map_app, IH. f_equal.
  rewrite <- (windows_hd (0, 0)) by auto. rewrite map_map. reflexivity.
Qed.
Lemma positioned_snd t : map snd (positioned t) = map Z.of_nat (seq 0 (length t)).
Proof.
  unfold positioned. assert (G : forall (a b : list Z), length a = length b -> map snd (combine a b) = b).
  { induction a as [|x a IH]; intros [|y b] E; cbn in *; try discriminate; auto. rewrite IH by lia. reflexivity. }
  apply G. rewrite map_length, seq_length. reflexivity.
Qed.
Lemma grams_fit v n : 1 <= n <= 3 -> well_formed (nfkd v) -> exists l, grams_of v n = Ok l /\
  NoDup (map (fun w : bytes * Z * Z => snd (fst w)) l) /\
  Forall (fun w : bytes * Z * Z => zlen (fst (fst w)) = n /\ 0 <= snd (fst w) < zlen (nfkd v)) l /\
  map (fun w : bytes * Z * Z => fst (fst w)) l = gram_words (Z.to_nat n) (filter (fun c => c <=? 127) (map fst (nfkd v))).
Proof.
  intros Hn Hw. assert (Hn' : (1 <= Z.to_nat n)%nat) by lia. set (g := ngrams (Z.to_nat n) (ascii_part (map fst (nfkd v)))).
  assert (Eg := C45_offsets Hn' Hw). fold g in Eg. exists (map (fun t => (t_word t, t_off t, t_len t)) g). split; [unfold grams_of; rewrite Eg; reflexivity|].
  destruct (@C45_tokens_are_ngrams (nfkd v) (Z.to_nat n) Hn') as (g2 & E2 & _ & F2). rewrite Eg in E2. injection E2 as <-.
  destruct (@C45_words (nfkd v) (Z.to_nat n) Hn') as (g2 & E2 & W2). rewrite Eg in E2. injection E2 as <-.
  assert (Eo : map (fun w : bytes * Z * Z => snd (fst w)) (map (fun t => (t_word t, t_off t, t_len t)) g) = map t_off g) by (rewrite map_map; reflexivity).
  assert (Ho : map t_off g = map snd (flat_map (fun w => firstn (length w + 1 - Z.to_nat n) w) (words_of (ascii_part (map fst (nfkd v)))))) by (apply ngrams_offsets; exact Hn').
  assert (Hsub : forall x, In x (flat_map (fun w => firstn (length w + 1 - Z.to_nat n) w) (words_of (ascii_part (map fst (nfkd v))))) -> In x (positioned (map fst (nfkd v)))).
  { intros x Hx. apply in_flat_map in Hx. destruct Hx as (u & Hu & Hx). assert (Hi : In x (concat (words_of (ascii_part (map fst (nfkd v)))))).
    { apply in_concat. exists u. split; auto. rewrite <- (firstn_skipn (length u + 1 - Z.to_nat n) u). apply in_or_app; auto. }
    rewrite concat_words in Hi. unfold ascii_part in Hi. apply filter_In in Hi. destruct Hi as [Hi _]. apply filter_In in Hi. tauto. }
  split; [|split].
  - rewrite Eo, Ho. assert (Hnd : NoDup (map snd (concat (words_of (ascii_part (map fst (nfkd v))))))).
    { rewrite concat_words. unfold ascii_part. do 2 apply nodup_map_filter. rewrite positioned_snd. apply FinFun.Injective_map_NoDup; [intros a b; lia|apply seq_NoDup]. }
    rewrite flat_map_concat_map, concat_map, map_map. rewrite concat_map in Hnd.
    assert (X := @nodup_heads Z (fun w => (length w + 1 - Z.to_nat n)%nat) _ Hnd). rewrite flat_map_concat_map, map_map in X.
    erewrite map_ext; [exact X|]. intros w. cbn beta. rewrite map_length, firstn_map. reflexivity.
  - apply Forall_map. apply Forall_forall. intros t Ht. cbn [fst snd]. rewrite Forall_forall in F2. destruct (F2 _ Ht) as [L _]. split; [unfold zlen; rewrite L; lia|].
    assert (Hi : In (t_off t) (map t_off g)) by (apply in_map; auto). rewrite Ho in Hi. apply in_map_iff in Hi. destruct Hi as (x & <- & Hx). apply Hsub in Hx.
    assert (Hs : In (snd x) (map snd (positioned (map fst (nfkd v))))) by (apply in_map; auto). rewrite positioned_snd in Hs. apply in_map_iff in Hs. destruct Hs as (k & <- & Hk). apply in_seq in Hk.
    rewrite map_length in Hk. unfold zlen. lia.
  - rewrite map_map. cbn [fst]. exact W2.
Qed.

(** ** The postings of a searched field *)
Section Field.
  Variables (D : bytes) (ls : list line) (tail : bytes) (name : bytes).
  Hypothesis Hfits : fits D ls tail.
  Hypothesis Hname : searched hdrs name = true.
  Definition named (o : occ) : bool := if list_eq_dec Z.eq_dec (fd_name (fst o)) name then true else false.

  Lemma named_string o : In o (occs 0 ls) -> named o = true -> exists b, fd_value (fst o) = JStr b /\ zlen (unquote b) < 2^32 /\
    forall n, 1 <= n <= 3 -> exists l, grams_of (unquote b) n = Ok l /\ Forall (fun w : bytes * Z * Z => zlen (fst (fst w)) = n /\ 0 <= snd (fst w) < fd_to (fst o) - fd_from (fst o)) l.
  Proof.
    intros Hin Hn. destruct Hfits as (_ & _ & _ & F). rewrite Forall_forall in F. destruct (F _ Hin) as [_ G]. unfold named in Hn. destruct (list_eq_dec Z.eq_dec (fd_name (fst o)) name) as [E|]; [|discriminate].
    unfold search_fits in G. rewrite E in G. specialize (G Hname). unfold gram_fits in G. destruct (fd_value (fst o)) as [| | |b| |]; try contradiction. exists b. split; auto. destruct G as [G1 G2]. split; auto.
    intros n H. destruct (G2 n H) as (l & X1 & _ & X3). exists l. auto.
  Qed.
  Lemma gram_posts l n ty : gram_type n = Some ty -> (forall o, In o l -> In o (occs 0 ls)) ->
    filter (fun p => id_eqb (po_id p) (name, ty)) (posts l) = map (fun o => gram_posting grams_of o (text_of (fst o)) (Z.of_nat n) ty) (filter named l).
  Proof.
    intros Hg. assert (Hty : forall v, type_of v <> ty) by (intros v; destruct n as [|[|[|[|n]]]]; cbn in Hg; try discriminate; injection Hg as <-; destruct v; discriminate).
    induction l as [|o l IH]; intros Hl; [reflexivity|]. unfold JsonlSpec.posts. cbn [flat_map]. fold (posts l). rewrite filter_app, IH by (intros; apply Hl; right; auto). cbn [filter].
    assert (Hb : id_eqb (occ_id o) (name, ty) = false) by (unfold id_eqb; cbn [snd occ_id]; apply andb_false_iff; right; apply Z.eqb_neq, Hty).
    unfold postings. cbn [filter po_id]. rewrite Hb. destruct (named o) eqn:En.
    - destruct (@named_string o (Hl o (or_introl eq_refl)) En) as (b & Eb & _). assert (En' : fd_name (fst o) = name) by (unfold named in En; destruct (list_eq_dec Z.eq_dec (fd_name (fst o)) name); [auto|discriminate]).
      assert (Et : text_of (fst o) = unquote b) by (unfold text_of; rewrite Eb; reflexivity). rewrite Eb, En', Hname. cbn [map]. rewrite Et. unfold gram_postings, gram_posting. cbn [filter po_id]. rewrite En'.
      destruct n as [|[|[|[|n]]]]; cbn in Hg; try discriminate; injection Hg as <-; unfold id_eqb; cbn [fst snd]; (destruct (list_eq_dec Z.eq_dec name name); [|congruence]); reflexivity.
    - assert (Hno : forall g, id_eqb (fd_name (fst o), g) (name, ty) = false).
      { intros g. unfold id_eqb. cbn [fst snd]. unfold named in En. destruct (list_eq_dec Z.eq_dec (fd_name (fst o)) name); [discriminate|reflexivity]. }
      destruct (fd_value (fst o)); try reflexivity. destruct (searched hdrs (fd_name (fst o))); [|reflexivity]. unfold gram_postings, gram_posting. cbn [filter po_id]. rewrite !Hno. reflexivity.
  Qed.
  Lemma pieces_words o n ty : gram_type n = Some ty -> In o (occs 0 ls) -> named o = true ->
    map (fun w : bytes * Z * Z => fst (fst w)) (pieces grams_of (text_of (fst o)) (Z.of_nat n)) = words_in n (fst o).
  Proof.
    intros Hg Hin Hn. assert (Hn' : (1 <= n)%nat) by (destruct n; [discriminate|lia]). unfold pieces, grams_of. rewrite Nat2Z.id. destruct (@C45_words (nfkd (text_of (fst o))) n Hn') as (g & E & W).
    rewrite E. cbn [rbind]. rewrite map_map. exact W.
  Qed.
  Lemma gram_entries n ty : gram_type n = Some ty -> entries_of (occs 0 ls) (name, ty) =
    flat_map (fun o => map (fun w : bytes * Z * Z => (RV (MP (fd_from (fst o) + snd (fst w)) (zlen (text_of (fst o)))) (fst (fst w)), snd o)) (pieces grams_of (text_of (fst o)) (Z.of_nat n))) (filter named (occs 0 ls)).
  Proof.
    intros Hg. unfold JsonlSpec.entries_of. rewrite (@gram_posts (occs 0 ls) n ty Hg) by auto. rewrite flat_map_map'. reflexivity.
  Qed.
  Lemma called_named : filter named (occs 0 ls) = map snd (filter (fun p => called name (fst p)) (placed unquote 0 ls)).
  Proof.
    rewrite <- (placed_snd unquote to_float grams_of float_8 ls 0), map_filter. f_equal. apply filter_ext_in. intros p Hp.
    pose proof (@placed_ok unquote to_float grams_of float_8 D ls 0 [] tail (proj1 Hfits) eq_refl) as Hok. rewrite Forall_forall in Hok. destruct (Hok p Hp) as (_ & _ & _ & _ & _ & _ & _ & _ & _ & E).
    destruct p as [[x f] [g m]]. cbn [fst snd] in E. unfold named, called. cbn [fst snd]. rewrite E. reflexivity.
  Qed.
  Lemma called_fields : filter (called name) (all_fields ls) = map fst (filter (fun p => called name (fst p)) (placed unquote 0 ls)).
  Proof. rewrite <- (placed_fst unquote ls 0), map_filter. reflexivity. Qed.
  (** the records of an n-gram are the lines with it *)
  Lemma occurrence_lines grams_at n ty w : gram_type n = Some ty -> ix_es (grams_at ty) = rev (entries_of (occs 0 ls) (name, ty)) ->
    Permutation (map (record_of D) (occurrences grams_at (w, ty))) (lines_with ls name n w).
  Proof.
    intros Hg Es. unfold occurrences. cbn [fst snd]. rewrite Es. etransitivity; [apply Permutation_map, perm_filter; symmetry; apply Permutation_rev|]. rewrite (@gram_entries n ty Hg).
    unfold lines_with. rewrite called_fields, called_named, !flat_map_map'.
    assert (Hpl : forall p, In p (filter (fun p => called name (fst p)) (placed unquote 0 ls)) -> In p (placed unquote 0 ls) /\ called name (fst p) = true) by (intros p Hp; apply filter_In in Hp; exact Hp).
    pose proof (@placed_ok unquote to_float grams_of float_8 D ls 0 [] tail (proj1 Hfits) eq_refl) as Hok. rewrite Forall_forall in Hok.
    induction (filter (fun p => called name (fst p)) (placed unquote 0 ls)) as [|p l IH]; [reflexivity|]. cbn [flat_map]. rewrite filter_app, map_app, IH by (intros; apply Hpl; right; auto). apply Permutation_app_tail.
    destruct (Hpl p (or_introl eq_refl)) as [Hp Hc]. destruct (Hok p Hp) as (Esl & _ & _ & _ & _ & _ & _ & _ & Ev & En).
    assert (Hin : In (snd p) (occs 0 ls)) by (rewrite <- (placed_snd unquote to_float grams_of float_8 ls 0); apply in_map; auto).
    assert (Hnm : named (snd p) = true) by (destruct p as [[x f] [g m]]; cbn [fst snd] in *; unfold named; unfold called in Hc; cbn [fst snd] in *; rewrite En; exact Hc).
    assert (Ew : words_in n (snd (fst p)) = words_in n (fst (snd p))) by (destruct p as [[x f] [g m]]; cbn [fst snd] in *; unfold words_in, text_of; rewrite Ev; reflexivity).
    rewrite Ew, <- (@pieces_words (snd p) n ty Hg Hin Hnm).
    assert (R : forall k, record_of D (k, snd (snd p)) = line_text (fst (fst p))) by (intros k; exact Esl).
    generalize (pieces grams_of (text_of (fst (snd p))) (Z.of_nat n)). intros q. induction q as [|x q IHq]; [reflexivity|]. cbn [map filter count_occ fst snd rv_val].
    destruct (list_eq_dec Z.eq_dec (fst (fst x)) w); cbn [map repeat]; [|exact IHq]. rewrite IHq. rewrite R. reflexivity.
  Qed.
End Field.

(** ** C81: what a search returns *)
Section End.
  Variables (D : bytes) (s s' : st) (ls : list line) (tail : bytes) (r0 : res unit) (name : bytes) (min max : nat) (gas fuel : nat).
  Variables (num : Type) (zero : num) (plus : num -> num -> num) (score : Z -> Z -> Z -> num) (sort : list (dptr * num) -> list (dptr * num)).
  Variables (tl : list Z -> list Z) (choose : nat -> nat) (encode : list Z -> bytes) (like : list Z) (cfg : option (nat * nat)).
  (** after a Synchronize of a data file below 2 GiB whose index file is below 2 GiB *)
  Hypothesis Hlife : life D s.
  Hypothesis Hfits : fits D ls tail.
  Hypothesis Hsync : sync D s = (r0, s').
  Hypothesis Hfile : zlen (file s') <= 2^31.
  Hypothesis Hdata : zlen D < 2^31.
  Hypothesis Hgrams : forall field_name ty, In ty [FTUnigram; FTBigram; FTTrigram] -> total_of (occs 0 ls) (field_name, ty) < 2^31.
  (** a field that is searched, with texts below 2 GiB, and a word of each length searched for in some line *)
  Hypothesis Hname : searched hdrs name = true.
  Hypothesis Htexts : forall x, In x (all_fields ls) -> called name x = true -> zlen (text_of (snd x)) < 2^31.
  Hypothesis Hlengths : (1 <= min)%nat /\ (min <= max)%nat /\ (max <= 3)%nat.
  Hypothesis Hwords : forall n, (min <= n <= max)%nat -> exists x, In x (all_fields ls) /\ called name x = true /\ words_in n (snd x) <> [].
  (** the search text is ASCII; what toLowerCase and TextEncoder do with ASCII *)
  Hypothesis Hlike : Forall (fun c => 0 <= c <= 127) like.
  Hypothesis Htl : forall t, Forall (fun c => 0 <= c <= 127) t -> tl t = map lower t.
  Hypothesis Hencode : forall t, Forall (fun c => 0 <= c <= 127) t -> encode t = t.
  Hypothesis Hcfg : match cfg with Some c => c | None => (1%nat, 2%nat) end = (min, max).
  (** sort permutes, the random numbers are in range, the walks end *)
  Hypothesis Hsort : forall t, Permutation (sort t) t.
  Hypothesis Hchoose : forall i, (choose i <= i)%nat.
  Hypothesis Hfuel : (fuel_of s' <= fuel)%nat.
  Hypothesis Hgas : forall ty, In ty [FTUnigram; FTBigram; FTTrigram] -> (length (entries_of (occs 0 ls) (name, ty)) < gas)%nat.
  Notation search := (ts_search zero plus score sort tl choose encode parse gas fuel (file s') D name like cfg).

  Lemma some_field : exists o, In o (filter (named name) (occs 0 ls)).
  Proof.
    destruct (@Hwords min) as (x & Hx & Hc & _); [lia|]. rewrite (@called_named D ls tail name Hfits). assert (X : In x (filter (called name) (all_fields ls))) by (apply filter_In; auto).
    rewrite called_fields in X. apply in_map_iff in X. destruct X as (p & _ & Hp). exists (snd p). apply in_map; auto.
  Qed.
  Lemma gram_id n ty : gram_type n = Some ty -> In (name, ty) (ids (occs 0 ls)).
  Proof.
    intros Hg. destruct some_field as (o & Ho). unfold JsonlSpec.ids. apply (proj2 (firsts_in unquote to_float grams_of _ _)).
    assert (X : In (gram_posting grams_of o (text_of (fst o)) (Z.of_nat n) ty) (filter (fun p => id_eqb (po_id p) (name, ty)) (posts (occs 0 ls)))).
    { rewrite (@gram_posts D ls tail name Hfits Hname (occs 0 ls) n ty Hg) by auto. apply (in_map (fun o => gram_posting grams_of o (text_of (fst o)) (Z.of_nat n) ty)). exact Ho. }
    apply filter_In in X. destruct X as [X1 X2]. apply in_map_iff. eexists. split; [|exact X1]. unfold id_eqb in X2. apply andb_true_iff in X2. destruct X2 as [X2 X3].
    cbn [fst snd] in *. destruct (list_eq_dec Z.eq_dec (fst (po_id (gram_posting grams_of o (text_of (fst o)) (Z.of_nat n) ty))) name) as [E|]; [|discriminate].
    apply Z.eqb_eq in X3. destruct (po_id _) as [a b]; cbn [fst snd] in *; congruence.
  Qed.
  Lemma gram_cases n ty : gram_type n = Some ty -> (n = 1 /\ ty = FTUnigram \/ n = 2 /\ ty = FTBigram \/ n = 3 /\ ty = FTTrigram)%nat.
  Proof. destruct n as [|[|[|[|n]]]]; cbn; intros E; try discriminate; injection E as <-; auto. Qed.
  Lemma gram_in n ty : gram_type n = Some ty -> In ty [FTUnigram; FTBigram; FTTrigram].
  Proof. intros E. destruct (@gram_cases n ty E) as [[_ ->]|[[_ ->]|[_ ->]]]; cbn; auto. Qed.
  Lemma end_searchable : exists fm l grams_at, ifile determine_type parse D fm l s' /\ searchable determine_type D fm l s' name grams_at min max /\
    forall n ty, gram_type n = Some ty -> ix_es (grams_at ty) = rev (entries_of (occs 0 ls) (name, ty)).
  Proof.
    destruct (@life_sync unquote to_float grams_of hdrs float_8 D s ls tail Hlife Hfits) as (s2 & E2 & S2); [rewrite Hsync; cbn [snd]; lia|].
    rewrite Hsync in E2. injection E2 as _ <-. assert (ED : D = data_of ls tail) by apply Hfits.
    destruct (@state_ids unquote to_float grams_of hdrs D ls s' S2) as (l & Hif & Hids & Hx). eexists _, l. 
    assert (Hix : forall n ty, gram_type n = Some ty -> exists ix, In ix l /\ ix_name ix = name /\ ix_type ix = ty).
    { intros n ty Hg. pose proof (@gram_id n ty Hg) as Hi. rewrite <- Hids in Hi. apply in_map_iff in Hi. destruct Hi as (ix & E & Hi). injection E as E1 E3. exists ix. auto. }
    destruct (Hix 1%nat FTUnigram eq_refl) as (u & U). destruct (Hix 2%nat FTBigram eq_refl) as (b & B). destruct (Hix 3%nat FTTrigram eq_refl) as (t & T).
    exists (fun ty => if ty =? FTUnigram then u else if ty =? FTBigram then b else t).
    assert (Hat : forall n ty, gram_type n = Some ty -> In (if ty =? FTUnigram then u else if ty =? FTBigram then b else t) l /\
      ix_name (if ty =? FTUnigram then u else if ty =? FTBigram then b else t) = name /\ ix_type (if ty =? FTUnigram then u else if ty =? FTBigram then b else t) = ty).
    { intros n ty Hg. destruct (@gram_cases n ty Hg) as [[_ ->]|[[_ ->]|[_ ->]]]; assumption. }
    assert (Hes : forall n ty, gram_type n = Some ty -> ix_es (if ty =? FTUnigram then u else if ty =? FTBigram then b else t) = rev (entries_of (occs 0 ls) (name, ty))).
    { intros n ty Hg. destruct (Hat n ty Hg) as (I1 & I2 & I3). destruct (Hx _ I1) as [_ ->]. rewrite I2, I3. reflexivity. }
    split; [exact Hif|]. split; [|exact Hes]. constructor; auto.
    intros n ty Hg Hr. destruct (Hat n ty Hg) as (I1 & I2 & I3). constructor; auto.
    - intros ix' Hi'. assert (X : In (ix_name ix', ix_type ix') (map (fun ix => (ix_name ix, ix_type ix)) l)) by (apply (in_map (fun ix => (ix_name ix, ix_type ix))); auto).
      rewrite Hids in X. unfold JsonlSpec.ids in X. apply (proj1 (firsts_in unquote to_float grams_of _ _)) in X. apply in_map_iff in X. destruct X as (p & Ep & Hp). unfold JsonlSpec.posts in Hp. apply in_flat_map in Hp. destruct Hp as (o & _ & Hp).
      unfold postings in Hp. destruct Hp as [<-|Hp]; [cbn [po_id] in Ep; unfold occ_id in Ep; injection Ep as _ <-; destruct (fd_value (fst o)); split; discriminate|].
      destruct (fd_value (fst o)); try contradiction. destruct (searched hdrs (fd_name (fst o))); [|contradiction].
      destruct Hp as [<-|[<-|[<-|[]]]]; cbn [gram_posting po_id] in Ep; injection Ep as _ <-; split; discriminate.
    - cbn [fm_entries]. pose proof (more_text ls). assert (zlen (lines_text ls) <= zlen D) by (rewrite ED; unfold data_of; rewrite zlen_app; pose proof (zlen_nonneg tail); lia). lia.
    - rewrite Forall_forall. intros ix' Hi'. destruct (Hx ix' Hi') as [-> _]. destruct (is_gram (ix_type ix')) eqn:Hgr.
      + apply Hgrams. unfold is_gram in Hgr. rewrite !orb_true_iff, !Z.eqb_eq in Hgr. cbn [In]. intuition congruence.
      + pose proof (@total_small unquote to_float grams_of hdrs float_8 ls D tail (ix_name ix', ix_type ix') Hgr ED). lia.
    - rewrite (Hes n ty Hg). intros X. apply (f_equal (@rev _)) in X. rewrite rev_involutive in X. cbn [rev] in X. rewrite (@gram_entries D ls tail name Hfits Hname n ty Hg) in X.
      destruct (@Hwords n Hr) as (x & Hx1 & Hc & Hw). assert (Y : In x (filter (called name) (all_fields ls))) by (apply filter_In; auto). rewrite called_fields in Y. apply in_map_iff in Y. destruct Y as (p & <- & Hp).
      assert (Hin : In (snd p) (filter (named name) (occs 0 ls))) by (rewrite (@called_named D ls tail name Hfits); apply in_map; auto).
      apply filter_In in Hp. destruct Hp as [Hp _]. pose proof (@placed_ok unquote to_float grams_of float_8 D ls 0 [] tail (proj1 Hfits) eq_refl) as Hok. rewrite Forall_forall in Hok. destruct (Hok p Hp) as (_ & _ & _ & _ & _ & _ & _ & _ & Ev & _).
      apply filter_In in Hin. destruct Hin as [Hi1 Hi2]. apply Hw.
      assert (Ew : words_in n (snd (fst p)) = words_in n (fst (snd p))) by (destruct p as [[x f] [g m]]; cbn [fst snd] in *; unfold words_in, text_of; rewrite Ev; reflexivity).
      rewrite Ew, <- (@pieces_words ls tail name (snd p) n ty Hg Hi1 Hi2).
      destruct (pieces grams_of (text_of (fst (snd p))) (Z.of_nat n)) as [|q qs] eqn:Eq; [reflexivity|]. exfalso.
      assert (Z1 : In (RV (MP (fd_from (fst (snd p)) + snd (fst q)) (zlen (text_of (fst (snd p))))) (fst (fst q)), snd (snd p)) []); [|destruct Z1].
      rewrite <- X. apply in_flat_map. exists (snd p). split; [apply filter_In; auto|]. rewrite Eq. left; reflexivity.
    - rewrite (Hes n ty Hg). rewrite Forall_forall. intros e He. apply in_rev in He. rewrite (@gram_entries D ls tail name Hfits Hname n ty Hg) in He. apply in_flat_map in He. destruct He as (o & Ho & He).
      apply in_map_iff in He. destruct He as (q & <- & Hq). pose proof Ho as Ho'. rewrite (@called_named D ls tail name Hfits) in Ho'. apply in_map_iff in Ho'. destruct Ho' as (p & <- & Hp).
      apply filter_In in Ho. destruct Ho as [Ho1 Ho2]. apply filter_In in Hp. destruct Hp as [Hp Hc].
      pose proof (@placed_ok unquote to_float grams_of float_8 D ls 0 [] tail ED eq_refl) as Hok. rewrite Forall_forall in Hok. specialize (Hok p Hp). cbn beta in Hok.
      destruct (@named_string D ls tail name Hfits Hname (snd p) Ho1 Ho2) as (bb & Eb & _ & Gn). destruct (Gn (Z.of_nat n)) as (gl & Egl & Fg); [destruct (@gram_cases n ty Hg) as [[-> _]|[[-> _]|[-> _]]]; lia|].
      assert (Et : text_of (fst (snd p)) = unquote bb) by (unfold text_of; rewrite Eb; reflexivity). unfold pieces in Hq. rewrite Et, Egl in Hq. rewrite Forall_forall in Fg. destruct (Fg q Hq) as [_ Fq].
      assert (Htx : zlen (text_of (fst (snd p))) < 2^31).
      { replace (text_of (fst (snd p))) with (text_of (snd (fst p))); [apply Htexts; auto; rewrite <- (placed_fst unquote ls 0); apply in_map; auto|].
        destruct Hok as (_ & _ & _ & _ & _ & _ & _ & _ & Ev & _). destruct p as [[x f] [g m]]; cbn [fst snd] in *; unfold text_of; rewrite Ev; reflexivity. }
      pose proof (zlen_nonneg (text_of (fst (snd p)))).
      destruct p as [[x f] [g m]]. unfold entry_small, mptr_small. cbn [fst snd rv_dp mp_off mp_len] in *. lia.
  Qed.

  Lemma ascii_like : filter (fun c => c <=? 127) like = like.
  Proof.
    assert (G : forall t, Forall (fun c => 0 <= c <= 127) t -> filter (fun c => c <=? 127) t = t); [|exact (G _ Hlike)].
    clear. induction 1 as [|c l Hc H IH]; [reflexivity|]. cbn [filter]. destruct (Z.leb_spec c 127); [congruence|lia].
  Qed.
  (** the tokens of the client *)
  Lemma client_tokens : ts_tokens tl min max like = Ok (map (fun t => (snd t, match gram_type (fst t) with Some ty => ty | None => 0 end)) (ngrams_of min max like)).
  Proof.
    destruct (@C46_same_tokens_partial tl like (map (fun c => (c, 1)) like) min max Hlike eq_refl Htl) as (toks & E & F); [lia|lia|]. rewrite E. f_equal. clear E.
    unfold ngrams_of. induction F as [|n l ns toks (g & ft & Eg & Et & ->) F IH]; [reflexivity|]. cbn [concat flat_map]. rewrite map_app, IH. f_equal. rewrite map_map. cbn [fst snd]. rewrite Et.
    destruct (@C45_words (map (fun c => (c, 1)) like) n) as (g2 & E2 & W); [destruct n; [discriminate|lia]|]. rewrite Eg in E2. injection E2 as <-. rewrite <- (map_map t_word (fun w => (w, ft))), W.
    rewrite map_map. cbn [fst]. rewrite map_id, ascii_like. reflexivity.
  Qed.
  Lemma token_ascii t : In t (ngrams_of min max like) -> encode (snd t) = snd t /\ exists ty, gram_type (fst t) = Some ty /\ (min <= fst t <= max)%nat.
  Proof.
    intros Ht. unfold ngrams_of in Ht. apply in_flat_map in Ht. destruct Ht as (n & Hn & Ht). apply in_map_iff in Ht. destruct Ht as (w & <- & Hw). apply in_seq in Hn. cbn [fst snd].
    assert (Hg : exists ty, gram_type n = Some ty) by (destruct n as [|[|[|[|n]]]]; cbn; eauto; lia). destruct Hg as (ty & Hg). split; [|exists ty; split; [auto|lia]].
    apply Hencode. destruct (@C45_tokens_are_ngrams (map (fun c => (c, 1)) like) n ltac:(lia)) as (toks & E & _ & F). destruct (@C45_words (map (fun c => (c, 1)) like) n ltac:(lia)) as (g2 & E2 & W). rewrite E in E2. injection E2 as <-.
    rewrite map_map in W. cbn [fst] in W. rewrite map_id in W. rewrite ascii_like in W. rewrite <- W in Hw. apply in_map_iff in Hw. destruct Hw as (t & <- & Ht). rewrite Forall_forall in F. destruct (F _ Ht) as [_ G]. eapply Forall_impl; [|exact G].
    intros c Hc. unfold gram_char, ascii_digit in Hc. cbn beta. lia.
  Qed.
  Lemma end_search : exists fm l grams_at, ifile determine_type parse D fm l s' /\ searchable determine_type D fm l s' name grams_at min max /\
    (forall n ty, gram_type n = Some ty -> ix_es (grams_at ty) = rev (entries_of (occs 0 ls) (name, ty))) /\
    (forall n ty, gram_type n = Some ty -> (length (ix_es (grams_at ty)) < gas)%nat).
  Proof.
    destruct end_searchable as (fm & l & ga & H1 & H2 & H3). exists fm, l, ga. split; [auto|]. split; [auto|]. split; [auto|]. intros n ty Hg. rewrite (H3 n ty Hg), rev_length. apply Hgas. exact (@gram_in n ty Hg).
  Qed.
  (** When each index of the lengths searched for has one page: the search returns, for each n-gram of
      the search text, the lines with it in the field, once for each place. *)
  Theorem C81_one_page_partial : (forall n ty, (min <= n <= max)%nat -> gram_type n = Some ty -> fits_one_page D s' name ty) ->
    exists r, search = Ok r /\ Permutation (map fst r) (flat_map (fun t => lines_with ls name (fst t) (snd t)) (ngrams_of min max like)).
  Proof.
    intros Hone. destruct end_search as (fm & l & ga & Hif & Hs & Hes & Hg).
    destruct (@C73_one_page_partial determine_type parse D fm l s' name ga min max gas fuel num zero plus score sort tl choose encode like cfg (wd_ok grams_of) Hif Hs Hfuel Hg Hsort Hchoose Hcfg) as (toks & r & Et & Er & P).
    - intros n ty Hn Hr. destruct (Hone n ty Hr Hn) as (m & im & nd & (q & Eq & _) & X1 & X2). destruct (sb_index Hs _ Hn) as (I1 & I2 & I3).
      destruct (@C23_existing_is_found determine_type parse D _ l s' _ _ (ga ty) (wd_ok grams_of) Hif I1 I2 I3) as (q' & Eq' & _). rewrite Eq in Eq'. injection Eq' as -> _ _.
      exists nd. rewrite I3. auto.
    - exists r. split; auto. rewrite P. rewrite client_tokens in Et. injection Et as <-. rewrite flat_map_map'.
      assert (G : forall t, In t (ngrams_of min max like) -> In t (ngrams_of min max like)) by auto. revert G. generalize (ngrams_of min max like) at 1 3 4. intros tk G. induction tk as [|t tk IH]; [reflexivity|].
      cbn [flat_map]. rewrite map_app, IH by (intros; apply G; right; auto). apply Permutation_app_tail. destruct (@token_ascii t (G t (or_introl eq_refl))) as (Ee & ty & Hty & _). cbn [fst snd].
      rewrite Ee, Hty. exact (@occurrence_lines D ls tail name Hfits Hname ga (fst t) ty (snd t) Hty (Hes _ _ Hty)).
  Qed.
  (** In general: for each n-gram either all of these lines or none of them. *)
  Theorem C81_all_or_none_partial : exists r order found, search = Ok r /\ Permutation order (ngrams_of min max like) /\
    Forall2 (fun t m => Permutation m (lines_with ls name (fst t) (snd t)) \/ m = []) order found /\ Permutation (map fst r) (concat found).
  Proof.
    destruct end_search as (fm & l & ga & Hif & Hs & Hes & Hg).
    destruct (@C73_all_or_none_partial determine_type parse D fm l s' name ga min max gas fuel num zero plus score sort tl choose encode like cfg (wd_ok grams_of) Hif Hs Hfuel Hg Hsort Hchoose Hcfg) as (toks & order & found & r & Et & Er & Po & F & P).
    rewrite client_tokens in Et. injection Et as <-. rewrite map_map in Po.
    apply Permutation_map_inv in Po. destruct Po as (ord & -> & Po). exists r, ord, (map (map (record_of D)) found). split; auto. split; [symmetry; exact Po|]. split.
    - assert (G : forall t, In t ord -> In t (ngrams_of min max like)) by (intros t Ht; eapply Permutation_in; [symmetry; exact Po|exact Ht]). clear P Po.
      remember (map _ ord) as ord' eqn:E. revert ord E G. induction F as [|t m ts found Hm F IH]; intros [|o ord] E G; cbn [map] in E; try discriminate; [constructor|].
      injection E as -> ->. cbn [map]. constructor; [|apply IH; auto; intros; apply G; right; auto]. destruct (@token_ascii o (G o (or_introl eq_refl))) as (Ee & ty & Hty & _). cbn [fst snd] in Hm.
      rewrite Ee, Hty in Hm. destruct Hm as [Hm| ->]; [left|right; reflexivity]. etransitivity; [apply Permutation_map; exact Hm|].
      exact (@occurrence_lines D ls tail name Hfits Hname ga (fst o) ty (snd o) Hty (Hes _ _ Hty)).
    - rewrite P, concat_map. reflexivity.
  Qed.
  (** Every result is a line whose field shares an n-gram with the search text. *)
  Theorem C81_results_share_an_ngram_partial : exists r, search = Ok r /\
    forall rec, In rec (map fst r) -> exists x n w, In x (all_fields ls) /\ fd_name (snd x) = name /\ rec = line_text (fst x) /\
      (min <= n <= max)%nat /\ In w (gram_words n like) /\ In w (words_in n (snd x)).
  Proof.
    destruct C81_all_or_none_partial as (r & order & found & Er & Po & F & P). exists r. split; auto. intros rec Hrec. apply (Permutation_in _ P) in Hrec.
    assert (G : exists t, In t order /\ In rec (lines_with ls name (fst t) (snd t))).
    { clear -F Hrec. induction F as [|t m ts found Hm F IH]; [destruct Hrec|]. cbn [concat] in Hrec. apply in_app_iff in Hrec. destruct Hrec as [H|H].
      - destruct Hm as [Hm| ->]; [|destruct H]. exists t. split; [left; auto|]. eapply Permutation_in; eauto.
      - destruct (IH H) as (t' & X & Y). exists t'. split; [right|]; auto. }
    destruct G as (t & Ht & Hl). apply (Permutation_in _ Po) in Ht. unfold ngrams_of in Ht. apply in_flat_map in Ht. destruct Ht as (n & Hn & Ht). apply in_map_iff in Ht. destruct Ht as (w & <- & Hw). cbn [fst snd] in Hl. apply in_seq in Hn.
    unfold lines_with in Hl. apply in_flat_map in Hl. destruct Hl as (x & Hx & Hl). apply filter_In in Hx. destruct Hx as [Hx Hc].
    exists x, n, w. split; auto. unfold called in Hc. destruct (list_eq_dec Z.eq_dec (fd_name (snd x)) name); [|discriminate]. split; auto. split; [exact (repeat_spec _ _ _ Hl)|]. split; [lia|]. split; auto.
    destruct (count_occ (list_eq_dec Z.eq_dec) (words_in n (snd x)) w) eqn:Ec; [destruct Hl|]. apply (count_occ_In (list_eq_dec Z.eq_dec)). lia.
  Qed.
End End.

(** ** The limits *)
Definition roomy (f : field) : Prop := forall b, fd_value f = JStr b -> zlen b + 2 <= fd_to f - fd_from f.
Lemma string_range : (forall v path pos, Forall roomy (vfields unquote path pos v)) /\ (forall l : jitems, True) /\ (forall l path pos first, Forall roomy (mfields path pos first l)).
Proof.
  apply json_ind; try (intros; exact I); try (intros; constructor; fail).
  - intros w l IH path pos. rewrite vfields_obj. apply IH.
  - intros w1 k w2 w3 v IHv w4 t IHt path pos first. rewrite mfields_cons. cbv zeta. constructor; [|apply Forall_app; split; [apply IHv|apply IHt]].
    intros b. cbn [fd_value fd_from fd_to]. intros ->. cbn [vtext]. rewrite zlen_cons, zlen_app. change (zlen [34]) with 1. pose proof (zlen_nonneg w2). pose proof (zlen_nonneg w3). lia.
Qed.
Lemma occ_range ls : forall at_, Forall (fun o => roomy (fst o)) (occs at_ ls).
Proof.
  induction ls as [|x ls IH]; intros at_; cbn [JsonlSpec.occs]; [constructor|]. apply Forall_app. split; [|apply IH]. apply Forall_map. cbn [fst]. apply string_range.
Qed.
(** A field that is searched is within the limits when it is a string below 4 GiB, well-formed,
    and normalised to at most as many characters as there are bytes in its text with its quotes. *)
Theorem C81_limits_partial ls :
  Forall (fun x : line * field => zlen (fd_name (snd x)) <= 236 /\ (searched hdrs (fd_name (snd x)) = true ->
    exists b, fd_value (snd x) = JStr b /\ zlen (unquote b) < 2^32 /\ well_formed (nfkd (unquote b)) /\ zlen (nfkd (unquote b)) <= zlen b + 2)) (all_fields ls) ->
  Forall (name_fits unquote grams_of hdrs) (occs 0 ls).
Proof.
  intros Hf. pose proof (occ_range ls 0) as Hr. rewrite Forall_forall in *. intros o Ho. specialize (Hr o Ho). rewrite <- (placed_snd unquote to_float grams_of float_8 ls 0) in Ho. apply in_map_iff in Ho. destruct Ho as (p & <- & Hp).
  pose proof (@placed_ok unquote to_float grams_of float_8 (data_of ls []) ls 0 [] [] eq_refl eq_refl) as Hok. rewrite Forall_forall in Hok. destruct (Hok p Hp) as (_ & _ & _ & _ & _ & _ & _ & _ & Ev & En).
  assert (Hx : In (fst p) (all_fields ls)) by (rewrite <- (placed_fst unquote ls 0); apply in_map; auto). destruct (Hf _ Hx) as [N S].
  destruct p as [[x f] [g m]]. cbn [fst snd] in *. split; [cbn [fst]; rewrite En; exact N|]. unfold search_fits. cbn [fst]. intros Hs. rewrite En in Hs. destruct (S Hs) as (b & Eb & Hz & Hw & Hl).
  unfold gram_fits. cbn [fst]. rewrite Ev, Eb. split; auto. intros n Hn. destruct (@grams_fit (unquote b) n Hn Hw) as (l & E & Hnd & F & _). exists l. split; auto. split; auto.
  eapply Forall_impl; [|exact F]. cbn beta. intros q [Q1 Q2]. split; auto. specialize (Hr b). rewrite Ev in Hr. specialize (Hr Eb). lia.
Qed.
End P.

(** ** C82: search headers and the other indexes *)
Section Q.
Variables (unquote : bytes -> bytes) (to_float : bytes -> option bytes) (grams : bytes -> Z -> res (list (bytes * Z * Z))) (hdrs : list bytes).
Hypothesis float_8 : forall t f, to_float t = Some f -> zlen f = 8.
Notation parse := (jparse unquote to_float).
(** an index that is not one of n-grams *)
Definition ordinary (i : bytes * Z) : Prop := legal_id i /\ ~ In (snd i) [FTUnigram; FTBigram; FTTrigram].
Lemma ordinary_gram i : ordinary i -> is_gram (snd i) = false.
Proof. intros [_ H]. unfold is_gram. cbn [In] in H. rewrite !orb_false_iff, !Z.eqb_neq. intuition congruence. Qed.
Lemma plain_ids (l : list occ) i : is_gram (snd i) = false -> In i (JsonlSpec.ids unquote to_float grams hdrs l) <-> In i (map occ_id l).
Proof.
  intros Hi. unfold JsonlSpec.ids. rewrite firsts_in by (exact unquote || exact to_float || exact grams). rewrite !in_map_iff. split.
  - intros (p & <- & Hp). assert (X : In p (filter (fun q => id_eqb (po_id q) (po_id p)) (posts unquote to_float grams hdrs l))) by (apply filter_In; split; [auto|apply id_eqb_refl]).
    rewrite plain_posts in X by exact Hi. apply in_map_iff in X. destruct X as (o & <- & Ho). apply filter_In in Ho. exists o. split; [reflexivity|tauto].
  - intros (o & <- & Ho). exists (base unquote to_float o). split; [reflexivity|]. unfold posts. apply in_flat_map. exists o. split; [auto|left; reflexivity].
Qed.
(** Within the limits: with search headers and without, Synchronize succeeds, and
    the metadata and all ordinary indexes are the same. *)
Theorem C82_ordinary_indexes_partial D ls tail s1 r1 s1' s2 r2 s2' : fits unquote to_float grams hdrs D ls tail ->
  life unquote to_float grams hdrs D s1 -> jsonl_sync unquote to_float grams hdrs file_slot D s1 = (r1, s1') -> zlen (file s1') < 2^60 ->
  life unquote to_float grams [] D s2 -> jsonl_sync unquote to_float grams [] file_slot D s2 = (r2, s2') -> zlen (file s2') < 2^60 ->
  r1 = Ok tt /\ r2 = Ok tt /\
  (exists m, reads s1' (if_metadata file_slot) m /\ reads s2' (if_metadata file_slot) m) /\
  (forall i, ordinary i -> exists_index s1' i <-> exists_index s2' i) /\
  (forall i, ordinary i -> exists_index s1' i -> exists total es, index_lists unquote to_float D s1' i total es /\ index_lists unquote to_float D s2' i total es).
Proof.
  intros Hfit L1 E1 F1 L2 E2 F2.
  assert (Hfit2 : fits unquote to_float grams [] D ls tail).
  { destruct Hfit as (A & B & C & F). split; auto. split; auto. split; auto. eapply Forall_impl; [|exact F]. intros o [X _]. split; [exact X|]. intros Y. discriminate Y. }
  destruct (@life_sync unquote to_float grams hdrs float_8 D s1 ls tail L1 Hfit) as (x & X1 & S1); [rewrite E1; exact F1|]. rewrite E1 in X1. injection X1 as -> ->.
  destruct (@life_sync unquote to_float grams [] float_8 D s2 ls tail L2 Hfit2) as (y & X2 & S2); [rewrite E2; exact F2|]. rewrite E2 in X2. injection X2 as -> ->.
  split; auto. split; auto. split; [eexists; split; [eapply state_meta; exact S1|eapply state_meta; exact S2]|].
  assert (Hids : forall i, ordinary i -> In i (JsonlSpec.ids unquote to_float grams hdrs (occs unquote 0 ls)) <-> In i (JsonlSpec.ids unquote to_float grams [] (occs unquote 0 ls))).
  { intros i Hi. rewrite plain_ids by (apply ordinary_gram; exact Hi). unfold JsonlSpec.ids. rewrite firsts_in by (exact unquote || exact to_float || exact grams). rewrite !in_map_iff. split.
    - intros (o & <- & Ho). exists (base unquote to_float o). split; [reflexivity|]. unfold posts. apply in_flat_map. exists o. split; [auto|left; reflexivity].
    - intros (p & <- & Hp). unfold posts in Hp. apply in_flat_map in Hp. destruct Hp as (o & Ho & Hp). exists o. split; [|auto]. unfold postings in Hp.
      destruct Hp as [<-|Hp]; [reflexivity|]. destruct (fd_value (fst o)); destruct Hp. }
  assert (Hex : forall i, ordinary i -> exists_index x i <-> exists_index y i).
  { intros i Hi. split; intros He.
    - apply (@state_only unquote to_float grams hdrs D ls x i S1 F1 (proj1 Hi)) in He. apply (Hids i Hi) in He. destruct (@state_shows unquote to_float grams [] D ls y i S2 He) as (m & R & _). eexists; exact R.
    - apply (@state_only unquote to_float grams [] D ls y i S2 F2 (proj1 Hi)) in He. apply (Hids i Hi) in He. destruct (@state_shows unquote to_float grams hdrs D ls x i S1 He) as (m & R & _). eexists; exact R. }
  split; [exact Hex|]. intros i Hi He. apply (@state_only unquote to_float grams hdrs D ls x i S1 F1 (proj1 Hi)) in He.
  destruct (shows_lists (@state_shows unquote to_float grams hdrs D ls x i S1 He)) as (e1 & P1 & A1 & W1). destruct (shows_lists (@state_shows unquote to_float grams [] D ls y i S2 (proj1 (Hids i Hi) He))) as (e2 & P2 & A2 & W2).
  assert (Ee : forall h, filter (fun p => id_eqb (po_id p) i) (posts unquote to_float grams h (occs unquote 0 ls)) = map (base unquote to_float) (filter (fun o => id_eqb (occ_id o) i) (occs unquote 0 ls))) by (intros h; apply plain_posts, ordinary_gram, Hi).
  assert (T : total_of unquote to_float grams hdrs (occs unquote 0 ls) i = total_of unquote to_float grams [] (occs unquote 0 ls) i) by (unfold total_of; rewrite !Ee; reflexivity).
  assert (N : entries_of unquote to_float grams hdrs (occs unquote 0 ls) i = entries_of unquote to_float grams [] (occs unquote 0 ls) i) by (unfold entries_of; rewrite !Ee; reflexivity).
  assert (e1 = e2) by (apply sorted_perm; auto; eapply Permutation_trans; [exact P1|rewrite N; apply Permutation_sym; exact P2]). subst e2. rewrite T in W1. eauto.
Qed.
End Q.
