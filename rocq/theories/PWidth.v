(** C55: the keys the JSONL handler inserts have the width their index declares. *)
From Verif Require Import Base Varint Store PageFile RefValue Node LinkedPage BPTree BPTop PTree Meta IndexFile IFileInv PIndex Json Jsonl JsonlRun PNgram.

Section Width.
Variables (unquote : bytes -> bytes) (to_float : bytes -> option bytes).
(** ** Specification *)
(** the key [k] fits the fixed width of the index: one byte of length, then the value *)
Definition width_fits (c : codec) (k : rv) : bool := (cwidth c =? 0) || (zlen (rv_val k) =? cwidth c - 1).
(** Insert with a check in front: a key that does not fit ends the program *)
Definition checked_insert (c : codec) (m : lp) (k : rv) (v : mptr) : M st unit := if width_fits c k then bp_insert c m k v else panic.

(** the insertions of one field type, as [Jsonl.put_grams] and [Jsonl.index_value] make
    them (pkg/handlers/jsonl.go:163-300), with Insert as a parameter *)
Section With.
Variables (grams : bytes -> Z -> res (list (bytes * Z * Z))) (insert : codec -> lp -> rv -> mptr -> M st unit).
Fixpoint put_grams_with (c : codec) (page : lp) (mp : mptr) (len : Z) (data : mptr) (l : list (bytes * Z * Z)) (total : Z) : M st Z :=
  match l with
  | [] => ret total
  | (w, o, n) :: t => insert c page (RV (MP (u64 (mp_off mp + o)) (u32 len)) w) data ;;; put_grams_with c page mp len data t (u64 (total + n))
  end.
Definition index_value_with (page : lp) (meta : index_meta) (r : bytes) (data : mptr) (value : tok) (fo : Z) (obj : dec -> M st dec) (d : dec) (ft : Z) : M st (dec * Z) :=
  let c := jcodec unquote to_float (im_width meta) r in
  let mp := MP (u64 (mp_off data + fo)) (u32 (d_off d - fo)) in
  if ft =? FTString then
    match value with
    | TStr v => insert c page (RV mp v) data ;;; ret (d, u64 (im_total meta + mp_len mp))
    | _ => fail (EMsg "expected string")
    end
  else if is_gram ft then
    match value with
    | TStr v => l <- lift (grams v (im_width meta - 1)) ;; t <- put_grams_with c page mp (zlen v) data l (im_total meta) ;; ret (d, t)
    | _ => fail (EMsg "expected string")
    end
  else if ft =? FTNull then insert c page (RV mp []) data ;;; ret (d, im_total meta)
  else if (ft =? FTFloat64) || (ft =? FTUint64) || (ft =? FTInt64) then
    insert c page (RV mp (match value with TNum v => v | _ => zeros 8 end)) data ;;; ret (d, u64 (im_total meta + mp_len mp))
  else if ft =? FTBoolean then
    match value with
    | TBool b => insert c page (RV mp [if b then 1 else 0]) data ;;; ret (d, u64 (im_total meta + 1))
    | _ => fail (EMsg "expected bool type")
    end
  else if (ft =? FTArray) || (ft =? FTObject) then
    match value with
    | TDelim ch =>
        if ch =? 91 then d' <- lift (skip_array unquote to_float (S (length (d_rest d))) 1 d) ;; ret (d', im_total meta)
        else if ch =? 123 then d' <- obj d ;; d'' <- lift (close_object unquote to_float d') ;; ret (d'', im_total meta)
        else ret (d, im_total meta)
    | _ => ret (d, im_total meta)
    end
  else fail (EMsg "unrecognized type").
End With.
(** ngram.BuildNgram for any Unicode normalization [norm] *)
Definition tokenizer (norm : bytes -> list (Z * Z)) (v : bytes) (n : Z) : res (list (bytes * Z * Z)) :=
  rbind (build_ngram (norm v) (Z.to_nat n)) (fun l => Ok (map (fun t => (t_word t, t_off t, t_len t)) l)).

(** ** Proofs *)
(** this is the handler's code *)
Lemma index_value_is grams : index_value unquote to_float grams = index_value_with grams bp_insert.
Proof. reflexivity. Qed.
(** every number the decoder returns has 8 bytes *)
Lemma token_num_8 d f d' : (forall t f, to_float t = Some f -> zlen f = 8) -> Json.token unquote to_float d = Ok (TNum f, d') -> zlen f = 8.
Proof.
  intros H8. unfold Json.token. generalize (S (length (d_rest d))) as fuel. intros fuel. revert d.
  assert (Hsc : forall b f r, scalar unquote to_float b = Some (TNum f, r) -> zlen f = 8).
  { intros [|c t] g r; [discriminate|]. cbn [scalar]. destruct (c =? 34); [destruct (str_end InStr t) as [[? ?]|]; discriminate|].
    destruct ((c =? 45) || is_digit c).
    - destruct (num_end _ t) as [[v ?]|]; [|discriminate]. destruct (to_float (c :: v)) as [h|] eqn:E; [|discriminate]. intros X. injection X as <- _. eapply H8; eauto.
    - destruct (c =? 116); [destruct (strip_prefix _ _); discriminate|]. destruct (c =? 102); [destruct (strip_prefix _ _); discriminate|]. destruct (c =? 110); [destruct (strip_prefix _ _); discriminate|]. discriminate. }
  induction fuel as [|fuel IH]; intros d; cbn [token_loop]; [discriminate|]. cbv zeta. destruct (d_rest (skip_d d)) as [|c t] eqn:Er; [discriminate|].
  destruct (c =? 91); [destruct (value_allowed _); discriminate|]. destruct (c =? 93); [destruct (d_st (skip_d d)); try discriminate; destruct (pop_state _ _); discriminate|].
  destruct (c =? 123); [destruct (value_allowed _); discriminate|]. destruct (c =? 125); [destruct (d_st (skip_d d)); try discriminate; destruct (pop_state _ _); discriminate|].
  destruct (c =? 58); [destruct (d_st (skip_d d)); try discriminate; apply IH|]. destruct (c =? 44); [destruct (d_st (skip_d d)); try discriminate; apply IH|].
  match goal with |- (match ?x with true => _ | false => _ end) = _ -> _ => destruct x end.
  - destruct (scalar _ _ _) as [[v r]|] eqn:Es; [|discriminate]. intros X. injection X as -> _. eapply Hsc; eauto.
  - destruct (value_allowed _); [|discriminate]. destruct (scalar _ _ _) as [[v r]|] eqn:Es; [|discriminate]. intros X. injection X as -> _. eapply Hsc; eauto.
Qed.
Lemma bind_ext {A B} (m m' : M st A) (k k' : A -> M st B) : (forall s, m s = m' s) -> (forall a s, k a s = k' a s) -> forall s, bind m k s = bind m' k' s.
Proof. intros H1 H2 s. unfold bind. rewrite H1. destruct (m' s) as [[a| | | |] s1]; auto. Qed.
Lemma put_grams_same c page mp len data l : Forall (fun x => zlen (fst (fst x)) = cwidth c - 1) l ->
  forall total s, put_grams_with bp_insert c page mp len data l total s = put_grams_with checked_insert c page mp len data l total s.
Proof.
  induction 1 as [|[[w o] n] l Hw H IH]; intros total s; [reflexivity|]. cbn [put_grams_with]. apply bind_ext; [|intros _ s'; apply IH].
  intros s'. unfold checked_insert, width_fits. cbn [rv_val fst] in *. rewrite Hw, Z.eqb_refl, orb_true_r. reflexivity.
Qed.
(** Every field type and every value: in an index of the declared width every key the
    handler inserts fits (a check in front of Insert would never fail). [value] is any
    token of the decoder; the tokenizer is the repository's, over any normalization. *)
Theorem C55_keys_fit_the_index_width norm page meta r data value fo obj d0 d ft s : (forall t f, to_float t = Some f -> zlen f = 8) ->
  Json.token unquote to_float d0 = Ok (value, d) -> im_width meta = determine_type ft ->
  index_value unquote to_float (tokenizer norm) page meta r data value fo obj d ft s =
  index_value_with (tokenizer norm) checked_insert page meta r data value fo obj d ft s.
Proof.
  intros H8 Htok Hw. rewrite index_value_is. unfold index_value_with.
  assert (CI : forall c k, cwidth c = determine_type ft -> (determine_type ft = 0 \/ zlen (rv_val k) = determine_type ft - 1) -> forall s, bp_insert c page k data s = checked_insert c page k data s).
  { intros c k E Hk s0. unfold checked_insert, width_fits. rewrite E. destruct Hk as [->| ->]; [reflexivity|]. rewrite Z.eqb_refl, orb_true_r. reflexivity. }
  destruct (Z.eqb_spec ft FTString) as [->|H1].
  { destruct value; try reflexivity. apply bind_ext; [|reflexivity]. apply CI; [auto|left; reflexivity]. }
  destruct (is_gram ft) eqn:Hg.
  { destruct value as [|v| | |]; try reflexivity. unfold tokenizer. destruct (build_ngram (norm v) (Z.to_nat (im_width meta - 1))) as [toks| | | |] eqn:Eb; try reflexivity. cbn [rbind].
    unfold bind at 1 3. unfold lift at 1 2. apply bind_ext; [|reflexivity]. apply put_grams_same. apply Forall_forall. intros x Hx. apply in_map_iff in Hx. destruct Hx as (t & <- & Ht). cbn [fst jcodec cwidth].
    rewrite Hw. unfold is_gram in Hg.
    assert (Hty : gram_type (Z.to_nat (im_width meta - 1)) = Some ft).
    { rewrite Hw. destruct (Z.eqb_spec ft FTUnigram) as [->|]; [reflexivity|]. destruct (Z.eqb_spec ft FTBigram) as [->|]; [reflexivity|]. destruct (Z.eqb_spec ft FTTrigram) as [->|]; [reflexivity|discriminate]. }
    exact (proj2 (@C45_tokens_have_the_index_width _ _ _ _ t Hty Eb Ht)). }
  destruct (Z.eqb_spec ft FTNull) as [->|H2].
  { apply bind_ext; [|reflexivity]. apply CI; [auto|right; reflexivity]. }
  destruct ((ft =? FTFloat64) || (ft =? FTUint64) || (ft =? FTInt64)) eqn:Hn.
  { apply bind_ext; [|reflexivity]. apply CI; [auto|right].
    assert (Ed : determine_type ft = 9) by (destruct (Z.eqb_spec ft FTFloat64) as [->|]; [reflexivity|]; destruct (Z.eqb_spec ft FTUint64) as [->|]; [reflexivity|]; destruct (Z.eqb_spec ft FTInt64) as [->|]; [reflexivity|discriminate]).
    rewrite Ed. cbn [rv_val]. destruct value; try reflexivity. apply (token_num_8 d0 H8 Htok). }
  destruct (Z.eqb_spec ft FTBoolean) as [->|H3].
  { destruct value; try reflexivity. apply bind_ext; [|reflexivity]. apply CI; [auto|right; reflexivity]. }
  reflexivity.
Qed.
(** ... and the width FindOrCreateIndex returns for a type is the declared one: *)
Theorem C55_index_has_the_declared_width wd parse D fm l s name ft : widths_ok wd -> ifile wd parse D fm l s -> zlen (file s) < 2^60 -> zlen name <= 245 -> 0 <= ft < 2^8 ->
  exists m im s', find_or_create file_slot name ft s = (Ok (m, im), s') /\ im_width im = determine_type ft.
Proof.
  intros Hwd Hi Hf Hn Hft. destruct (ifile_holds Hwd Hi) as (HD & fl & ms & x0 & L & H). destruct (existsb (same_indexb name ft) l) eqn:Hex.
  - destruct (find_existing _ _ H Hex) as (p & iy & I1 & (I2a & I2b) & I3). eexists _, _, _. split; [exact I3|]. cbn [ix_meta im_width]. rewrite I2b. reflexivity.
  - destruct (@find_new (ix_codec wd parse D) s fm l fl ms x0 L name ft) as (s2 & fl' & ms' & L' & F1 & _); auto.
    { intros; apply ix_codec_ok; auto. }
    eexists _, _, _. split; [exact F1|reflexivity].
Qed.
(** the declared widths *)
Example C55_widths : map determine_type [FTString; FTNull; FTBoolean; FTFloat64; FTInt64; FTUint64; FTUnigram; FTBigram; FTTrigram] = [0; 1; 2; 9; 9; 9; 2; 3; 4].
Proof. reflexivity. Qed.
(** the check does reject keys of another length *)
Example C55_check_can_fail : checked_insert (mkCodec 2 [] (fun _ => None)) file_slot (RV (MP 0 0) [1; 2]) (MP 0 0) (open_rws KBuf []) = (Panic, open_rws KBuf []).
Proof. reflexivity. Qed.
End Width.
