(** JSON texts (RFC 8259), as values with their layout, and what the token reader
    of Json.v makes of them. *)
From Verif Require Import Base Json Jsonl.

(** ** Specification: JSON texts *)
(** A value together with its white space. The texts of numbers and the texts
    between the quotes of strings are kept. *)
Inductive jv :=
| JNull | JBool (b : bool) | JNum (t : bytes) | JStr (body : bytes)
| JArr (w : bytes) (l : jitems)
| JObj (w : bytes) (l : jmembers)
with jitems := INil | ICons (w1 : bytes) (v : jv) (w2 : bytes) (t : jitems)
with jmembers := MNil | MCons (w1 key w2 w3 : bytes) (v : jv) (w4 : bytes) (t : jmembers).
Scheme jv_mut := Induction for jv Sort Prop with jitems_mut := Induction for jitems Sort Prop with jmembers_mut := Induction for jmembers Sort Prop.
Combined Scheme json_ind from jv_mut, jitems_mut, jmembers_mut.

(** the text *)
Definition comma (first : bool) : bytes := if first then [] else [44].
Fixpoint vtext (v : jv) : bytes :=
  match v with
  | JNull => [110; 117; 108; 108]
  | JBool b => if b then [116; 114; 117; 101] else [102; 97; 108; 115; 101]
  | JNum t => t
  | JStr b => 34 :: b ++ [34]
  | JArr w l => 91 :: w ++ itext true l ++ [93]
  | JObj w l => 123 :: w ++ mtext true l ++ [125]
  end
with itext (first : bool) (l : jitems) : bytes :=
  match l with INil => [] | ICons w1 v w2 t => comma first ++ w1 ++ vtext v ++ w2 ++ itext false t end
with mtext (first : bool) (l : jmembers) : bytes :=
  match l with MNil => [] | MCons w1 k w2 w3 v w4 t => comma first ++ w1 ++ (34 :: k ++ [34]) ++ w2 ++ 58 :: w3 ++ vtext v ++ w4 ++ mtext false t end.

(** white space inside a line; the body of a string; a number *)
Definition ws (w : bytes) : Prop := Forall (fun c => c = 32 \/ c = 9 \/ c = 13) w.
Definition hex_digit (c : Z) : Prop := 48 <= c <= 57 \/ 97 <= c <= 102 \/ 65 <= c <= 70.
Inductive str_body : bytes -> Prop :=
| sb_nil : str_body []
| sb_char c t : 32 <= c < 256 -> c <> 34 -> c <> 92 -> str_body t -> str_body (c :: t)
| sb_esc c t : In c [34; 92; 47; 98; 102; 110; 114; 116] -> str_body t -> str_body (92 :: c :: t)
| sb_u a b c d t : hex_digit a -> hex_digit b -> hex_digit c -> hex_digit d -> str_body t -> str_body (92 :: 117 :: a :: b :: c :: d :: t).
Definition digits (l : bytes) : Prop := Forall (fun c => 48 <= c <= 57) l.
Definition number (t : bytes) : Prop := exists neg int frac exp, t = neg ++ int ++ frac ++ exp /\
  (neg = [] \/ neg = [45]) /\
  (int = [48] \/ exists c ds, int = c :: ds /\ 49 <= c <= 57 /\ digits ds) /\
  (frac = [] \/ exists d ds, frac = 46 :: d :: ds /\ digits (d :: ds)) /\
  (exp = [] \/ exists e sign d ds, exp = e :: sign ++ d :: ds /\ (e = 101 \/ e = 69) /\ (sign = [] \/ sign = [43] \/ sign = [45]) /\ digits (d :: ds)).

Section Doc.
Variables (unquote : bytes -> bytes) (to_float : bytes -> option bytes).
(** A well-formed text: the grammar, and numbers that a float64 can hold. *)
Fixpoint vwf (v : jv) : Prop :=
  match v with
  | JNull | JBool _ => True
  | JNum t => number t /\ exists f, to_float t = Some f
  | JStr b => str_body b
  | JArr w l => ws w /\ iwf l
  | JObj w l => ws w /\ mwf l
  end
with iwf (l : jitems) : Prop :=
  match l with INil => True | ICons w1 v w2 t => ws w1 /\ vwf v /\ ws w2 /\ iwf t end
with mwf (l : jmembers) : Prop :=
  match l with MNil => True | MCons w1 k w2 w3 v w4 t => ws w1 /\ str_body k /\ ws w2 /\ ws w3 /\ vwf v /\ ws w4 /\ mwf t end.

(** ** Proofs *)
(** the token of a value (for arrays and objects, the bracket) *)
Definition vtok (v : jv) : tok :=
  match v with
  | JNull => TNull | JBool b => TBool b
  | JNum t => TNum (match to_float t with Some f => f | None => [] end)
  | JStr b => TStr (unquote b)
  | JArr _ _ => TDelim 91 | JObj _ _ => TDelim 123
  end.
Notation token := (token unquote to_float).
Notation token_loop := (token_loop unquote to_float).
Notation scalar := (scalar unquote to_float).

Lemma is_space_ws c : c = 32 \/ c = 9 \/ c = 13 -> is_space c = true.
Proof. intros [->|[->| ->]]; reflexivity. Qed.
Lemma skip_ws w b : ws w -> skip_space (w ++ b) = skip_space b.
Proof. induction 1 as [|c w Hc _ IH]; [reflexivity|]. cbn [app skip_space]. rewrite is_space_ws; auto. Qed.
Lemma skip_d_ws w b off st k : ws w -> skip_d (DE (w ++ b) off st k) = skip_d (DE b (off + zlen w) st k).
Proof. intros H. unfold skip_d. cbn [d_rest d_off d_st d_stack]. rewrite skip_ws by auto. f_equal. rewrite zlen_app. lia. Qed.
(** a text that starts a value or a bracket *)
Definition starts (b : bytes) : Prop := exists c t, b = c :: t /\ is_space c = false /\ c <> 58 /\ c <> 44.
Lemma skip_d_starts b off st k : starts b -> skip_d (DE b off st k) = DE b off st k.
Proof. intros (c & t & -> & Hc & _). unfold skip_d. cbn [d_rest d_off d_st d_stack skip_space]. rewrite Hc. f_equal. lia. Qed.
Lemma skip_d_idem d : skip_d (skip_d d) = skip_d d.
Proof.
  destruct d as [b off st k]. unfold skip_d. cbn [d_rest d_off d_st d_stack].
  assert (E : skip_space (skip_space b) = skip_space b).
  { induction b as [|c b IH]; [reflexivity|]. cbn [skip_space]. destruct (is_space c) eqn:E; auto. cbn [skip_space]. rewrite E. reflexivity. }
  rewrite E. f_equal. lia.
Qed.
Lemma loop_skip fuel d : token_loop fuel d = token_loop fuel (skip_d d).
Proof. destruct fuel; [reflexivity|]. cbn [Json.token_loop]. rewrite skip_d_idem. reflexivity. Qed.
Lemma loop_more : forall n d, token_loop (S (S n)) d = token_loop 2 d.
Proof. intros n d. cbn [Json.token_loop]. destruct (d_rest (skip_d d)) as [|c t]; auto. Qed.
Lemma token_two d : token d = token_loop 2 d.
Proof.
  unfold Json.token. destruct d as [[|c t] off st k]; [reflexivity|]. cbn [d_rest length]. apply loop_more.
Qed.

(** what may come before a token, and the state after it *)
Inductive pre : tstate -> bytes -> tstate -> Prop :=
| pre_ws st w : ws w -> pre st w st
| pre_comma w1 w2 : ws w1 -> ws w2 -> pre ArrayComma (w1 ++ 44 :: w2) ArrayValue
| pre_member w1 w2 : ws w1 -> ws w2 -> pre ObjectComma (w1 ++ 44 :: w2) ObjectKey
| pre_colon w1 w2 : ws w1 -> ws w2 -> pre ObjectColon (w1 ++ 58 :: w2) ObjectValue.
Lemma starts_one n b off st k : starts b -> token_loop (S n) (DE b off st k) = token_loop 1 (DE b off st k).
Proof.
  intros Hb. cbn [Json.token_loop]. rewrite !skip_d_starts by auto. destruct Hb as (c & t & -> & Hc & H1 & H2). cbn [d_rest].
  apply Z.eqb_neq in H1, H2. rewrite H1, H2. reflexivity.
Qed.
Lemma token_pre st p st' b off k : pre st p st' -> starts b -> token (DE (p ++ b) off st k) = token_loop 1 (DE b (off + zlen p) st' k).
Proof.
  intros Hp Hb. rewrite token_two. destruct Hp as [st w H|w1 w2 H1 H2|w1 w2 H1 H2|w1 w2 H1 H2].
  - rewrite loop_skip, skip_d_ws, <- loop_skip by auto. apply starts_one; auto.
  - rewrite <- app_assoc. cbn [app]. rewrite loop_skip, skip_d_ws, <- loop_skip by auto.
    assert (X : forall d, d_rest (skip_d d) = 44 :: w2 ++ b -> d_st (skip_d d) = ArrayComma -> token_loop 2 d = token_loop 1 (DE (w2 ++ b) (d_off (skip_d d) + 1) ArrayValue (d_stack (skip_d d)))).
    { intros d E1 E2. rewrite loop_skip. cbn [Json.token_loop]. rewrite skip_d_idem, E1, E2. reflexivity. }
    rewrite X by reflexivity. rewrite loop_skip, skip_d_ws, <- loop_skip by auto. f_equal. f_equal. cbn [skip_d d_off d_rest skip_space]. rewrite zlen_app, !zlen_cons. change (is_space 44) with false. cbv iota. rewrite ?zlen_cons. lia.
  - rewrite <- app_assoc. cbn [app]. rewrite loop_skip, skip_d_ws, <- loop_skip by auto.
    assert (X : forall d, d_rest (skip_d d) = 44 :: w2 ++ b -> d_st (skip_d d) = ObjectComma -> token_loop 2 d = token_loop 1 (DE (w2 ++ b) (d_off (skip_d d) + 1) ObjectKey (d_stack (skip_d d)))).
    { intros d E1 E2. rewrite loop_skip. cbn [Json.token_loop]. rewrite skip_d_idem, E1, E2. reflexivity. }
    rewrite X by reflexivity. rewrite loop_skip, skip_d_ws, <- loop_skip by auto. f_equal. f_equal. cbn [skip_d d_off d_rest skip_space]. rewrite zlen_app, !zlen_cons. change (is_space 44) with false. cbv iota. rewrite ?zlen_cons. lia.
  - rewrite <- app_assoc. cbn [app]. rewrite loop_skip, skip_d_ws, <- loop_skip by auto.
    assert (X : forall d, d_rest (skip_d d) = 58 :: w2 ++ b -> d_st (skip_d d) = ObjectColon -> token_loop 2 d = token_loop 1 (DE (w2 ++ b) (d_off (skip_d d) + 1) ObjectValue (d_stack (skip_d d)))).
    { intros d E1 E2. rewrite loop_skip. cbn [Json.token_loop]. rewrite skip_d_idem, E1, E2. reflexivity. }
    rewrite X by reflexivity. rewrite loop_skip, skip_d_ws, <- loop_skip by auto. f_equal. f_equal. cbn [skip_d d_off d_rest skip_space]. rewrite zlen_app, !zlen_cons. change (is_space 58) with false. cbv iota. rewrite ?zlen_cons. lia.
Qed.

(** ** Scalars *)
Lemma hex_true c : hex_digit c -> is_hex c = true.
Proof. intros H. unfold is_hex. rewrite !orb_true_iff, !andb_true_iff, !Z.leb_le. unfold hex_digit in H. tauto. Qed.
Lemma str_end_body b r : str_body b -> str_end InStr (b ++ 34 :: r) = Some (b, r).
Proof.
  induction 1 as [|c t Hc H1 H2 _ IH|c t Hc _ IH|a b c d t Ha Hb Hc Hd _ IH]; [reflexivity|..]; cbn [app str_end].
  - apply Z.eqb_neq in H1, H2. rewrite H1, H2. destruct (Z.ltb_spec c 32); [lia|]. rewrite IH. reflexivity.
  - rewrite Z.eqb_refl. change (92 =? 34) with false. cbv iota. assert (Hc' : is_esc c = true) by (cbn [In] in Hc; intuition subst; reflexivity). rewrite Hc', IH. reflexivity.
  - apply hex_true in Ha, Hb, Hc, Hd. change (92 =? 34) with false. change (92 =? 92) with true. cbv iota. change (is_esc 117) with false. change (117 =? 117) with true. cbv iota.
    cbn [str_end]. rewrite Ha, Hb, Hc, Hd, IH. reflexivity.
Qed.
(** what follows a number must not continue it *)
Definition stops (r : bytes) : Prop := match r with [] => True | c :: _ => c = 32 \/ c = 9 \/ c = 13 \/ c = 44 \/ c = 93 \/ c = 125 end.
Lemma nstep_stop m c : c = 32 \/ c = 9 \/ c = 13 \/ c = 44 \/ c = 93 \/ c = 125 -> nstep m c = None.
Proof. intros [->|[->|[->|[->|[->| ->]]]]]; destruct m; reflexivity. Qed.
Lemma num_end_stop m r : naccept m = true -> stops r -> num_end m r = Some ([], r).
Proof. intros Hm Hr. destruct r as [|c r]; cbn [num_end]; [rewrite Hm; reflexivity|]. rewrite nstep_stop by exact Hr. rewrite Hm. reflexivity. Qed.
Definition capp {A B} (p : list A) (r : option (list A * B)) : option (list A * B) := match r with Some (l, x) => Some (p ++ l, x) | None => None end.
Lemma capp_nil {A B} (r : option (list A * B)) : capp [] r = r.
Proof. destruct r as [[l x]|]; reflexivity. Qed.
Lemma capp_cons {A B} (c : A) p (r : option (list A * B)) : consf c (capp p r) = capp (c :: p) r.
Proof. destruct r as [[l x]|]; reflexivity. Qed.
Lemma digit_true c : 48 <= c <= 57 -> is_digit c = true.
Proof. unfold is_digit. intros. destruct (Z.leb_spec 48 c), (Z.leb_spec c 57); auto; lia. Qed.
Lemma num_digits m ds r : m = N1 \/ m = NDot0 \/ m = NE0 -> digits ds -> num_end m (ds ++ r) = capp ds (num_end m r).
Proof.
  intros Hm. induction 1 as [|c ds Hc _ IH]; [rewrite capp_nil; reflexivity|]. cbn [app num_end].
  assert (E : nstep m c = Some m) by (destruct Hm as [->|[->| ->]]; cbn [nstep]; rewrite digit_true by auto; reflexivity).
  rewrite E, IH, capp_cons. reflexivity.
Qed.
Definition expo (e : bytes) : Prop := e = [] \/ exists c sign d ds, e = c :: sign ++ d :: ds /\ (c = 101 \/ c = 69) /\ (sign = [] \/ sign = [43] \/ sign = [45]) /\ digits (d :: ds).
Lemma num_exp m e r : m = N0 \/ m = N1 \/ m = NDot0 -> expo e -> stops r -> num_end m (e ++ r) = Some (e, r).
Proof.
  intros Hm He Hr. destruct He as [->|(c & sign & d & ds & -> & Hc & Hs & Hd)].
  - apply num_end_stop; auto. destruct Hm as [->|[->| ->]]; reflexivity.
  - assert (E : nstep m c = Some NE) by (destruct Hc as [->| ->], Hm as [->|[->| ->]]; reflexivity). cbn [app num_end]. rewrite E.
    inversion Hd as [|? ? Hd0 Hds]; subst. assert (X : num_end NE0 (ds ++ r) = Some (ds, r)) by (rewrite num_digits, num_end_stop by auto; cbn; rewrite app_nil_r; reflexivity).
    assert (Y : forall m', m' = NE \/ m' = NESign -> num_end m' (d :: ds ++ r) = Some (d :: ds, r)).
    { intros m' Hm'. cbn [num_end]. assert (Ed : nstep m' d = Some NE0).
      { destruct Hm' as [->| ->]; cbn [nstep]; rewrite digit_true by auto; auto. destruct (Z.eqb_spec d 43); [lia|]. destruct (Z.eqb_spec d 45); [lia|]. reflexivity. }
      rewrite Ed, X. reflexivity. }
    destruct Hs as [->|[->| ->]].
    all: cbn [app].
    + rewrite Y by auto. reflexivity.
    + change (consf c (consf 43 (num_end NESign (d :: ds ++ r))) = Some (c :: 43 :: d :: ds, r)). rewrite Y by auto. reflexivity.
    + change (consf c (consf 45 (num_end NESign (d :: ds ++ r))) = Some (c :: 45 :: d :: ds, r)). rewrite Y by auto. reflexivity.
Qed.
Lemma num_frac m f e r : m = N0 \/ m = N1 -> (f = [] \/ exists d ds, f = 46 :: d :: ds /\ digits (d :: ds)) -> expo e -> stops r -> num_end m (f ++ e ++ r) = Some (f ++ e, r).
Proof.
  intros Hm [->|(d & ds & -> & Hd)] He Hr.
  - cbn [app]. apply num_exp; auto. tauto.
  - cbn [app num_end]. assert (E : nstep m 46 = Some NDot) by (destruct Hm as [->| ->]; reflexivity). rewrite E. inversion Hd as [|? ? Hd0 Hds]; subst.
    cbn [num_end]. assert (Ed : nstep NDot d = Some NDot0) by (cbn [nstep]; rewrite digit_true by auto; reflexivity). rewrite Ed, num_digits by auto. rewrite num_exp by auto. reflexivity.
Qed.
Lemma scalar_number t r f : number t -> to_float t = Some f -> stops r -> scalar (t ++ r) = Some (TNum f, r).
Proof.
  intros (neg & int & frac & exp & -> & Hneg & Hint & Hfrac & Hexp) Hf Hr. fold (expo exp) in Hexp.
  assert (X : exists c t' m, neg ++ int ++ frac ++ exp = c :: t' /\ ((c =? 45) || is_digit c) = true /\ c <> 34 /\ (if c =? 45 then NNeg else if c =? 48 then N0 else N1) = m /\ num_end m (t' ++ r) = Some (t', r)).
  { destruct Hneg as [->| ->].
    - destruct Hint as [->|(c & ds & -> & Hc & Hds)].
      + exists 48, (frac ++ exp), N0. repeat split; try lia. rewrite <- app_assoc. apply num_frac; auto.
      + exists c, (ds ++ frac ++ exp), N1. split; [reflexivity|]. split; [rewrite digit_true by lia; apply orb_true_r|]. split; [lia|].
        split; [destruct (Z.eqb_spec c 45); [lia|]; destruct (Z.eqb_spec c 48); [lia|reflexivity]|]. rewrite <- !app_assoc, num_digits by auto. rewrite num_frac by auto. reflexivity.
    - exists 45, (int ++ frac ++ exp), NNeg. repeat split; try lia.
      destruct Hint as [->|(c & ds & -> & Hc & Hds)]; cbn [app num_end].
      + change (nstep NNeg 48) with (Some N0). cbv iota. rewrite <- app_assoc, num_frac by auto. reflexivity.
      + assert (E : nstep NNeg c = Some N1) by (cbn [nstep]; destruct (Z.eqb_spec c 48); [lia|]; rewrite digit_true by lia; reflexivity). rewrite E.
        rewrite <- !app_assoc, num_digits by auto. rewrite num_frac by auto. reflexivity. }
  destruct X as (c & t' & m & E & Hc & Hn & Hm & He). rewrite E in *. cbn [app]. unfold Json.scalar. apply Z.eqb_neq in Hn. rewrite Hn, Hc, Hm, He, Hf. reflexivity.
Qed.
Definition is_scalar (v : jv) : bool := match v with JArr _ _ | JObj _ _ => false | _ => true end.
Lemma scalar_text v r : vwf v -> is_scalar v = true -> stops r -> scalar (vtext v ++ r) = Some (vtok v, r).
Proof.
  intros Hv Hs Hr. destruct v as [|b|t|b|w l|w l]; try discriminate; cbn [vtext vtok vwf] in *.
  - reflexivity.
  - destruct b; reflexivity.
  - destruct Hv as [Hn (f & Hf)]. rewrite Hf. apply scalar_number; auto.
  - cbn [app]. unfold Json.scalar. rewrite Z.eqb_refl, <- app_assoc. cbn [app]. rewrite str_end_body by auto. reflexivity.
Qed.
Lemma number_start t : number t -> exists c t', t = c :: t' /\ (c = 45 \/ 48 <= c <= 57).
Proof.
  intros (neg & int & frac & exp & -> & Hneg & Hint & _). destruct Hneg as [->| ->]; [|exists 45; eexists; split; [reflexivity|lia]]. destruct Hint as [->|(c & ds & -> & Hc & _)].
  - exists 48. eexists. split; [reflexivity|lia].
  - exists c. eexists. split; [reflexivity|lia].
Qed.
Lemma not_space c : c <> 32 -> c <> 9 -> c <> 13 -> c <> 10 -> is_space c = false.
Proof. intros. unfold is_space. destruct (Z.eqb_spec c 32), (Z.eqb_spec c 9), (Z.eqb_spec c 13), (Z.eqb_spec c 10); auto; contradiction. Qed.
(** the first byte of a value *)
Lemma vtext_start v r : vwf v -> exists c t, vtext v ++ r = c :: t /\ is_space c = false /\ c <> 58 /\ c <> 44 /\ c <> 93 /\ c <> 125 /\
  (is_scalar v = true -> c <> 91 /\ c <> 123).
Proof.
  intros Hv. destruct v as [|[]|t|b|w l|w l]; cbn [vtext vwf] in *; try (eexists _, _; split; [reflexivity|]; repeat split; try discriminate; intros; lia).
  destruct Hv as [Hn _]. destruct (number_start Hn) as (c & t' & -> & Hc). exists c, (t' ++ r). split; [reflexivity|]. repeat split; try lia. apply not_space; lia.
Qed.
Lemma starts_value v r : vwf v -> starts (vtext v ++ r).
Proof. intros Hv. destruct (vtext_start v r Hv) as (c & t & E & H1 & H2 & H3 & _). exists c, t. auto. Qed.
Lemma starts_char c t : is_space c = false -> c <> 58 -> c <> 44 -> starts (c :: t).
Proof. intros. exists c, t. auto. Qed.
(** ** One token *)
Lemma token_scalar st p st' v r off k : pre st p st' -> value_allowed st' = true -> vwf v -> is_scalar v = true -> stops r ->
  token (DE (p ++ vtext v ++ r) off st k) = Ok (vtok v, DE r (off + zlen p + zlen (vtext v)) (value_end st') k).
Proof.
  intros Hp Hst Hv Hs Hr. rewrite (token_pre _ _ Hp (starts_value v r Hv)). cbn [Json.token_loop]. rewrite skip_d_starts by (apply starts_value; auto).
  destruct (vtext_start v r Hv) as (c & t & E & H1 & H2 & H3 & H4 & H5 & H6). destruct (H6 Hs) as [H7 H8]. pose proof (scalar_text v r Hv Hs Hr) as Hsc. cbn [d_rest d_st d_off d_stack]. 
  rewrite E in *. apply Z.eqb_neq in H2, H3, H4, H5, H7, H8. rewrite H2, H3, H4, H5, H7, H8, Hsc, Hst.
  assert (Ea : after (DE (c :: t) (off + zlen p) st' k) r (value_end st') = DE r (off + zlen p + zlen (vtext v)) (value_end st') k).
  { unfold after. cbn [d_rest d_off d_stack]. rewrite <- E, zlen_app. f_equal. lia. }
  destruct (c =? 34); [|rewrite Ea; reflexivity]. destruct st'; try discriminate; rewrite Ea; reflexivity.
Qed.
Lemma token_open st p st' c t off k : pre st p st' -> value_allowed st' = true -> c = 91 \/ c = 123 ->
  token (DE (p ++ c :: t) off st k) = Ok (TDelim c, DE t (off + zlen p + 1) (if c =? 91 then ArrayStart else ObjectStart) (st' :: k)).
Proof.
  intros Hp Hst Hc. assert (Hs : starts (c :: t)) by (destruct Hc as [->| ->]; apply starts_char; try lia; reflexivity).
  rewrite (token_pre _ _ Hp Hs). cbn [Json.token_loop]. rewrite skip_d_starts by auto. cbn [d_rest d_st d_off d_stack]. destruct Hc as [->| ->]; rewrite Hst; reflexivity.
Qed.
Lemma token_close st w c t off s0 k : ws w -> (c = 93 /\ (st = ArrayStart \/ st = ArrayComma)) \/ (c = 125 /\ (st = ObjectStart \/ st = ObjectComma)) ->
  token (DE (w ++ c :: t) off st (s0 :: k)) = Ok (TDelim c, DE t (off + zlen w + 1) (value_end s0) k).
Proof.
  intros Hw Hc. assert (Hs : starts (c :: t)) by (destruct Hc as [[-> _]|[-> _]]; apply starts_char; try lia; reflexivity).
  rewrite (@token_pre st w st (c :: t) off (s0 :: k) (pre_ws _ Hw) Hs). cbn [Json.token_loop]. rewrite skip_d_starts by auto. cbn [d_rest d_st d_off d_stack]. destruct Hc as [[-> [->| ->]]|[-> [->| ->]]]; reflexivity.
Qed.
Lemma token_key st p st' b t off k : pre st p st' -> st' = ObjectStart \/ st' = ObjectKey -> str_body b ->
  token (DE (p ++ 34 :: b ++ 34 :: t) off st k) = Ok (TStr (unquote b), DE t (off + zlen p + (zlen b + 2)) ObjectColon k).
Proof.
  intros Hp Hst Hb. assert (Hs : starts (34 :: b ++ 34 :: t)) by (apply starts_char; try lia; reflexivity).
  rewrite (token_pre _ _ Hp Hs). cbn [Json.token_loop]. rewrite skip_d_starts by auto. cbn [d_rest d_st d_off d_stack].
  change (34 =? 91) with false. change (34 =? 93) with false. change (34 =? 123) with false. change (34 =? 125) with false. change (34 =? 58) with false. change (34 =? 44) with false. change (34 =? 34) with true. cbv iota.
  assert (E : scalar (34 :: b ++ 34 :: t) = Some (TStr (unquote b), t)) by (unfold Json.scalar; rewrite Z.eqb_refl, str_end_body by auto; reflexivity).
  rewrite E. assert (Ea : after (DE (34 :: b ++ 34 :: t) (off + zlen p) st' k) t ObjectColon = DE t (off + zlen p + (zlen b + 2)) ObjectColon k).
  { unfold after. cbn [d_rest d_off d_stack]. rewrite zlen_cons, zlen_app, zlen_cons. f_equal. lia. }
  rewrite Ea. destruct Hst as [->| ->]; reflexivity.
Qed.
(** ** Skipping an array *)
Notation skip_array := (skip_array unquote to_float).
Lemma stops_ws w c r : ws w -> c = 44 \/ c = 93 \/ c = 125 -> stops (w ++ c :: r).
Proof. intros Hw Hc. destruct Hw as [|x w Hx _]; cbn [app stops]; tauto. Qed.
Definition skips (depth : Z) (d d' : dec) : Prop := forall fuel, (length (d_rest d) < fuel)%nat -> exists fuel', (length (d_rest d') < fuel')%nat /\ skip_array fuel depth d = skip_array fuel' depth d'.
Lemma skips_trans depth a b c : skips depth a b -> skips depth b c -> skips depth a c.
Proof. intros H1 H2 fuel Hf. destruct (H1 _ Hf) as (f1 & A & B). destruct (H2 _ A) as (f2 & C & E). exists f2. split; auto. congruence. Qed.
Lemma skips_refl depth a : skips depth a a.
Proof. intros fuel Hf. eauto. Qed.
Lemma skips_token depth d t d' : token d = Ok (t, d') -> (length (d_rest d') < length (d_rest d))%nat -> (forall c, t = TDelim c -> c <> 91 /\ c <> 93) -> 1 <= depth -> skips depth d d'.
Proof.
  intros E Hl Ht Hd fuel Hf. destruct fuel as [|fuel]; [lia|]. exists fuel. split; [lia|]. cbn [Jsonl.skip_array]. rewrite E. cbn [rbind fst snd].
  assert (X : match t with TDelim c => if c =? 91 then depth + 1 else if c =? 93 then depth - 1 else depth | _ => depth end = depth).
  { destruct t as [c| | | |]; auto. destruct (Ht c eq_refl) as [A B]. apply Z.eqb_neq in A, B. rewrite A, B. reflexivity. }
  rewrite X. destruct (Z.eqb_spec depth 0); [lia|reflexivity].
Qed.
Lemma skip_bracket depth d c d' : token d = Ok (TDelim c, d') -> (length (d_rest d') < length (d_rest d))%nat -> c = 91 \/ c = 93 -> forall fuel, (length (d_rest d) < fuel)%nat ->
  exists fuel', (length (d_rest d') < fuel')%nat /\ skip_array fuel depth d = let depth := if c =? 91 then depth + 1 else depth - 1 in if depth =? 0 then Ok d' else skip_array fuel' depth d'.
Proof.
  intros E Hl Hc fuel Hf. destruct fuel as [|fuel]; [lia|]. exists fuel. split; [lia|]. cbn [Jsonl.skip_array]. rewrite E. cbn [rbind fst snd]. destruct Hc as [->| ->]; reflexivity.
Qed.
Definition P_v (v : jv) : Prop := vwf v -> forall depth st p st' r off k, 1 <= depth -> pre st p st' -> value_allowed st' = true -> stops r ->
  skips depth (DE (p ++ vtext v ++ r) off st k) (DE r (off + zlen p + zlen (vtext v)) (value_end st') k).
Definition P_i (l : jitems) : Prop := iwf l -> forall depth first w r off k, 1 <= depth -> ws w ->
  exists w', ws w' /\ skips depth (DE (w ++ itext first l ++ 93 :: r) off (if first then ArrayStart else ArrayComma) k) (DE (w' ++ 93 :: r) (off + zlen w + zlen (itext first l) - zlen w') (match l with INil => if first then ArrayStart else ArrayComma | _ => ArrayComma end) k).
Definition P_m (l : jmembers) : Prop := mwf l -> forall depth first w r off k, 1 <= depth -> ws w ->
  exists w', ws w' /\ skips depth (DE (w ++ mtext first l ++ 125 :: r) off (if first then ObjectStart else ObjectComma) k) (DE (w' ++ 125 :: r) (off + zlen w + zlen (mtext first l) - zlen w') (match l with MNil => if first then ObjectStart else ObjectComma | _ => ObjectComma end) k).
Lemma itext_stops l r : iwf l -> stops (itext false l ++ 93 :: r).
Proof. destruct l; cbn [itext comma app stops]; tauto. Qed.
Lemma mtext_stops l r : mwf l -> stops (mtext false l ++ 125 :: r).
Proof. destruct l; cbn [mtext comma app stops]; tauto. Qed.
Lemma ws_stops w r : ws w -> stops r -> stops (w ++ r).
Proof. intros Hw Hr. destruct Hw as [|x w Hx _]; cbn [app]; auto. cbn. tauto. Qed.
Lemma ws_app a b : ws a -> ws b -> ws (a ++ b).
Proof. apply Forall_app_2 || (intros; apply Forall_app; auto). Qed.
Lemma pre_item (first : bool) w w1 : ws w -> ws w1 -> pre (if first then ArrayStart else ArrayComma) (w ++ comma first ++ w1) (if first then ArrayStart else ArrayValue).
Proof. intros H H1. destruct first; cbn [comma app]; [apply pre_ws; apply ws_app; auto|apply pre_comma; auto]. Qed.
Lemma pre_mem (first : bool) w w1 : ws w -> ws w1 -> pre (if first then ObjectStart else ObjectComma) (w ++ comma first ++ w1) (if first then ObjectStart else ObjectKey).
Proof. intros H H1. destruct first; cbn [comma app]; [apply pre_ws; apply ws_app; auto|apply pre_member; auto]. Qed.
Ltac regroup := repeat first [rewrite <- app_assoc | progress (cbn [app])].
Lemma last_i l : match l with INil => ArrayStart | _ => ArrayComma end = ArrayStart \/ match l with INil => ArrayStart | _ => ArrayComma end = ArrayComma.
Proof. destruct l; auto. Qed.
Lemma last_m l : match l with MNil => ObjectStart | _ => ObjectComma end = ObjectStart \/ match l with MNil => ObjectStart | _ => ObjectComma end = ObjectComma.
Proof. destruct l; auto. Qed.
Lemma skip_all : (forall v, P_v v) /\ (forall l, P_i l) /\ (forall l, P_m l).
Proof.
  assert (SC : forall v, is_scalar v = true -> P_v v).
  { intros v Hs Hv depth st p st' r off k Hd Hp Hst Hr. eapply skips_token; [apply token_scalar; eauto| |intros c E; destruct v; discriminate|auto].
    cbn [d_rest]. rewrite !app_length. destruct (vtext_start v [] Hv) as (c & t & E & _). rewrite app_nil_r in E. rewrite E. cbn [length]. lia. }
  apply json_ind; try (intros; apply SC; reflexivity).
  - (* array *) intros w l IH [Hw Hl] depth st p st' r off k Hd Hp Hst Hr fuel Hf.
    cbn [vtext] in Hf |- *. revert Hf. regroup. intros Hf.
    destruct (@skip_bracket depth _ _ _ (@token_open st p st' 91 (w ++ itext true l ++ 93 :: r) off k Hp Hst (or_introl eq_refl))) with (fuel := fuel) as (f1 & Hf1 & E1); auto.
    { cbn [d_rest]. repeat (rewrite app_length; cbn [length]). lia. }
    rewrite E1. cbv zeta. change (91 =? 91) with true. cbv iota. destruct (Z.eqb_spec (depth + 1) 0); [lia|].
    destruct (IH Hl (depth + 1) true w r (off + zlen p + 1) (st' :: k) ltac:(lia) Hw) as (w' & Hw' & Hs). destruct (Hs f1 Hf1) as (f2 & Hf2 & E2). rewrite E2.
    destruct (@skip_bracket (depth + 1) _ _ _ (@token_close (match l with INil => ArrayStart | _ => ArrayComma end) w' 93 r (off + zlen p + 1 + zlen w + zlen (itext true l) - zlen w') st' k Hw' (or_introl (conj eq_refl (last_i l))))) with (fuel := f2) as (f3 & Hf3 & E3); auto.
    { cbn [d_rest]. repeat (rewrite app_length; cbn [length]). lia. }
    rewrite E3. change (93 =? 91) with false. cbv iota zeta. replace (depth + 1 - 1) with depth by lia. destruct (Z.eqb_spec depth 0); [lia|].
    exists f3. split; [exact Hf3|]. f_equal. f_equal. rewrite zlen_cons, !zlen_app. change (zlen [93]) with 1. lia.
  - (* object *) intros w l IH [Hw Hl] depth st p st' r off k Hd Hp Hst Hr. cbn [vtext]. regroup.
    eapply skips_trans; [eapply skips_token; [apply (@token_open st p st' 123 (w ++ mtext true l ++ 125 :: r) off k Hp Hst (or_intror eq_refl))| |intros c E; injection E; lia|auto]|].
    { cbn [d_rest]. repeat (rewrite app_length; cbn [length]). lia. }
    destruct (IH Hl depth true w r (off + zlen p + 1) (st' :: k) Hd Hw) as (w' & Hw' & Hs). eapply skips_trans; [exact Hs|]. clear Hs.
    pose proof (@token_close (match l with MNil => ObjectStart | _ => ObjectComma end) w' 125 r (off + zlen p + 1 + zlen w + zlen (mtext true l) - zlen w') st' k Hw' (or_intror (conj eq_refl (last_m l)))) as T.
    replace (off + zlen p + 1 + zlen w + zlen (mtext true l) - zlen w' + zlen w' + 1) with (off + zlen p + zlen (123 :: w ++ mtext true l ++ [125])) in T by (rewrite zlen_cons, !zlen_app; change (zlen [125]) with 1; lia).
    eapply skips_token; [exact T| |intros c E; injection E; lia|auto]. cbn [d_rest]. repeat (rewrite app_length; cbn [length]). lia.
  - (* no items *) intros _ depth first w r off k Hd Hw. exists w. split; auto. cbn [itext app]. replace (off + zlen w + zlen (@nil Z) - zlen w) with off by (change (zlen (@nil Z)) with 0; lia). apply skips_refl.
  - (* items *) intros w1 v IHv w2 t IHt (H1 & Hv & H2 & Ht) depth first w r off k Hd Hw.
    destruct (IHt Ht depth false w2 r (off + zlen (w ++ comma first ++ w1) + zlen (vtext v)) k Hd H2) as (w' & Hw' & Hs). exists w'. split; auto.
    cbn [itext]. replace (w ++ (comma first ++ w1 ++ vtext v ++ w2 ++ itext false t) ++ 93 :: r) with ((w ++ comma first ++ w1) ++ vtext v ++ w2 ++ itext false t ++ 93 :: r) by (regroup; reflexivity).
    eapply skips_trans; [apply (IHv Hv) with (st' := if first then ArrayStart else ArrayValue); [exact Hd|apply pre_item; auto|destruct first; reflexivity|apply ws_stops; auto; apply itext_stops; auto]|].
    replace (value_end (if first then ArrayStart else ArrayValue)) with ArrayComma by (destruct first; reflexivity).
    replace (off + zlen w + zlen (comma first ++ w1 ++ vtext v ++ w2 ++ itext false t) - zlen w') with (off + zlen (w ++ comma first ++ w1) + zlen (vtext v) + zlen w2 + zlen (itext false t) - zlen w') by (rewrite !zlen_app; lia).
    destruct t; exact Hs.
  - intros _ depth first w r off k Hd Hw. exists w. split; auto. cbn [mtext app]. replace (off + zlen w + zlen (@nil Z) - zlen w) with off by (change (zlen (@nil Z)) with 0; lia). apply skips_refl.
  - intros w1 key w2 w3 v IHv w4 t IHt (H1 & Hk & H2 & H3 & Hv & H4 & Ht) depth first w r off k Hd Hw.
    destruct (IHt Ht depth false w4 r (off + zlen (w ++ comma first ++ w1) + (zlen key + 2) + zlen (w2 ++ 58 :: w3) + zlen (vtext v)) k Hd H4) as (w' & Hw' & Hs). exists w'. split; auto.
    cbn [mtext]. replace (w ++ (comma first ++ w1 ++ (34 :: key ++ [34]) ++ w2 ++ 58 :: w3 ++ vtext v ++ w4 ++ mtext false t) ++ 125 :: r) with ((w ++ comma first ++ w1) ++ 34 :: key ++ 34 :: (w2 ++ 58 :: w3) ++ vtext v ++ w4 ++ mtext false t ++ 125 :: r) by (regroup; reflexivity).
    eapply skips_trans; [eapply skips_token; [apply token_key with (st' := if first then ObjectStart else ObjectKey); [apply pre_mem; auto|destruct first; auto|auto]| |intros c E; discriminate|auto]|].
    { cbn [d_rest]. repeat (rewrite app_length; cbn [length]). lia. }
    eapply skips_trans; [apply (IHv Hv) with (st' := ObjectValue); [exact Hd|apply pre_colon; auto|reflexivity|apply ws_stops; auto; apply mtext_stops; auto]|]. cbn [value_end].
    replace (off + zlen w + zlen (comma first ++ w1 ++ (34 :: key ++ [34]) ++ w2 ++ 58 :: w3 ++ vtext v ++ w4 ++ mtext false t) - zlen w') with (off + zlen (w ++ comma first ++ w1) + (zlen key + 2) + zlen (w2 ++ 58 :: w3) + zlen (vtext v) + zlen w4 + zlen (mtext false t) - zlen w') by (repeat (rewrite zlen_app || rewrite zlen_cons); change (zlen (@nil Z)) with 0; lia).
    destruct t; exact Hs.
Qed.
(** Skipping an array leaves the decoder just after it. *)
Lemma skip_array_text w l r off st k : ws w -> iwf l ->
  skip_array (S (length (w ++ itext true l ++ 93 :: r))) 1 (DE (w ++ itext true l ++ 93 :: r) off ArrayStart (st :: k)) = Ok (DE r (off + zlen w + zlen (itext true l) + 1) (value_end st) k).
Proof.
  intros Hw Hl. destruct skip_all as (_ & Hi & _). destruct (Hi l Hl 1 true w r off (st :: k) ltac:(lia) Hw) as (w' & Hw' & Hs).
  destruct (Hs (S (length (w ++ itext true l ++ 93 :: r)))) as (f & Hf & E); [cbn [d_rest]; lia|]. rewrite E. clear E Hs.
  destruct (@skip_bracket 1 _ _ _ (@token_close (match l with INil => ArrayStart | _ => ArrayComma end) w' 93 r (off + zlen w + zlen (itext true l) - zlen w') st k Hw' (or_introl (conj eq_refl (last_i l))))) with (fuel := f) as (f3 & Hf3 & E3); auto.
  { cbn [d_rest]. repeat (rewrite app_length; cbn [length]). lia. }
  rewrite E3. cbv zeta. change (93 =? 91) with false. cbv iota. change (1 - 1 =? 0) with true. cbv iota. f_equal. f_equal. lia.
Qed.
End Doc.
