(** C95: what is taken for a value. Parse of the JSONL handler takes only the scalars of the
    JSON grammar for values; a row of a CSV data file is taken apart as RFC 4180 says, quotes
    included, and a line that is no row is refused. *)
From Verif Require Import Base Json Jsonl JsonDoc JsonlSpec Csv CsvSpec.

(** ** JSON *)
Section J.
Variables (unquote : bytes -> bytes) (to_float : bytes -> option bytes).
Notation parse := (jparse unquote to_float).
(** *** Specification; texts, [vtext], and their grammar, [vwf], are in JsonDoc.v *)
Definition blank (w : bytes) : Prop := Forall (fun c => In c [32; 9; 13; 10]) w.
(** the bytes a scalar stands for; arrays and objects are no scalars *)
Definition scalar_bytes (v : jv) : option bytes :=
  match v with
  | JNull => Some []
  | JBool b => Some [if b then 1 else 0]
  | JNum t => to_float t
  | JStr b => Some (unquote b)
  | _ => None
  end.

(** *** Proofs *)
Lemma isd c : is_digit c = true -> 48 <= c <= 57.
Proof. unfold is_digit. rewrite andb_true_iff, !Z.leb_le. auto. Qed.
Definition frac_of (f : bytes) : Prop := f = [] \/ exists d ds, f = 46 :: d :: ds /\ digits (d :: ds).
Definition expo_of (x : bytes) : Prop := x = [] \/ exists e sign d ds, x = e :: sign ++ d :: ds /\ (e = 101 \/ e = 69) /\ (sign = [] \/ sign = [43] \/ sign = [45]) /\ digits (d :: ds).
Definition int_of (i : bytes) : Prop := i = [48] \/ exists c ds, i = c :: ds /\ 49 <= c <= 57 /\ digits ds.
(** what may follow in each state *)
Definition tail_of (m : nstate) (v : bytes) : Prop :=
  match m with
  | NE0 => digits v
  | NESign => exists d ds, v = d :: ds /\ digits v
  | NE => exists sign d ds, v = sign ++ d :: ds /\ (sign = [] \/ sign = [43] \/ sign = [45]) /\ digits (d :: ds)
  | NDot0 => exists ds e, v = ds ++ e /\ digits ds /\ expo_of e
  | NDot => exists d ds e, v = (d :: ds) ++ e /\ digits (d :: ds) /\ expo_of e
  | N0 => exists f e, v = f ++ e /\ frac_of f /\ expo_of e
  | N1 => exists ds f e, v = ds ++ f ++ e /\ digits ds /\ frac_of f /\ expo_of e
  | NNeg => exists i f e, v = i ++ f ++ e /\ int_of i /\ frac_of f /\ expo_of e
  end.
Lemma tail_nil m : naccept m = true -> tail_of m [].
Proof.
  destruct m; cbn [naccept]; try discriminate; intros _; cbn [tail_of].
  - exists [], []. split; auto. split; left; auto.
  - exists [], [], []. split; auto. split; [constructor|]. split; left; auto.
  - exists [], []. split; auto. split; [constructor|left; auto].
  - constructor.
Qed.
Lemma expo_cons c v : (c =? 101) || (c =? 69) = true -> tail_of NE v -> expo_of (c :: v).
Proof.
  rewrite orb_true_iff, !Z.eqb_eq. intros Hc (sign & d & ds & -> & Hs & Hd). right. exists c, sign, d, ds. auto.
Qed.
Lemma frac_cons v : tail_of NDot v -> exists f e, 46 :: v = f ++ e /\ frac_of f /\ expo_of e.
Proof. intros (d & ds & e & -> & Hd & He). exists (46 :: d :: ds), e. split; auto. split; auto. right. exists d, ds. auto. Qed.
Lemma tail_step m c m' v : nstep m c = Some m' -> tail_of m' v -> tail_of m (c :: v).
Proof.
  assert (NN : expo_of (@nil Z)) by (left; auto). assert (FN : frac_of (@nil Z)) by (left; auto).
  destruct m; cbn [nstep].
  - destruct (Z.eqb_spec c 48) as [->|Hc]; [intros [= <-] (f & e & -> & Hf & He); exists [48], f, e; split; auto; split; [left|]; auto|].
    destruct (is_digit c) eqn:D; [|discriminate]. apply isd in D. intros [= <-] (ds & f & e & -> & Hd & Hf & He). exists (c :: ds), f, e. split; auto. split; auto. right. exists c, ds. split; auto. split; auto. lia.
  - destruct (Z.eqb_spec c 46) as [->|Hc]; [intros [= <-]; apply frac_cons|]. destruct ((c =? 101) || (c =? 69)) eqn:E; [|discriminate]. intros [= <-] H. exists [], (c :: v). split; auto. split; auto. apply expo_cons; auto.
  - destruct (is_digit c) eqn:D; [apply isd in D; intros [= <-] (ds & f & e & -> & Hd & Hf & He); exists (c :: ds), f, e; split; auto; split; auto; constructor; auto|].
    destruct (Z.eqb_spec c 46) as [->|Hc]; [intros [= <-] H; destruct (frac_cons H) as (f & e & E & Hf & He); exists [], f, e; split; [exact E|]; split; [constructor|auto]|].
    destruct ((c =? 101) || (c =? 69)) eqn:E; [|discriminate]. intros [= <-] H. exists [], [], (c :: v). split; auto. split; [constructor|]. split; auto. apply expo_cons; auto.
  - destruct (is_digit c) eqn:D; [|discriminate]. apply isd in D. intros [= <-] (ds & e & -> & Hd & He). exists c, ds, e. split; auto. split; auto. constructor; auto.
  - destruct (is_digit c) eqn:D; [apply isd in D; intros [= <-] (ds & e & -> & Hd & He); exists (c :: ds), e; split; auto; split; auto; constructor; auto|].
    destruct ((c =? 101) || (c =? 69)) eqn:E; [|discriminate]. intros [= <-] H. exists [], (c :: v). split; auto. split; [constructor|]. apply expo_cons; auto.
  - destruct ((c =? 43) || (c =? 45)) eqn:S.
    + rewrite orb_true_iff, !Z.eqb_eq in S. intros [= <-] (d & ds & -> & Hd). exists [c], d, ds. split; auto. split; auto. destruct S as [->| ->]; auto.
    + destruct (is_digit c) eqn:D; [|discriminate]. apply isd in D. intros [= <-] H. exists [], c, v. split; auto. split; auto. constructor; auto.
  - destruct (is_digit c) eqn:D; [|discriminate]. apply isd in D. intros [= <-] H. exists c, v. split; auto. constructor; auto.
  - destruct (is_digit c) eqn:D; [|discriminate]. apply isd in D. intros [= <-] H. constructor; auto.
Qed.
Lemma num_sound : forall b m v r, num_end m b = Some (v, r) -> b = v ++ r /\ tail_of m v.
Proof.
  induction b as [|c b IH]; intros m v r; cbn [num_end].
  - destruct (naccept m) eqn:A; [|discriminate]. intros [= <- <-]. split; auto. apply tail_nil; auto.
  - destruct (nstep m c) as [m'|] eqn:E.
    + destruct (num_end m' b) as [[v' r']|] eqn:E2; [|discriminate]. cbn [consf]. intros [= <- <-]. destruct (IH _ _ _ E2) as [-> H]. split; auto. eapply tail_step; eauto.
    + destruct (naccept m) eqn:A; [|discriminate]. intros [= <- <-]. split; auto. apply tail_nil; auto.
Qed.
Lemma hex_of c : is_hex c = true -> hex_digit c.
Proof. unfold is_hex, hex_digit. rewrite !orb_true_iff, !andb_true_iff, !Z.leb_le. tauto. Qed.
Lemma esc_of c : is_esc c = true -> In c [34; 92; 47; 98; 102; 110; 114; 116].
Proof. unfold is_esc. rewrite !orb_true_iff, !Z.eqb_eq. cbn [In]. intuition. Qed.
(** what may follow in each state of a string *)
Fixpoint hexes (n : nat) (v : bytes) {struct v} : Prop :=
  match v with [] => False | c :: t => hex_digit c /\ match n with O => str_body t | S n' => hexes n' t end end.
Definition rest_of (m : sstate) (v : bytes) : Prop :=
  match m with
  | InStr => str_body v
  | InEsc => exists c t, v = c :: t /\ ((In c [34; 92; 47; 98; 102; 110; 114; 116] /\ str_body t) \/ (c = 117 /\ hexes 3 t))
  | InU n => hexes n v
  end.
Lemma str_sound : forall b m v r, Forall (fun c => 0 <= c < 256) b -> str_end m b = Some (v, r) -> b = v ++ 34 :: r /\ rest_of m v.
Proof.
  induction b as [|c b IH]; intros m v r HB; cbn [str_end]; [discriminate|]. inversion HB as [|? ? Hc HB']; subst. destruct m as [| |n].
  - destruct (Z.eqb_spec c 34) as [->|N1]; [intros [= <- <-]; split; auto; constructor|]. destruct (Z.eqb_spec c 92) as [->|N2].
    + destruct (str_end InEsc b) as [[v' r']|] eqn:E; [|discriminate]. cbn [consf]. intros [= <- <-]. destruct (IH _ _ _ HB' E) as [-> H]. split; auto. cbn [rest_of] in H |- *.
      destruct H as (c & t & -> & [[H1 H2]|[-> H2]]); [apply sb_esc; auto|].
      cbn [hexes] in H2. destruct t as [|h1 t]; [destruct H2|]. destruct H2 as [H1 H2]. cbn [hexes] in H2. destruct t as [|h2 t]; [destruct H2|]. destruct H2 as [H3 H2]. cbn [hexes] in H2. destruct t as [|h3 t]; [destruct H2|]. destruct H2 as [H4 H2]. cbn [hexes] in H2. destruct t as [|h4 t]; [destruct H2|]. destruct H2 as [H5 H2]. cbn [hexes] in H2. apply sb_u; auto.
    + destruct (Z.ltb_spec c 32); [discriminate|]. destruct (str_end InStr b) as [[v' r']|] eqn:E; [|discriminate]. cbn [consf]. intros [= <- <-]. destruct (IH _ _ _ HB' E) as [-> Hr]. split; auto. apply sb_char; auto. lia.
  - destruct (is_esc c) eqn:E0.
    + destruct (str_end InStr b) as [[v' r']|] eqn:E; [|discriminate]. cbn [consf]. intros [= <- <-]. destruct (IH _ _ _ HB' E) as [-> Hr]. split; auto. exists c, v'. split; auto. left. split; [apply esc_of; auto|exact Hr].
    + destruct (Z.eqb_spec c 117) as [->|]; [|discriminate]. destruct (str_end (InU 3) b) as [[v' r']|] eqn:E; [|discriminate]. cbn [consf]. intros [= <- <-]. destruct (IH _ _ _ HB' E) as [-> Hr]. split; auto. exists 117, v'. split; auto.
  - destruct (is_hex c) eqn:E0; [|discriminate]. apply hex_of in E0. destruct (str_end (match n with O => InStr | S n' => InU n' end) b) as [[v' r']|] eqn:E; [|discriminate]. cbn [consf]. intros [= <- <-]. destruct (IH _ _ _ HB' E) as [-> Hr]. split; auto.
    cbn [rest_of hexes]. split; auto. destruct n; exact Hr.
Qed.
Lemma prefix_sound : forall p b r, strip_prefix p b = Some r -> b = p ++ r.
Proof.
  induction p as [|x p IH]; intros b r; cbn [strip_prefix]; [intros [= ->]; reflexivity|]. destruct b as [|y b]; [discriminate|]. destruct (Z.eqb_spec x y) as [->|]; [|discriminate]. intros H. cbn [app]. f_equal. apply IH; auto.
Qed.
Notation scalar := (scalar unquote to_float).
Lemma scalar_sound b v r : Forall (fun c => 0 <= c < 256) b -> scalar b = Some (v, r) -> exists s, b = vtext s ++ r /\ vwf to_float s /\ scalar_bytes s <> None /\
  match v with TStr x | TNum x => scalar_bytes s = Some x | TBool x => s = JBool x | TNull => s = JNull | TDelim _ => False end.
Proof.
  intros HB. unfold Json.scalar. destruct b as [|c t]; [discriminate|]. inversion HB as [|? ? Hc HB']; subst.
  destruct (Z.eqb_spec c 34) as [->|N1].
  { destruct (str_end InStr t) as [[x y]|] eqn:E; [|discriminate]. intros [= <- <-]. destruct (str_sound _ HB' E) as [-> H]. exists (JStr x). cbn [vtext vwf scalar_bytes]. split; [rewrite <- app_comm_cons, <- app_assoc; reflexivity|]. split; [exact H|]. split; [discriminate|reflexivity]. }
  destruct ((c =? 45) || is_digit c) eqn:D.
  { destruct (num_end _ t) as [[x y]|] eqn:E; [|discriminate]. destruct (to_float (c :: x)) as [f|] eqn:F; [|discriminate]. intros [= <- <-]. destruct (num_sound _ _ E) as [-> H].
    exists (JNum (c :: x)). cbn [vtext vwf scalar_bytes]. split; [reflexivity|]. split; [|split; [congruence|exact F]]. split; [|eauto]. unfold number.
    destruct (Z.eqb_spec c 45) as [->|N2]; [|destruct (Z.eqb_spec c 48) as [->|N3]].
    - destruct H as (i & f' & e & -> & Hi & Hf & He). exists [45], i, f', e. split; [reflexivity|]. split; auto.
    - destruct H as (f' & e & -> & Hf & He). exists [], [48], f', e. split; [reflexivity|]. split; auto.
    - cbn [orb] in D. apply isd in D. destruct H as (ds & f' & e & -> & Hd & Hf & He). exists [], (c :: ds), f', e. split; [reflexivity|]. split; auto. split; [right; exists c, ds; split; auto; split; auto; lia|auto]. }
  destruct (c =? 116); [|destruct (c =? 102); [|destruct (c =? 110); [|discriminate]]].
  - destruct (strip_prefix lit_true (c :: t)) as [r0|] eqn:E; [|discriminate]. intros [= <- <-]. apply prefix_sound in E. exists (JBool true). split; [exact E|]. split; [exact I|]. split; [discriminate|reflexivity].
  - destruct (strip_prefix lit_false (c :: t)) as [r0|] eqn:E; [|discriminate]. intros [= <- <-]. apply prefix_sound in E. exists (JBool false). split; [exact E|]. split; [exact I|]. split; [discriminate|reflexivity].
  - destruct (strip_prefix lit_null (c :: t)) as [r0|] eqn:E; [|discriminate]. intros [= <- <-]. apply prefix_sound in E. exists JNull. split; [exact E|]. split; [exact I|]. split; [discriminate|reflexivity].
Qed.
Lemma skip_sound : forall b, exists w, b = w ++ skip_space b /\ blank w.
Proof.
  induction b as [|c b (w & E & H)]; [exists []; split; [reflexivity|constructor]|]. cbn [skip_space]. destruct (is_space c) eqn:S; [|exists []; split; [reflexivity|constructor]].
  exists (c :: w). split; [cbn [app]; rewrite <- E; reflexivity|]. constructor; auto. unfold is_space in S. rewrite !orb_true_iff, !Z.eqb_eq in S. cbn [In]. intuition.
Qed.
(** *** Theorems *)
(** If Parse gives a value that is not nil, then the text begins, after white space, with a
    scalar of the JSON grammar, and the value is what that scalar stands for. *)
Theorem C95_only_json_scalars_have_a_value x k : Forall (fun c => 0 <= c < 256) x -> parse x = Some k -> k <> [] ->
  exists w s r, x = w ++ vtext s ++ r /\ blank w /\ vwf to_float s /\ scalar_bytes s = Some k.
Proof.
  intros HB E Hk. destruct (skip_sound x) as (w & Ex & Hw). unfold jparse, token, new_dec in E. cbn [d_rest] in E. cbn [token_loop] in E. unfold skip_d in E. cbn [d_rest d_off d_st d_stack] in E.
  assert (HB2 : Forall (fun c => 0 <= c < 256) (skip_space x)) by (rewrite Ex in HB; apply Forall_app in HB; tauto).
  destruct (skip_space x) as [|c t] eqn:S; [injection E as <-; contradiction|].
  destruct (c =? 91); [discriminate|]. destruct (c =? 93); [injection E as <-; contradiction|]. destruct (c =? 123); [discriminate|]. destruct (c =? 125); [injection E as <-; contradiction|]. destruct (c =? 58); [injection E as <-; contradiction|]. destruct (c =? 44); [injection E as <-; contradiction|].
  replace (if c =? 34 then false else false) with false in E by (destruct (c =? 34); reflexivity). cbn [value_allowed] in E.
  destruct (scalar (c :: t)) as [[v r]|] eqn:Sc; [|injection E as <-; contradiction]. destruct (scalar_sound HB2 Sc) as (s & Es & H1 & H2 & H3).
  exists w, s, r. split; [rewrite <- Es; exact Ex|]. split; auto. split; auto. destruct v as [d|y|y|y|]; try contradiction.
  - injection E as <-. exact H3.
  - injection E as <-. exact H3.
  - injection E as <-. subst s. reflexivity.
  - injection E as <-. contradiction.
Qed.
(** Conversely a scalar of the JSON grammar, before the end of the text or a byte that may follow a
    value, has its value. *)
Theorem C95_every_json_scalar_has_its_value w s r k : ws w -> vwf to_float s -> scalar_bytes s = Some k -> stops r -> parse (w ++ vtext s ++ r) = Some k.
Proof.
  intros Hw Hv Hk Hr. assert (Hs : is_scalar s = true) by (destruct s; try reflexivity; discriminate).
  unfold jparse, new_dec. rewrite (@token_scalar unquote to_float TopValue w TopValue s r 0 [] (pre_ws TopValue Hw) eq_refl Hv Hs Hr). destruct s as [|b|t|b|? ?|? ?]; try discriminate; cbn [vtok scalar_bytes vwf] in *.
  - congruence.
  - congruence.
  - rewrite Hk. reflexivity.
  - congruence.
Qed.
End J.

(** ** CSV *)
(** *** Specification: RFC 4180, for a row on one line *)
Fixpoint doubled (v : bytes) : bytes := match v with [] => [] | c :: t => if c =? 34 then 34 :: 34 :: doubled t else c :: doubled t end.
(** the text [t] is a field of value [v] *)
Inductive field_of : bytes -> bytes -> Prop :=
| f_plain v : ~ In 44 v -> ~ In 34 v -> field_of v v
| f_quoted v : field_of (34 :: doubled v ++ [34]) v.
(** *** Proofs *)
Definition first_sep (b : bytes) : Prop := b = [] \/ exists t, b = 44 :: t.
Lemma scan_quoted : forall v acc t, first_sep t -> csv_scan FQuoted acc (doubled v ++ 34 :: t) =
  match t with [] => Ok [rev acc ++ v] | _ :: t' => rcons (rev acc ++ v) (csv_scan FStart [] t') end.
Proof.
  induction v as [|c v IH]; intros acc t Ht.
  - cbn [doubled app csv_scan]. change (34 =? 34) with true. cbv iota. rewrite app_nil_r. destruct Ht as [->|(t' & ->)]; cbn [csv_scan]; [reflexivity|]. change (44 =? 34) with false. change (44 =? 44) with true. reflexivity.
  - cbn [doubled]. destruct (Z.eqb_spec c 34) as [->|N].
    + cbn [app csv_scan]. change (34 =? 34) with true. cbv iota. rewrite IH by auto. cbn [rev]. rewrite <- app_assoc. reflexivity.
    + cbn [app csv_scan]. apply Z.eqb_neq in N. rewrite N. rewrite IH by auto. cbn [rev]. rewrite <- app_assoc. reflexivity.
Qed.
Lemma scan_plain_any : forall v acc t, ~ In 44 v -> ~ In 34 v -> first_sep t -> csv_scan FPlain acc (v ++ t) =
  match t with [] => Ok [rev acc ++ v] | _ :: t' => rcons (rev acc ++ v) (csv_scan FStart [] t') end.
Proof.
  induction v as [|c v IH]; intros acc t H1 H2 Ht.
  - cbn [app]. rewrite app_nil_r. destruct Ht as [->|(t' & ->)]; cbn [csv_scan]; [reflexivity|]. change (44 =? 34) with false. change (44 =? 44) with true. reflexivity.
  - cbn [app csv_scan]. destruct (Z.eqb_spec c 34) as [->|N1]; [exfalso; apply H2; left; auto|]. destruct (Z.eqb_spec c 44) as [->|N2]; [exfalso; apply H1; left; auto|].
    rewrite IH; [cbn [rev]; rewrite <- app_assoc; reflexivity|intros X; apply H1; right; auto|intros X; apply H2; right; auto|auto].
Qed.
Lemma scan_field f v t : field_of f v -> first_sep t -> csv_scan FStart [] (f ++ t) = match t with [] => Ok [v] | _ :: t' => rcons v (csv_scan FStart [] t') end.
Proof.
  intros H Ht. destruct H as [v H1 H2|v].
  - destruct v as [|c v].
    + cbn [app]. destruct Ht as [->|(t' & ->)]; cbn [csv_scan]; [reflexivity|]. change (44 =? 34) with false. change (44 =? 44) with true. reflexivity.
    + cbn [app csv_scan]. destruct (Z.eqb_spec c 34) as [->|N1]; [exfalso; apply H2; left; auto|]. destruct (Z.eqb_spec c 44) as [->|N2]; [exfalso; apply H1; left; auto|].
      rewrite scan_plain_any; [reflexivity|intros X; apply H1; right; auto|intros X; apply H2; right; auto|auto].
  - cbn [app csv_scan]. change (34 =? 34) with true. cbv iota. rewrite <- app_assoc. cbn [app]. rewrite scan_quoted by auto. reflexivity.
Qed.
Lemma scan_complete fs vs : Forall2 field_of fs vs -> fs <> [] -> csv_scan FStart [] (commas fs) = Ok vs.
Proof.
  induction 1 as [|f v fs vs Hf Hfs IH]; [congruence|]. intros _. destruct fs as [|g fs].
  - inversion Hfs; subst. cbn [commas]. rewrite <- (app_nil_r f). rewrite (@scan_field f v [] Hf); [reflexivity|left; reflexivity].
  - change (commas (f :: g :: fs)) with (f ++ 44 :: commas (g :: fs)). rewrite (@scan_field f v (44 :: commas (g :: fs)) Hf); [|right; eauto]. rewrite IH by discriminate. reflexivity.
Qed.
(** what may follow in each state *)
Definition row_of (q : cst) (acc : bytes) (b : bytes) (vs : list bytes) : Prop :=
  match q with
  | FStart => exists fs, fs <> [] /\ Forall2 field_of fs vs /\ b = commas fs
  | FPlain => exists u fs vs', ~ In 44 u /\ ~ In 34 u /\ Forall2 field_of fs vs' /\ vs = (rev acc ++ u) :: vs' /\ b = commas (u :: fs)
  | FQuoted => exists u fs vs', Forall2 field_of fs vs' /\ vs = (rev acc ++ u) :: vs' /\ b = commas ((doubled u ++ [34]) :: fs)
  | FQuote => (exists fs vs', Forall2 field_of fs vs' /\ vs = rev acc :: vs' /\ b = commas ([] :: fs)) \/
              (exists u fs vs', Forall2 field_of fs vs' /\ vs = (rev acc ++ 34 :: u) :: vs' /\ b = commas ((34 :: doubled u ++ [34]) :: fs))
  end.
Lemma commas_cons f fs : commas (f :: fs) = f ++ match fs with [] => [] | _ => 44 :: commas fs end.
Proof. destruct fs; [cbn; rewrite app_nil_r; reflexivity|reflexivity]. Qed.
Lemma rcons_inv {A} (a : A) r l : rcons a r = Ok l -> exists l', r = Ok l' /\ l = a :: l'.
Proof. unfold rcons, rbind. destruct r; try discriminate. intros [= <-]. eauto. Qed.
Lemma scan_sound : forall b q acc vs, (q = FStart -> acc = []) -> csv_scan q acc b = Ok vs -> row_of q acc b vs.
Proof.
  induction b as [|c b IH]; intros q acc vs Hq; cbn [csv_scan].
  - destruct q; try discriminate; intros [= <-]; cbn [row_of].
    + rewrite (Hq eq_refl). exists [[]]. split; [discriminate|]. split; [|reflexivity]. constructor; [|constructor]. apply f_plain; intros [].
    + exists [], [], []. split; [intros []|]. split; [intros []|]. split; [constructor|]. split; [rewrite app_nil_r; reflexivity|reflexivity].
    + left. exists [], []. split; [constructor|]. split; reflexivity.
  - assert (C : forall r : res (list (list Z)), r = csv_scan FStart [] b -> forall l, r = Ok l -> exists fs, Forall2 field_of fs l /\ forall x, x ++ 44 :: b = commas (x :: fs)).
    { intros r -> l E. destruct (IH FStart [] l (fun _ => eq_refl) E) as (fs & Hne & Hfs & ->). exists fs. split; auto. intros x. rewrite commas_cons. destruct fs; [congruence|reflexivity]. }
    destruct q.
    + rewrite (Hq eq_refl). destruct (Z.eqb_spec c 34) as [->|N1].
      * intros E. destruct (IH FQuoted [] vs ltac:(discriminate) E) as (u & fs & vs' & H1 & -> & ->). exists ((34 :: doubled u ++ [34]) :: fs). split; [discriminate|]. split; [constructor; auto; apply f_quoted|]. rewrite !commas_cons. reflexivity.
      * destruct (Z.eqb_spec c 44) as [->|N2].
        -- intros E. apply rcons_inv in E. destruct E as (l' & E & ->). destruct (C _ eq_refl l' E) as (fs & Hfs & Hc). exists ([] :: fs). split; [discriminate|]. split; [constructor; auto; apply f_plain; intros []|]. exact (Hc []).
        -- intros E. destruct (IH FPlain [c] vs ltac:(discriminate) E) as (u & fs & vs' & H1 & H2 & H3 & -> & ->). exists ((c :: u) :: fs). split; [discriminate|]. split; [constructor; auto; apply f_plain; intros [X|X]; congruence || contradiction|]. rewrite !commas_cons. reflexivity.
    + destruct (Z.eqb_spec c 34) as [->|N1]; [discriminate|]. destruct (Z.eqb_spec c 44) as [->|N2].
      * intros E. apply rcons_inv in E. destruct E as (l' & E & ->). destruct (C _ eq_refl l' E) as (fs & Hfs & Hc). exists [], fs, l'. split; [intros []|]. split; [intros []|]. split; auto. split; [rewrite app_nil_r; reflexivity|]. exact (Hc []).
      * intros E. destruct (IH FPlain (c :: acc) vs ltac:(discriminate) E) as (u & fs & vs' & H1 & H2 & H3 & -> & ->). exists (c :: u), fs, vs'. split; [intros [X|X]; congruence || contradiction|]. split; [intros [X|X]; congruence || contradiction|]. split; auto. split; [cbn [rev]; rewrite <- app_assoc; reflexivity|]. rewrite !commas_cons. reflexivity.
    + destruct (Z.eqb_spec c 34) as [->|N1].
      * intros E. destruct (IH FQuote acc vs ltac:(discriminate) E) as [(fs & vs' & H1 & -> & ->)|(u & fs & vs' & H1 & -> & ->)].
        -- exists [], fs, vs'. split; auto. split; [rewrite app_nil_r; reflexivity|]. rewrite !commas_cons. reflexivity.
        -- exists (34 :: u), fs, vs'. split; auto. split; [reflexivity|]. cbn [doubled]. change (34 =? 34) with true. cbv iota. rewrite !commas_cons. reflexivity.
      * intros E. destruct (IH FQuoted (c :: acc) vs ltac:(discriminate) E) as (u & fs & vs' & H1 & -> & ->). exists (c :: u), fs, vs'. split; auto. split; [cbn [rev]; rewrite <- app_assoc; reflexivity|]. cbn [doubled]. apply Z.eqb_neq in N1. rewrite N1. rewrite !commas_cons. reflexivity.
    + destruct (Z.eqb_spec c 34) as [->|N1].
      * intros E. destruct (IH FQuoted (34 :: acc) vs ltac:(discriminate) E) as (u & fs & vs' & H1 & -> & ->). right. exists u, fs, vs'. split; auto. split; [cbn [rev]; rewrite <- app_assoc; reflexivity|]. rewrite !commas_cons. reflexivity.
      * destruct (Z.eqb_spec c 44) as [->|N2]; [|discriminate]. intros E. apply rcons_inv in E. destruct E as (l' & E & ->). destruct (C _ eq_refl l' E) as (fs & Hfs & Hc). left. exists fs, l'. split; auto. split; [reflexivity|]. exact (Hc []).
Qed.
(** *** Theorems *)
(** For every line without its newline: the reader takes it for a row of the cells [vs] exactly
    if, without one carriage return at its end, it is a nonempty list of fields, quoted or not,
    of these values, separated by commas. *)
Theorem C95_rows_are_read_as_written line vs :
  csv_read line = Ok vs <-> exists fs e, line = commas fs ++ e /\ (e = [13] \/ e = [] /\ last line 0 <> 13) /\ commas fs <> [] /\ Forall2 field_of fs vs.
Proof.
  unfold csv_read. split.
  - unfold drop_cr. intros E. assert (D : exists body e, line = body ++ e /\ (e = [13] \/ e = [] /\ last line 0 <> 13) /\ body <> [] /\ csv_scan FStart [] body = Ok vs).
    { destruct (Z.eqb_spec (last line 0) 13) as [L|L].
      - assert (Hne : line <> []) by (intros ->; discriminate L). exists (removelast line), [13]. split; [rewrite <- L; apply app_removelast_last; auto|]. split; auto. destruct (removelast line) as [|a q]; [discriminate|]. split; [discriminate|exact E].
      - exists line, []. split; [rewrite app_nil_r; reflexivity|]. split; auto. destruct line; [discriminate|]. split; [discriminate|exact E]. }
    destruct D as (body & e & -> & He & Hb & Sc). destruct (@scan_sound body FStart [] vs (fun _ => eq_refl) Sc) as (fs & Hne & Hfs & ->). exists fs, e. auto.
  - intros (fs & e & El & He & Hb & Hfs). assert (Hfn : fs <> []) by (intros ->; apply Hb; reflexivity).
    assert (D : drop_cr line = commas fs).
    { unfold drop_cr. destruct He as [->|[-> L]].
      - subst line. rewrite last_last. change (13 =? 13) with true. cbv iota. apply removelast_last.
      - apply Z.eqb_neq in L. rewrite L. subst line. apply app_nil_r. }
    rewrite D. destruct (commas fs) as [|a q] eqn:Ec; [congruence|]. rewrite <- Ec. apply scan_complete; auto.
Qed.

(** ** Concrete cases *)
(** a,"say ""hi"", b" and a carriage return *)
Example C95_row_example : csv_read [97; 44; 34; 115; 34; 34; 44; 98; 34; 13] = Ok [[97]; [115; 34; 44; 98]].
Proof.
  apply C95_rows_are_read_as_written. exists [[97]; 34 :: doubled [115; 34; 44; 98] ++ [34]], [13]. split; [reflexivity|]. split; [left; reflexivity|]. split; [discriminate|].
  constructor; [apply f_plain; intros [X|[]]; discriminate X|]. constructor; [apply f_quoted|constructor].
Qed.
(** a number of the JSON grammar has a value; 1. and +1 have none *)
Example C95_number_example : let pn := jparse (fun b => b) (fun b => Some b) in
  pn [32; 45; 49; 46; 53] = Some [45; 49; 46; 53] /\ pn [49; 46] = Some [] /\ pn [43; 49] = Some [] /\
  (exists w s r, [32; 45; 49; 46; 53] = w ++ vtext s ++ r /\ blank w /\ vwf (fun b => Some b) s /\ scalar_bytes (fun b => b) (fun b => Some b) s = Some [45; 49; 46; 53]).
Proof.
  split; [reflexivity|]. split; [reflexivity|]. split; [reflexivity|]. apply (@C95_only_json_scalars_have_a_value (fun b => b) (fun b => Some b) [32; 45; 49; 46; 53]); [repeat constructor; lia|reflexivity|discriminate].
Qed.
