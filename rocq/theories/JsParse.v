(** JSON.parse as the browser uses it (ECMAScript), on the grammar of JsonDoc.v, and
    handleSelect: src/db/query-lang.ts:79-95. *)
From Verif Require Import Base Json Jsonl JsonDoc JsonlSpec.

(** ** Model *)
(** A JavaScript value made by JSON.parse. Properties are in the order of their first
    insertion. [SInh name] is what an object inherits from Object.prototype under [name]. *)
Inductive jsv := SNull | SBool (b : bool) | SNum (bits : bytes) | SStr (s : bytes) | SArr (l : list jsv) | SObj (ps : list (bytes * jsv)) | SInh (name : bytes).
Definition props := list (bytes * jsv).
Definition kb (a b : bytes) : bool := if list_eq_dec Z.eq_dec a b then true else false.
(** reading an own property, and defining one *)
Fixpoint pget (ps : props) (k : bytes) : option jsv := match ps with [] => None | (k', v) :: t => if kb k k' then Some v else pget t k end.
Fixpoint pset (ps : props) (k : bytes) (v : jsv) : props := match ps with [] => [(k, v)] | (k', v') :: t => if kb k k' then (k', v) :: t else (k', v') :: pset t k v end.

Section Js.
(** the string of the text between two quotes, and the number of a text of a number *)
Variables (js_unquote : bytes -> bytes) (js_float : bytes -> bytes).
Definition js_scalar := scalar js_unquote (fun t => Some (js_float t)).
Definition of_tok (t : tok) : jsv := match t with TStr s => SStr s | TNum b => SNum b | TBool b => SBool b | _ => SNull end.
(** JSON text grammar (ECMA-404), by recursive descent. The members of an object
    are returned as written. Every call consumes a byte or is followed by one that does,
    which bounds the calls. *)
(** JSON.parse, called at src/db/query-lang.ts:80, by recursive descent *)
Fixpoint jp_val (fuel : nat) (b : bytes) : option (jsv * bytes) :=
  match fuel with
  | O => None
  | S fuel =>
      match skip_space b with
      | [] => None
      | c :: t =>
          if c =? 123 then
            match skip_space t with
            | [] => None
            | d :: r => if d =? 125 then Some (SObj [], r)
                        else match jp_members fuel t with
                             | Some (ms, r) => Some (SObj (fold_left (fun ps m => pset ps (fst m) (snd m)) ms []), r)
                             | None => None
                             end
            end
          else if c =? 91 then
            match skip_space t with
            | [] => None
            | d :: r => if d =? 93 then Some (SArr [], r)
                        else match jp_items fuel t with Some (l, r) => Some (SArr l, r) | None => None end
            end
          else match js_scalar (c :: t) with Some (k, r) => Some (of_tok k, r) | None => None end
      end
  end
with jp_items (fuel : nat) (b : bytes) : option (list jsv * bytes) :=
  match fuel with
  | O => None
  | S fuel =>
      match jp_val fuel b with
      | None => None
      | Some (v, r) =>
          match skip_space r with
          | [] => None
          | c :: r => if c =? 93 then Some ([v], r)
                      else if c =? 44 then match jp_items fuel r with Some (l, r) => Some (v :: l, r) | None => None end
                      else None
          end
      end
  end
with jp_members (fuel : nat) (b : bytes) : option (list (bytes * jsv) * bytes) :=
  match fuel with
  | O => None
  | S fuel =>
      match skip_space b with
      | [] => None
      | q :: t =>
          if q =? 34 then
            match str_end InStr t with
            | None => None
            | Some (k, r) =>
                match skip_space r with
                | [] => None
                | c :: r =>
                    if c =? 58 then
                      match jp_val fuel r with
                      | None => None
                      | Some (v, r) =>
                          match skip_space r with
                          | [] => None
                          | c :: r => if c =? 125 then Some ([(js_unquote k, v)], r)
                                      else if c =? 44 then match jp_members fuel r with Some (l, r) => Some ((js_unquote k, v) :: l, r) | None => None end
                                      else None
                          end
                      end
                    else None
                end
            end
          else None
      end
  end.
(** JSON.parse(text) *)
(** JSON.parse(text), called at src/db/query-lang.ts:80 *)
Definition json_parse (b : bytes) : res jsv :=
  match jp_val (S (2 * length b)) b with
  | Some (v, r) => match skip_space r with [] => Ok v | _ => Err (EMsg "SyntaxError") end
  | None => Err (EMsg "SyntaxError")
  end.

(** the property names of Object.prototype *)
Definition proto_name : bytes := [95; 95; 112; 114; 111; 116; 111; 95; 95].
Definition inherited : list bytes :=
  [ proto_name;
    [99; 111; 110; 115; 116; 114; 117; 99; 116; 111; 114];
    [95; 95; 100; 101; 102; 105; 110; 101; 71; 101; 116; 116; 101; 114; 95; 95];
    [95; 95; 100; 101; 102; 105; 110; 101; 83; 101; 116; 116; 101; 114; 95; 95];
    [104; 97; 115; 79; 119; 110; 80; 114; 111; 112; 101; 114; 116; 121];
    [95; 95; 108; 111; 111; 107; 117; 112; 71; 101; 116; 116; 101; 114; 95; 95];
    [95; 95; 108; 111; 111; 107; 117; 112; 83; 101; 116; 116; 101; 114; 95; 95];
    [105; 115; 80; 114; 111; 116; 111; 116; 121; 112; 101; 79; 102];
    [112; 114; 111; 112; 101; 114; 116; 121; 73; 115; 69; 110; 117; 109; 101; 114; 97; 98; 108; 101];
    [116; 111; 83; 116; 114; 105; 110; 103];
    [118; 97; 108; 117; 101; 79; 102];
    [116; 111; 76; 111; 99; 97; 108; 101; 83; 116; 114; 105; 110; 103] ].
(** jData[field] when field in jData, [None] when not *)
(** jData[field] when field in jData, [None] when not: src/db/query-lang.ts:79-95 *)
Definition field_in (ps : props) (k : bytes) : option jsv :=
  match pget ps k with
  | Some v => Some v
  | None => if existsb (kb k) inherited then Some (SInh k) else None
  end.
(** acc[field] = value: assigning to __proto__ makes no own property *)
(** acc[field] = value: src/db/query-lang.ts:79-95; assigning to __proto__ makes no own property *)
Definition assign (acc : props) (k : bytes) (v : jsv) : props := if kb k proto_name then acc else pset acc k v.
(** handleSelect(data, select): src/db/query-lang.ts:79-95. [in] throws on values that are not
    objects. Selecting from an array (whose indexes are properties) is not modelled: an error here. *)
Definition handle_select (data : bytes) (select : option (list bytes)) : res jsv :=
  jData <-- json_parse data ;;;
  match select with
  | None | Some [] => Ok jData
  | Some fs =>
      match jData with
      | SObj ps => Ok (SObj (fold_left (fun acc k => match field_in ps k with Some v => assign acc k v | None => acc end) fs []))
      | _ => Err (EMsg "TypeError")
      end
  end.

(** ** Specification *)
(** the value a JSON text denotes: of several members with the same name the last counts *)
Fixpoint meaning (v : jv) : jsv :=
  match v with
  | JNull => SNull | JBool b => SBool b | JNum t => SNum (js_float t) | JStr b => SStr (js_unquote b)
  | JArr _ l => SArr (imeaning l)
  | JObj _ l => SObj (fold_left (fun ps m => pset ps (fst m) (snd m)) (mmeaning l) [])
  end
with imeaning (l : jitems) : list jsv := match l with INil => [] | ICons _ v _ t => meaning v :: imeaning t end
with mmeaning (l : jmembers) : list (bytes * jsv) := match l with MNil => [] | MCons _ k _ _ v _ t => (js_unquote k, meaning v) :: mmeaning t end.
(** the last member of the name [k] *)
Fixpoint last_member (k : bytes) (l : jmembers) : option jv :=
  match l with
  | MNil => None
  | MCons _ key _ _ v _ t => match last_member k t with Some v' => Some v' | None => if kb k (js_unquote key) then Some v else None end
  end.

(** ** Proofs *)
Lemma kb_refl k : kb k k = true.
Proof. unfold kb. destruct (list_eq_dec Z.eq_dec k k); congruence. Qed.
Lemma kb_iff a b : kb a b = true <-> a = b.
Proof. unfold kb. destruct (list_eq_dec Z.eq_dec a b); split; congruence. Qed.
Lemma pget_pset ps k v k' : pget (pset ps k v) k' = if kb k' k then Some v else pget ps k'.
Proof.
  induction ps as [|[a x] ps IH]; cbn [pset pget].
  - destruct (kb k' k); reflexivity.
  - destruct (kb k a) eqn:E; cbn [pget].
    + apply kb_iff in E. subst a. destruct (kb k' k); reflexivity.
    + destruct (kb k' a) eqn:E'; [|exact IH]. apply kb_iff in E'. subst a. destruct (kb k' k) eqn:E2; [|reflexivity]. apply kb_iff in E2. subst. rewrite kb_refl in E. discriminate.
Qed.
Lemma pget_fold ms : forall ps k, pget (fold_left (fun ps m => pset ps (fst m) (snd m)) ms ps) k =
  match pget (fold_left (fun ps m => pset ps (fst m) (snd m)) ms []) k with Some v => Some v | None => pget ps k end.
Proof.
  induction ms as [|[a x] ms IH]; intros ps k; [reflexivity|]. cbn [fold_left fst snd]. rewrite IH, (IH (pset [] a x)).
  match goal with |- context [pget (fold_left ?g ms []) k] => destruct (pget (fold_left g ms []) k) end; [reflexivity|]. rewrite pget_pset. cbn [pset pget]. destruct (kb k a); reflexivity.
Qed.
Lemma pget_meaning l k : pget (fold_left (fun ps m => pset ps (fst m) (snd m)) (mmeaning l) []) k = option_map meaning (last_member k l).
Proof.
  induction l as [|w1 key w2 w3 v w4 t IH]; [reflexivity|]. cbn [mmeaning fold_left fst snd last_member]. rewrite pget_fold, IH.
  destruct (last_member k t); [reflexivity|]. cbn [option_map pset pget]. destruct (kb k (js_unquote key)); reflexivity.
Qed.

Lemma skip_start c t : is_space c = false -> skip_space (c :: t) = c :: t.
Proof. intros H. cbn [skip_space]. rewrite H. reflexivity. Qed.
Variable to_float : bytes -> option bytes.
Notation vwf := (vwf to_float). Notation iwf := (iwf to_float). Notation mwf := (mwf to_float).
Lemma js_scalar_text v r : vwf v -> is_scalar v = true -> stops r -> js_scalar (vtext v ++ r) = Some (vtok js_unquote (fun t => Some (js_float t)) v, r).
Proof.
  intros Hv Hs Hr. apply scalar_text; auto. destruct v as [|b|t|b|w l|w l]; try discriminate; cbn [JsonDoc.vwf] in *; auto. destruct Hv; split; eauto.
Qed.
Definition Q_v (v : jv) : Prop := vwf v -> forall w r fuel, ws w -> stops r -> (2 * length (vtext v) < fuel)%nat -> jp_val fuel (w ++ vtext v ++ r) = Some (meaning v, r).
Definition Q_i (l : jitems) : Prop :=
  match l with
  | INil => True
  | ICons w1 v w2 t => iwf l -> forall w r fuel, ws w -> (2 * length (w1 ++ vtext v ++ w2 ++ itext false t) + 1 < fuel)%nat ->
      jp_items fuel (w ++ w1 ++ vtext v ++ w2 ++ itext false t ++ 93 :: r) = Some (imeaning l, r)
  end.
Definition Q_m (l : jmembers) : Prop :=
  match l with
  | MNil => True
  | MCons w1 k w2 w3 v w4 t => mwf l -> forall w r fuel, ws w -> (2 * length (w1 ++ (34 :: k ++ [34]) ++ w2 ++ 58 :: w3 ++ vtext v ++ w4 ++ mtext false t)%Z + 1 < fuel)%nat ->
      jp_members fuel (w ++ w1 ++ (34 :: k ++ [34]) ++ w2 ++ 58 :: w3 ++ vtext v ++ w4 ++ mtext false t ++ 125 :: r) = Some (mmeaning l, r)
  end.
Lemma ws_app a b : ws a -> ws b -> ws (a ++ b).
Proof. apply Forall_app_2 || (intros; apply Forall_app; auto). Qed.
Lemma jp_all : (forall v, Q_v v) /\ (forall l, Q_i l) /\ (forall l, Q_m l).
Proof.
  apply json_ind; unfold Q_v, Q_i, Q_m; auto.
  - intros Hv w r fuel Hw Hr Hf. destruct fuel as [|fuel]; [lia|]. cbn [jp_val]. rewrite skip_ws by auto. reflexivity.
  - intros b Hv w r fuel Hw Hr Hf. destruct fuel as [|fuel]; [lia|]. cbn [jp_val]. rewrite skip_ws by auto. destruct b; reflexivity.
  - intros t Hv w r fuel Hw Hr Hf. destruct fuel as [|fuel]; [lia|]. cbn [jp_val]. rewrite skip_ws by auto.
    destruct (vtext_start js_unquote to_float (JNum t) r Hv) as (c & t' & E & H1 & _ & _ & _ & _ & H6). destruct (H6 eq_refl) as [H7 H8].
    pose proof (js_scalar_text (JNum t) r Hv eq_refl Hr) as Es. rewrite E in *. rewrite skip_start by auto. apply Z.eqb_neq in H7, H8. rewrite H7, H8, Es. reflexivity.
  - intros b Hv w r fuel Hw Hr Hf. destruct fuel as [|fuel]; [lia|]. cbn [jp_val]. rewrite skip_ws by auto.
    pose proof (js_scalar_text (JStr b) r Hv eq_refl Hr) as Es. cbn [vtext app] in *. rewrite skip_start by reflexivity.
    change (34 =? 123) with false. change (34 =? 91) with false. cbv iota. rewrite Es. reflexivity.
  - intros w0 l IH Hv w r fuel Hw Hr Hf. destruct fuel as [|fuel]; [lia|]. cbn [jp_val]. rewrite skip_ws by auto. cbn [vtext app JsonDoc.vwf] in *. destruct Hv as [Hw0 Hl]. rewrite skip_start by reflexivity.
    change (91 =? 123) with false. change (91 =? 91) with true. cbv iota. rewrite <- !app_assoc. destruct l as [|w1 v w2 t]; cbn [itext comma app].
    + rewrite skip_ws by auto. reflexivity.
    + cbn [JsonDoc.iwf] in Hl. pose proof Hl as (Hw1 & Hv & Hw2 & Ht).
      assert (Es : exists d r', skip_space (w0 ++ (w1 ++ vtext v ++ w2 ++ itext false t) ++ 93 :: r) = d :: r' /\ d <> 93).
      { rewrite skip_ws by auto. rewrite <- !app_assoc, skip_ws by auto. destruct (vtext_start js_unquote to_float v (w2 ++ itext false t ++ 93 :: r) Hv) as (d & r' & E & D1 & _ & _ & D2 & _). exists d, r'. rewrite E, skip_start; auto. }
      destruct Es as (d & r' & Es & Hd). rewrite Es. apply Z.eqb_neq in Hd. rewrite Hd.
      rewrite <- !app_assoc. cbn [app]. rewrite (IH Hl w0 r fuel Hw0); [reflexivity|]. cbn [itext comma app] in Hf. revert Hf. rewrite !app_length. cbn [length]. rewrite !app_length. cbn [length]. lia.
  - intros w0 l IH Hv w r fuel Hw Hr Hf. destruct fuel as [|fuel]; [lia|]. cbn [jp_val]. rewrite skip_ws by auto. cbn [vtext app JsonDoc.vwf] in *. destruct Hv as [Hw0 Hl]. rewrite skip_start by reflexivity.
    change (123 =? 123) with true. cbv iota. rewrite <- !app_assoc. destruct l as [|w1 k w2 w3 v w4 t]; cbn [mtext comma app].
    + rewrite skip_ws by auto. reflexivity.
    + cbn [JsonDoc.mwf] in Hl. pose proof Hl as (Hw1 & Hk & Hw2 & Hw3 & Hv & Hw4 & Ht).
      assert (Es : exists r', skip_space (w0 ++ (w1 ++ 34 :: (k ++ [34]) ++ w2 ++ 58 :: w3 ++ vtext v ++ w4 ++ mtext false t) ++ 125 :: r) = 34 :: r').
      { rewrite skip_ws by auto. rewrite <- !app_assoc, skip_ws by auto. cbn [app]. eexists. rewrite skip_start; reflexivity. }
      destruct Es as (r' & Es). rewrite Es. change (34 =? 125) with false. cbv iota.
      specialize (IH Hl w0 r fuel Hw0). cbn [app] in IH.
      replace (w0 ++ (w1 ++ 34 :: (k ++ [34]) ++ w2 ++ 58 :: w3 ++ vtext v ++ w4 ++ mtext false t) ++ 125 :: r) with (w0 ++ w1 ++ 34 :: (k ++ [34]) ++ w2 ++ 58 :: w3 ++ vtext v ++ w4 ++ mtext false t ++ 125 :: r) by (repeat (rewrite <- ?app_assoc; cbn [app]); reflexivity).
      rewrite IH; [reflexivity|]. cbn [mtext comma app] in Hf. revert Hf. repeat (rewrite ?app_length; cbn [length]). lia.
  - intros w1 v IHv w2 t IHt Hl w r fuel Hw Hf. cbn [JsonDoc.iwf] in Hl. destruct Hl as (Hw1 & Hv & Hw2 & Ht). destruct fuel as [|fuel]; [lia|]. cbn [jp_items].
    rewrite (app_assoc w w1). rewrite (IHv Hv (w ++ w1) (w2 ++ itext false t ++ 93 :: r) fuel).
    + rewrite skip_ws by auto. destruct t as [|w1' v' w2' t']; cbn [itext comma app].
      * rewrite skip_start by reflexivity. reflexivity.
      * rewrite skip_start by reflexivity. change (44 =? 93) with false. change (44 =? 44) with true. cbv iota.
        specialize (IHt Ht [] r fuel). cbn [app] in IHt. rewrite <- !app_assoc. rewrite IHt; [reflexivity|constructor|].
        cbn [itext comma app] in Hf. revert Hf. repeat (rewrite ?app_length; cbn [length]). lia.
    + apply ws_app; auto.
    + destruct Hw2 as [|x w2 Hx Hw2]; [|cbn [app stops]; tauto]. cbn [app]. destruct t; cbn [itext comma app stops]; tauto.
    + revert Hf. repeat (rewrite ?app_length; cbn [length]). lia.
  - intros w1 k w2 w3 v IHv w4 t IHt Hl w r fuel Hw Hf. cbn [JsonDoc.mwf] in Hl. destruct Hl as (Hw1 & Hk & Hw2 & Hw3 & Hv & Hw4 & Ht). destruct fuel as [|fuel]; [lia|]. cbn [jp_members].
    rewrite skip_ws by auto. rewrite skip_ws by auto. cbn [app]. rewrite skip_start by reflexivity. change (34 =? 34) with true. cbv iota. rewrite <- app_assoc. cbn [app]. rewrite (str_end_body js_unquote to_float) by auto.
    rewrite skip_ws by auto. rewrite skip_start by reflexivity. change (58 =? 58) with true. cbv iota.
    rewrite (IHv Hv w3 (w4 ++ mtext false t ++ 125 :: r) fuel); auto.
    + rewrite skip_ws by auto. destruct t as [|w1' k' w2' w3' v' w4' t']; cbn [mtext comma app].
      * rewrite skip_start by reflexivity. reflexivity.
      * rewrite skip_start by reflexivity. change (44 =? 125) with false. change (44 =? 44) with true. cbv iota.
        specialize (IHt Ht [] r fuel). cbn [app] in IHt.
        replace ((w1' ++ 34 :: (k' ++ [34]) ++ w2' ++ 58 :: w3' ++ vtext v' ++ w4' ++ mtext false t') ++ 125 :: r) with (w1' ++ 34 :: (k' ++ [34]) ++ w2' ++ 58 :: w3' ++ vtext v' ++ w4' ++ mtext false t' ++ 125 :: r) by (repeat (rewrite <- ?app_assoc; cbn [app]); reflexivity).
        rewrite IHt; [reflexivity|constructor|].
        cbn [mtext comma app] in Hf. revert Hf. repeat (rewrite ?app_length; cbn [length]). lia.
    + destruct Hw4 as [|x w4 Hx Hw4]; [|cbn [app stops]; tauto]. cbn [app]. destruct t; cbn [mtext comma app stops]; tauto.
    + revert Hf. repeat (rewrite ?app_length; cbn [length]). lia.
Qed.
(** JSON.parse gives a text its meaning *)
Lemma json_parse_text w v w' : ws w -> vwf v -> ws w' -> json_parse (w ++ vtext v ++ w') = Ok (meaning v).
Proof.
  intros Hw Hv Hw'. unfold json_parse. rewrite (proj1 jp_all v Hv w w').
  - rewrite <- (app_nil_r w'), skip_ws by auto. reflexivity.
  - auto.
  - destruct Hw' as [|x w' Hx _]; cbn [stops]; tauto.
  - rewrite !app_length. lia.
Qed.

(** a text that cannot be JSON: a comma after characters other than quotes and opening brackets *)
Definition plain (cell : bytes) : Prop := Forall (fun c => c <> 34 /\ c <> 91 /\ c <> 123) cell.
Definition has_comma (r : bytes) : Prop := exists x rest, r = x ++ 44 :: rest.
Lemma num_comma : forall x m rest v r, num_end m (x ++ 44 :: rest) = Some (v, r) -> has_comma r.
Proof.
  induction x as [|c x IH]; intros m rest v r; cbn [app num_end].
  - rewrite nstep_stop by tauto. destruct (naccept m); [|discriminate]. intros [= _ <-]. exists [], rest. reflexivity.
  - destruct (nstep m c) as [m'|]; cbn.
    + destruct (num_end m' (x ++ 44 :: rest)) as [[v' r']|] eqn:E; [|discriminate]. cbn. intros [= _ <-]. eapply IH; eauto.
    + destruct (naccept m); [|discriminate]. intros [= _ <-]. exists (c :: x), rest. reflexivity.
Qed.
Lemma strip_comma : forall p x rest r, ~ In 44 p -> strip_prefix p (x ++ 44 :: rest) = Some r -> has_comma r.
Proof.
  induction p as [|a p IH]; intros x rest r Hp; cbn [strip_prefix].
  - intros [= <-]. exists x, rest. reflexivity.
  - destruct x as [|c x]; cbn [app].
    + destruct (Z.eqb_spec a 44) as [->|]; [exfalso; apply Hp; left; auto|discriminate].
    + destruct (a =? c); [|discriminate]. apply IH. intros H; apply Hp; right; auto.
Qed.
Lemma skip_comma x rest : plain x -> exists x', plain x' /\ skip_space (x ++ 44 :: rest) = x' ++ 44 :: rest.
Proof.
  induction 1 as [|c x Hc Hx (x' & P & E)]; [exists []; split; [constructor|reflexivity]|]. cbn [app skip_space]. destruct (is_space c); [eauto|].
  exists (c :: x). split; [constructor; auto|reflexivity].
Qed.
Lemma skip_has r : has_comma r -> skip_space r <> [].
Proof.
  intros (x & rest & ->). induction x as [|c x IH]; cbn [app skip_space]; [discriminate|]. destruct (is_space c); [exact IH|discriminate].
Qed.
Lemma json_parse_comma cell rest : plain cell -> json_parse (cell ++ 44 :: rest) = Err (EMsg "SyntaxError").
Proof.
  intros Hc. unfold json_parse. cbn [jp_val]. destruct (skip_comma rest Hc) as (x & Hx & ->).
  destruct x as [|c x]; cbn [app]; [reflexivity|]. inversion Hx as [|? ? (H1 & H2 & H3) Hx']; subst.
  apply Z.eqb_neq in H1, H2, H3. rewrite H2, H3.
  destruct (js_scalar (c :: x ++ 44 :: rest)) as [[k r]|] eqn:E; [|reflexivity].
  assert (has_comma r) as Hr.
  { unfold js_scalar, scalar in E. rewrite H1 in E. destruct ((c =? 45) || is_digit c).
    - destruct (num_end _ (x ++ 44 :: rest)) as [[v r']|] eqn:En; [|discriminate]. injection E as _ <-. eapply num_comma; eauto.
    - change (c :: x ++ 44 :: rest) with ((c :: x) ++ 44 :: rest) in E.
      destruct (c =? 116); [destruct (strip_prefix lit_true _) eqn:En; [|discriminate]; injection E as _ <-; eapply strip_comma; [|exact En]; cbn; lia|].
      destruct (c =? 102); [destruct (strip_prefix lit_false _) eqn:En; [|discriminate]; injection E as _ <-; eapply strip_comma; [|exact En]; cbn; lia|].
      destruct (c =? 110); [destruct (strip_prefix lit_null _) eqn:En; [|discriminate]; injection E as _ <-; eapply strip_comma; [|exact En]; cbn; lia|discriminate]. }
  destruct (skip_space r) eqn:Es; [exfalso; eapply skip_has; eauto|reflexivity].
Qed.
End Js.
