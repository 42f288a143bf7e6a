(** The actions of the JSONL handler on a well-formed JSON object: a list computed
    from the text. *)
From Coq Require Import Permutation.
From Verif Require Import Base Varint Store PageFile PageHist RefValue Node LinkedPage BPTree BPRepr BPIter BPInsert BPLoop BPTop PTree Meta Slots SlotAdd PSlots Cells IndexFile IFileInv PIndex Json Jsonl Grows JsonlRun JsonDoc.

Section JDoc.
Variables (unquote : bytes -> bytes) (to_float : bytes -> option bytes) (grams : bytes -> Z -> res (list (bytes * Z * Z))) (hdrs : list bytes).
Notation token := (token unquote to_float).
Notation scan := (scan unquote to_float grams hdrs).
Notation vwf := (vwf to_float).
Notation iwf := (iwf to_float).
Notation mwf := (mwf to_float).
Notation vtok := (vtok unquote to_float).

Ltac regroup := repeat first [rewrite <- app_assoc | progress (cbn [app])].
(** ** The actions *)
Definition vtype (v : jv) : Z := match v with JNull => FTNull | JBool _ => FTBoolean | JNum _ => FTFloat64 | JStr _ => FTString | JArr _ _ => FTArray | JObj _ _ => FTObject end.
(** the bytes of a scalar value *)
Definition vval (v : jv) : option bytes :=
  match v with
  | JNull => Some [] | JBool b => Some [if b then 1 else 0]
  | JNum t => Some (match to_float t with Some f => f | None => [] end)
  | JStr b => Some (unquote b)
  | _ => None
  end.
(** what a scalar adds to the total of its index; [n] is the length of its range *)
Definition vadd (v : jv) (n : Z) : Z := match v with JBool _ => 1 | JNum _ | JStr _ => n | _ => 0 end.
(** the n-grams of a searched string *)
Definition gram_list (b : bytes) (n : Z) : list (bytes * Z * Z) := match grams (unquote b) n with Ok l => l | _ => [] end.
Definition gacts (data : mptr) (name : bytes) (fo : Z) (b : bytes) (n ft : Z) : list act :=
  AFind name ft :: gram_acts name ft (MP (u64 (mp_off data + fo)) 0) (zlen (unquote b)) data (gram_list b n) ++ [AAdd name ft (gram_sum (gram_list b n))].
Definition sacts (data : mptr) (name : bytes) (fo : Z) (v : jv) : list act :=
  match v with
  | JStr b => if is_search hdrs name then gacts data name fo b 1 FTUnigram ++ gacts data name fo b 2 FTBigram ++ gacts data name fo b 3 FTTrigram else []
  | _ => []
  end.
Fixpoint vacts (data : mptr) (path : list bytes) (fo pos : Z) (v : jv) : list act :=
  let name := join path in
  let mp := MP (u64 (mp_off data + fo)) (u32 (pos + zlen (vtext v) - fo)) in
  AFind name (vtype v) ::
  match v with JObj w l => macts data path (pos + 1 + zlen w) true l | _ => match vval v with Some b => [APut name (vtype v) (RV mp b) data] | None => [] end end
  ++ [AAdd name (vtype v) (vadd v (mp_len mp))]
with macts (data : mptr) (path : list bytes) (pos : Z) (first : bool) (l : jmembers) : list act :=
  match l with
  | MNil => []
  | MCons w1 k w2 w3 v w4 t =>
      let kend := pos + zlen (comma first) + zlen w1 + (zlen k + 2) in
      let vstart := kend + zlen w2 + 1 + zlen w3 in
      vacts data (path ++ [unquote k]) (kend + 1) vstart v ++ sacts data (join (path ++ [unquote k])) (kend + 1) v ++ macts data path (vstart + zlen (vtext v) + zlen w4) false t
  end.
(** a name that is a search header has a string value, and the n-grams of the string exist *)
Definition gram_ready (v : jv) : Prop := match v with JStr b => forall n, 1 <= n <= 3 -> exists l, grams (unquote b) n = Ok l | _ => False end.
Fixpoint vplain (path : list bytes) (v : jv) : Prop := match v with JObj _ l => mplain path l | _ => True end
with mplain (path : list bytes) (l : jmembers) : Prop :=
  match l with
  | MNil => True
  | MCons _ k _ _ v _ t => (is_search hdrs (join (path ++ [unquote k])) = true -> gram_ready v) /\ vplain (path ++ [unquote k]) v /\ mplain path t
  end.

(** ** Proofs *)
Lemma wbind_ok {A B} acts (a : A) (k : A -> W B) b r : k a = (b, r) -> wbind (acts, Ok a) k = (acts ++ b, r).
Proof. intros E. unfold wbind. cbn [fst snd]. rewrite E. reflexivity. Qed.
Lemma wlift_ok {A B} (a : A) (k : A -> W B) : wbind (wlift (Ok a)) k = k a.
Proof. unfold wbind, wlift. cbn [fst snd app]. destruct (k a); reflexivity. Qed.
Lemma more_true w c t off st k : ws w -> is_space c = false -> c <> 93 -> c <> 125 -> more (DE (w ++ c :: t) off st k) = true.
Proof. intros Hw Hc H1 H2. unfold more. cbn [d_rest]. rewrite skip_ws by auto. cbn [skip_space]. rewrite Hc. apply Z.eqb_neq in H1, H2. rewrite H1, H2. reflexivity. Qed.
Lemma more_false w t off st k : ws w -> more (DE (w ++ 125 :: t) off st k) = false.
Proof. intros Hw. unfold more. cbn [d_rest]. rewrite skip_ws by auto. reflexivity. Qed.
Lemma vtok_type v : json_field_type (vtok v) = Ok (vtype v).
Proof. destruct v; reflexivity. Qed.

Definition Q_m (l : jmembers) : Prop := mwf l -> forall data path first w (r : bytes) off k fuel, ws w -> mplain path l ->
  (length (w ++ mtext first l ++ (125%Z :: r)) < fuel)%nat ->
  exists w', ws w' /\ scan fuel data path (DE (w ++ mtext first l ++ 125 :: r) off (if first then ObjectStart else ObjectComma) k) =
    (macts data path (off + zlen w) first l, Ok (DE (w' ++ 125 :: r) (off + zlen w + zlen (mtext first l) - zlen w') (match l with MNil => if first then ObjectStart else ObjectComma | _ => ObjectComma end) k)).
Definition Q_v (v : jv) : Prop := match v with JObj _ l => Q_m l | _ => True end.
(** the value token and what the handler does with it *)
Lemma scan_value v : Q_v v -> vwf v -> forall data path fo w2 w3 r off k fuel, ws w2 -> ws w3 -> stops r -> vplain path v ->
  (length (w2 ++ 58%Z :: w3 ++ vtext v ++ r) <= fuel)%nat ->
  exists d1, token (DE (w2 ++ 58 :: w3 ++ vtext v ++ r) off ObjectColon k) = Ok (vtok v, d1) /\
    w_ft unquote to_float grams data (join path) (vtok v) fo (scan fuel data path) d1 (vtype v) =
      (vacts data path fo (off + zlen w2 + 1 + zlen w3) v, Ok (DE r (off + zlen w2 + 1 + zlen w3 + zlen (vtext v)) ObjectComma k)).
Proof.
  intros HQ Hv data path fo w2 w3 r off k fuel H2 H3 Hr Hp Hf. pose proof (pre_colon H2 H3) as Hpre.
  assert (EZ : off + zlen (w2 ++ 58 :: w3) = off + zlen w2 + 1 + zlen w3) by (rewrite zlen_app, zlen_cons; lia).
  assert (ER : w2 ++ 58 :: w3 ++ vtext v ++ r = (w2 ++ 58 :: w3) ++ vtext v ++ r) by (rewrite <- app_assoc; reflexivity).
  destruct (is_scalar v) eqn:Hs.
  - eexists. split; [rewrite ER; apply (@token_scalar _ _ _ _ _ v r off k Hpre eq_refl Hv Hs Hr)|]. rewrite EZ. cbn [value_end].
    destruct v as [|b|t|b|w l|w l]; try discriminate; unfold w_ft; cbn [JsonDoc.vtok vacts vval vtype vadd mp_len]; unfold w_value; cbn [d_off]; reflexivity.
  - destruct v as [|b|t|b|w l|w l]; try discriminate; cbn [vwf] in Hv; destruct Hv as [Hw Hl].
    + cbn [vtext] in *. assert (ER2 : w2 ++ 58 :: w3 ++ (91 :: w ++ itext true l ++ [93]) ++ r = (w2 ++ 58 :: w3) ++ 91 :: (w ++ itext true l ++ 93 :: r)) by (regroup; reflexivity).
      eexists. split; [rewrite ER2; apply (@token_open unquote to_float _ _ _ 91 (w ++ itext true l ++ 93 :: r) off k Hpre eq_refl (or_introl eq_refl))|]. rewrite EZ.
      unfold w_ft. cbn [JsonDoc.vtok vtype]. change (91 =? 91) with true. cbv iota. unfold w_value. cbn [d_off d_rest].
      change (FTArray =? FTString) with false. change (is_gram FTArray) with false. change (FTArray =? FTNull) with false. change ((FTArray =? FTFloat64) || (FTArray =? FTUint64) || (FTArray =? FTInt64)) with false.
      change (FTArray =? FTBoolean) with false. change ((FTArray =? FTArray) || (FTArray =? FTObject)) with true. cbv iota. change (91 =? 91) with true. cbv iota.
      rewrite skip_array_text by auto. rewrite wlift_ok. cbn [vacts vval vtype vadd]. cbn [value_end]. unfold wbind, wact, wret. cbn [fst snd app]. match goal with |- (_, Ok (DE _ ?x _ _)) = (_, Ok (DE _ ?y _ _)) => replace x with y by (rewrite zlen_cons, !zlen_app; change (zlen [93]) with 1; lia) end. reflexivity.
    + cbn [vtext] in *. assert (ER2 : w2 ++ 58 :: w3 ++ (123 :: w ++ mtext true l ++ [125]) ++ r = (w2 ++ 58 :: w3) ++ 123 :: (w ++ mtext true l ++ 125 :: r)) by (regroup; reflexivity).
      eexists. split; [rewrite ER2; apply (@token_open unquote to_float _ _ _ 123 (w ++ mtext true l ++ 125 :: r) off k Hpre eq_refl (or_intror eq_refl))|]. rewrite EZ.
      unfold w_ft. cbn [JsonDoc.vtok vtype]. change (123 =? 91) with false. cbv iota. unfold w_value.
      change (FTObject =? FTString) with false. change (is_gram FTObject) with false. change (FTObject =? FTNull) with false. change ((FTObject =? FTFloat64) || (FTObject =? FTUint64) || (FTObject =? FTInt64)) with false.
      change (FTObject =? FTBoolean) with false. change ((FTObject =? FTArray) || (FTObject =? FTObject)) with true. cbv iota. change (123 =? 91) with false. change (123 =? 123) with true. cbv iota zeta.
      destruct (HQ Hl data path true w r (off + zlen w2 + 1 + zlen w3 + 1) (ObjectValue :: k) fuel Hw Hp) as (w' & Hw' & E).
      { rewrite ER2 in Hf. revert Hf. repeat (rewrite app_length; cbn [length]). lia. }
      rewrite E. set (d1 := DE (w' ++ 125 :: r) _ _ _).
      assert (Ec : close_object unquote to_float d1 = Ok (DE r (off + zlen w2 + 1 + zlen w3 + zlen (123 :: w ++ mtext true l ++ [125])) ObjectComma k)).
      { unfold close_object, d1. rewrite (@token_close unquote to_float (match l with MNil => ObjectStart | _ => ObjectComma end) w' 125 r (off + zlen w2 + 1 + zlen w3 + 1 + zlen w + zlen (mtext true l) - zlen w') ObjectValue k Hw' (or_intror (conj eq_refl (last_m l)))).
        change (125 =? 125) with true. cbv iota. cbn [value_end]. f_equal. f_equal. rewrite zlen_cons, !zlen_app. change (zlen [125]) with 1. lia. }
      erewrite (@wbind_ok _ _ _ d1); [|rewrite Ec, wlift_ok; reflexivity]. cbn [vacts vtype vadd]. unfold wbind, wact, wret. cbn [fst snd app]. rewrite app_nil_r. reflexivity.
Qed.
Lemma gram_step data name b fo obj d n ft l : is_gram ft = true -> ft <> FTString -> determine_type ft - 1 = n -> grams (unquote b) n = Ok l ->
  w_ft unquote to_float grams data name (TStr (unquote b)) fo obj d ft = (gacts data name fo b n ft, Ok d).
Proof.
  intros Hg Hs Hn El. unfold w_ft, w_value. apply Z.eqb_neq in Hs. rewrite Hs, Hg, Hn, El, wlift_ok. unfold gacts, gram_list. rewrite El. unfold gram_acts. cbn [mp_off].
  unfold wbind, wact, wret. cbn [fst snd app]. reflexivity.
Qed.
Lemma scan_grams data name v fo obj d : is_search hdrs name = true -> gram_ready v ->
  w_fts (w_ft unquote to_float grams data name (vtok v) fo obj) [FTUnigram; FTBigram; FTTrigram] d = (sacts data name fo v, Ok d).
Proof.
  intros Hs Hg. destruct v as [|b|t|b|w l|w l]; try contradiction. cbn [gram_ready] in Hg. cbn [sacts JsonDoc.vtok]. rewrite Hs.
  destruct (Hg 1 ltac:(lia)) as (l1 & E1). destruct (Hg 2 ltac:(lia)) as (l2 & E2). destruct (Hg 3 ltac:(lia)) as (l3 & E3). cbn [w_fts].
  rewrite (@gram_step data name b fo obj d 1 FTUnigram l1 eq_refl ltac:(discriminate) eq_refl E1).
  erewrite wbind_ok; [reflexivity|]. rewrite (@gram_step data name b fo obj d 2 FTBigram l2 eq_refl ltac:(discriminate) eq_refl E2).
  erewrite wbind_ok; [reflexivity|]. rewrite (@gram_step data name b fo obj d 3 FTTrigram l3 eq_refl ltac:(discriminate) eq_refl E3).
  erewrite wbind_ok; [|reflexivity]. rewrite app_nil_r. reflexivity.
Qed.
Lemma scan_all : (forall v, Q_v v) /\ (forall l : jitems, True) /\ (forall l, Q_m l).
Proof.
  apply json_ind; try (intros; exact I).
  - intros w l IH. exact IH.
  - intros _ data path first w r off k fuel Hw _ Hf. exists w. split; auto. destruct fuel as [|fuel]; [lia|]. cbn [mtext app macts JsonlRun.scan]. rewrite more_false by auto. cbn [negb].
    unfold wret. change (zlen (@nil Z)) with 0. replace (off + zlen w + 0 - zlen w) with off by lia. reflexivity.
  - intros w1 key w2 w3 v IHv w4 t IHt (H1 & Hk & H2 & H3 & Hv & H4 & Ht) data path first w r off k fuel Hw (Hp1 & Hp2 & Hp3) Hf.
    destruct fuel as [|fuel]; [lia|]. cbn [mtext] in *.
    assert (ER : w ++ (comma first ++ w1 ++ (34 :: key ++ [34]) ++ w2 ++ 58 :: w3 ++ vtext v ++ w4 ++ mtext false t) ++ 125 :: r = (w ++ comma first ++ w1) ++ 34 :: key ++ 34 :: (w2 ++ 58 :: w3 ++ vtext v ++ (w4 ++ mtext false t ++ 125 :: r))) by (regroup; reflexivity).
    rewrite ER in *. set (rest := w2 ++ 58 :: w3 ++ vtext v ++ (w4 ++ mtext false t ++ 125 :: r)) in *.
    assert (Hstop : stops (w4 ++ mtext false t ++ 125 :: r)) by (apply ws_stops; auto; eapply mtext_stops; eauto).
    assert (Hlen : (length rest < fuel)%nat) by (revert Hf; clear; repeat (rewrite app_length; cbn [length]); lia).
    assert (Hlen4 : (length (w4 ++ mtext false t ++ 125%Z :: r) < fuel)%nat) by (revert Hlen; unfold rest; clear; repeat (rewrite app_length; cbn [length]); lia).
    set (kend := off + zlen (w ++ comma first ++ w1) + (zlen key + 2)).
    destruct (@scan_value v IHv Hv data (path ++ [unquote key]) (kend + 1) w2 w3 (w4 ++ mtext false t ++ 125 :: r) kend k fuel H2 H3 Hstop Hp2) as (d1 & Et & Ew); [fold rest; lia|].
    destruct (IHt Ht data path false w4 r (kend + zlen w2 + 1 + zlen w3 + zlen (vtext v)) k fuel H4 Hp3 Hlen4) as (w' & Hw' & Es).
    exists w'. split; auto. cbn [JsonlRun.scan].
    assert (Em : more (DE ((w ++ comma first ++ w1) ++ 34 :: key ++ 34 :: rest) off (if first then ObjectStart else ObjectComma) k) = true).
    { destruct first; cbn [comma app].
      - apply more_true; [apply ws_app; auto|reflexivity|lia|lia].
      - rewrite <- app_assoc. cbn [app]. apply more_true; [auto|reflexivity|lia|lia]. }
    rewrite Em. cbn [negb].
    rewrite (@token_key unquote to_float _ _ (if first then ObjectStart else ObjectKey) key rest off k (@pre_mem first w w1 Hw H1) ltac:(destruct first; auto) Hk).
    rewrite wlift_ok. cbn [fst snd d_off]. fold kend. fold rest in Et. rewrite Et, wlift_ok. cbn [fst snd]. rewrite vtok_type, wlift_ok.
    assert (Esr : w_fts (w_ft unquote to_float grams data (join (path ++ [unquote key])) (vtok v) (kend + 1) (scan fuel data (path ++ [unquote key])))
      (if is_search hdrs (join (path ++ [unquote key])) then [FTUnigram; FTBigram; FTTrigram] else []) (DE (w4 ++ mtext false t ++ 125 :: r) (kend + zlen w2 + 1 + zlen w3 + zlen (vtext v)) ObjectComma k) =
      (sacts data (join (path ++ [unquote key])) (kend + 1) v, Ok (DE (w4 ++ mtext false t ++ 125 :: r) (kend + zlen w2 + 1 + zlen w3 + zlen (vtext v)) ObjectComma k))).
    { destruct (is_search hdrs (join (path ++ [unquote key]))) eqn:Hse; [apply scan_grams; auto|]. cbn [w_fts]. unfold wret. f_equal. destruct v; try reflexivity. cbn [sacts]. rewrite Hse. reflexivity. }
    cbn [w_fts].
    match goal with |- wbind (wbind ?a _) _ = _ => change a with (w_ft unquote to_float grams data (join (path ++ [unquote key])) (vtok v) (kend + 1) (scan fuel data (path ++ [unquote key])) d1 (vtype v)) end.
    rewrite Ew. erewrite (@wbind_ok _ _ (vacts _ _ _ _ _)); [|exact Esr]. erewrite wbind_ok; [|exact Es].
    f_equal.
    + cbn [macts]. replace (off + zlen w + zlen (comma first) + zlen w1 + (zlen key + 2)) with kend by (unfold kend; rewrite !zlen_app; lia). rewrite <- app_assoc. reflexivity.
    + f_equal. f_equal.
      * unfold kend. repeat (rewrite zlen_app || rewrite zlen_cons). change (zlen (@nil Z)) with 0. lia.
      * destruct t; reflexivity.
Qed.
(** A line that holds one object: the opening bracket, the members, the closing bracket. *)
Theorem scan_line data w0 w l w1 : ws w0 -> ws w -> mwf l -> mplain [] l ->
  let line := w0 ++ vtext (JObj w l) ++ w1 in
  exists d d' d'', token (new_dec line) = Ok (TDelim 123, d) /\
    scan (S (length line)) data [] d = (macts data [] (zlen w0 + 1 + zlen w) true l, Ok d') /\ close_object unquote to_float d' = Ok d''.
Proof.
  intros H0 Hw Hl Hp line. unfold line, new_dec. cbn [vtext].
  assert (ER : w0 ++ (123 :: w ++ mtext true l ++ [125]) ++ w1 = w0 ++ 123 :: (w ++ mtext true l ++ 125 :: w1)) by (regroup; reflexivity). rewrite ER.
  eexists. destruct scan_all as (_ & _ & HQ).
  destruct (HQ l Hl data [] true w w1 (0 + zlen w0 + 1) [TopValue] (S (length (w0 ++ 123 :: w ++ mtext true l ++ 125 :: w1))) Hw Hp) as (w' & Hw' & E).
  { rewrite (app_length w0). cbn [length]. lia. }
  eexists _, _. split; [apply (@token_open unquote to_float TopValue w0 TopValue 123 (w ++ mtext true l ++ 125 :: w1) 0 [] (pre_ws _ H0) eq_refl (or_intror eq_refl))|].
  change (123 =? 91) with false. cbv iota. split; [exact E|]. unfold close_object.
  rewrite (@token_close unquote to_float (match l with MNil => ObjectStart | _ => ObjectComma end) w' 125 w1 (0 + zlen w0 + 1 + zlen w + zlen (mtext true l) - zlen w') TopValue [] Hw' (or_intror (conj eq_refl (last_m l)))). reflexivity.
Qed.
End JDoc.
