(** What the JSONL handler does to the index file, as a list of actions. *)
From Coq Require Import Permutation.
From Verif Require Import Base Varint Store PageFile PageHist RefValue Node LinkedPage BPTree BPRepr BPIter BPInsert BPLoop BPTop PTree Meta Slots SlotAdd PSlots Cells IndexFile IFileInv PIndex PSpace Json Jsonl Grows.

(** ** Contents of an index file, without the places *)
Record ci := CI { ci_name : bytes; ci_type : Z; ci_total : Z; ci_es : smap }.
Definition strip (ix : ixr) : ci := CI (ix_name ix) (ix_type ix) (ix_total ix) (ix_es ix).
Definition ci_is (name : bytes) (ft : Z) (c : ci) : bool := name_eqb (ci_name c) name && (ci_type c =? ft).
(** find or create an index; insert into an index; add to the total of an index *)
Inductive act := AFind (name : bytes) (ft : Z) | APut (name : bytes) (ft : Z) (k : rv) (v : mptr) | AAdd (name : bytes) (ft : Z) (t : Z).
Definition step (a : act) (l : list ci) : list ci :=
  match a with
  | AFind n ft => if existsb (ci_is n ft) l then l else l ++ [CI n ft 0 []]
  | APut n ft k v => map (fun c => if ci_is n ft c then CI (ci_name c) (ci_type c) (ci_total c) ((k, v) :: ci_es c) else c) l
  | AAdd n ft t => map (fun c => if ci_is n ft c then CI (ci_name c) (ci_type c) (u64 (ci_total c + t)) (ci_es c) else c) l
  end.
Fixpoint run (acts : list act) (l : list ci) : list ci := match acts with [] => l | a :: t => run t (step a l) end.
Lemma run_app a b l : run (a ++ b) l = run b (run a l).
Proof. revert l. induction a as [|x a IH]; intros l; cbn [app run]; auto. Qed.

(** the size of the contents, which bounds the size of the index file (C71) *)
Definition pot (l : list ci) : Z := zlen l + fold_right (fun c t => zlen (ci_es c) + t) 0 l.
Lemma pot_step a l : pot l <= pot (step a l).
Proof.
  unfold pot. destruct a as [n ft|n ft k v|n ft t]; cbn [step].
  - destruct (existsb _ l); [lia|]. rewrite zlen_app, fold_right_app. cbn [fold_right ci_es]. change (zlen (@nil (rv * mptr))) with 0. change (zlen [CI n ft 0 []]) with 1.
    assert (X : forall x, fold_right (fun c t => zlen (ci_es c) + t) x l = x + fold_right (fun c t => zlen (ci_es c) + t) 0 l) by (intros x; induction l as [|c l IH]; cbn [fold_right]; lia). rewrite (X (0 + 0)). lia.
  - rewrite zlen_map. apply Z.add_le_mono_l. induction l as [|c l IH]; cbn [map fold_right]; [lia|]. destruct (ci_is n ft c); cbn [ci_es]; rewrite ?zlen_cons; lia.
  - rewrite zlen_map. apply Z.add_le_mono_l. induction l as [|c l IH]; cbn [map fold_right]; [lia|]. destruct (ci_is n ft c); cbn [ci_es]; lia.
Qed.
Lemma pot_run acts : forall l, pot l <= pot (run acts l).
Proof. induction acts as [|a acts IH]; intros l; cbn [run]; [lia|]. pose proof (pot_step a l). pose proof (IH (step a l)). lia. Qed.
(** the index file, of [n] bytes in the end, is far from the limits of its offsets *)
Definition small (n : Z) (l : list ci) : Prop := n < 2^60 \/ pot l < 2^46.
Lemma pot_small wd parse D fm l s : widths_ok wd -> ifile wd parse D fm l s -> pot (map strip l) < 2^46 -> zlen (file s) < 2^60.
Proof.
  intros Hwd Hi Hp. pose proof (C71_space_bound Hwd Hi) as B. unfold pot in Hp. rewrite zlen_map in Hp.
  assert (E : total_entries l = fold_right (fun c t => zlen (ci_es c) + t) 0 (map strip l)) by (unfold total_entries; clear; induction l as [|x l IH]; cbn [map fold_right]; [reflexivity|]; rewrite IH; reflexivity).
  rewrite <- E in Hp. assert (0 <= total_entries l) by (unfold total_entries; clear; induction l as [|x l IH]; cbn [fold_right]; [lia|]; pose proof (zlen_nonneg (ix_es x)); lia).
  pose proof (zlen_nonneg l). assert ((zlen l + 1) / 15 <= zlen l + 1) by (apply Z.div_le_upper_bound; lia). lia.
Qed.
Lemma small_before wd parse D fm l s n acts : widths_ok wd -> ifile wd parse D fm l s -> zlen (file s) <= n -> small n (run acts (map strip l)) -> zlen (file s) < 2^60.
Proof. intros Hwd Hi Hn [H|H]; [lia|]. eapply pot_small; eauto. pose proof (pot_run acts (map strip l)). lia. Qed.

Section Run.
Variables (unquote : bytes -> bytes) (to_float : bytes -> option bytes) (grams : bytes -> Z -> res (list (bytes * Z * Z))) (hdrs : list bytes).
Notation jparse := (jparse unquote to_float).
Notation ifile := (ifile determine_type jparse).
Definition jc (D : bytes) (ft : Z) : codec := ix_codec determine_type jparse D ft.
(** the conditions under which an action succeeds *)
Definition act_ok (D : bytes) (a : act) (l : list ci) : Prop :=
  match a with
  | AFind n ft => zlen n <= 236 /\ 0 <= ft < 2^8
  | APut n ft k v => op_ok (jc D ft) (k, v) /\ (determine_type ft = 0 \/ zlen (rv_val k) = determine_type ft - 1) /\
      forall c, In c l -> ci_is n ft c = true -> ~ In k (map fst (ci_es c))
  | AAdd n ft t => zlen n <= 236
  end.
Fixpoint acts_ok (D : bytes) (acts : list act) (l : list ci) : Prop := match acts with [] => True | a :: t => act_ok D a l /\ acts_ok D t (step a l) end.
Lemma acts_ok_app D a b l : acts_ok D (a ++ b) l <-> acts_ok D a l /\ acts_ok D b (run a l).
Proof. revert l. induction a as [|x a IH]; intros l; cbn [app acts_ok run]; [tauto|]. rewrite IH. tauto. Qed.

(** ** The actions of the handler *)
Definition W (A : Type) := (list act * res A)%type.
Definition wbind {A B} (w : W A) (k : A -> W B) : W B :=
  match snd w with
  | Ok a => (fst w ++ fst (k a), snd (k a))
  | Err e => (fst w, Err e) | Panic => (fst w, Panic) | Crash => (fst w, Crash) | Hang => (fst w, Hang)
  end.
Definition wret {A} (a : A) : W A := ([], Ok a).
Definition wlift {A} (r : res A) : W A := ([], r).
Definition wact (a : act) : W unit := ([a], Ok tt).
Definition gram_acts (name : bytes) (ft : Z) (mp : mptr) (len : Z) (data : mptr) (l : list (bytes * Z * Z)) : list act :=
  map (fun x => APut name ft (RV (MP (u64 (mp_off mp + snd (fst x))) (u32 len)) (fst (fst x))) data) l.
Definition gram_sum (l : list (bytes * Z * Z)) : Z := fold_right (fun x t => snd x + t) 0 l.
(** the value part of one field type; the number is what is added to the total *)
Definition w_value (data : mptr) (name : bytes) (value : tok) (fo : Z) (obj : dec -> W dec) (d : dec) (ft : Z) : W (dec * Z) :=
  let mp := MP (u64 (mp_off data + fo)) (u32 (d_off d - fo)) in
  if ft =? FTString then
    match value with TStr v => ([APut name ft (RV mp v) data], Ok (d, mp_len mp)) | _ => wlift (Err (EMsg "expected string")) end
  else if is_gram ft then
    match value with
    | TStr v => wbind (wlift (grams v (determine_type ft - 1))) (fun l => (gram_acts name ft mp (zlen v) data l, Ok (d, gram_sum l)))
    | _ => wlift (Err (EMsg "expected string"))
    end
  else if ft =? FTNull then ([APut name ft (RV mp []) data], Ok (d, 0))
  else if (ft =? FTFloat64) || (ft =? FTUint64) || (ft =? FTInt64) then
    ([APut name ft (RV mp (match value with TNum v => v | _ => zeros 8 end)) data], Ok (d, mp_len mp))
  else if ft =? FTBoolean then
    match value with TBool b => ([APut name ft (RV mp [if b then 1 else 0]) data], Ok (d, 1)) | _ => wlift (Err (EMsg "expected bool type")) end
  else if (ft =? FTArray) || (ft =? FTObject) then
    match value with
    | TDelim ch =>
        if ch =? 91 then wbind (wlift (skip_array unquote to_float (S (length (d_rest d))) 1 d)) (fun d' => wret (d', 0))
        else if ch =? 123 then wbind (obj d) (fun d' => wbind (wlift (close_object unquote to_float d')) (fun d'' => wret (d'', 0)))
        else wret (d, 0)
    | _ => wret (d, 0)
    end
  else wlift (Err (EMsg "unrecognized type")).
Definition w_ft (data : mptr) (name : bytes) (value : tok) (fo : Z) (obj : dec -> W dec) (d : dec) (ft : Z) : W dec :=
  wbind (wact (AFind name ft)) (fun _ => wbind (w_value data name value fo obj d ft) (fun dt => wbind (wact (AAdd name ft (snd dt))) (fun _ => wret (fst dt)))).
Fixpoint w_fts (f : dec -> Z -> W dec) (fts : list Z) (d : dec) : W dec :=
  match fts with [] => wret d | ft :: t => wbind (f d ft) (fun d' => w_fts f t d') end.
Fixpoint scan (fuel : nat) (data : mptr) (path : list bytes) (d : dec) : W dec :=
  match fuel with
  | O => wlift Hang
  | S fuel' =>
      if negb (more d) then wret d
      else
        wbind (wlift (token unquote to_float d)) (fun kd =>
        match fst kd with
        | TStr key =>
            let fo := d_off (snd kd) + 1 in
            wbind (wlift (token unquote to_float (snd kd))) (fun vd =>
            let name := join (path ++ [key]) in
            wbind (wlift (json_field_type (fst vd))) (fun ft =>
            wbind (w_fts (w_ft data name (fst vd) fo (scan fuel' data (path ++ [key])))
                     (ft :: if is_search hdrs name then [FTUnigram; FTBigram; FTTrigram] else []) (snd vd)) (fun d' =>
            scan fuel' data path d')))
        | _ => wlift (Err (EMsg "expected string key"))
        end)
  end.

(** ** One action *)
Lemma wd_ok : widths_ok determine_type.
Proof. intros ft. pose proof (determine_type_range ft). lia. Qed.
Lemma existsb_strip n ft l : existsb (ci_is n ft) (map strip l) = existsb (same_indexb n ft) l.
Proof. induction l as [|a l IH]; cbn [map existsb]; [auto|]. rewrite IH. reflexivity. Qed.
(** nothing disappears; totals of indexes with short names stay *)
Definition kept (L : Z) (l l' : list ixr) : Prop := forall ix, In ix l -> exists ix', In ix' l' /\ ix_at ix' = ix_at ix /\ ix_name ix' = ix_name ix /\ ix_type ix' = ix_type ix /\ (zlen (ix_name ix) <= L -> ix_total ix' = ix_total ix).
Lemma kept_refl L l : kept L l l.
Proof. intros ix H. exists ix. auto. Qed.
Lemma kept_trans L a b c : kept L a b -> kept L b c -> kept L a c.
Proof. intros H1 H2 ix Hx. destruct (H1 _ Hx) as (y & Hy & A & B & C & D). destruct (H2 _ Hy) as (z & Hz & A' & B' & C' & D'). exists z. repeat split; try congruence. intros X. rewrite D', D; auto. rewrite B; auto. Qed.
Lemma kept_mono L L' a b : L <= L' -> kept L' a b -> kept L a b.
Proof. intros H H1 ix Hx. destruct (H1 _ Hx) as (y & Hy & A & B & C & D). exists y. repeat split; auto. intros. apply D. lia. Qed.
Definition has (m : lp) (name : bytes) (ft t : Z) (l : list ixr) : Prop := exists ix, In ix l /\ ix_at ix = m /\ ix_name ix = name /\ ix_type ix = ft /\ ix_total ix = t.
Lemma has_kept L m name ft t l l' : zlen name <= L -> has m name ft t l -> kept L l l' -> has m name ft t l'.
Proof. intros HL (ix & Hi & A & B & C & E) HK. destruct (HK _ Hi) as (y & Hy & A' & B' & C' & D'). exists y. repeat split; try congruence. rewrite D'; [auto|]. rewrite B; auto. Qed.

Lemma find_step D fm l s name ft : ifile D fm l s -> zlen (file s) < 2^60 -> zlen name <= 236 -> 0 <= ft < 2^8 ->
  exists m t l' s', find_or_create file_slot name ft s = (Ok (m, IM name ft (determine_type ft) t), s') /\ ifile D fm l' s' /\ has m name ft t l' /\ 0 <= t < 2^64 /\
    map strip l' = step (AFind name ft) (map strip l) /\ forall L, kept L l l'.
Proof.
  intros Hi Hf Hn Hft. destruct (ifile_holds wd_ok Hi) as (HD & fl & ms & x0 & L & H).
  assert (Hrange : forall ix, In ix l -> 0 <= ix_total ix < 2^64).
  { intros ix Hx. apply In_nth_error in Hx. destruct Hx as (k & Hk). destruct (holds_nth _ H Hk) as (x & _ & (_ & (_ & _ & X) & _) & _). exact X. }
  cbn [step]. rewrite existsb_strip. destruct (existsb (same_indexb name ft) l) eqn:E.
  - destruct (find_existing _ _ H E) as (p & ix & I1 & (I2 & I3) & I4). exists (ix_at ix), (ix_total ix), l, (set_pos s p).
    unfold ix_meta in I4. rewrite I2, I3 in I4. split; [exact I4|]. split; [|split; [exists ix; auto|split; [auto|split; [auto|intros L2; apply kept_refl]]]].
    pose proof (@if_index _ _ D fm l s name ft _ _ _ Hi Hf ltac:(lia) Hft I4) as X. rewrite E in X. exact X.
  - destruct (@find_new (ix_codec determine_type jparse D) s fm l fl ms x0 L name ft) as (s2 & fl' & ms' & L' & F1 & F2 & F3 & F4 & _); auto; [intros; apply ix_codec_ok; auto; apply wd_ok|lia|].
    eexists _, 0, _, s2. split; [exact F1|]. pose proof (@if_index _ _ D fm l s name ft _ _ _ Hi Hf ltac:(lia) Hft F1) as X. rewrite E in X. split; [exact X|].
    split; [eexists; split; [apply in_or_app; right; left; reflexivity|auto]|]. split; [lia|]. split; [rewrite map_app; reflexivity|]. intros L2 ix Hx. exists ix. split; [apply in_or_app; auto|auto].
Qed.
Lemma strip_at D fm l s m n ft t g gc : ifile D fm l s -> has m n ft t l ->
  (forall ix, strip (g ix) = gc (strip ix)) ->
  map strip (at_index m g l) = map (fun c => if ci_is n ft c then gc c else c) (map strip l).
Proof.
  intros Hi (ix0 & Hin & <- & <- & <- & _) Hg. destruct (C23_unique wd_ok Hi) as [N1 N2]. unfold at_index. rewrite !map_map. apply map_ext_in. intros ix Hx.
  assert (E : lp_eqb (ix_at ix) (ix_at ix0) = ci_is (ix_name ix0) (ix_type ix0) (strip ix)).
  { destruct (ci_is _ _ _) eqn:E.
    - apply same_indexb_spec in E. destruct E as [E1 E2]. apply In_nth_error in Hx. destruct Hx as (i & Hx). apply In_nth_error in Hin. destruct Hin as (j & Hj).
      assert (i = j).
      { apply (proj1 (NoDup_nth_error _) N1); [rewrite map_length; apply nth_error_Some; congruence|]. rewrite !nth_error_map, Hx, Hj. cbn [option_map]. congruence. }
      subst j. assert (ix = ix0) by congruence. subst. apply lp_eqb_refl.
    - apply lp_eqb_neq. intros X. assert (Y : ci_is (ix_name ix0) (ix_type ix0) (strip ix) = true); [|congruence].
      apply In_nth_error in Hx. destruct Hx as (i & Hx). apply In_nth_error in Hin. destruct Hin as (j & Hj).
      assert (i = j).
      { apply (proj1 (NoDup_nth_error _) N2); [rewrite map_length; apply nth_error_Some; congruence|]. rewrite !nth_error_map, Hx, Hj. cbn [option_map]. congruence. }
      subst j. assert (ix = ix0) by congruence. subst. apply same_indexb_spec. split; auto. }
  rewrite E. destruct (ci_is _ _ _); auto.
Qed.
Lemma at_kept L m g l : (forall ix, ix_at (g ix) = ix_at ix /\ ix_name (g ix) = ix_name ix /\ ix_type (g ix) = ix_type ix) ->
  (forall ix, In ix l -> ix_at ix = m -> zlen (ix_name ix) <= L -> ix_total (g ix) = ix_total ix) -> kept L l (at_index m g l).
Proof.
  intros Hg Ht ix Hx. exists (if lp_eqb (ix_at ix) m then g ix else ix). split; [unfold at_index; apply in_map_iff; eauto|].
  destruct (lp_eqb (ix_at ix) m) eqn:E; [|auto]. destruct (Hg ix) as (A & B & C). repeat split; auto. apply Ht; auto.
  destruct (ix_at ix), m. unfold lp_eqb in E. cbn in E. apply andb_true_iff in E. destruct E as [E1 E2]. apply Z.eqb_eq in E1, E2. congruence.
Qed.
Lemma put_step D fm l s m name ft t k v : ifile D fm l s -> zlen (file s) < 2^60 -> has m name ft t l -> act_ok D (APut name ft k v) (map strip l) ->
  exists l' s', bp_insert (jc D ft) m k v s = (Ok tt, s') /\ ifile D fm l' s' /\ map strip l' = step (APut name ft k v) (map strip l) /\ forall L, kept L l l'.
Proof.
  intros Hi Hf Hh (Hop & Hw & Hnew). pose proof Hh as (ix & Hin & E1 & E2 & E3 & E4). destruct (ifile_holds wd_ok Hi) as (HD & fl & ms & x0 & L & H).
  pose proof Hin as Hin2. apply In_nth_error in Hin2. destruct Hin2 as (i & Hk). rewrite <- E3 in *. destruct (op_key_ok Hop Hw) as [Hkk Hv].
  destruct (@holds_put _ s fm l fl ms x0 L i ix k v H Hk) as (s' & fl' & L' & F1 & F2 & F3 & F4 & _); auto.
  { apply ix_codec_kw, wd_ok. }
  { apply (Hnew (strip ix)); [apply in_map_iff; eauto|]. apply same_indexb_spec. split; auto. }
  unfold jc. rewrite <- E1. eexists (at_index (ix_at ix) (with_put k v) l), s'. split; [exact F1|]. split; [eapply if_put; eauto|]. split.
  - cbn [step]. apply (@strip_at D fm l s (ix_at ix) name (ix_type ix) t (with_put k v) (fun c => CI (ci_name c) (ci_type c) (ci_total c) ((k, v) :: ci_es c))); auto. rewrite E1. exact Hh.
  - intros L2. apply at_kept; auto.
Qed.
Lemma add_step D fm l s m name ft t t' : ifile D fm l s -> has m name ft t l -> zlen name <= 236 ->
  exists l' s', save_index_meta m (IM name ft (determine_type ft) (u64 (t + t'))) s = (Ok tt, s') /\ ifile D fm l' s' /\ map strip l' = step (AAdd name ft t') (map strip l) /\
    forall L, L < zlen name -> kept L l l'.
Proof.
  intros Hi Hh Hn. pose proof Hh as (ix & Hin & E1 & E2 & E3 & E4). destruct (ifile_holds wd_ok Hi) as (HD & fl & ms & x0 & L & H).
  pose proof Hin as Hin2. apply In_nth_error in Hin2. destruct Hin2 as (i & Hk).
  assert (Hr : 0 <= u64 (t + t') < 2^64) by (unfold u64; apply Z.mod_pos_bound; lia). pose proof (put_uvarint_length Hr) as Hl.
  destruct (@holds_total _ s fm l fl ms x0 L i ix (u64 (t + t')) H Hk Hr) as (s' & L' & F1 & F2 & F3 & F4 & _); [rewrite E2; lia|].
  unfold ix_meta, with_total in F1. cbn [ix_name ix_type ix_total] in F1. rewrite E1, E2, E3 in F1.
  exists (at_index m (with_total (u64 (t + t'))) l), s'. split; [exact F1|]. split; [rewrite <- E1; eapply if_total; eauto; [rewrite E2; lia|unfold ix_meta, with_total; cbn [ix_name ix_type ix_total]; rewrite E1, E2, E3; exact F1]|].
  split.
  - cbn [step]. destruct (C23_unique wd_ok Hi) as [_ N2].
    transitivity (map strip (at_index m (fun ix => with_total (u64 (ix_total ix + t')) ix) l)).
    + f_equal. unfold at_index. apply map_ext_in. intros iy Hy. destruct (lp_eqb (ix_at iy) m) eqn:E; auto.
      assert (iy = ix); [|subst; congruence]. assert (X : ix_at iy = ix_at ix).
      { rewrite E1. destruct (ix_at iy), m. unfold lp_eqb in E. cbn in E. apply andb_true_iff in E. destruct E as [X1 X2]. apply Z.eqb_eq in X1, X2. congruence. }
      apply In_nth_error in Hy. destruct Hy as (j & Hj). assert (i = j).
      { apply (proj1 (NoDup_nth_error _) N2); [rewrite map_length; apply nth_error_Some; congruence|]. rewrite !nth_error_map, Hk, Hj. cbn [option_map]. congruence. }
      subst j. congruence.
    + apply (@strip_at D fm l s m name ft t _ (fun c => CI (ci_name c) (ci_type c) (u64 (ci_total c + t')) (ci_es c))); auto.
  - intros L2 HL. apply at_kept; auto. intros iy Hy X Y. exfalso. assert (iy = ix); [|subst; lia].
    destruct (C23_unique wd_ok Hi) as [_ N2]. apply In_nth_error in Hy. destruct Hy as (j & Hj). assert (i = j).
    { apply (proj1 (NoDup_nth_error _) N2); [rewrite map_length; apply nth_error_Some; congruence|]. rewrite !nth_error_map, Hk, Hj. cbn [option_map]. congruence. }
    subst j. congruence.
Qed.

(** ** Simulation *)
Section Sim.
Variable D : bytes.
Definition sim (P : list ixr -> Prop) (L : Z) {A} (m : M st A) (w : W A) : Prop :=
  forall fm l s, ifile D fm l s -> P l -> acts_ok D (fst w) (map strip l) -> small (zlen (file (snd (m s)))) (run (fst w) (map strip l)) ->
    exists l' s', m s = (snd w, s') /\ ifile D fm l' s' /\ map strip l' = run (fst w) (map strip l) /\ kept L l l'.
Definition stable (L : Z) (P : list ixr -> Prop) : Prop := forall l l', P l -> kept L l l' -> P l'.
Lemma sim_lift P L {A} (r : res A) : sim P L (lift r) (wlift r).
Proof. intros fm l s Hi _ _ _. exists l, s. split; auto. split; auto. split; auto. apply kept_refl. Qed.
Lemma sim_ret P L {A} (a : A) : sim P L (ret a) (wret a).
Proof. apply sim_lift. Qed.
Lemma sim_fail P L {A} e : sim P L (@fail st A e) (wlift (Err e)).
Proof. apply sim_lift. Qed.
Lemma sim_mono (P Q : list ixr -> Prop) L L' {A} (m : M st A) w : (forall l, Q l -> P l) -> L' <= L -> sim P L m w -> sim Q L' m w.
Proof. intros H1 H2 H fm l s Hi HQ Ha Hf. destruct (H fm l s Hi (H1 _ HQ) Ha Hf) as (l' & s' & A1 & A2 & A3 & A4). exists l', s'. repeat split; auto. eapply kept_mono; eauto. Qed.
Lemma sim_bind P L {A B} (m : M st A) (k : A -> M st B) w kw : stable L P -> sim P L m w -> (forall a, grows (k a)) -> (forall a, sim P L (k a) (kw a)) -> sim P L (bind m k) (wbind w kw).
Proof.
  intros HP Hm Hg Hk fm l s Hi Hl Ha Hf.
  assert (Ha1 : acts_ok D (fst w) (map strip l)).
  { unfold wbind in Ha. destruct (snd w); cbn [fst] in Ha; auto. apply acts_ok_app in Ha. tauto. }
  assert (Hf1 : small (zlen (file (snd (m s)))) (run (fst w) (map strip l))).
  { destruct Hf as [Hf|Hf]; [left|right].
    - unfold bind in Hf. destruct (m s) as [[a|e| | |] s1]; cbn [snd] in *; auto. pose proof (Hg a s1). lia.
    - unfold wbind in Hf. destruct (snd w); cbn [fst] in Hf; auto. rewrite run_app in Hf. eapply Z.le_lt_trans; [apply pot_run|exact Hf]. }
  destruct (Hm fm l s Hi Hl Ha1 Hf1) as (l1 & s1 & E1 & I1 & R1 & K1). unfold bind in *. rewrite E1 in *. unfold wbind in *.
  destruct (snd w) as [a|e| | |]; [|exists l1, s1; auto..].
  cbn [fst snd] in *. apply acts_ok_app in Ha. destruct Ha as [_ Ha]. rewrite run_app in Hf. rewrite <- R1 in Ha, Hf.
  destruct (Hk a fm l1 s1 I1 (HP _ _ Hl K1) Ha Hf) as (l2 & s2 & E2 & I2 & R2 & K2). exists l2, s2. split; auto. split; auto. split; [rewrite run_app, <- R1; auto|eapply kept_trans; eauto].
Qed.
Lemma has_stable L m name ft t : zlen name <= L -> stable L (has m name ft t).
Proof. intros H l l' Hl HK. eapply has_kept; eauto. Qed.
Lemma true_stable L : stable L (fun _ => True).
Proof. intros l l' _ _. exact I. Qed.
Lemma sim_put L m name ft t k v : sim (has m name ft t) L (bp_insert (jc D ft) m k v) (wact (APut name ft k v)).
Proof.
  intros fm l s Hi Hl [Ha _] Hf. pose proof (grows_bp_insert (jc D ft) m k v s) as Hg.
  assert (Hf0 : zlen (file s) < 2^60) by (exact (@small_before _ _ _ _ _ _ _ _ wd_ok Hi Hg Hf)).
  destruct (@put_step D fm l s m name ft t k v Hi Hf0 Hl Ha) as (l' & s' & A & B & C & E). exists l', s'. cbn [fst snd wact run]. auto.
Qed.
Lemma wret_map {A} (a : list act) (x : A) : (a, Ok x) = wbind (a, Ok tt) (fun _ => wret x).
Proof. unfold wbind, wret. cbn [fst snd]. rewrite app_nil_r. reflexivity. Qed.
Definition put_then {A} name ft k v (x : A) : W A := ([APut name ft k v], Ok x).
Lemma sim_put_then {A} L m name ft t k v (x : A) : zlen name <= L -> sim (has m name ft t) L (bp_insert (jc D ft) m k v ;;; ret x) (put_then name ft k v x).
Proof.
  intros HL. unfold put_then. rewrite wret_map. change ([APut name ft k v], Ok tt) with (wact (APut name ft k v)). apply sim_bind; [apply has_stable; auto|apply sim_put|intros; gr|intros; apply sim_ret].
Qed.
Lemma u64_add a b c : u64 (u64 (a + b) + c) = u64 (a + (b + c)).
Proof. unfold u64. rewrite Zplus_mod_idemp_l. f_equal. lia. Qed.
Lemma sim_grams L m name ft t0 mp len data : zlen name <= L -> forall gl t,
  sim (has m name ft t0) L (put_grams (jc D ft) m mp len data gl (u64 t)) (gram_acts name ft mp len data gl, Ok (u64 (t + gram_sum gl))).
Proof.
  intros HL. induction gl as [|[[w o] n] gl IH]; intros t; cbn [put_grams gram_acts gram_sum map fold_right fst snd].
  - rewrite Z.add_0_r. apply sim_ret.
  - assert (E1 : u64 (u64 t + n) = u64 (t + n)) by (unfold u64; rewrite Zplus_mod_idemp_l; auto). rewrite E1. fold (gram_sum gl). rewrite Z.add_assoc.
    apply (@sim_bind (has m name ft t0) L unit Z (bp_insert (jc D ft) m (RV (MP (u64 (mp_off mp + o)) (u32 len)) w) data) (fun _ => put_grams (jc D ft) m mp len data gl (u64 (t + n))) (wact (APut name ft (RV (MP (u64 (mp_off mp + o)) (u32 len)) w) data)) (fun _ => (gram_acts name ft mp len data gl, Ok (u64 (t + n + gram_sum gl))))).
    + apply has_stable; auto.
    + apply sim_put.
    + intros _. apply grows_put_grams.
    + intros _. apply IH.
Qed.
Definition rmap {A B} (f : A -> B) (r : res A) : res B := match r with Ok a => Ok (f a) | Err e => Err e | Panic => Panic | Crash => Crash | Hang => Hang end.
Definition wmap {A B} (f : A -> B) (w : W A) : W B := (fst w, rmap f (snd w)).
Definition addt (t : Z) (x : dec * Z) : dec * Z := (fst x, u64 (t + snd x)).
Lemma sim_eq P L {A} (m : M st A) w w' : w = w' -> sim P L m w -> sim P L m w'.
Proof. intros ->. auto. Qed.
Lemma wmap_bind {A B C} (f : B -> C) (w : W A) k : wmap f (wbind w k) = wbind w (fun a => wmap f (k a)).
Proof. unfold wmap, wbind. destruct (snd w); reflexivity. Qed.
Lemma u64_small t : 0 <= t < 2^64 -> u64 t = t.
Proof. intros. unfold u64. apply Z.mod_small. auto. Qed.
Lemma sim_value m name ft t data value fo obj wobj d : 0 <= t < 2^64 ->
  (forall d, grows (obj d)) -> (forall d, sim (fun _ => True) (zlen name) (obj d) (wobj d)) ->
  sim (has m name ft t) (zlen name) (index_value unquote to_float grams m (IM name ft (determine_type ft) t) D data value fo obj d ft) (wmap (addt t) (w_value data name value fo wobj d ft)).
Proof.
  intros Ht Hg Ho. assert (HS : stable (zlen name) (has m name ft t)) by (apply has_stable; lia). unfold index_value, w_value. cbv zeta. cbn [im_width im_total].
  change (jcodec unquote to_float (determine_type ft) D) with (jc D ft). set (mp := MP _ _).
  assert (Hput : forall v n, sim (has m name ft t) (zlen name) (bp_insert (jc D ft) m (RV mp v) data ;;; ret (d, u64 (t + n))) (wmap (addt t) ([APut name ft (RV mp v) data], Ok (d, n)))).
  { intros v n. apply (@sim_put_then _ (zlen name) m name ft t (RV mp v) data (d, u64 (t + n))). lia. }
  assert (Hret : forall x, sim (has m name ft t) (zlen name) (ret (x, t)) (wmap (addt t) (wret (x, 0)))).
  { intros x. eapply sim_eq; [|apply sim_ret]. unfold wmap, wret, addt. cbn. rewrite Z.add_0_r, u64_small by auto. reflexivity. }
  assert (Hfail : forall e, sim (has m name ft t) (zlen name) (fail e) (wmap (addt t) (wlift (Err e)))) by (intros e; apply sim_fail).
  destruct (ft =? FTString); [destruct value; auto|].
  destruct (is_gram ft).
  { destruct value; auto. rewrite wmap_bind. apply sim_bind; auto; [apply sim_lift|intros; gr; apply grows_put_grams|]. intros gl.
    eapply sim_eq; [|apply (@sim_bind _ _ Z _ _ (fun t' => ret (d, t')) (gram_acts name ft mp (zlen v) data gl, Ok (u64 (t + gram_sum gl))) (fun t' => wret (d, t'))); auto; [|intros; gr|intros; apply sim_ret]].
    - unfold wbind, wret, wmap, addt. cbn. rewrite app_nil_r. reflexivity.
    - pose proof (@sim_grams (zlen name) m name ft t mp (zlen v) data (Z.le_refl _) gl t) as X. rewrite u64_small in X at 1 by auto. exact X. }
  destruct (ft =? FTNull).
  { specialize (Hput [] 0). rewrite Z.add_0_r, u64_small in Hput by auto. exact Hput. }
  destruct ((ft =? FTFloat64) || (ft =? FTUint64) || (ft =? FTInt64)); [apply Hput|].
  destruct (ft =? FTBoolean); [destruct value; auto|].
  destruct ((ft =? FTArray) || (ft =? FTObject)); [|auto].
  destruct value; auto. destruct (c =? 91); [|destruct (c =? 123); auto].
  - rewrite wmap_bind. apply sim_bind; auto; [apply sim_lift|intros; gr].
  - rewrite wmap_bind. apply sim_bind; auto; [|intros; gr|].
    + apply (@sim_mono (fun _ => True) (has m name ft t) (zlen name) (zlen name)); [auto|lia|apply Ho].
    + intros d'. rewrite wmap_bind. apply sim_bind; auto; [apply sim_lift|intros; gr].
Qed.
Lemma sim_ft L data name value fo obj wobj d ft : L < zlen name -> (forall d, grows (obj d)) -> (forall d, sim (fun _ => True) (zlen name) (obj d) (wobj d)) ->
  sim (fun _ => True) L (index_ft unquote to_float grams file_slot D data name value fo obj d ft) (w_ft data name value fo wobj d ft).
Proof.
  intros HL Hg Ho fm l s Hi _ Ha Hf. unfold w_ft in *. pose proof (grows_index_ft unquote to_float grams file_slot D data name value fo obj d ft Hg s) as G0.
  change (wbind (wact (AFind name ft)) ?k) with (AFind name ft :: fst (k tt), snd (k tt)) in *. cbv beta in *. cbn [fst snd acts_ok run] in *. destruct Ha as [[Hn Hft] Ha].
  assert (Hf0 : zlen (file s) < 2^60) by (eapply (@small_before _ _ _ _ _ _ _ (AFind name ft :: _) wd_ok Hi G0); exact Hf).
  destruct (@find_step D fm l s name ft Hi Hf0 Hn Hft) as (m & t & l1 & s1 & E1 & I1 & H1 & Ht & R1 & K1).
  rewrite <- R1 in *. unfold index_ft in *. rewrite (@bind_ok _ _ _ _ _ _ _ _ E1) in *. cbv zeta in *. cbn [fst snd im_name im_type im_width] in *.
  set (X := index_value _ _ _ _ _ _ _ _ _ _ _ _) in *. set (wX := w_value _ _ _ _ _ _ _) in *.
  assert (HX : sim (has m name ft t) (zlen name) X (wmap (addt t) wX)) by (apply sim_value; auto). clearbody X wX.
  assert (Ha1 : acts_ok D (fst wX) (map strip l1)).
  { unfold wbind in Ha. destruct (snd wX); cbn [fst] in Ha; auto. apply acts_ok_app in Ha. tauto. }
  assert (Hf1 : small (zlen (file (snd (X s1)))) (run (fst wX) (map strip l1))).
  { destruct Hf as [Hf|Hf]; [left|right].
    - match type of Hf with zlen (file (snd (bind X ?k s1))) < _ => assert (Y : forall a, grows (k a)) by (intros; gr) end.
      unfold bind at 1 in Hf. destruct (X s1) as [[a|e| | |] s2]; cbn [snd] in *; auto. pose proof (Y a s2). lia.
    - unfold wbind at 1 in Hf. destruct (snd wX); cbn [fst] in Hf; auto. rewrite run_app in Hf. eapply Z.le_lt_trans; [apply pot_run|exact Hf]. }
  destruct (HX fm l1 s1 I1 H1 Ha1 Hf1) as (l2 & s2 & E2 & I2 & R2 & K2). cbn [fst snd wmap] in E2, R2.
  assert (K12 : kept L l l2) by (eapply kept_trans; [apply K1|eapply kept_mono; [|exact K2]; lia]).
  clear Hf. unfold bind at 1. rewrite E2 in *. unfold wbind at 1 in Ha. unfold wbind at 1 3. destruct (snd wX) as [[d' n]|e| | |]; cbn [rmap] in *; [|exists l2, s2; auto..].
  cbn [addt fst snd wact] in *. unfold wbind, wact, wret in *. cbn [fst snd app] in *. apply acts_ok_app in Ha. destruct Ha as [_ Ha]. cbn [acts_ok act_ok] in Ha.
  destruct (@add_step D fm l2 s2 m name ft t n I2) as (l3 & s3 & E3 & I3 & R3 & K3); [eapply has_kept; [|exact H1|exact K2]; lia|tauto|].
  exists l3, s3. rewrite (@bind_ok _ _ _ _ _ _ _ _ E3). split; [reflexivity|]. split; auto. split; [rewrite run_app, <- R2; cbn [run]; auto|]. eapply kept_trans; eauto.
Qed.
Lemma sim_fts L f wf : (forall d ft, grows (f d ft)) -> (forall d ft, sim (fun _ => True) L (f d ft) (wf d ft)) -> forall fts d, sim (fun _ => True) L (index_fts f fts d) (w_fts wf fts d).
Proof.
  intros Hg H. induction fts as [|ft fts IH]; intros d; cbn [index_fts w_fts]; [apply sim_ret|]. apply sim_bind; auto; [apply true_stable|]. intros. apply grows_index_fts. auto.
Qed.
Definition plen (path : list bytes) : Z := match path with [] => -1 | _ => zlen (join path) end.
Lemma join_snoc path key : path <> [] -> join (path ++ [key]) = join path ++ 46 :: key.
Proof.
  induction path as [|x path IH]; [congruence|]. intros _. destruct path as [|y path]; [reflexivity|].
  change (join ((x :: y :: path) ++ [key])) with (x ++ 46 :: join ((y :: path) ++ [key])). rewrite IH by discriminate.
  change (join (x :: y :: path)) with (x ++ 46 :: join (y :: path)). rewrite <- app_assoc. reflexivity.
Qed.
Lemma plen_lt path key : plen path < zlen (join (path ++ [key])).
Proof.
  unfold plen. destruct path as [|x path]; [pose proof (zlen_nonneg (join ([] ++ [key]))); lia|]. rewrite join_snoc by discriminate. rewrite zlen_app, zlen_cons. pose proof (zlen_nonneg key). lia.
Qed.
Lemma plen_snoc path key : plen (path ++ [key]) = zlen (join (path ++ [key])).
Proof. unfold plen. destruct path; reflexivity. Qed.
Theorem sim_handle data : forall fuel path d, sim (fun _ => True) (plen path) (handle_object unquote to_float grams hdrs fuel file_slot D data path d) (scan fuel data path d).
Proof.
  induction fuel as [|fuel IH]; intros path d; cbn [handle_object scan]; [apply sim_lift|]. destruct (negb (more d)); [apply sim_ret|].
  assert (Hg : forall path d, grows (handle_object unquote to_float grams hdrs fuel file_slot D data path d)) by (intros; apply grows_handle).
  assert (Hgf : forall name v fo key d ft, grows (index_ft unquote to_float grams file_slot D data name v fo (handle_object unquote to_float grams hdrs fuel file_slot D data (path ++ [key])) d ft)) by (intros; apply grows_index_ft; auto).
  apply sim_bind; [apply true_stable|apply sim_lift| |].
  { intros [[c|key|v|b|] d1]; cbn [fst snd]; gr. apply grows_index_fts. auto. }
  intros [[c|key|v|b|] d1]; cbn [fst snd]; try apply sim_fail.
  apply sim_bind; [apply true_stable|apply sim_lift| |].
  { intros a. gr. apply grows_index_fts. auto. }
  intros [v d2]. cbn [fst snd]. apply sim_bind; [apply true_stable|apply sim_lift| |].
  { intros a. gr. apply grows_index_fts. auto. }
  intros ft. apply sim_bind; [apply true_stable| |auto|].
  - apply sim_fts; [auto|]. intros d3 ft3. apply sim_ft; [apply plen_lt|auto|]. intros d4. rewrite <- plen_snoc. apply IH.
  - intros d3. apply IH.
Qed.
End Sim.
End Run.
