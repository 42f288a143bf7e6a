(** C53: parsing a multipart/byteranges body, however it is cut into chunks. *)
From Verif Require Import Base Multipart.

(** ** Specification: what a body looks like *)
Definition crlf : bytes := [13; 10].
(** the bytes that stand for a header line, a part and a body with boundary [b];
    [after] is what follows the last boundary and its two dashes *)
Definition enc_header (h : bytes * bytes) : bytes := fst h ++ str ": " ++ snd h ++ crlf.
Definition enc_part (b : bytes) (p : part) : bytes :=
  str "--" ++ b ++ crlf ++ concat (map enc_header (p_headers p)) ++ crlf ++ p_data p ++ crlf.
Definition enc_body (b : bytes) (ps : list part) (after : bytes) : bytes :=
  concat (map (enc_part b) ps) ++ str "--" ++ b ++ str "--" ++ after.
(** the number a string of digits stands for *)
Definition digits (s : bytes) : Prop := s <> [] /\ Forall (fun x => 48 <= x <= 57) s.
Definition decimal (s : bytes) : Z := fold_left (fun a x => 10 * a + (x - 48)) s 0.
(** a header name or value: printable, without the separator, no space at either end *)
Definition clean (s : bytes) : Prop :=
  s <> [] /\ Forall (fun x => 32 <= x < 127 /\ x <> 58) s /\ hd 0 s <> 32 /\ last s 0 <> 32.
(** a header the parser can keep: a clean name and value, the name not __proto__ *)
Definition header_ok (h : bytes * bytes) : Prop := clean (fst h) /\ clean (snd h) /\ fst h <> str "__proto__".
(** a part: clean headers with different names, one of them the Content-Range of its data *)
Definition part_wf (p : part) : Prop :=
  Forall header_ok (p_headers p) /\ NoDup (map fst (p_headers p)) /\
  exists first last total, digits first /\ digits last /\ Forall (fun x => x <> 32) total /\
    In (str "Content-Range", str "bytes " ++ first ++ str "-" ++ last ++ str "/" ++ total) (p_headers p) /\
    zlen (p_data p) = decimal last - decimal first + 1.
(** headers sent with the same name more than once: each name where it came first, ... *)
Fixpoint firsts (l : list bytes) : list bytes :=
  match l with [] => [] | k :: l => k :: filter (fun x => if list_eq_dec Z.eq_dec x k then false else true) (firsts l) end.
(** ... with the value that came last *)
Definition last_value (k : bytes) (hs : list (bytes * bytes)) : bytes :=
  last (map snd (filter (fun h => if list_eq_dec Z.eq_dec (fst h) k then true else false) hs)) [].
Definition held (hs : list (bytes * bytes)) : list (bytes * bytes) := map (fun k => (k, last_value k hs)) (firsts (map fst hs)).
(** what is received of a part sent with the headers [p_headers p] in this order *)
Definition received (p : part) : part := Part (p_data p) (held (p_headers p)).
Definition sent_wf (p : part) : Prop := Forall header_ok (p_headers p) /\ part_wf (received p).
(** a boundary parameter of one token *)
Definition token_char (x : Z) : Prop := 33 <= x < 127 /\ x <> 59 /\ x <> 61 /\ x <> 34.
Definition content_type (b : bytes) : bytes := str "multipart/byteranges; boundary=" ++ b.

(** ** Two sources of bytes that agree give the same answers *)
Section Sim.
Context {S T : Type} (byteS : P S Z) (advS : S -> S) (byteT : P T Z) (advT : T -> T) (R R' : S -> T -> Prop).
Definition agree {A} (Q : S -> T -> Prop) (x : pr A * S) (y : pr A * T) : Prop :=
  match x, y with
  | (Next a, s), (Next b, t) => a = b /\ Q s t
  | (Return, _), (Return, _) => True | (Throw w, _), (Throw w', _) => w = w' | (Stuck, _), (Stuck, _) => True
  | _, _ => False
  end.
Definition sim {A} (p : P S A) (q : P T A) : Prop := forall s t, R s t -> agree R (p s) (q t).
Hypothesis Hbyte : forall s t, R s t -> agree R' (byteS s) (byteT t).
Hypothesis Hadv : forall s t, R' s t -> R (advS s) (advT t).

Lemma sim_ret {A} (a : A) : sim (pret a) (pret a). Proof. intros s t H. cbn. auto. Qed.
Lemma sim_bind {A B} (p : P S A) q (k : A -> P S B) l : sim p q -> (forall a, sim (k a) (l a)) -> sim (pbind p k) (pbind q l).
Proof.
  intros H1 H2 s t H. specialize (H1 s t H). unfold agree, pbind in *. destruct (p s) as [[a| |w|] s'], (q t) as [[b| |w'|] t']; try tauto; try (subst; auto; fail).
  destruct H1 as [-> H1]. apply H2; auto.
Qed.
Lemma sim_stuck {A} : sim (fun s => (@Stuck A, s)) (fun t => (Stuck, t)). Proof. intros s t H. exact I. Qed.
Lemma sim_throw {A} w : sim (@pthrow S A w) (pthrow w). Proof. intros s t H. reflexivity. Qed.
Lemma sim_return {A} : sim (@preturn S A) preturn. Proof. intros s t H. exact I. Qed.
Lemma sim_pure {A} (x : pr A) : sim (fun s => (x, s)) (fun t => (x, t)). Proof. intros s t H. destruct x; cbn; auto. Qed.
(** a look, followed either by a step or by the end *)
Lemma sim_step {A} (k : Z -> P S A) (l : Z -> P T A) : (forall x, sim (k x) (l x)) ->
  sim (pbind byteS (fun x => pbind (step advS) (fun _ => k x))) (pbind byteT (fun x => pbind (step advT) (fun _ => l x))).
Proof.
  intros Hk s t H. pose proof (Hbyte H) as HB. unfold agree, pbind in *. destruct (byteS s) as [[a| |w|] s'], (byteT t) as [[b| |w'|] t']; try tauto; try (subst; auto; fail).
  destruct HB as [-> H1]. cbn [step]. apply Hk; auto.
Qed.
Lemma sim_look {A} (c : Z -> bool) (k : Z -> P S A) (l : Z -> P T A) (e : Z -> pr A) : (forall x, sim (k x) (l x)) -> (forall x a, e x <> Next a) ->
  sim (pbind byteS (fun x => if c x then pbind (step advS) (fun _ => k x) else fun s => (e x, s)))
      (pbind byteT (fun x => if c x then pbind (step advT) (fun _ => l x) else fun s => (e x, s))).
Proof.
  intros Hk He s t H. pose proof (Hbyte H) as HB. unfold agree, pbind in *. destruct (byteS s) as [[a| |w|] s'], (byteT t) as [[b| |w'|] t']; try tauto; try (subst; auto; fail).
  destruct HB as [-> H1]. destruct (c b); [cbn [step]; apply Hk; auto|]. destruct (e b) eqn:E; auto. exfalso. eapply He; eauto.
Qed.
Lemma sim_eq {A} (p p' : P S A) (q q' : P T A) : (forall s, p s = p' s) -> (forall t, q t = q' t) -> sim p q -> sim p' q'.
Proof. intros H1 H2 H s t HR. rewrite <- H1, <- H2. auto. Qed.
Ltac ext := intros ?s; unfold pbind; repeat match goal with
  | |- context [?f ?s] => match type of (f s) with (pr _ * _)%type => destruct (f s) as [[?a| |?w|] ?s'] eqn:?; auto end end.

Lemma sim_boundary b : sim (boundary_loop byteS advS b) (boundary_loop byteT advT b).
Proof.
  induction b as [|c b IH]; [apply sim_ret|]. cbn [boundary_loop].
  eapply sim_eq; [| |apply (@sim_look unit (fun x => x =? c) (fun _ => boundary_loop byteS advS b) (fun _ => boundary_loop byteT advT b) (fun _ => Throw "Invalid boundary"))]; auto; try discriminate.
  all: intros s; unfold pbind at 1 3; match goal with |- context [let (_, _) := ?f s in _] => destruct (f s) as [[x| |w|] s'] end; auto; destruct (x =? c); reflexivity.
Qed.
Lemma sim_terminator b : sim (terminator_loop byteS advS b) (terminator_loop byteT advT b).
Proof.
  induction b as [|c b IH]; [apply sim_ret|]. cbn [terminator_loop].
  eapply sim_eq; [| |apply (@sim_look unit (fun x => x =? c) (fun _ => terminator_loop byteS advS b) (fun _ => terminator_loop byteT advT b) (fun x => if x =? dash then Return else Throw "Invalid boundary"))]; auto.
  3:{ intros x a. destruct (x =? dash); discriminate. }
  all: intros s; unfold pbind at 1 3; match goal with |- context [let (_, _) := ?f s in _] => destruct (f s) as [[x| |w|] s'] end; auto; destruct (x =? c); auto; destruct (x =? dash); reflexivity.
Qed.
Lemma sim_trailing b : sim (trailing_loop byteS advS b) (trailing_loop byteT advT b).
Proof.
  induction b as [|c b IH]; [apply sim_ret|]. cbn [trailing_loop].
  eapply sim_eq; [| |apply (@sim_look unit (fun x => x =? c) (fun _ => trailing_loop byteS advS b) (fun _ => trailing_loop byteT advT b) (fun _ => Throw "Invalid boundary"))]; auto; try discriminate.
Qed.
Lemma sim_headers fuel : forall last header h, sim (headers_loop byteS advS fuel last header h) (headers_loop byteT advT fuel last header h).
Proof.
  induction fuel as [|fuel IH]; intros last header h; [apply sim_stuck|]. cbn [headers_loop]. apply sim_step. intros x.
  destruct (_ && _); [|apply IH]. destruct (_ =? _); [apply sim_ret|]. destruct (header_line _ _); [apply IH|apply sim_return|apply sim_throw|apply sim_stuck].
Qed.
Lemma sim_data n : sim (data_loop byteS advS n) (data_loop byteT advT n).
Proof. induction n as [|n IH]; [apply sim_ret|]. cbn [data_loop]. apply sim_step. intros x. apply sim_bind; auto. intros d. apply sim_ret. Qed.
Lemma sim_part fuel b : sim (read_part byteS advS fuel b) (read_part byteT advT fuel b).
Proof.
  unfold read_part. apply sim_bind; [apply sim_boundary|intros _]. apply sim_bind; [apply sim_terminator|intros _].
  apply sim_bind; [apply sim_headers|intros h]. apply sim_bind; [apply sim_pure|intros n]. apply sim_bind; [apply sim_data|intros d]. apply sim_ret.
Qed.
Lemma sim_parts fuel hf b : forall s t, R s t -> parts_loop byteS advS fuel hf b s = parts_loop byteT advT fuel hf b t.
Proof.
  induction fuel as [|fuel IH]; intros s t H; [reflexivity|]. cbn [parts_loop]. pose proof (@sim_part hf b s t H) as Hp. unfold agree in Hp.
  destruct (read_part byteS advS hf b s) as [[p| |w|] s'], (read_part byteT advT hf b t) as [[q| |w'|] t']; try tauto; try (subst; reflexivity).
  destruct Hp as [-> Hp]. pose proof (@sim_trailing [cr; lf] s' t' Hp) as Ht. unfold agree in Ht.
  destruct (trailing_loop byteS advS [cr; lf] s') as [[[]| |w|] s2], (trailing_loop byteT advT [cr; lf] t') as [[[]| |w'|] t2]; try tauto; try (subst; reflexivity).
  destruct Ht as [_ Ht]. rewrite (IH _ _ Ht). reflexivity.
Qed.
End Sim.

(** ** The ring buffer is a list of bytes *)
Definition list_byte : P bytes Z := fun t => match t with [] => (Stuck, t) | x :: _ => (Next x, t) end.
Definition ring_rest (s : ring) : bytes := slice (rbuf s) (rptr s) (rlen s) ++ (match resid s with Some r => r | None => [] end) ++ concat (chunks s).
Definition ring_ok (s : ring) : Prop := zlen (rbuf s) = ringLen /\ 0 <= rptr s < ringLen /\ 0 <= rlen s /\ rptr s + rlen s <= ringLen.
Definition todo (s : ring) : nat := (length (chunks s) + match resid s with Some _ => 1 | None => 0 end)%nat.

Lemma take_rest (m : Z) (r : bytes) : 1 <= m ->
  let n := Z.min (zlen r) m in
  zlen (firstn (Z.to_nat n) r) = n /\
  firstn (Z.to_nat n) r ++ (match (if zlen (skipn (Z.to_nat n) r) =? 0 then None else Some (skipn (Z.to_nat n) r)) with Some r => r | None => [] end) = r.
Proof.
  intros Hm n. pose proof (zlen_nonneg r). split.
  - unfold zlen in *. rewrite firstn_length. lia.
  - destruct (Z.eqb_spec (zlen (skipn (Z.to_nat n) r)) 0) as [E|E].
    + apply zlen_zero_nil in E. rewrite <- (firstn_skipn (Z.to_nat n) r) at 2. rewrite E. reflexivity.
    + apply firstn_skipn.
Qed.
Lemma extend_ok s : ring_ok s -> rlen s = 0 ->
  match todo s with
  | O => extend s = (Stuck, s) /\ ring_rest s = []
  | _ => exists s1, extend s = (Next false, s1) /\ ring_ok s1 /\ ring_rest s1 = ring_rest s /\ (rlen s1 = 0 -> (todo s1 < todo s)%nat)
  end.
Proof.
  intros (H1 & H2 & H3 & H4) Hl. unfold extend, ring_rest, todo. rewrite Hl in *. unfold ringLen in *.
  destruct (Z.eqb_spec 0 4096) as [X|_]; [lia|]. destruct (Z.leb_spec 4096 (rptr s + 0)) as [X|_]; [lia|].
  rewrite Z.add_0_r. rewrite Z.max_r by lia. rewrite slice_zero. cbn [app].
  assert (G : forall r cs, exists s1,
     (Next false, mkRing (upd (rbuf s) (rptr s) (firstn (Z.to_nat (Z.min (zlen r) (4096 - rptr s))) r)) (rptr s) (0 + zlen (firstn (Z.to_nat (Z.min (zlen r) (4096 - rptr s))) r))
        (if zlen (skipn (Z.to_nat (Z.min (zlen r) (4096 - rptr s))) r) =? 0 then None else Some (skipn (Z.to_nat (Z.min (zlen r) (4096 - rptr s))) r)) cs) = (Next false, s1) /\
     ring_ok s1 /\ slice (rbuf s1) (rptr s1) (rlen s1) ++ (match resid s1 with Some r => r | None => [] end) ++ concat (chunks s1) = r ++ concat cs /\
     (rlen s1 = 0 -> (length (chunks s1) + match resid s1 with Some _ => 1 | None => 0 end < length cs + 1)%nat)).
  { intros r cs. destruct (@take_rest (4096 - rptr s) r ltac:(lia)) as [T1 T2]. eexists. split; [reflexivity|]. cbn [rbuf rptr rlen resid chunks].
    set (n := Z.min (zlen r) (4096 - rptr s)) in *. pose proof (zlen_nonneg r) as Hr.
    split; [|split].
    - unfold ring_ok. cbn [rbuf rptr rlen]. rewrite T1. split; [rewrite zlen_upd by lia; unfold ringLen; lia|]. unfold ringLen. lia.
    - rewrite app_assoc. f_equal. rewrite Z.add_0_l. rewrite slice_upd_same by lia. exact T2.
    - rewrite T1. intros Hn. destruct (Z.eqb_spec (zlen (skipn (Z.to_nat n) r)) 0) as [E|E]; [lia|]. exfalso. apply E.
      assert (Z0 : zlen r = 0) by lia. apply zlen_zero_nil in Z0. subst r. rewrite skipn_nil. reflexivity. }
  unfold read_from. destruct (resid s) as [r|].
  - rewrite Nat.add_1_r. destruct (G r (chunks s)) as (s1 & E & K1 & K2 & K3). exists s1. split; [exact E|]. split; auto. split; auto. intros X. specialize (K3 X). lia.
  - destruct (chunks s) as [|c cs]; cbn [length Nat.add concat]; [auto|].
    destruct (G c cs) as (s1 & E & K1 & K2 & K3). exists s1. split; [exact E|]. split; auto. split; auto. intros X. specialize (K3 X). lia.
Qed.
Lemma fill_ok : forall fuel s, ring_ok s -> (todo s + 1 < fuel)%nat ->
  match ring_rest s with
  | [] => exists s', fill fuel s = (Stuck, s')
  | _ => exists s', fill fuel s = (Next tt, s') /\ ring_ok s' /\ ring_rest s' = ring_rest s /\ 0 < rlen s'
  end.
Proof.
  induction fuel as [|fuel IH]; intros s Hok Hf; [lia|]. cbn [fill]. destruct (Z.eqb_spec (rlen s) 0) as [E|E].
  - pose proof (extend_ok Hok E) as He. destruct (todo s) as [|k] eqn:Et.
    + destruct He as [He ->]. unfold pbind. rewrite He. eauto.
    + destruct He as (s1 & He & K1 & K2 & K3). unfold pbind. rewrite He. rewrite <- K2.
      destruct (Z.eq_dec (rlen s1) 0) as [E1|E1]; [apply IH; auto; specialize (K3 E1); lia|].
      destruct fuel as [|fuel]; [lia|]. cbn [fill]. destruct (Z.eqb_spec (rlen s1) 0); [lia|].
      pose proof K1 as (Q1 & Q2 & Q3 & Q4).
      assert (Hne : ring_rest s1 <> []).
      { unfold ring_rest. intros X. apply app_eq_nil in X. destruct X as [X _]. apply (f_equal zlen) in X. rewrite zlen_slice in X by (unfold ringLen in *; lia). change (zlen (@nil Z)) with 0 in X. lia. }
      destruct (ring_rest s1) eqn:Er; [congruence|]. exists s1. split; auto. split; auto. split; auto. lia.
  - pose proof Hok as (Q1 & Q2 & Q3 & Q4).
    assert (Hne : ring_rest s <> []).
    { unfold ring_rest. intros X. apply app_eq_nil in X. destruct X as [X _]. apply (f_equal zlen) in X. rewrite zlen_slice in X by (unfold ringLen in *; lia). change (zlen (@nil Z)) with 0 in X. lia. }
    destruct (ring_rest s) eqn:Er; [congruence|]. exists s. split; auto. split; auto. split; auto. lia.
Qed.
Definition rR (s : ring) (t : bytes) : Prop := ring_ok s /\ ring_rest s = t.
Definition rR' (s : ring) (t : bytes) : Prop := rR s t /\ 0 < rlen s.
Lemma slice_head (f : bytes) o l : 0 <= o -> 0 < l -> o + l <= zlen f -> slice f o l = nth (Z.to_nat o) f 0 :: slice f (o + 1) (l - 1).
Proof.
  intros H1 H2 H3. unfold slice. unfold zlen in H3.
  replace (Z.to_nat l) with (S (Z.to_nat (l - 1))) by lia. replace (Z.to_nat (o + 1)) with (S (Z.to_nat o)) by lia.
  assert (L : (Z.to_nat o < length f)%nat) by lia. clear H1 H2 H3. revert L. generalize (Z.to_nat (l - 1)) as k, (Z.to_nat o) as n. intros k n. revert f.
  induction n as [|n IH]; intros f L; destruct f as [|x f]; cbn [length] in L; try lia; [reflexivity|]. apply (IH f). lia.
Qed.
Lemma ring_byte_ok s t : rR s t -> agree rR' (ring_byte s) (list_byte t).
Proof.
  intros [Hok <-]. unfold ring_byte, pbind. pose proof (@fill_ok (Datatypes.S (Datatypes.S (Datatypes.S (length (chunks s))))) s Hok) as Hf.
  destruct (ring_rest s) as [|x r] eqn:Er.
  - destruct Hf as (s' & ->); [unfold todo; destruct (resid s); lia|]. exact I.
  - destruct Hf as (s' & -> & K1 & K2 & K3); [unfold todo; destruct (resid s); lia|]. cbn [list_byte agree].
    pose proof K1 as (Q1 & Q2 & Q3 & Q4).
    assert (E : nth (Z.to_nat (rptr s')) (rbuf s') 0 = x).
    { unfold ring_rest in K2. rewrite (@slice_head (rbuf s') (rptr s') (rlen s')) in K2 by lia. cbn [app] in K2. congruence. }
    split; auto. split; [split; auto|lia].
Qed.
Lemma ring_adv_ok s t : rR' s t -> rR (ring_adv s) (tl t).
Proof.
  intros [[(Q1 & Q2 & Q3 & Q4) <-] Hl]. unfold ring_rest. rewrite (@slice_head (rbuf s) (rptr s) (rlen s)) by lia. cbn [app tl].
  unfold rR, ring_ok, ring_rest, ring_adv. cbn [rbuf rptr rlen resid chunks]. unfold ringLen in *.
  destruct (Z.eq_dec (rptr s) 4095) as [E|E].
  - rewrite E. change ((4095 + 1) mod 4096) with 0. assert (rlen s = 1) by lia. split; [lia|]. rewrite H. rewrite !slice_zero. reflexivity.
  - rewrite Z.mod_small by lia. split; [lia|]. reflexivity.
Qed.
(** the parser on the bytes themselves *)
Definition parse_bytes (contentType body : bytes) : list part * pr unit :=
  match boundary_of contentType with
  | Next b => let fuel := Datatypes.S (length body) in parts_loop list_byte (@tl Z) fuel fuel (str "--" ++ b) body
  | Return => ([], Return) | Throw w => ([], Throw w) | Stuck => ([], Stuck)
  end.
Lemma parse_is_parse_bytes ct cs : parse_multipart ct cs = parse_bytes ct (concat cs).
Proof.
  unfold parse_multipart, parse_bytes. destruct (boundary_of ct); auto. cbv zeta.
  apply (@sim_parts _ _ _ _ _ _ rR rR'); [apply ring_byte_ok|apply ring_adv_ok|].
  split; [unfold ring_ok, ring_open; cbn [rbuf rptr rlen]; rewrite zlen_zeros by (unfold ringLen; lia); unfold ringLen; lia|].
  unfold ring_rest, ring_open. cbn [rbuf rptr rlen resid chunks]. rewrite slice_zero. reflexivity.
Qed.

(** C53, chunking: what is yielded and how it ends depends on the bytes of the
    body only, never on how they are cut into chunks, whether the body is well
    formed or not. *)
Theorem C53_chunking_does_not_matter : forall contentType chunks1 chunks2,
  concat chunks1 = concat chunks2 -> parse_multipart contentType chunks1 = parse_multipart contentType chunks2.
Proof. intros ct a b H. rewrite !parse_is_parse_bytes, H. reflexivity. Qed.

(** ** The parser on a well formed body *)
Local Notation byte := list_byte. Local Notation adv := (@tl Z).
Lemma boundary_run b t : boundary_loop byte adv b (b ++ t) = (Next tt, t).
Proof. induction b as [|c b IH]; [reflexivity|]. cbn [boundary_loop app]. unfold pbind at 1. cbn [list_byte]. rewrite Z.eqb_refl. cbn [negb]. unfold pbind, step. cbn [tl]. exact IH. Qed.
Lemma terminator_run t : terminator_loop byte adv [cr; lf] (crlf ++ t) = (Next tt, t). Proof. reflexivity. Qed.
Lemma terminator_end t : fst (terminator_loop byte adv [cr; lf] (str "--" ++ t)) = Return. Proof. reflexivity. Qed.
Lemma trailing_run t : trailing_loop byte adv [cr; lf] (crlf ++ t) = (Next tt, t). Proof. reflexivity. Qed.
Lemma data_run d t : data_loop byte adv (length d) (d ++ t) = (Next d, t).
Proof. induction d as [|x d IH]; [reflexivity|]. cbn [data_loop app length]. unfold pbind, step. cbn [list_byte tl]. rewrite IH. reflexivity. Qed.
Lemma headers_chars : forall l fuel la hdr h t, Forall (fun x => x <> 10) l ->
  headers_loop byte adv (length l + fuel) la hdr h (l ++ t) = headers_loop byte adv fuel (last l la) (rev l ++ hdr) h t.
Proof.
  induction l as [|x l IH]; intros fuel la hdr h t Hl; [reflexivity|]. inversion Hl; subst. cbn [length Nat.add app headers_loop].
  unfold pbind at 1. cbn [list_byte]. unfold pbind, step. cbn [tl]. rewrite (proj2 (Z.eqb_neq x lf)) by (unfold lf; lia). rewrite andb_false_r.
  rewrite IH by auto. cbn [rev]. rewrite <- app_assoc. cbn [app]. f_equal. destruct l; [reflexivity|]. cbn [last]. clear. revert z. induction l; intros; [reflexivity|]. cbn [last] in *. apply IHl.
Qed.
Lemma headers_line l fuel la h t : Forall (fun x => x <> 10) l -> l <> [] ->
  headers_loop byte adv (length l + 2 + fuel) la [] h (l ++ crlf ++ t) =
  match header_line (l ++ [13]) h with
  | Next h' => headers_loop byte adv fuel 10 [] h' t
  | Return => (Return, t) | Throw w => (Throw w, t) | Stuck => (Stuck, t)
  end.
Proof.
  intros Hl Hn. replace (l ++ crlf ++ t) with ((l ++ [13]) ++ [10] ++ t) by (rewrite <- app_assoc; reflexivity).
  replace (length l + 2 + fuel)%nat with (length (l ++ [13%Z]) + S fuel)%nat by (rewrite app_length; cbn [length]; lia).
  rewrite headers_chars by (apply Forall_app; split; auto; constructor; [lia|constructor]).
  rewrite last_last, app_nil_r. cbn [headers_loop app]. unfold pbind at 1. cbn [list_byte]. unfold pbind, step. cbn [tl].
  change (13 =? cr) with true. change (10 =? lf) with true. cbn [andb].
  assert (E : zlen (rev (l ++ [13])) =? 1 = false).
  { apply Z.eqb_neq. unfold zlen. rewrite rev_length, app_length. cbn [length]. destruct l; [congruence|]. cbn [length]. lia. }
  rewrite E, rev_involutive. destruct (header_line (l ++ [13]) h); reflexivity.
Qed.
Lemma split_none c l : Forall (fun x => x <> c) l -> split_on c l = [l].
Proof. induction l as [|x l IH]; [reflexivity|]. intros H. inversion H; subst. cbn [split_on]. rewrite (proj2 (Z.eqb_neq x c)) by auto. rewrite IH by auto. reflexivity. Qed.
Lemma split_at c l r : Forall (fun x => x <> c) l -> split_on c (l ++ c :: r) = l :: split_on c r.
Proof.
  induction l as [|x l IH]; intros H; cbn [app split_on]; [rewrite Z.eqb_refl; reflexivity|]. inversion H; subst.
  rewrite (proj2 (Z.eqb_neq x c)) by auto. rewrite IH by auto. reflexivity.
Qed.
Lemma no_dec c l : forallb (fun x => negb (x =? c)) l = true -> Forall (fun x => x <> c) l.
Proof. intros H. rewrite forallb_forall in H. apply Forall_forall. intros x Hx. specialize (H x Hx). destruct (Z.eqb_spec x c); [discriminate|auto]. Qed.
Definition inner (s : bytes) : Prop := s <> [] /\ is_ws (hd 0 s) = false /\ is_ws (last s 0) = false.
Lemma trim_l_inner s : is_ws (hd 0 s) = false -> trim_l s = s.
Proof. destruct s as [|x s]; [reflexivity|]. cbn [hd trim_l]. intros ->. reflexivity. Qed.
Lemma trim_l_ws a s : forallb is_ws a = true -> is_ws (hd 0 s) = false -> trim_l (a ++ s) = s.
Proof. induction a as [|x a IH]; cbn [app forallb]; [intros _; apply trim_l_inner|]. intros H. apply andb_prop in H. destruct H as [H1 H2]. cbn [trim_l]. rewrite H1. auto. Qed.
Lemma hd_rev (s : bytes) : hd 0 (rev s) = last s 0.
Proof. induction s as [|x s IH] using rev_ind; [reflexivity|]. rewrite rev_app_distr, last_last. reflexivity. Qed.
Lemma trim_inner a s c : forallb is_ws a = true -> forallb is_ws c = true -> inner s -> trim (a ++ s ++ c) = s.
Proof.
  intros Ha Hc (H1 & H2 & H3). unfold trim. rewrite trim_l_ws; auto; [|destruct s; [congruence|exact H2]].
  rewrite rev_app_distr. rewrite trim_l_ws; [apply rev_involutive| |rewrite hd_rev; auto].
  rewrite forallb_forall in *. intros x Hx. apply Hc. apply in_rev. exact Hx.
Qed.
Lemma clean_inner s : clean s -> inner s.
Proof.
  intros (H1 & H2 & H3 & H4). split; auto. rewrite Forall_forall in H2.
  assert (G : forall x, In x s -> x <> 32 -> is_ws x = false).
  { intros x Hx Hn. specialize (H2 x Hx). unfold is_ws. destruct (Z.eqb_spec x 32); [lia|]. destruct (Z.leb_spec 9 x), (Z.leb_spec x 13); cbn; auto; lia. }
  split; apply G; auto.
  - destruct s; [congruence|]. left. reflexivity.
  - destruct (exists_last H1) as (l & x & ->). rewrite last_last. apply in_or_app. right. left. reflexivity.
Qed.
Lemma clean_no s c : clean s -> (c < 32 \/ c = 58) -> Forall (fun x => x <> c) s.
Proof. intros (_ & H & _) Hc. eapply Forall_impl; [|exact H]. cbn. intros a. lia. Qed.
Lemma header_line_run k v h : clean k -> clean v -> k <> str "__proto__" -> header_line ((k ++ str ": " ++ v) ++ [13]) h = Next (hset k v h).
Proof.
  intros Hk Hv Hp. unfold header_line. rewrite <- app_assoc. change (str ": ") with [colon; 32]. cbn [app]. rewrite split_at by (apply clean_no; auto).
  assert (E : split_on colon (32 :: v ++ [13]) = [32 :: v ++ [13]]).
  { apply split_none. constructor; [unfold colon; lia|]. apply Forall_app. split; [apply clean_no; auto|]. constructor; [unfold colon; lia|constructor]. }
  rewrite E. assert (Ek : trim k = k).
  { pose proof (@trim_inner [] k [] eq_refl eq_refl (clean_inner Hk)) as X. cbn [app] in X. rewrite app_nil_r in X. exact X. }
  assert (Ev : trim (32 :: v ++ [13]) = v) by exact (@trim_inner [32] v [13] eq_refl eq_refl (clean_inner Hv)).
  rewrite Ek, Ev. unfold beq at 1. destruct (list_eq_dec Z.eq_dec k (str "__proto__")); [contradiction|reflexivity].
Qed.
Lemma beq_eq a b : beq a b = true <-> a = b. Proof. unfold beq. destruct (list_eq_dec Z.eq_dec a b); split; congruence. Qed.
Lemma hset_new k v h : ~ In k (map fst h) -> hset k v h = h ++ [(k, v)].
Proof.
  induction h as [|[k' v'] h IH]; intros H; [reflexivity|]. cbn [hset map fst In app] in *.
  destruct (beq k k') eqn:E; [apply beq_eq in E; subst; tauto|]. rewrite IH by tauto. reflexivity.
Qed.
Lemma hget_in k v h : NoDup (map fst h) -> In (k, v) h -> hget k h = Some v.
Proof.
  induction h as [|[k' v'] h IH]; intros Hn Hi; [destruct Hi|]. cbn [hget map fst] in *. inversion Hn; subst. destruct Hi as [Hi|Hi].
  - injection Hi as -> ->. rewrite (proj2 (beq_eq k k) eq_refl). reflexivity.
  - destruct (beq k k') eqn:E; auto. apply beq_eq in E. subst. exfalso. apply H1. apply in_map_iff. exists (k', v). auto.
Qed.
Lemma enc_header_eq k v : enc_header (k, v) = (k ++ str ": " ++ v) ++ crlf.
Proof. unfold enc_header. cbn [fst snd]. rewrite <- !app_assoc. reflexivity. Qed.
Definition hset_all (hs : list (bytes * bytes)) (h0 : headers) : headers := fold_left (fun h kv => hset (fst kv) (snd kv) h) hs h0.
Lemma headers_run : forall hs h0 fuel la t, Forall header_ok hs ->
  headers_loop byte adv (length (concat (map enc_header hs)) + 2 + fuel) la [] h0 (concat (map enc_header hs) ++ crlf ++ t) = (Next (hset_all hs h0), t).
Proof.
  induction hs as [|[k v] hs IH]; intros h0 fuel la t Hc.
  - cbn [hset_all fold_left map concat app length Nat.add crlf headers_loop]. unfold pbind, step. cbn [list_byte tl]. change (13 =? lf) with false. rewrite andb_false_r. reflexivity.
  - inversion Hc as [|? ? [Hk [Hv Hp]] Hc']; subst. cbn [fst snd] in *. cbn [map concat]. rewrite enc_header_eq.
    rewrite !app_length. change (length crlf) with 2%nat. rewrite <- (app_assoc (_ ++ crlf)).
    rewrite <- (app_assoc (k ++ _) crlf).
    replace (length k + (length (str ": ") + length v) + 2 + length (concat (map enc_header hs)) + 2 + fuel)%nat
      with (length (k ++ str ": " ++ v) + 2 + (length (concat (map enc_header hs)) + 2 + fuel))%nat by (rewrite !app_length; lia).
    rewrite headers_line.
    + rewrite header_line_run by auto. rewrite IH by auto. reflexivity.
    + apply Forall_app. split; [apply clean_no; auto; lia|]. apply Forall_app. split; [apply no_dec; reflexivity|apply clean_no; auto; lia].
    + destruct k; [destruct Hk; congruence|discriminate].
Qed.
(** the headers object is [held] of the lines *)
Lemma filter_none {A} (f : A -> bool) l : (forall x, In x l -> f x = true) -> filter f l = l.
Proof. induction l as [|x l IH]; intros H; [reflexivity|]. cbn [filter]. rewrite H by (left; reflexivity). rewrite IH; auto. intros y Hy. apply H. right. exact Hy. Qed.
Lemma firsts_in x l : In x (firsts l) <-> In x l.
Proof.
  induction l as [|y l IH]; [tauto|]. cbn [firsts In]. rewrite filter_In, IH. destruct (list_eq_dec Z.eq_dec x y) as [->|N]; [tauto|].
  split; [intros [H|[H _]]; auto|intros [H|H]; auto].
Qed.
Lemma firsts_nodup l : NoDup (firsts l).
Proof.
  induction l as [|y l IH]; [constructor|]. cbn [firsts]. constructor; [|apply NoDup_filter; auto].
  rewrite filter_In. intros [_ H]. destruct (list_eq_dec Z.eq_dec y y); congruence.
Qed.
Lemma firsts_same l : NoDup l -> firsts l = l.
Proof.
  induction 1 as [|y l Hy Hn IH]; [reflexivity|]. cbn [firsts]. rewrite IH. rewrite filter_none; auto.
  intros x Hx. destruct (list_eq_dec Z.eq_dec x y) as [->|]; [tauto|reflexivity].
Qed.
Lemma firsts_snoc l x : firsts (l ++ [x]) = if in_dec (list_eq_dec Z.eq_dec) x l then firsts l else firsts l ++ [x].
Proof.
  induction l as [|y l IH]; [reflexivity|]. cbn [app firsts]. rewrite IH. destruct (in_dec (list_eq_dec Z.eq_dec) x l) as [H|H], (in_dec (list_eq_dec Z.eq_dec) x (y :: l)) as [H'|H']; auto.
  - destruct H'. right. exact H.
  - destruct H' as [<-|H']; [|tauto]. rewrite filter_app. cbn [filter]. destruct (list_eq_dec Z.eq_dec y y); [|congruence]. rewrite app_nil_r. reflexivity.
  - rewrite filter_app. cbn [filter]. destruct (list_eq_dec Z.eq_dec x y) as [->|]; [destruct H'; left; reflexivity|]. reflexivity.
Qed.
Lemma last_value_snoc k hs k' v : last_value k (hs ++ [(k', v)]) = if list_eq_dec Z.eq_dec k' k then v else last_value k hs.
Proof.
  unfold last_value. rewrite filter_app, map_app. cbn [filter fst]. destruct (list_eq_dec Z.eq_dec k' k); cbn [map snd]; [apply last_last|rewrite app_nil_r; reflexivity].
Qed.
Lemma hset_map ns f k v : NoDup ns -> hset k v (map (fun n => (n, f n)) ns) =
  map (fun n => (n, if list_eq_dec Z.eq_dec k n then v else f n)) ns ++ (if in_dec (list_eq_dec Z.eq_dec) k ns then [] else [(k, v)]).
Proof.
  induction 1 as [|n ns Hn Hd IH]; [reflexivity|]. cbn [map hset]. unfold beq. destruct (list_eq_dec Z.eq_dec k n) as [->|N].
  - destruct (in_dec (list_eq_dec Z.eq_dec) n (n :: ns)) as [_|X]; [|destruct X; left; reflexivity]. rewrite app_nil_r. f_equal. apply map_ext_in. intros m Hm.
    destruct (list_eq_dec Z.eq_dec n m) as [<-|]; [tauto|reflexivity].
  - rewrite IH. cbn [app]. f_equal. f_equal. destruct (in_dec (list_eq_dec Z.eq_dec) k ns) as [H|H], (in_dec (list_eq_dec Z.eq_dec) k (n :: ns)) as [H'|H']; auto; [destruct H'; right; auto|destruct H' as [->|H']; tauto].
Qed.
Lemma hset_all_held hs : hset_all hs [] = held hs.
Proof.
  induction hs as [|[k v] hs IH] using rev_ind; [reflexivity|]. unfold hset_all in *. rewrite fold_left_app. cbn [fold_left fst snd]. rewrite IH. unfold held.
  rewrite hset_map by apply firsts_nodup. rewrite map_app. cbn [map fst]. rewrite firsts_snoc.
  assert (E : forall ns, map (fun n => (n, if list_eq_dec Z.eq_dec k n then v else last_value n hs)) ns = map (fun n => (n, last_value n (hs ++ [(k, v)]))) ns).
  { intros ns. apply map_ext. intros n. rewrite last_value_snoc. reflexivity. }
  rewrite E. destruct (in_dec (list_eq_dec Z.eq_dec) k (firsts (map fst hs))) as [H|H], (in_dec (list_eq_dec Z.eq_dec) k (map fst hs)) as [H'|H']; try (rewrite firsts_in in H; tauto).
  - apply app_nil_r.
  - rewrite map_app. f_equal. cbn [map]. rewrite last_value_snoc. destruct (list_eq_dec Z.eq_dec k k); congruence.
Qed.
Lemma held_same hs : NoDup (map fst hs) -> held hs = hs.
Proof.
  intros Hn. unfold held. rewrite firsts_same by auto. rewrite map_map. rewrite <- (map_id hs) at 2. apply map_ext_in. intros [k v] Hi. cbn [fst]. f_equal.
  unfold last_value. assert (E : filter (fun h => if list_eq_dec Z.eq_dec (fst h) k then true else false) hs = [(k, v)]); [|rewrite E; reflexivity].
  induction hs as [|[k' v'] hs IH]; [destruct Hi|]. cbn [map fst] in Hn. inversion Hn as [|? ? Hx Hd]; subst. cbn [filter fst].
  assert (Z0 : forall k, ~ In k (map fst hs) -> filter (fun h => if list_eq_dec Z.eq_dec (fst h) k then true else false) hs = []).
  { intros q Hq. clear - Hq. induction hs as [|[a b] hs IH]; [reflexivity|]. cbn [map fst In filter] in *. destruct (list_eq_dec Z.eq_dec a q); [tauto|]. apply IH. tauto. }
  destruct Hi as [Hi|Hi].
  - injection Hi as -> ->. destruct (list_eq_dec Z.eq_dec k k); [|congruence]. rewrite Z0 by auto. reflexivity.
  - destruct (list_eq_dec Z.eq_dec k' k) as [->|]; [|auto]. exfalso. apply Hx. apply in_map_iff. exists (k, v). auto.
Qed.
Lemma number_digits s : digits s -> js_number s = Some (decimal s).
Proof.
  intros [_ H]. unfold js_number, decimal. assert (E : forallb is_digit s = true).
  { apply forallb_forall. intros x Hx. rewrite Forall_forall in H. specialize (H x Hx). unfold is_digit. apply andb_true_intro. split; lia. }
  rewrite E. reflexivity.
Qed.
Lemma digits_no s c : digits s -> c < 48 -> Forall (fun x => x <> c) s.
Proof. intros [_ H] Hc. eapply Forall_impl; [|exact H]. cbn. intros. lia. Qed.
Lemma content_length_run p : part_wf p -> content_length (p_headers p) = Next (zlen (p_data p)).
Proof.
  intros (_ & Hn & f & l & total & Hf & Hl & Ht & Hi & Hz). unfold content_length. rewrite (@hget_in _ _ _ Hn Hi).
  change (str "bytes ") with (str "bytes" ++ [space]). rewrite <- app_assoc. cbn [app].
  remember (str "bytes" ++ space :: f ++ str "-" ++ l ++ str "/" ++ total) as w eqn:Ew. destruct w; [discriminate|]. rewrite Ew. clear Ew z w.
  rewrite split_at by (apply no_dec; reflexivity).
  rewrite split_none.
  2:{ unfold space. apply Forall_app. split; [apply digits_no; auto; lia|]. apply Forall_app. split; [apply no_dec; reflexivity|].
      apply Forall_app. split; [apply digits_no; auto; lia|]. apply Forall_app. split; [apply no_dec; reflexivity|]. exact Ht. }
  change (str "/") with [slash]. change (str "-") with [dash]. cbn [app].
  assert (E1 : split_on slash (f ++ dash :: l ++ slash :: total) = (f ++ dash :: l) :: split_on slash total).
  { change (f ++ dash :: l ++ slash :: total) with (f ++ (dash :: l) ++ slash :: total). rewrite app_assoc. apply split_at.
    apply Forall_app. split; [apply digits_no; auto; unfold slash; lia|]. constructor; [unfold dash, slash; lia|]. apply digits_no; auto. unfold slash; lia. }
  rewrite E1. cbn [hd]. rewrite split_at by (apply digits_no; auto; unfold dash; lia). rewrite (@split_none dash l) by (apply digits_no; auto; unfold dash; lia).
  cbn [hd]. rewrite !number_digits by auto. rewrite (proj2 (beq_eq _ _) eq_refl). cbn [negb]. rewrite Hz.
  pose proof (zlen_nonneg (p_data p)). rewrite (proj2 (Z.ltb_ge _ 0)) by lia. reflexivity.
Qed.
Lemma read_part_run p b fuel t : sent_wf p -> (length (enc_part b p) <= fuel)%nat ->
  read_part byte adv fuel (str "--" ++ b) (enc_part b p ++ t) = (Next (received p), crlf ++ t).
Proof.
  intros Hp Hf. unfold enc_part in *. rewrite <- !app_assoc in *. unfold read_part. unfold pbind at 1. rewrite app_assoc. rewrite boundary_run.
  unfold pbind at 1. rewrite terminator_run. unfold pbind at 1.
  destruct (Nat.le_exists_sub (length (concat (map enc_header (p_headers p))) + 2) fuel) as (k & -> & _).
  { rewrite !app_length in Hf. change (length crlf) with 2%nat in Hf. lia. }
  rewrite Nat.add_comm. destruct Hp as (H1 & H2). rewrite headers_run by auto. rewrite hset_all_held. change (held (p_headers p)) with (p_headers (received p)).
  unfold pbind at 1. rewrite content_length_run by auto. unfold pbind. unfold zlen. rewrite Nat2Z.id. change (p_data (received p)) with (p_data p). rewrite data_run. reflexivity.
Qed.
Lemma parts_run b after hf : forall ps fuel, Forall sent_wf ps -> (length ps < fuel)%nat -> (length (enc_body b ps after) <= hf)%nat ->
  parts_loop byte adv fuel hf (str "--" ++ b) (enc_body b ps after) = (map received ps, Return).
Proof.
  induction ps as [|p ps IH]; intros fuel Hp Hf Hh; destruct fuel as [|fuel]; cbn [length] in Hf; try lia; cbn [parts_loop].
  - unfold enc_body. cbn [map concat]. rewrite app_nil_l. unfold read_part. unfold pbind at 1. rewrite app_assoc, boundary_run. unfold pbind at 1.
    pose proof (terminator_end after) as E. destruct (terminator_loop _ _ _ _) as [r s']. cbn [fst] in E. subst r. reflexivity.
  - inversion Hp; subst. unfold enc_body in *. cbn [map concat] in *. rewrite <- app_assoc in *. rewrite read_part_run; auto.
    2:{ rewrite app_length in Hh. lia. }
    rewrite trailing_run. rewrite IH; auto; [lia|]. rewrite app_length in Hh. lia.
Qed.
Lemma boundary_of_run b : b <> [] -> Forall token_char b -> boundary_of (content_type b) = Next b.
Proof.
  intros Hn Hb. unfold boundary_of, content_type.
  change (str "multipart/byteranges; boundary=" ++ b) with (str "multipart/byteranges" ++ semi :: str " boundary=" ++ b).
  assert (N : forall c, (c < 33 \/ c = 59 \/ c = 61) -> Forall (fun x => x <> c) b) by (intros c Hc; eapply Forall_impl; [|exact Hb]; unfold token_char; cbn; intros; lia).
  rewrite split_at by (apply no_dec; reflexivity). rewrite split_none.
  2:{ apply Forall_app. split; [apply no_dec; reflexivity|apply N; unfold semi; lia]. }
  cbn [hd]. rewrite (proj2 (beq_eq _ _) eq_refl). cbn [negb map].
  assert (E : trim (str " boundary=" ++ b) = str "boundary=" ++ b).
  { change (str " boundary=" ++ b) with ([32] ++ (str "boundary=" ++ b)).
    rewrite <- (app_nil_r (str "boundary=" ++ b)) at 1. apply trim_inner; auto.
    split; [discriminate|]. split; [reflexivity|]. destruct (exists_last Hn) as (l & x & ->). rewrite app_assoc, last_last.
    apply Forall_app in Hb. destruct Hb as [_ Hb]. inversion Hb as [|? ? Hx _]; subst. unfold token_char in Hx.
    unfold is_ws. destruct (Z.eqb_spec x 32); [lia|]. destruct (Z.leb_spec x 13); [lia|]. rewrite andb_false_r. reflexivity. }
  rewrite E. cbn [find]. change (starts_with (str "boundary=") (trim (str "multipart/byteranges"))) with false. cbn iota.
  change (starts_with (str "boundary=") (str "boundary=" ++ b)) with true. cbn iota.
  change (str "boundary=" ++ b) with (str "boundary" ++ equals :: b). rewrite split_at by (apply no_dec; reflexivity).
  rewrite split_none by (apply N; unfold equals; lia). destruct b; [congruence|reflexivity].
Qed.
Lemma enc_len b ps after : (length ps < S (length (enc_body b ps after)))%nat.
Proof.
  unfold enc_body. rewrite app_length. assert (H : (length ps <= length (concat (map (enc_part b) ps)))%nat); [|lia].
  induction ps as [|p ps IH]; [cbn; lia|]. cbn [map concat]. rewrite app_length. unfold enc_part at 1. rewrite app_length. cbn [length str app]. lia.
Qed.

(** C53, the parts as sent: for every well formed body, however it is cut into chunks
    and whatever follows the closing boundary, the parser yields exactly the parts in
    order, each with its bytes and, for each header name where it first came, the value
    that came last; and it ends normally. *)
Theorem C53_sent_parts_come_back_partial : forall b ps after chunks, b <> [] -> Forall token_char b -> Forall sent_wf ps ->
  concat chunks = enc_body b ps after -> parse_multipart (content_type b) chunks = (map received ps, Return).
Proof.
  intros b ps after cs H1 H2 H3 H4. rewrite parse_is_parse_bytes, H4. unfold parse_bytes. rewrite boundary_of_run by auto. cbv zeta.
  apply parts_run; auto. apply enc_len.
Qed.
Lemma received_same p : part_wf p -> received p = p.
Proof. intros (_ & H & _). unfold received. rewrite held_same by auto. destruct p; reflexivity. Qed.
Lemma part_sent p : part_wf p -> sent_wf p.
Proof. intros H. split; [exact (proj1 H)|]. rewrite received_same; auto. Qed.
Lemma parts_sent ps : Forall part_wf ps -> Forall sent_wf ps /\ map received ps = ps.
Proof.
  intros H. split; [eapply Forall_impl; [|exact H]; apply part_sent|]. rewrite <- (map_id ps) at 2. apply map_ext_in. intros p Hp. apply received_same. rewrite Forall_forall in H. auto.
Qed.
(** ... when no name repeats, the parts themselves *)
Theorem C53_parts_come_back_partial : forall b ps after chunks, b <> [] -> Forall token_char b -> Forall part_wf ps ->
  concat chunks = enc_body b ps after -> parse_multipart (content_type b) chunks = (ps, Return).
Proof. intros b ps after cs H1 H2 H3 H4. destruct (parts_sent H3) as [H5 E]. rewrite (@C53_sent_parts_come_back_partial b ps after cs) by auto. rewrite E. reflexivity. Qed.

(** ** Truncated bodies *)
Section Cut.
Variable u : bytes.
(** on a prefix the parser gets stuck or does the same *)
Definition pre {A} (p q : P bytes A) : Prop := forall t, match p t with (Stuck, _) => True | (r, t') => q (t ++ u) = (r, t' ++ u) end.
Lemma pre_pure {A} (r : pr A) : pre (fun s => (r, s)) (fun s => (r, s)).
Proof. intros t. destruct r; auto. Qed.
Lemma pre_bind {A B} (p q : P bytes A) (k l : A -> P bytes B) : pre p q -> (forall a, pre (k a) (l a)) -> pre (pbind p k) (pbind q l).
Proof.
  intros H1 H2 t. specialize (H1 t). unfold pbind. destruct (p t) as [[a| |w|] t']; auto; try rewrite H1; auto. apply H2.
Qed.
Lemma pre_step {A} (k l : Z -> P bytes A) : (forall x, pre (k x) (l x)) ->
  pre (pbind byte (fun x => pbind (step adv) (fun _ => k x))) (pbind byte (fun x => pbind (step adv) (fun _ => l x))).
Proof. intros H [|x t]; cbn; auto. apply H. Qed.
Lemma pre_look {A} (c : Z -> bool) (k l : Z -> P bytes A) (e : Z -> pr A) : (forall x, pre (k x) (l x)) ->
  pre (pbind byte (fun x => if c x then pbind (step adv) (fun _ => k x) else fun s => (e x, s)))
      (pbind byte (fun x => if c x then pbind (step adv) (fun _ => l x) else fun s => (e x, s))).
Proof. intros H [|x t]; cbn; auto. destruct (c x); [apply H|]. destruct (e x); auto. Qed.
Lemma pre_boundary b : pre (boundary_loop byte adv b) (boundary_loop byte adv b).
Proof.
  induction b as [|c b IH]; [exact (pre_pure (Next tt))|]. intros [|x t]; cbn; auto. destruct (x =? c); cbn; auto. apply IH.
Qed.
Lemma pre_terminator b : pre (terminator_loop byte adv b) (terminator_loop byte adv b).
Proof.
  induction b as [|c b IH]; [exact (pre_pure (Next tt))|]. intros [|x t]; cbn; auto. destruct (x =? c); cbn; [apply IH|]. destruct (x =? dash); cbn; auto.
Qed.
Lemma pre_trailing b : pre (trailing_loop byte adv b) (trailing_loop byte adv b).
Proof.
  induction b as [|c b IH]; [exact (pre_pure (Next tt))|]. intros [|x t]; cbn; auto. destruct (x =? c); cbn; auto. apply IH.
Qed.
Lemma pre_headers : forall f1 f2 la hdr h, (f1 <= f2)%nat -> pre (headers_loop byte adv f1 la hdr h) (headers_loop byte adv f2 la hdr h).
Proof.
  induction f1 as [|f1 IH]; intros f2 la hdr h Hf; [intros t; exact I|]. destruct f2 as [|f2]; [lia|]. cbn [headers_loop]. apply pre_step. intros x.
  destruct (_ && _); [|apply IH; lia]. destruct (_ =? _); [exact (pre_pure (Next h))|].
  destruct (header_line (rev hdr) h) as [h'| |w|]; [apply IH; lia|exact (pre_pure Return)|exact (pre_pure (Throw w))|exact (pre_pure Stuck)].
Qed.
Lemma pre_data n : pre (data_loop byte adv n) (data_loop byte adv n).
Proof. induction n as [|n IH]; [exact (pre_pure (Next []))|]. cbn [data_loop]. apply pre_step. intros x. apply pre_bind; auto. intros d. exact (pre_pure (Next (x :: d))). Qed.
Lemma pre_part f1 f2 b : (f1 <= f2)%nat -> pre (read_part byte adv f1 b) (read_part byte adv f2 b).
Proof.
  intros Hf. unfold read_part. apply pre_bind; [apply pre_boundary|intros _]. apply pre_bind; [apply pre_terminator|intros _].
  apply pre_bind; [apply pre_headers; auto|intros h]. apply pre_bind; [apply pre_pure|intros n]. apply pre_bind; [apply pre_data|intros d]. exact (pre_pure (Next (Part d h))).
Qed.
Lemma parts_cut b after hf hf' : zlen after + 2 <= zlen u -> (hf <= hf')%nat ->
  forall ps fuel t, Forall sent_wf ps -> (length (enc_body b ps after) <= hf')%nat -> t ++ u = enc_body b ps after ->
  exists ps1 ps2, ps = ps1 ++ ps2 /\ parts_loop byte adv fuel hf (str "--" ++ b) t = (map received ps1, Stuck).
Proof.
  intros Hu Hh. induction ps as [|p ps IH]; intros fuel t Hp Hl Ht; (destruct fuel as [|fuel]; [eexists [], _; split; reflexivity|]); cbn [parts_loop].
  - exists [], []. split; auto. unfold read_part. unfold pbind at 1. pose proof (pre_boundary (str "--" ++ b) t) as Hb.
    rewrite Ht in Hb. unfold enc_body in Hb. cbn [map concat] in Hb. rewrite app_nil_l, app_assoc, boundary_run in Hb.
    destruct (boundary_loop byte adv (str "--" ++ b) t) as [[[]| |w|] t']; try discriminate; auto.
    assert (t' = []) as ->.
    { apply zlen_zero_nil. apply (f_equal (fun x => zlen (snd x))) in Hb. cbn [snd] in Hb. rewrite !zlen_app in Hb. change (zlen (str "--")) with 2 in Hb. pose proof (zlen_nonneg t'). lia. }
    reflexivity.
  - inversion Hp; subst. pose proof (@pre_part hf hf' (str "--" ++ b) Hh t) as Hr. rewrite Ht in Hr.
    unfold enc_body in Hr, Hl, Ht. cbn [map concat] in Hr, Hl, Ht. rewrite <- app_assoc in Hr, Hl, Ht.
    rewrite read_part_run in Hr; auto. 2:{ rewrite app_length in Hl. lia. }
    destruct (read_part byte adv hf (str "--" ++ b) t) as [[q| |w|] t']; try discriminate; [|exists [], (p :: ps); auto].
    assert (q = received p) as -> by congruence. apply (f_equal snd) in Hr. cbn [snd] in Hr. pose proof (pre_trailing [cr; lf] t') as H3. rewrite <- Hr, trailing_run in H3.
    destruct (trailing_loop byte adv [cr; lf] t') as [[[]| |w|] t2]; try discriminate; [|exists [p], ps; auto].
    apply (f_equal snd) in H3. cbn [snd] in H3. destruct (IH fuel t2) as (a & c & -> & E); auto.
    { rewrite app_length in Hl. unfold enc_body. lia. }
    exists (p :: a), c. rewrite E. auto.
Qed.
End Cut.
(** a body that breaks off before the dashes of its closing boundary leaves the
    parser waiting for ever: it yields some of the parts, never throws, never ends.
    Here too the headers may repeat. *)
Theorem C53_truncated_body_never_ends : forall b ps after rest chunks, b <> [] -> Forall token_char b -> Forall sent_wf ps ->
  concat chunks ++ rest = enc_body b ps after -> zlen rest >= zlen after + 2 ->
  exists yielded lost, ps = yielded ++ lost /\ parse_multipart (content_type b) chunks = (map received yielded, Stuck).
Proof.
  intros b ps after u cs H1 H2 H3 H4 H5. rewrite parse_is_parse_bytes. unfold parse_bytes. rewrite boundary_of_run by auto. cbv zeta.
  eapply (@parts_cut u b after _ (S (length (enc_body b ps after)))); eauto; [lia|]. apply (f_equal (@length Z)) in H4. rewrite app_length in H4. lia.
Qed.

(** ** The fuel of the model is never what stops it *)
Lemma boundary_shrinks b t x t' : boundary_loop byte adv b t = (Next x, t') -> (length t' + length b = length t)%nat.
Proof.
  revert t. induction b as [|c b IH]; intros t H; [injection H as _ <-; cbn; lia|]. destruct t as [|y t]; [discriminate|]. cbn in H.
  destruct (y =? c); [|discriminate]. cbn in H. apply IH in H. cbn [length]. lia.
Qed.
Lemma terminator_shrinks b t x t' : terminator_loop byte adv b t = (Next x, t') -> (length t' <= length t)%nat.
Proof.
  revert t. induction b as [|c b IH]; intros t H; [injection H as _ <-; cbn; lia|]. destruct t as [|y t]; [discriminate|]. cbn in H.
  destruct (y =? c); [|destruct (y =? dash); discriminate]. cbn in H. apply IH in H. cbn [length]. lia.
Qed.
Lemma trailing_shrinks b t x t' : trailing_loop byte adv b t = (Next x, t') -> (length t' <= length t)%nat.
Proof.
  revert t. induction b as [|c b IH]; intros t H; [injection H as _ <-; cbn; lia|]. destruct t as [|y t]; [discriminate|]. cbn in H.
  destruct (y =? c); [|discriminate]. cbn in H. apply IH in H. cbn [length]. lia.
Qed.
Lemma headers_shrinks : forall f la hdr h t x t', headers_loop byte adv f la hdr h t = (Next x, t') -> (length t' <= length t)%nat.
Proof.
  induction f as [|f IH]; intros la hdr h t x t' H; [discriminate|]. destruct t as [|y t]; [discriminate|]. cbn in H.
  destruct ((la =? cr) && (y =? lf)); [|apply IH in H; cbn [length]; lia].
  destruct (zlen hdr =? 1); [injection H as _ <-; cbn [length]; lia|]. destruct (header_line (rev hdr) h); try discriminate. apply IH in H. cbn [length]. lia.
Qed.
Lemma data_shrinks : forall n t x t', data_loop byte adv n t = (Next x, t') -> (length t' <= length t)%nat.
Proof.
  induction n as [|n IH]; intros t x t' H; [injection H as _ <-; lia|]. destruct t as [|y t]; [discriminate|]. cbn in H. unfold pbind in H.
  destruct (data_loop byte adv n t) as [[d| |w|] t2] eqn:E; try discriminate. cbn in H. injection H as _ <-. apply IH in E. cbn [length]. lia.
Qed.
Lemma headers_fuel : forall f1 f2 la hdr h t, (length t < f1)%nat -> (length t < f2)%nat ->
  headers_loop byte adv f1 la hdr h t = headers_loop byte adv f2 la hdr h t.
Proof.
  induction f1 as [|f1 IH]; intros f2 la hdr h t H1 H2; [lia|]. destruct f2 as [|f2]; [lia|]. destruct t as [|y t]; [reflexivity|]. cbn [length] in *. cbn.
  destruct ((la =? cr) && (y =? lf)); [|apply IH; lia]. destruct (zlen hdr =? 1); [reflexivity|]. destruct (header_line (rev hdr) h); auto. apply IH; lia.
Qed.
Lemma part_fuel f1 f2 b t : (length t < f1)%nat -> (length t < f2)%nat -> read_part byte adv f1 b t = read_part byte adv f2 b t.
Proof.
  intros H1 H2. unfold read_part. unfold pbind at 1 6. destruct (boundary_loop byte adv b t) as [[[]| |w|] t1] eqn:E1; auto. apply boundary_shrinks in E1.
  unfold pbind at 1 5. destruct (terminator_loop byte adv [cr; lf] t1) as [[[]| |w|] t2] eqn:E2; auto. apply terminator_shrinks in E2.
  unfold pbind at 1 4. rewrite (@headers_fuel f1 f2) by lia. reflexivity.
Qed.
Lemma part_shrinks f b t p t' : read_part byte adv f b t = (Next p, t') -> (length t' + length b <= length t)%nat.
Proof.
  unfold read_part, pbind. destruct (boundary_loop byte adv b t) as [[[]| |w|] t1] eqn:E1; try discriminate. apply boundary_shrinks in E1.
  destruct (terminator_loop byte adv [cr; lf] t1) as [[[]| |w|] t2] eqn:E2; try discriminate. apply terminator_shrinks in E2.
  destruct (headers_loop byte adv f 0 [] [] t2) as [[h| |w|] t3] eqn:E3; try discriminate. apply headers_shrinks in E3.
  destruct (content_length h) as [n| |w|]; try discriminate.
  destruct (data_loop byte adv (Z.to_nat n) t3) as [[d| |w|] t4] eqn:E4; try discriminate. apply data_shrinks in E4.
  intros H. injection H as _ <-. lia.
Qed.
Lemma parts_fuel b : b <> [] -> forall f1 f2 h1 h2 t, (length t < f1)%nat -> (length t < f2)%nat -> (length t < h1)%nat -> (length t < h2)%nat ->
  parts_loop byte adv f1 h1 b t = parts_loop byte adv f2 h2 b t.
Proof.
  intros Hb. induction f1 as [|f1 IH]; intros f2 h1 h2 t H1 H2 H3 H4; [lia|]. destruct f2 as [|f2]; [lia|]. cbn [parts_loop].
  rewrite (@part_fuel h1 h2) by lia. destruct (read_part byte adv h2 b t) as [[p| |w|] t1] eqn:E1; auto. apply part_shrinks in E1.
  destruct (trailing_loop byte adv [cr; lf] t1) as [[[]| |w|] t2] eqn:E2; auto. apply trailing_shrinks in E2.
  assert (1 <= length b)%nat by (destruct b; [congruence|cbn; lia]).
  rewrite (IH f2 h1 h2 t2) by lia. reflexivity.
Qed.
(** more turns for the loops of the parser give the same answer *)
Theorem C53_the_fuel_suffices : forall b chunks fuel hfuel, (length (concat chunks) < fuel)%nat -> (length (concat chunks) < hfuel)%nat ->
  let n := S (length (concat chunks)) in
  parts_loop ring_byte ring_adv n n (str "--" ++ b) (ring_open chunks) = parts_loop ring_byte ring_adv fuel hfuel (str "--" ++ b) (ring_open chunks).
Proof.
  intros b cs f hf H1 H2. cbv zeta.
  assert (R0 : rR (ring_open cs) (concat cs)).
  { split; [unfold ring_ok, ring_open; cbn [rbuf rptr rlen]; rewrite zlen_zeros by (unfold ringLen; lia); unfold ringLen; lia|]. reflexivity. }
  rewrite !(@sim_parts _ _ _ _ _ _ rR rR' ring_byte_ok ring_adv_ok _ _ _ _ _ R0). apply parts_fuel; auto; try lia. discriminate.
Qed.

(** ** Witnesses and refutations *)
Definition ex_part (d : bytes) (r : String.string) : part := Part d [(str "Content-Type", str "text/plain"); (str "Content-Range", str r)].
Arguments ex_part d r%string_scope.
Definition ex_parts : list part := [ex_part (str "hello") "bytes 0-4/20"; ex_part [13; 10; 45; 45] "bytes 10-13/20"].
Lemma clean_dec s : (match s with [] => false | _ => forallb (fun x => (32 <=? x) && (x <? 127) && negb (x =? 58)) s && negb (hd 0 s =? 32) && negb (last s 0 =? 32) end) = true -> clean s.
Proof.
  intros H. destruct s as [|x s]; [discriminate|]. apply andb_prop in H. destruct H as [H H3]. apply andb_prop in H. destruct H as [H H2].
  split; [discriminate|]. split; [|split; [destruct (Z.eqb_spec (hd 0 (x :: s)) 32); [discriminate|auto]|destruct (Z.eqb_spec (last (x :: s) 0) 32); [discriminate|auto]]].
  rewrite forallb_forall in H. apply Forall_forall. intros y Hy. specialize (H y Hy). apply andb_prop in H. destruct H as [H H4]. apply andb_prop in H. destruct H as [H5 H6].
  destruct (Z.eqb_spec y 58); [discriminate|]. split; auto. split; [apply Z.leb_le|apply Z.ltb_lt]; auto.
Qed.
Lemma digits_dec s : (match s with [] => false | _ => forallb is_digit s end) = true -> digits s.
Proof.
  intros H. destruct s as [|x s]; [discriminate|]. split; [discriminate|]. rewrite forallb_forall in H. apply Forall_forall. intros y Hy. specialize (H y Hy).
  unfold is_digit in H. apply andb_prop in H. destruct H as [H1 H2]. apply Z.leb_le in H1, H2. lia.
Qed.
Example C53_witness_parts : Forall part_wf ex_parts.
Proof.
  assert (H : forall d r first last total, r = (str "bytes " ++ first ++ str "-" ++ last ++ str "/" ++ total)%list -> digits first -> digits last -> Forall (fun x => x <> 32) total ->
    clean r -> zlen d = decimal last - decimal first + 1 -> part_wf (Part d [(str "Content-Type", str "text/plain"); (str "Content-Range", r)])).
  { intros d r f l total -> Hf Hl Ht Hc Hz. split; [|split].
    - repeat apply Forall_cons; [| |apply Forall_nil]; split; cbn [fst snd]; [apply clean_dec; reflexivity|split; [apply clean_dec; reflexivity|discriminate]|apply clean_dec; reflexivity|split; [auto|discriminate]].
    - cbn. constructor; [|constructor; [intros []|constructor]]. intros [X|[]]. discriminate.
    - exists f, l, total. cbn [p_headers p_data]. split; auto. split; auto. split; auto. split; auto. right. left. reflexivity. }
  unfold ex_parts. constructor; [|constructor; [|constructor]].
  - apply (@H _ _ (str "0") (str "4") (str "20")); try reflexivity; try (apply digits_dec; reflexivity); [apply no_dec; reflexivity|apply clean_dec; reflexivity].
  - apply (@H _ _ (str "10") (str "13") (str "20")); try reflexivity; try (apply digits_dec; reflexivity); [apply no_dec; reflexivity|apply clean_dec; reflexivity].
Qed.
Definition chop (body : bytes) : list bytes := map (fun x => [x]) body.
Lemma chop_concat body : concat (chop body) = body. Proof. unfold chop. induction body as [|x l IH]; [reflexivity|]. cbn [map concat app]. rewrite IH. reflexivity. Qed.
(** one byte at a time, with the parts' data full of line ends and dashes *)
Example C53_witness : parse_multipart (str "multipart/byteranges; boundary=XYZ") (chop (enc_body (str "XYZ") ex_parts (str "
"))) = (ex_parts, Return).
Proof.
  change (str "multipart/byteranges; boundary=XYZ") with (content_type (str "XYZ")). apply C53_parts_come_back_partial with (after := str "
"); [discriminate| |apply C53_witness_parts|apply chop_concat].
  change (str "XYZ") with [88; 89; 90]. repeat apply Forall_cons; try apply Forall_nil; unfold token_char; lia.
Qed.

(** a header sent three times: the last value, where the name came first *)
Definition rep_part : part := Part (str "hello") [(str "Content-Range", str "bytes 0-9/20"); (str "A", str "1"); (str "Content-Range", str "bytes 0-4/20"); (str "A", str "2")].
Definition rep_held : list (bytes * bytes) := [(str "Content-Range", str "bytes 0-4/20"); (str "A", str "2")].
Example C53_repeated_wf : sent_wf rep_part.
Proof.
  assert (P : forall k v, clean k -> clean v -> k <> str "__proto__" -> header_ok (k, v)) by (intros k v H1 H2 H3; exact (conj H1 (conj H2 H3))).
  split; [|change (received rep_part) with (Part (str "hello") rep_held); split; [|split]].
  1,2: repeat apply Forall_cons; try apply Forall_nil; apply P; try (apply clean_dec; reflexivity); discriminate.
  - constructor; [intros [X|[]]; discriminate|]. constructor; [intros []|constructor].
  - exists (str "0"), (str "4"), (str "20"). split; [apply digits_dec; reflexivity|]. split; [apply digits_dec; reflexivity|]. split; [apply no_dec; reflexivity|]. split; [left; reflexivity|reflexivity].
Qed.
Example C53_repeated_example : parse_multipart (content_type (str "XYZ")) [enc_body (str "XYZ") [rep_part] []] = ([Part (str "hello") rep_held], Return).
Proof. vm_compute. reflexivity. Qed.
Definition tiny0 (hs : list (bytes * bytes)) : part := Part (str "hello") hs.
(** a header called __proto__ is lost *)
Theorem C53_proto_header_refuted :
  parse_multipart (content_type (str "XYZ")) [enc_body (str "XYZ") [tiny0 [(str "__proto__", str "1"); (str "Content-Range", str "bytes 0-4/20")]] []]
  = ([tiny0 [(str "Content-Range", str "bytes 0-4/20")]], Return).
Proof. vm_compute. reflexivity. Qed.

(** Bodies RFC 9110 and RFC 2046 allow, which the parser does not read. *)
Definition hdr (name value : String.string) : bytes * bytes := (str name, str value).
Arguments hdr name%string_scope value%string_scope.
Definition tiny (hs : list (bytes * bytes)) : part := Part (str "hello") hs.
(** a header value with a colon in it is cut at the colon *)
Theorem C53_header_values_are_cut_refuted :
  let p := tiny [hdr "Last-Modified" "Tue 15 Nov 1994 12:45:26 GMT"; hdr "Content-Range" "bytes 0-4/20"] in
  parse_multipart (content_type (str "XYZ")) [enc_body (str "XYZ") [p] []] =
  ([tiny [hdr "Last-Modified" "Tue 15 Nov 1994 12"; hdr "Content-Range" "bytes 0-4/20"]], Return).
Proof. vm_compute. reflexivity. Qed.
(** header names are compared with their case *)
Theorem C53_lower_case_names_refuted :
  parse_multipart (content_type (str "XYZ")) [enc_body (str "XYZ") [tiny [hdr "content-range" "bytes 0-4/20"]] []] = ([], Throw "Missing Content-Range header").
Proof. vm_compute. reflexivity. Qed.
(** a quoted boundary parameter is taken with its quotes *)
Theorem C53_quoted_boundary_refuted :
  parse_multipart (str "multipart/byteranges; boundary=" ++ [34] ++ str "XYZ" ++ [34]) [enc_body (str "XYZ") [tiny [hdr "Content-Range" "bytes 0-4/20"]] []] = ([], Throw "Invalid boundary").
Proof. vm_compute. reflexivity. Qed.
(** a boundary with a = in it is cut *)
Theorem C53_boundary_with_equals_refuted :
  parse_multipart (content_type (str "a=b")) [enc_body (str "a=b") [tiny [hdr "Content-Range" "bytes 0-4/20"]] []] = ([], Throw "Invalid boundary").
Proof. vm_compute. reflexivity. Qed.
(** a line end before the first boundary (as nginx sends it) is refused *)
Theorem C53_leading_line_end_refuted :
  parse_multipart (content_type (str "XYZ")) [crlf ++ enc_body (str "XYZ") [tiny [hdr "Content-Range" "bytes 0-4/20"]] []] = ([], Throw "Invalid boundary").
Proof. vm_compute. reflexivity. Qed.
(** white space after the boundary (transport padding) is refused *)
Theorem C53_padding_refuted :
  parse_multipart (content_type (str "XYZ")) [str "--XYZ " ++ crlf ++ str "Content-Range: bytes 0-4/20" ++ crlf ++ crlf ++ str "hello" ++ crlf ++ str "--XYZ--"] = ([], Throw "Invalid boundary").
Proof. vm_compute. reflexivity. Qed.
