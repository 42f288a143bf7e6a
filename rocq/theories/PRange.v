(** C75: what requestRanges gives back. *)
From Verif Require Import Base Multipart PMultipart RangeReq.

(** ** Specification: a file and a server that serves its ranges *)
(** the bytes of a range, both ends included *)
Definition bytes_of (f : bytes) (ab : Z * Z) : bytes := slice f (fst ab) (snd ab - fst ab + 1).
Definition inside (f : bytes) (ab : Z * Z) : Prop := 0 <= fst ab <= snd ab /\ snd ab < zlen f.
(** a number in decimal *)
Definition stands_for (s : bytes) (n : Z) : Prop := digits s /\ decimal s = n.
(** the value of the Content-Range header of a range of the file *)
Definition range_value (f : bytes) (ab : Z * Z) (v : bytes) : Prop :=
  exists a b n, stands_for a (fst ab) /\ stands_for b (snd ab) /\ stands_for n (zlen f) /\
    v = (str "bytes " ++ a ++ str "-" ++ b ++ str "/" ++ n)%list.
(** the answer to one range: 206 with the range in the header and its bytes in the body *)
Definition single_answer (f : bytes) (ab : Z * Z) (res : response) : Prop :=
  rs_status res = 206 /\
  (exists ct, rs_type res = Some ct /\ ct <> [] /\ includes (str "multipart/byteranges") ct = false) /\
  (exists v, rs_range res = Some v /\ range_value f ab v) /\
  exists cs, rs_body res = Some cs /\ concat cs = bytes_of f ab.
(** a part of a multipart answer: clean headers, one of them its Content-Range, none
    of them spelled in lower case *)
Definition part_of (f : bytes) (ab : Z * Z) (p : part) : Prop :=
  Forall header_ok (p_headers p) /\ NoDup (map fst (p_headers p)) /\
  (exists v, range_value f ab v /\ In (str "Content-Range", v) (p_headers p)) /\ ~ In (str "content-range") (map fst (p_headers p)) /\
  p_data p = bytes_of f ab.
(** the answer to several ranges: 206 with one part per range, in order *)
Definition multi_answer (f : bytes) (l : list (Z * Z)) (res : response) : Prop :=
  rs_status res = 206 /\
  exists b ps after cs, b <> [] /\ Forall token_char b /\ rs_type res = Some (content_type b) /\ Forall2 (part_of f) l ps /\
    rs_body res = Some cs /\ concat cs = enc_body b ps after.
Definition serves (f : bytes) (srv : server) : Prop :=
  (forall ab, inside f ab -> single_answer f ab (srv [ab])) /\
  (forall l, (2 <= length l)%nat -> Forall (inside f) l -> multi_answer f l (srv l)).
(** the file was not changed since the expected length was noted *)
Definition expects (f : bytes) (r : range) : Prop := r_expected r = None \/ r_expected r = Some (zlen f).

(** ** Proofs *)
Lemma value_total f ab v : range_value f ab v -> total_of v = Some (zlen f).
Proof.
  intros (a & b & n & [Ha _] & [Hb _] & [Hn En] & ->). unfold total_of.
  change (str "/") with [slash]. rewrite !app_assoc. rewrite <- (app_assoc _ [slash] n). cbn [app]. rewrite split_at.
  - rewrite split_none by (destruct Hn as [_ Hn]; eapply Forall_impl; [|exact Hn]; unfold slash; cbn; lia). rewrite number_digits by auto. congruence.
  - repeat (apply Forall_app; split); try (apply no_dec; reflexivity); apply digits_no; auto; unfold slash; lia.
Qed.
Lemma answer_one f srv r : serves f srv -> inside f (ends r) -> expects f r -> resolve_one srv r = Next (bytes_of f (ends r), Some (zlen f)).
Proof.
  intros [H _] Hi He. destruct (H _ Hi) as (_ & _ & (v & E1 & E2) & cs & E3 & E4). unfold resolve_one. rewrite E1, (value_total E2). unfold array_buffer. rewrite E3, E4.
  destruct He as [->| ->]; auto. destruct (Z.eqb_spec (zlen f) 0); auto. rewrite Z.eqb_refl. auto.
Qed.
Lemma answer_all f srv rs : serves f srv -> Forall (fun r => inside f (ends r)) rs -> Forall (expects f) rs ->
  resolve_all srv rs = Next (map (fun r => (bytes_of f (ends r), Some (zlen f))) rs).
Proof.
  intros H. induction rs as [|r rs IH]; intros H1 H2; [reflexivity|]. inversion H1; inversion H2; subst. cbn [resolve_all map]. rewrite (@answer_one f) by auto. rewrite IH by auto. reflexivity.
Qed.
Lemma part_of_wf f ab p : inside f ab -> part_of f ab p -> part_wf p.
Proof.
  intros [Hi Hj] (H1 & H2 & (v & (a & b & n & [Ha Ea] & [Hb Eb] & [Hn En] & ->) & H3) & _ & Hd). split; auto. split; auto.
  exists a, b, n. split; auto. split; auto. split; [apply digits_no; auto; lia|]. split; auto.
  rewrite Hd, Ea, Eb. unfold bytes_of. apply zlen_slice; lia.
Qed.
Lemma hget_none k h : ~ In k (map fst h) -> hget k h = None.
Proof.
  induction h as [|[k' v] h IH]; intros H; [reflexivity|]. cbn [hget map fst In] in *. destruct (beq k k') eqn:E; [apply beq_eq in E; subst; tauto|]. apply IH. tauto.
Qed.
Lemma starts_with_app p s : starts_with p (p ++ s) = true.
Proof. induction p as [|x p IH]; [destruct s; reflexivity|]. cbn [app starts_with]. rewrite Z.eqb_refl. exact IH. Qed.
Lemma answer_multi f srv rs : serves f srv -> (2 <= length rs)%nat -> Forall (fun r => inside f (ends r) /\ r_start r < r_end r) rs ->
  request_ranges true srv rs = Next (map (fun r => (bytes_of f (ends r), Some 0)) rs).
Proof.
  intros [_ H] Hl Hr. unfold request_ranges. cbn [negb].
  assert (E : existsb (fun r => r_end r - r_start r <=? 0) rs = false).
  { clear Hl H. induction Hr as [|r rs [_ Hr] _ IH]; [reflexivity|]. cbn [existsb]. rewrite IH. destruct (Z.leb_spec (r_end r - r_start r) 0); [lia|reflexivity]. }
  rewrite E. assert (Hin : Forall (inside f) (map ends rs)) by (apply Forall_map; eapply Forall_impl; [|exact Hr]; intros r [X _]; exact X).
  destruct (H (map ends rs)) as (S1 & b & ps & after & cs & B1 & B2 & T & Hp & B3 & B4); auto; [rewrite map_length; auto|].
  rewrite S1, T. change (206 =? 200) with false. change (206 =? 206) with true. cbn iota.
  remember (content_type b) as ct eqn:Ect. destruct ct as [|c0 ct0]; [discriminate|]. rewrite Ect.
  assert (I : includes (str "multipart/byteranges") (content_type b) = true).
  { unfold content_type. change (str "multipart/byteranges; boundary=" ++ b)%list with (str "multipart/byteranges" ++ (str "; boundary=" ++ b))%list.
    change (str "multipart/byteranges") with (109 :: str "ultipart/byteranges") at 2. cbn [app]. cbn [includes].
    change (109 :: str "ultipart/byteranges" ++ str "; boundary=" ++ b) with (str "multipart/byteranges" ++ (str "; boundary=" ++ b)). rewrite starts_with_app. reflexivity. }
  rewrite I, B3.
  assert (Wf : Forall part_wf ps).
  { clear - Hp Hin. revert Hin. induction Hp; intros Hin; [constructor|]. inversion Hin; subst. constructor; auto. eapply part_of_wf; eauto. }
  rewrite (@C53_parts_come_back_partial b ps after cs) by auto.
  assert (Em : map (fun p => (p_data p, part_total (p_headers p))) ps = map (fun r => (bytes_of f (ends r), Some 0)) rs).
  { rewrite <- (map_map ends (fun ab => (bytes_of f ab, Some 0))). clear - Hp. induction Hp as [|ab p l ps Hx Hp IH]; [reflexivity|]. cbn [map]. rewrite IH. f_equal.
    destruct Hx as (_ & _ & _ & Hn & ->). unfold part_total. rewrite hget_none by auto. reflexivity. }
  destruct ps as [|p ps]; [|rewrite Em; reflexivity]. destruct rs; [cbn in Hl; lia|discriminate].
Qed.

(** The bytes: for every file, every server that serves it, and every list of
    ranges of at least two bytes, the answer holds the bytes of each range, in
    order, with and without multipart requests. *)
Theorem C75_requested_bytes_partial : forall f srv multi rs, serves f srv -> rs <> [] ->
  Forall (fun r => inside f (ends r) /\ r_start r < r_end r /\ expects f r) rs ->
  exists totals, request_ranges multi srv rs = Next (combine (map (fun r => bytes_of f (ends r)) rs) totals) /\ length totals = length rs.
Proof.
  intros f srv multi rs Hs Hn Hr.
  assert (C : forall z : range -> option Z, combine (map (fun r => bytes_of f (ends r)) rs) (map z rs) = map (fun r => (bytes_of f (ends r), z r)) rs).
  { intros z. clear. induction rs as [|r rs IH]; [reflexivity|]. cbn [map combine]. rewrite IH. reflexivity. }
  assert (A : Forall (fun r => inside f (ends r)) rs /\ Forall (expects f) rs) by (split; (eapply Forall_impl; [|exact Hr]); cbn; intros; tauto).
  destruct multi.
  2:{ exists (map (fun _ => Some (zlen f)) rs). rewrite map_length. split; auto. unfold request_ranges. cbn [negb]. rewrite (@answer_all f) by tauto. rewrite (C (fun _ => Some (zlen f))). reflexivity. }
  destruct rs as [|r [|r2 rs]]; [congruence| |].
  - exists [Some (zlen f)]. split; auto. inversion Hr as [|? ? (H1 & H2 & H3) _]; subst. unfold request_ranges. cbn [negb existsb map]. destruct (Z.leb_spec (r_end r - r_start r) 0); [lia|].
    cbn [orb]. destruct Hs as [Hs _]. destruct (Hs _ H1) as (S1 & (ct & T1 & T2 & T3) & (v & E1 & E2) & cs & E3 & E4).
    rewrite S1, T1, T3, E1. change (206 =? 200) with false. change (206 =? 206) with true. cbn iota. destruct ct; [congruence|]. rewrite (value_total E2). unfold array_buffer. rewrite E3, E4. reflexivity.
  - exists (map (fun _ => Some 0) (r :: r2 :: rs)). rewrite map_length. split; auto. rewrite (@answer_multi f); auto; [rewrite (C (fun _ => Some 0)); reflexivity|cbn; lia|].
    eapply Forall_impl; [|exact Hr]. cbn. tauto.
Qed.
(** The total length: one by one, or for a single range, it is the length of the
    file ... *)
Theorem C75_total_length_partial : forall f srv multi rs, serves f srv -> rs <> [] -> (multi = false \/ length rs = 1%nat) ->
  Forall (fun r => inside f (ends r) /\ r_start r < r_end r /\ expects f r) rs ->
  request_ranges multi srv rs = Next (map (fun r => (bytes_of f (ends r), Some (zlen f))) rs).
Proof.
  intros f srv multi rs Hs Hn Hm Hr.
  assert (A : Forall (fun r => inside f (ends r)) rs /\ Forall (expects f) rs) by (split; (eapply Forall_impl; [|exact Hr]); cbn; intros; tauto).
  destruct multi; [|unfold request_ranges; cbn [negb]; apply answer_all; tauto].
  destruct Hm as [Hm|Hm]; [discriminate|]. destruct rs as [|r [|r2 rs]]; try discriminate.
  inversion Hr as [|? ? (H1 & H2 & H3) _]; subst. unfold request_ranges. cbn [negb existsb map]. destruct (Z.leb_spec (r_end r - r_start r) 0); [lia|].
  cbn [orb]. destruct Hs as [Hs _]. destruct (Hs _ H1) as (S1 & (ct & T1 & T2 & T3) & (v & E1 & E2) & cs & E3 & E4).
  rewrite S1, T1, T3, E1. change (206 =? 200) with false. change (206 =? 206) with true. cbn iota. destruct ct; [congruence|]. rewrite (value_total E2). unfold array_buffer. rewrite E3, E4. reflexivity.
Qed.
(** ... in a multipart answer it is always 0, whatever the length of the file:
    the header is looked up under a name the parser never stores. *)
Theorem C75_total_length_refuted : forall f srv rs, serves f srv -> (2 <= length rs)%nat ->
  Forall (fun r => inside f (ends r) /\ r_start r < r_end r) rs ->
  request_ranges true srv rs = Next (map (fun r => (bytes_of f (ends r), Some 0)) rs) /\ 0 < zlen f.
Proof.
  intros f srv rs Hs Hl Hr. split; [apply answer_multi; auto|]. destruct rs as [|r rs]; [cbn in Hl; lia|]. inversion Hr as [|? ? [[H1 H2] _] _]; subst. lia.
Qed.
(** a change of the file's length goes unnoticed there: expectedLength is not looked at *)
Theorem C75_integrity_check_refuted : forall f srv rs, serves f srv -> (2 <= length rs)%nat ->
  Forall (fun r => inside f (ends r) /\ r_start r < r_end r) rs -> (exists r e, In r rs /\ r_expected r = Some e /\ e <> 0 /\ e <> zlen f) ->
  (exists l, request_ranges true srv rs = Next l) /\ request_ranges false srv rs = Throw "LengthIntegrityError".
Proof.
  intros f srv rs Hs Hl Hr Hx. split; [eexists; apply (@answer_multi f); auto|]. unfold request_ranges. cbn [negb].
  clear Hl. destruct Hx as (r & e & Hi & E & E0 & E1). revert Hi. induction Hr as [|r0 rs [H1 _] Hr IH]; intros Hi; [destruct Hi|]. cbn [resolve_all].
  destruct (proj1 Hs _ H1) as (_ & _ & (v & V1 & V2) & cs & V3 & V4). unfold resolve_one. rewrite V1, (value_total V2).
  destruct Hi as [->|Hi].
  - rewrite E. destruct (Z.eqb_spec e 0); [congruence|]. destruct (Z.eqb_spec (zlen f) e); [congruence|]. reflexivity.
  - specialize (IH Hi). destruct (r_expected r0) as [e0|]; [destruct (Z.eqb_spec e0 0); [|destruct (Z.eqb_spec (zlen f) e0); [|reflexivity]]|]; rewrite IH; reflexivity.
Qed.
(** a range of a single byte is a valid range, which only the multipart mode refuses *)
Theorem C75_one_byte_range_refuted : forall f srv a, serves f srv -> inside f (a, a) ->
  request_ranges false srv [Rng a a None] = Next [(bytes_of f (a, a), Some (zlen f))] /\
  request_ranges true srv [Rng a a None] = Throw "Invalid range".
Proof.
  intros f srv a Hs Hi. split.
  - unfold request_ranges. cbn [negb]. rewrite (@answer_all f); auto. constructor; [|constructor]. left. reflexivity.
  - unfold request_ranges. cbn [negb existsb r_end r_start]. rewrite Z.sub_diag. reflexivity.
Qed.
(** without multipart requests an error page is taken for the data: the status is
    not looked at. A server may answer 416 with Content-Range: bytes */n *)
Theorem C75_error_page_refuted : forall srv r page n, srv [ends r] = Resp 416 (Some (str "text/html")) (Some (str "bytes */" ++ n)) (Some [page]) ->
  digits n -> r_expected r = None -> request_ranges false srv [r] = Next [(page, Some (decimal n))].
Proof.
  intros srv r page n E Hn Hx. unfold request_ranges. cbn [negb resolve_all]. unfold resolve_one. rewrite E, Hx. cbn [rs_range array_buffer rs_body].
  unfold total_of. change (str "bytes */" ++ n) with (str "bytes *" ++ slash :: n). rewrite split_at by (apply no_dec; reflexivity).
  rewrite split_none by (destruct Hn as [_ Hn]; eapply Forall_impl; [|exact Hn]; unfold slash; cbn; lia). rewrite number_digits by auto. unfold array_buffer. cbn [rs_body concat]. rewrite app_nil_r. reflexivity.
Qed.
(** DataFile.get gives the bytes from start to end, the end included *)
Theorem C75_data_file_get : forall f srv multi a b, serves f srv -> inside f (a, b) -> a < b -> data_get multi srv a b = Next (bytes_of f (a, b)).
Proof.
  intros f srv multi a b Hs Hi Hab. unfold data_get. destruct (Z.leb_spec b a); [lia|].
  rewrite (@C75_total_length_partial f); auto; [discriminate|]. constructor; [|constructor]. split; auto. split; [exact Hab|left; reflexivity].
Qed.

(** ** Every file has a server that serves it: the theorems are not vacuous *)
Fixpoint dec (fuel : nat) (n : Z) : bytes := match fuel with O => [48 + n mod 10] | S fuel => if n <? 10 then [48 + n] else dec fuel (n / 10) ++ [48 + n mod 10] end.
Definition number (n : Z) : bytes := dec (Z.to_nat n) n.
Lemma dec_ok : forall fuel n, 0 <= n -> n < 10 * (Z.of_nat fuel + 1) -> stands_for (dec fuel n) n.
Proof.
  induction fuel as [|fuel IH]; intros n H1 H2.
  - cbn [dec]. assert (n < 10) by lia. rewrite Z.mod_small by lia. split; [split; [discriminate|]|unfold decimal; cbn [fold_left]; lia]. constructor; [lia|constructor].
  - cbn [dec]. destruct (Z.ltb_spec n 10) as [Hn|Hn].
    + split; [split; [discriminate|]|unfold decimal; cbn [fold_left]; lia]. constructor; [lia|constructor].
    + assert (Hd : 0 <= n / 10) by (apply Z.div_pos; lia).
      pose proof (Z.div_mod n 10 ltac:(lia)) as E. pose proof (Z.mod_pos_bound n 10 ltac:(lia)) as M.
      destruct (IH (n / 10) Hd ltac:(lia)) as [[_ D] V]. split; [split|].
      * intros X. apply (f_equal (@length Z)) in X. rewrite app_length in X. cbn in X. lia.
      * apply Forall_app. split; auto. constructor; [lia|constructor].
      * unfold decimal in *. rewrite fold_left_app, V. cbn [fold_left]. lia.
Qed.
Lemma number_ok n : 0 <= n -> stands_for (number n) n. Proof. intros H. apply dec_ok; lia. Qed.
Definition honest_value (f : bytes) (ab : Z * Z) : bytes := str "bytes " ++ number (fst ab) ++ str "-" ++ number (snd ab) ++ str "/" ++ number (zlen f).
Definition honest (f : bytes) : server := fun l =>
  match l with
  | [ab] => Resp 206 (Some (str "text/plain")) (Some (honest_value f ab)) (Some [bytes_of f ab])
  | _ => Resp 206 (Some (content_type (str "XYZ"))) None
           (Some [enc_body (str "XYZ") (map (fun ab => Part (bytes_of f ab) [(str "Content-Range", honest_value f ab)]) l) crlf])
  end.
Lemma honest_range f ab : inside f ab -> range_value f ab (honest_value f ab).
Proof.
  intros [H1 H2]. exists (number (fst ab)), (number (snd ab)), (number (zlen f)). pose proof (zlen_nonneg f). repeat (split; [apply number_ok; lia|]). reflexivity.
Qed.
Lemma honest_clean f ab : inside f ab -> clean (honest_value f ab).
Proof.
  intros [H1 H2]. pose proof (zlen_nonneg f). destruct (@number_ok (fst ab) ltac:(lia)) as [[_ A] _]. destruct (@number_ok (snd ab) ltac:(lia)) as [[_ B] _].
  destruct (@number_ok (zlen f) ltac:(lia)) as [[N0 N] _].
  assert (G : forall s, Forall (fun x => 48 <= x <= 57) s -> Forall (fun x => 32 <= x < 127 /\ x <> 58) s) by (intros s Hs; eapply Forall_impl; [|exact Hs]; cbn; lia).
  unfold honest_value. split; [discriminate|]. split; [|split].
  - assert (D : forall s, forallb (fun x => (32 <=? x) && (x <? 127) && negb (x =? 58)) s = true -> Forall (fun x => 32 <= x < 127 /\ x <> 58) s).
    { intros s Hs. apply Forall_forall. intros x Hx. rewrite forallb_forall in Hs. specialize (Hs x Hx). apply andb_prop in Hs. destruct Hs as [Hs Q]. apply andb_prop in Hs. destruct Hs as [Q1 Q2].
      apply Z.leb_le in Q1. apply Z.ltb_lt in Q2. destruct (Z.eqb_spec x 58); [discriminate|]. lia. }
    repeat (apply Forall_app; split); auto.
  - cbn. lia.
  - destruct (exists_last N0) as (l & x & E). rewrite E in *. rewrite !app_assoc, last_last. apply Forall_app in N. destruct N as [_ N]. inversion N; subst. lia.
Qed.
Theorem C75_witness : forall f, serves f (honest f).
Proof.
  intros f. split.
  - intros ab Hi. cbn [honest]. split; [reflexivity|]. split; [exists (str "text/plain"); split; [reflexivity|split; [discriminate|reflexivity]]|].
    split; [exists (honest_value f ab); split; [reflexivity|apply honest_range; auto]|]. exists [bytes_of f ab]. split; [reflexivity|]. apply app_nil_r.
  - intros l Hl Hi. destruct l as [|a [|b l]]; [cbn in Hl; lia|cbn in Hl; lia|]. unfold honest. split; [reflexivity|].
    exists (str "XYZ"), (map (fun ab => Part (bytes_of f ab) [(str "Content-Range", honest_value f ab)]) (a :: b :: l)), crlf.
    eexists. split; [discriminate|]. split; [change (str "XYZ") with [88; 89; 90]; repeat apply Forall_cons; try apply Forall_nil; unfold token_char; lia|].
    split; [reflexivity|]. split; [|split; [reflexivity|apply app_nil_r]].
    clear Hl. induction Hi as [|ab k Hi _ IH]; cbn [map]; constructor; auto. split; [|split; [|split; [|split]]]; cbn [p_headers p_data map fst].
    + constructor; [|constructor]. cbn [fst snd]. split; [apply clean_dec; reflexivity|split; [apply honest_clean; auto|discriminate]].
    + constructor; [intros []|constructor].
    + exists (honest_value f ab). split; [apply honest_range; auto|left; reflexivity].
    + intros [X|[]]. discriminate.
    + reflexivity.
Qed.
(** A server may answer a request for several ranges with the whole file (status
    200): the ranges are then asked for one by one, and come back right, with the
    right total. *)
Definition serves_one_by_one (f : bytes) (srv : server) : Prop :=
  (forall ab, inside f ab -> single_answer f ab (srv [ab])) /\
  (forall l, (2 <= length l)%nat -> exists ct cs, srv l = Resp 200 ct None (Some cs) /\ concat cs = f).
Theorem C75_server_without_multipart : forall f srv multi rs, serves_one_by_one f srv -> rs <> [] ->
  Forall (fun r => inside f (ends r) /\ r_start r < r_end r /\ expects f r) rs ->
  request_ranges multi srv rs = Next (map (fun r => (bytes_of f (ends r), Some (zlen f))) rs).
Proof.
  intros f srv multi rs Hs Hn Hr.
  set (srv' := fun l : list (Z * Z) => match l with [ab] => srv [ab] | _ => honest f l end).
  assert (S' : serves f srv').
  { split; [apply Hs|]. intros l Hl Hi. destruct l as [|a [|b l]]; [cbn in Hl; lia|cbn in Hl; lia|]. apply (C75_witness f); auto. }
  assert (E : forall rs, resolve_all srv rs = resolve_all srv' rs) by (clear; induction rs as [|r rs IH]; [reflexivity|]; cbn [resolve_all]; rewrite IH; reflexivity).
  assert (A : resolve_all srv rs = Next (map (fun r => (bytes_of f (ends r), Some (zlen f))) rs)).
  { rewrite E. apply answer_all; auto; (eapply Forall_impl; [|exact Hr]); cbn; intros; tauto. }
  destruct multi; [|exact A].
  destruct rs as [|r [|r2 rs]]; [congruence| |].
  - rewrite <- (@C75_total_length_partial f srv' true [r] S' Hn (or_intror eq_refl) Hr). reflexivity.
  - unfold request_ranges. cbn [negb].
    assert (X : existsb (fun r => r_end r - r_start r <=? 0) (r :: r2 :: rs) = false).
    { clear - Hr. induction Hr as [|x xs (_ & Hx & _) _ IH]; [reflexivity|]. cbn [existsb]. rewrite IH. destruct (Z.leb_spec (r_end x - r_start x) 0); [lia|reflexivity]. }
    rewrite X. destruct (proj2 Hs (map ends (r :: r2 :: rs))) as (ct & cs & Q & _); [rewrite map_length; cbn; lia|]. rewrite Q. exact A.
Qed.
(** every file has such a server *)
Theorem C75_server_without_multipart_witness : forall f, serves_one_by_one f (fun l => match l with [ab] => honest f [ab] | _ => Resp 200 (Some (str "text/plain")) None (Some [f]) end).
Proof.
  intros f. split; [apply (C75_witness f)|]. intros l Hl. destruct l as [|a [|b l]]; [cbn in Hl; lia|cbn in Hl; lia|]. eexists _, _. split; [reflexivity|apply app_nil_r].
Qed.
(** A server that ignores Range altogether is not a source of wrong bytes: the request fails. *)
Theorem C75_server_without_ranges : forall f srv multi rs, (forall l, exists ct cs, srv l = Resp 200 ct None (Some cs) /\ concat cs = f) -> rs <> [] ->
  exists w, request_ranges multi srv rs = Throw w.
Proof.
  intros f srv multi rs Hs Hn. assert (A : exists w, resolve_all srv rs = Throw w).
  { destruct rs as [|r rs]; [congruence|]. cbn [resolve_all]. unfold resolve_one. destruct (Hs [ends r]) as (ct & cs & E & _). rewrite E. cbn [rs_range]. eauto. }
  unfold request_ranges. destruct (negb multi); [exact A|]. destruct (existsb _ rs); [eauto|]. destruct (Hs (map ends rs)) as (ct & cs & E & _). rewrite E. exact A.
Qed.
Example C75_example : request_ranges true (honest (str "hello world")) [Rng 0 4 None; Rng 6 10 (Some 99)] = Next [(str "hello", Some 0); (str "world", Some 0)].
Proof. vm_compute. reflexivity. Qed.
