(** C13-C17: page allocation over whole histories of a page file. *)
From Verif Require Import Base Store PageFile PageHist RefValue LinkedPage.
From Coq Require Import Permutation.

(** ** Histories of a page file *)
(** What a client did, with the answers it got:
    - [EvNew buf o at_end]: NewPage(buf) returned [o]; [at_end] tells whether
      [o] was the end of the file;
    - [EvFree o]: FreePage(o) succeeded;
    - [EvRefused]: NewPage or FreePage returned an error;
    - [EvPut o b]: Seek(o), Write(b) inside a page other than the first one;
    - [EvReopen k]: the file was closed and opened again with storage [k]. *)
Inductive ev := EvNew (buf : bytes) (o : Z) (at_end : bool) | EvFree (o : Z) | EvRefused
  | EvPut (o : Z) (b : bytes) | EvReopen (k : rws_kind).
(** [reach tr s]: a file created empty and used as [tr] says is in state [s].
    Only pages of the file are freed (that they are aligned is checked by FreePage). *)
Inductive reach : list ev -> st -> Prop :=
| r_open k s : new_page_file (open_rws k []) = (Ok tt, s) -> reach [] s
| r_new tr s buf o s' : reach tr s -> new_page buf s = (Ok o, s') ->
    reach (tr ++ [EvNew buf o (o =? zlen (file s))]) s'
| r_new_err tr s buf e s' : reach tr s -> new_page buf s = (Err e, s') -> reach (tr ++ [EvRefused]) s'
| r_free tr s o s' : reach tr s -> 0 < o < 2^63 -> o + pageSize <= zlen (file s) ->
    free_page o s = (Ok tt, s') -> reach (tr ++ [EvFree o]) s'
| r_free_err tr s o e s' : reach tr s -> free_page o s = (Err e, s') -> reach (tr ++ [EvRefused]) s'
| r_put tr s o b n s' : reach tr s -> pageSize <= o -> o mod pageSize + zlen b <= pageSize ->
    o + zlen b <= zlen (file s) -> (seek_start o ;;; pf_write b) s = (Ok n, s') -> reach (tr ++ [EvPut o b]) s'
| r_reopen tr s k s' : reach tr s -> new_page_file (open_rws k (file s)) = (Ok tt, s') -> reach (tr ++ [EvReopen k]) s'.

(** ** Specification vocabulary *)
(** the pages freed, and the pages handed out again, in order *)
Fixpoint freed (tr : list ev) : list Z :=
  match tr with [] => [] | EvFree o :: r => o :: freed r | _ :: r => freed r end.
Fixpoint reused (tr : list ev) : list Z :=
  match tr with [] => [] | EvNew _ o false :: r => o :: reused r | _ :: r => reused r end.
(** [o] was handed out and not freed since *)
Definition live (tr : list ev) (o : Z) : Prop :=
  exists tr1 buf e tr2, tr = tr1 ++ EvNew buf o e :: tr2 /\ ~ In (EvFree o) tr2.
(** [b] padded with zeros to a page *)
Definition padded (b : bytes) : bytes := b ++ zeros (pageSize - zlen b).
(** nothing in [tr] frees page [o] or writes into it *)
Definition leaves_alone (o : Z) (tr : list ev) : Prop :=
  ~ In (EvFree o) tr /\ (forall o' b, In (EvPut o' b) tr -> o' + zlen b <= o \/ o + pageSize <= o').

(** successful FreePage calls since the file was last opened *)
Fixpoint frees_since_open (tr : list ev) (n : Z) : Z :=
  match tr with
  | [] => n
  | EvFree _ :: r => frees_since_open r (n + 1)
  | EvReopen _ :: r => frees_since_open r 0
  | _ :: r => frees_since_open r n
  end.
(** free pages when the file was last opened: those freed and not handed out before *)
Fixpoint free_at_open (tr before : list ev) (n : Z) : Z :=
  match tr with
  | [] => n
  | EvReopen k :: r => free_at_open r (before ++ [EvReopen k]) (zlen (freed before) - zlen (reused before))
  | e :: r => free_at_open r (before ++ [e]) n
  end.
(** an upper bound for how far into its 512 entry ring the free list has got *)
Definition ring_use (tr : list ev) : Z := free_at_open tr [] 0 + frees_since_open tr 0.

(** ** Invariant *)
Definition Inv (tr : list ev) (s : st) (fl : list Z) : Prop :=
  pf_inv s fl /\ budget s = None /\ lastPage s = zlen (file s) / pageSize /\
  freed tr = reused tr ++ fl /\
  (forall o, live tr o -> pageSize <= o /\ o mod pageSize = 0 /\ o + pageSize <= zlen (file s) /\ ~ In o fl).

Lemma freed_app a b : freed (a ++ b) = freed a ++ freed b.
Proof. induction a as [|[] a IH]; cbn [app freed]; rewrite ?IH; auto. Qed.
Lemma reused_app a b : reused (a ++ b) = reused a ++ reused b.
Proof. induction a as [|[? ? []|?| |? ?|?] a IH]; cbn [app reused]; rewrite ?IH; auto. Qed.
Lemma app_cons_snoc {A} (x : A) (tr : list A) (e : A) (t1 : list A) (y : A) (t2 : list A) : tr ++ [e] = t1 ++ y :: t2 ->
  (t2 = [] /\ e = y /\ tr = t1) \/ (exists t2', t2 = t2' ++ [e] /\ tr = t1 ++ y :: t2').
Proof.
  destruct t2 as [|z t2] using rev_ind; intros H.
  - apply app_inj_tail in H. destruct H; auto.
  - right. rewrite app_comm_cons, app_assoc in H. apply app_inj_tail in H. destruct H as [-> ->]. eauto.
Qed.
Lemma live_snoc tr e o : live (tr ++ [e]) o ->
  (live tr o /\ e <> EvFree o) \/ (exists buf b, e = EvNew buf o b).
Proof.
  intros (t1 & buf & b & t2 & E & Hn). apply (app_cons_snoc e) in E. destruct E as [(-> & -> & ->)|(t2' & -> & ->)].
  - right. eauto.
  - left. split; [|intros ->; apply Hn, in_or_app; right; left; auto].
    exists t1, buf, b, t2'. split; auto. intros H; apply Hn, in_or_app; auto.
Qed.
Lemma frees_since_open_app a b n : frees_since_open (a ++ b) n = frees_since_open b (frees_since_open a n).
Proof. revert n; induction a as [|[] a IH]; intros n; cbn [app frees_since_open]; auto. Qed.
Lemma free_at_open_snoc a e before n : free_at_open (a ++ [e]) before n =
  match e with EvReopen _ => zlen (freed (before ++ a)) - zlen (reused (before ++ a)) | _ => free_at_open a before n end.
Proof.
  revert before n; induction a as [|x a IH]; intros before n; cbn [app].
  - rewrite app_nil_r. destruct e; reflexivity.
  - destruct x; cbn [free_at_open]; rewrite IH, <- app_assoc; reflexivity.
Qed.
Lemma ring_use_snoc tr e : ring_use (tr ++ [e]) =
  match e with EvReopen _ => zlen (freed tr) - zlen (reused tr) | EvFree _ => ring_use tr + 1 | _ => ring_use tr end.
Proof. unfold ring_use. rewrite free_at_open_snoc, frees_since_open_app. destruct e; cbn [frees_since_open app]; lia. Qed.
Lemma zlen_div_grow a : a mod pageSize = 0 -> (a + pageSize) / pageSize = a / pageSize + 1.
Proof. intros. unfold pageSize in *. lia. Qed.

Lemma put_file s o b n s' : budget s = None -> pageSize <= o -> o mod pageSize + zlen b <= pageSize ->
  o + zlen b <= zlen (file s) -> (seek_start o ;;; pf_write b) s = (Ok n, s') ->
  exists p, s' = set_pos (set_file s (upd (file s) o b)) p.
Proof.
  intros Hb Ho Hm Hin E. pose proof (zlen_nonneg b).
  destruct (@seek_pf_write s o b Hb ltac:(unfold pageSize in *; lia) Hm) as (n' & p & E').
  rewrite E in E'. injection E' as _ ->. eauto.
Qed.
Lemma new_page_err_same s fl buf e s' : pf_inv s fl -> budget s = None -> new_page buf s = (Err e, s') -> s' = s /\ pageSize < zlen buf.
Proof.
  intros Hi Hb E. destruct (Z.le_gt_cases (zlen buf) pageSize) as [Hl|Hl].
  - destruct (@new_page_ok s fl buf Hi Hb Hl) as (s2 & E2 & _). congruence.
  - rewrite new_page_too_large in E by auto. inversion E; auto.
Qed.

Lemma reach_inv2 tr s : reach tr s -> exists fl tail, Inv tr s fl /\ ring_at s fl tail /\ tail + zlen fl <= ring_use tr.
Proof.
  induction 1 as [k s E | tr s buf o s' _ (fl & tail & (Hi & Hb & Hp & Hf & Hl) & Hra & Hru) E
    | tr s buf e s' _ (fl & tail & (Hi & Hb & Hp & Hf & Hl) & Hra & Hru) E
    | tr s o s' _ (fl & tail & (Hi & Hb & Hp & Hf & Hl) & Hra & Hru) Ho Hin E
    | tr s o e s' _ (fl & tail & (Hi & Hb & Hp & Hf & Hl) & Hra & Hru) E
    | tr s o b n s' _ (fl & tail & (Hi & Hb & Hp & Hf & Hl) & Hra & Hru) Ho Hm Hin E
    | tr s k s' _ (fl & tail & (Hi & Hb & Hp & Hf & Hl) & Hra & Hru) E].
  - destruct (new_page_file_fresh k) as (s2 & E2 & Hi & Hra & Hz & _ & Hb & Hp). rewrite E in E2. injection E2 as <-.
    exists [], 0. split; [|split; [exact Hra | reflexivity]]. split; [auto|]. split; [auto|]. split; [rewrite Hp, Hz; reflexivity|]. split; [reflexivity|].
    intros o (t1 & ? & ? & ? & E1 & _). destruct t1; discriminate.
  - destruct (Z.le_gt_cases (zlen buf) pageSize) as [Hlen|Hlen].
    2:{ rewrite new_page_too_large in E by auto. discriminate. }
    destruct (@new_page_ok s fl buf Hi Hb Hlen) as (s2 & E2 & Hfile & Hi2 & _ & Hb2 & Hp2 & _).
    rewrite E in E2. injection E2 as -> <-.
    destruct (np_off_ok Hi) as (N1 & N2 & N3).
    pose proof (zlen_np_file buf Hi Hlen) as Hzl. rewrite <- Hfile in Hzl.
    assert (Hal : zlen (file s) mod pageSize = 0) by (destruct Hi; auto).
    assert (Hokfl : Forall (page_ok (file s)) fl) by (destruct Hi; auto).
    destruct (new_page_ring _ Hi Hra Hb E) as (tail' & Hra' & Hle'). exists (tl fl), tail'. split; [|split; [exact Hra' | rewrite ring_use_snoc; lia]]. split; [auto|]. split; [auto|]. split.
    { rewrite Hp2, Hp, Hzl. destruct fl; [|lia]. rewrite zlen_div_grow; auto. }
    split.
    { rewrite freed_app, reused_app. cbn [freed]. rewrite app_nil_r, Hf. destruct fl as [|x fl]; cbn [np_off tl].
      - rewrite Z.eqb_refl. cbn [reused]. rewrite !app_nil_r. reflexivity.
      - inversion Hokfl as [|? ? Hx _]; subst. destruct Hx as (X1 & X2 & X3 & X4).
        destruct (Z.eqb_spec x (zlen (file s))); [unfold pageSize in *; lia|]. cbn [reused]. rewrite <- app_assoc. reflexivity. }
    intros o Ho. apply live_snoc in Ho. destruct Ho as [[Ho _]|(buf' & b' & Eo)].
    + destruct (Hl _ Ho) as (L1 & L2 & L3 & L4). split; auto. split; auto. split.
      * rewrite Hzl. destruct fl; unfold pageSize in *; lia.
      * intros H. apply L4. destruct fl; [destruct H | right; auto].
    + injection Eo as <- <- _. split; auto. split; auto. split; auto.
      rewrite Hzl. destruct fl as [|x fl]; cbn [np_off]; [lia|]. inversion Hokfl as [|? ? Hx _]; subst. destruct Hx as (X1 & X2 & X3 & X4). lia.
  - destruct (new_page_err_same _ Hi Hb E) as [-> _]. exists fl, tail. split; [|split; [exact Hra | rewrite ring_use_snoc; lia]]. split; [auto|]. split; [auto|]. split; [auto|].
    split; [rewrite freed_app, reused_app; cbn [freed reused]; rewrite !app_nil_r; auto|].
    intros o Ho. apply live_snoc in Ho. destruct Ho as [[Ho _]|(? & ? & ?)]; [auto|discriminate].
  - pose proof Hra as Hr.
    destruct (@free_page_ok_inv s fl tail o s' Hi Hr Hb ltac:(lia) Hin ltac:(lia) E) as (Hpo & Hni & Hlt).
    destruct (@free_page_ok s fl tail o Hi Hr Hb Hpo Hni Hlt) as (s2 & E2 & Hi2 & Hra2 & Hfile & _ & Hb2 & Hp2).
    rewrite E in E2. injection E2 as <-.
    assert (Hz : zlen (file s') = zlen (file s)).
    { destruct Hr as (Htl & Hle & _). rewrite Hfile. rewrite zlen_upd by (pose proof (zlen_nonneg (file s)); lia).
      rewrite zlen_enc_free by (rewrite zlen_app; unfold zlen at 2; cbn [length]; lia). destruct Hi; lia. }
    exists (fl ++ [o]), tail. split; [|split; [exact Hra2 | rewrite ring_use_snoc, zlen_app; unfold zlen at 2; cbn [length]; lia]]. split; [auto|]. split; [auto|]. split; [rewrite Hp2, Hz; auto|]. split.
    { rewrite freed_app, reused_app. cbn [freed reused]. rewrite app_nil_r, Hf, app_assoc. reflexivity. }
    intros o' Ho'. apply live_snoc in Ho'. destruct Ho' as [[Ho' Hne]|(? & ? & ?)]; [|discriminate].
    destruct (Hl _ Ho') as (L1 & L2 & L3 & L4). rewrite Hz. repeat split; auto.
    intros Hx. apply in_app_iff in Hx. destruct Hx as [Hx|[<-|[]]]; [auto|]. apply Hne; reflexivity.
  - rewrite (free_page_err _ Hi Hb E). exists fl, tail. split; [|split; [exact Hra | rewrite ring_use_snoc; lia]]. split; [auto|]. split; [auto|]. split; [auto|].
    split; [rewrite freed_app, reused_app; cbn [freed reused]; rewrite !app_nil_r; auto|].
    intros o' Ho'. apply live_snoc in Ho'. destruct Ho' as [[Ho' _]|(? & ? & ?)]; [auto|discriminate].
  - destruct (@put_file _ _ _ _ _ Hb Ho Hm Hin E) as (p & ->). pose proof (zlen_nonneg b).
    assert (Hz : zlen (upd (file s) o b) = zlen (file s)) by (rewrite zlen_upd by (unfold pageSize in *; lia); lia).
    exists fl, tail. split; [|split; [exact Hra | rewrite ring_use_snoc; lia]]. split; [apply pf_inv_write; auto|]. split; [auto|]. cbn [file set_pos set_file lastPage]. rewrite Hz. split; [auto|].
    split; [rewrite freed_app, reused_app; cbn [freed reused]; rewrite !app_nil_r; auto|].
    intros o' Ho'. apply live_snoc in Ho'. destruct Ho' as [[Ho' _]|(? & ? & ?)]; [auto|discriminate].
  - destruct (new_page_file_reopen k Hi) as (s2 & E2 & Hi2 & Hra2 & Hfile & _ & Hb2 & Hp2).
    rewrite E in E2. injection E2 as <-.
    exists fl, 0. split; [|split; [exact Hra2 | rewrite ring_use_snoc, Hf, zlen_app; lia]]. split; [auto|]. split; [auto|]. rewrite Hfile. split; [auto|].
    split; [rewrite freed_app, reused_app; cbn [freed reused]; rewrite !app_nil_r; auto|].
    intros o' Ho'. apply live_snoc in Ho'. destruct Ho' as [[Ho' _]|(? & ? & ?)]; [auto|discriminate].
Qed.

Lemma reach_inv tr s : reach tr s -> exists fl, Inv tr s fl.
Proof. intros H. destruct (reach_inv2 H) as (fl & _ & HI & _). eauto. Qed.

(** ** C13 *)
Theorem C13_new_page tr s buf : reach tr s -> zlen buf <= pageSize ->
  exists o s', new_page buf s = (Ok o, s') /\
    o mod pageSize = 0 /\ 0 < o /\
    (* a freed page, or the old end of the file *)
    (In o (freed tr) /\ zlen (file s') = zlen (file s) \/ o = zlen (file s) /\ zlen (file s') = zlen (file s) + pageSize) /\
    (* the page holds buf and zeros *)
    slice (file s') o pageSize = padded buf /\
    (* every byte outside the new page and the first page is unchanged *)
    (forall i, pageSize <= i < zlen (file s) -> (i < o \/ o + pageSize <= i) -> slice (file s') i 1 = slice (file s) i 1).
Proof.
  intros H Hb. destruct (reach_inv H) as (fl & Hi & Hbu & Hp & Hf & Hl).
  destruct (@new_page_ok s fl buf Hi Hbu Hb) as (s' & E & Hfile & Hi2 & _ & _ & _ & _).
  exists (np_off s fl), s'. destruct (np_off_ok Hi) as (N1 & N2 & N3). split; [exact E|]. split; [auto|]. split; [unfold pageSize in *; lia|].
  split.
  { rewrite Hfile, (zlen_np_file buf Hi Hb). destruct fl as [|x fl]; cbn [np_off]; [right; auto|left].
    split; [|auto]. rewrite Hf. apply in_or_app. right. left. reflexivity. }
  split; [rewrite Hfile; apply (np_new_page buf Hi Hb)|].
  intros i Hin Hd. rewrite Hfile. apply np_frame; auto; lia.
Qed.
Theorem C13_oversized_buffer_refused tr s buf : reach tr s -> pageSize < zlen buf ->
  exists e, new_page buf s = (Err e, s).
Proof. intros _ H. rewrite new_page_too_large by auto. eauto. Qed.

(** a page keeps its contents until it is freed or written to *)
Theorem C13_pages_keep_their_content tr1 buf o e tr2 s :
  reach (tr1 ++ EvNew buf o e :: tr2) s -> leaves_alone o tr2 -> slice (file s) o pageSize = padded buf.
Proof.
  remember (tr1 ++ EvNew buf o e :: tr2) as tr eqn:Etr. intros H. revert tr2 Etr.
  induction H as [k s E | tr s buf' o' s' Hr IH E | tr s buf' e' s' Hr IH E | tr s o' s' Hr IH Ho Hin E
    | tr s o' e' s' Hr IH E | tr s o' b n s' Hr IH Ho Hm Hin E | tr s k s' Hr IH E]; intros tr2 Etr Hla.
  - destruct tr1; discriminate.
  - apply (app_cons_snoc (EvRefused)) in Etr. destruct Etr as [(-> & Ee & ->)|(t2 & -> & ->)].
    + injection Ee as -> -> _. destruct (reach_inv Hr) as (fl & Hi & Hbu & Hp & Hf & Hl).
      destruct (Z.le_gt_cases (zlen buf) pageSize) as [Hlen|Hlen].
      2:{ rewrite new_page_too_large in E by auto. discriminate. }
      destruct (@new_page_ok s fl buf Hi Hbu Hlen) as (s2 & E2 & Hfile & _). rewrite E in E2. injection E2 as -> <-.
      rewrite Hfile. apply (np_new_page buf Hi Hlen).
    + assert (Hla' : leaves_alone o t2).
      { destruct Hla as [A1 A2]. split; [intros X; apply A1, in_or_app; auto|]. intros a b' Hab. apply A2, in_or_app; auto. }
      specialize (IH _ eq_refl Hla').
      destruct (reach_inv Hr) as (fl & Hi & Hbu & Hp & Hf & Hl).
      destruct (Z.le_gt_cases (zlen buf') pageSize) as [Hlen|Hlen].
      2:{ rewrite new_page_too_large in E by auto. discriminate. }
      destruct (@new_page_ok s fl buf' Hi Hbu Hlen) as (s2 & E2 & Hfile & _). rewrite E in E2. injection E2 as -> <-.
      rewrite Hfile. destruct (np_off_ok Hi) as (N1 & N2 & N3).
      assert (Hlv : live (tr1 ++ EvNew buf o e :: t2) o) by (exists tr1, buf, e, t2; split; auto; apply Hla').
      destruct (Hl _ Hlv) as (L1 & L2 & L3 & L4).
      rewrite np_frame; auto. apply aligned_disj; auto.
      intros Eo. unfold np_off in Eo. destruct fl as [|x fl]; [unfold pageSize in *; lia|]. apply L4. left. auto.
  - apply (app_cons_snoc (EvRefused)) in Etr. destruct Etr as [(-> & Ee & ->)|(t2 & -> & ->)]; [discriminate|].
    destruct (reach_inv Hr) as (fl & Hi & Hbu & _). destruct (new_page_err_same _ Hi Hbu E) as [-> _].
    apply (IH _ eq_refl). destruct Hla as [A1 A2]. split; [intros X; apply A1, in_or_app; auto|]. intros a b' Hab. apply A2, in_or_app; auto.
  - apply (app_cons_snoc (EvRefused)) in Etr. destruct Etr as [(-> & Ee & ->)|(t2 & -> & ->)]; [discriminate|].
    assert (Hla' : leaves_alone o t2).
    { destruct Hla as [A1 A2]. split; [intros X; apply A1, in_or_app; auto|]. intros a b' Hab. apply A2, in_or_app; auto. }
    rewrite <- (IH _ eq_refl Hla').
    destruct (reach_inv Hr) as (fl & Hi & Hbu & Hp & Hf & Hl). destruct (pf_inv_ring Hi) as (tail & Hring).
    destruct (@free_page_ok_inv s fl tail o' s' Hi Hring Hbu ltac:(lia) Hin ltac:(lia) E) as (Hpo & Hni & Hlt).
    destruct (@free_page_ok s fl tail o' Hi Hring Hbu Hpo Hni Hlt) as (s2 & E2 & Hi2 & _ & Hfile & _).
    rewrite E in E2. injection E2 as <-. rewrite Hfile.
    assert (Hlv : live (tr1 ++ EvNew buf o e :: t2) o) by (exists tr1, buf, e, t2; split; auto; apply Hla').
    destruct (Hl _ Hlv) as (L1 & L2 & L3 & L4).
    assert (Hfl : zlen (fl ++ [o']) <= 512) by (destruct Hring as (Htl & Hle & _); rewrite zlen_app; unfold zlen at 2; cbn [length]; lia).
    apply slice_upd_disj; [pose proof (zlen_nonneg (file s)); lia | unfold pageSize in *; lia | right; rewrite zlen_enc_free by auto; lia].
  - apply (app_cons_snoc (EvRefused)) in Etr. destruct Etr as [(-> & Ee & ->)|(t2 & -> & ->)]; [discriminate|].
    destruct (reach_inv Hr) as (fl & Hi & Hbu & _). rewrite (free_page_err _ Hi Hbu E).
    apply (IH _ eq_refl). destruct Hla as [A1 A2]. split; [intros X; apply A1, in_or_app; auto|]. intros a b' Hab. apply A2, in_or_app; auto.
  - apply (app_cons_snoc (EvRefused)) in Etr. destruct Etr as [(-> & Ee & ->)|(t2 & -> & ->)]; [discriminate|].
    assert (Hla' : leaves_alone o t2).
    { destruct Hla as [A1 A2]. split; [intros X; apply A1, in_or_app; auto|]. intros a b' Hab. apply A2, in_or_app; auto. }
    rewrite <- (IH _ eq_refl Hla').
    destruct (reach_inv Hr) as (fl & Hi & Hbu & Hp & Hf & Hl). destruct (@put_file _ _ _ _ _ Hbu Ho Hm Hin E) as (p & ->).
    assert (Hlv : live (tr1 ++ EvNew buf o e :: t2) o) by (exists tr1, buf, e, t2; split; auto; apply Hla').
    destruct (Hl _ Hlv) as (L1 & L2 & L3 & L4). cbn [file set_pos set_file].
    destruct Hla as [_ A2]. specialize (A2 o' b ltac:(apply in_or_app; right; left; auto)).
    pose proof (zlen_nonneg b). apply slice_upd_disj; unfold pageSize in *; lia.
  - apply (app_cons_snoc (EvRefused)) in Etr. destruct Etr as [(-> & Ee & ->)|(t2 & -> & ->)]; [discriminate|].
    destruct (reach_inv Hr) as (fl & Hi & Hbu & _). destruct (new_page_file_reopen k Hi) as (s2 & E2 & _ & _ & Hfile & _).
    rewrite E in E2. injection E2 as <-. rewrite Hfile.
    apply (IH _ eq_refl). destruct Hla as [A1 A2]. split; [intros X; apply A1, in_or_app; auto|]. intros a b' Hab. apply A2, in_or_app; auto.
Qed.

(** ** C14 *)
Theorem C14_live_pages_are_not_handed_out tr s buf o s' :
  reach tr s -> new_page buf s = (Ok o, s') -> ~ live tr o.
Proof.
  intros H E Hlv. destruct (reach_inv H) as (fl & Hi & Hbu & Hp & Hf & Hl).
  destruct (Z.le_gt_cases (zlen buf) pageSize) as [Hlen|Hlen].
  2:{ rewrite new_page_too_large in E by auto. discriminate. }
  destruct (@new_page_ok s fl buf Hi Hbu Hlen) as (s2 & E2 & _). rewrite E in E2. injection E2 as -> <-.
  destruct (Hl _ Hlv) as (L1 & L2 & L3 & L4). unfold np_off in *. destruct fl as [|x fl]; [unfold pageSize in *; lia|].
  apply L4. left. reflexivity.
Qed.
(** the same about the trace alone: between two allocations of a page it was freed *)
Theorem C14_reuse_only_after_free tr1 b1 e1 o tr2 b2 e2 tr3 s :
  reach (tr1 ++ EvNew b1 o e1 :: tr2 ++ EvNew b2 o e2 :: tr3) s -> In (EvFree o) tr2.
Proof.
  intros H.
  assert (Hp : forall tr s, reach tr s -> forall t1 b o e t2, tr = t1 ++ EvNew b o e :: t2 -> ~ live t1 o).
  { clear. induction 1 as [k s E | tr s buf' o' s' Hr IH E | tr s buf' e' s' Hr IH E | tr s o' s' Hr IH Ho Hin E
      | tr s o' e' s' Hr IH E | tr s o' b n s' Hr IH Ho Hm Hin E | tr s k s' Hr IH E]; intros t1 bb oo ee t2 Etr;
      try (apply (app_cons_snoc EvRefused) in Etr; destruct Etr as [(-> & Ee & ->)|(t2' & -> & ->)]; [discriminate | eapply IH; reflexivity]).
    - destruct t1; discriminate.
    - apply (app_cons_snoc EvRefused) in Etr; destruct Etr as [(-> & Ee & ->)|(t2' & -> & ->)]; [|eapply IH; reflexivity].
      injection Ee as -> -> _. eapply C14_live_pages_are_not_handed_out; eauto. }
  destruct (in_dec (fun a b : ev => ltac:(decide equality; first [apply Z.eq_dec | apply bool_dec | apply (list_eq_dec Z.eq_dec) | decide equality])) (EvFree o) tr2) as [Hin|Hni]; [auto|exfalso].
  apply (Hp _ _ H (tr1 ++ EvNew b1 o e1 :: tr2) b2 o e2 tr3).
  - rewrite <- app_assoc. reflexivity.
  - exists tr1, b1, e1, tr2. auto.
Qed.

(** ** C15 *)
(** pages come back in the order in which they were freed, reopening or not;
    the next one is the oldest freed page that has not come back *)
Theorem C15_free_list_is_fifo tr s : reach tr s ->
  exists q, freed tr = reused tr ++ q /\
    forall buf, zlen buf <= pageSize ->
      exists o s', new_page buf s = (Ok o, s') /\ match q with [] => o = zlen (file s) | x :: _ => o = x end.
Proof.
  intros H. destruct (reach_inv H) as (fl & Hi & Hbu & Hp & Hf & Hl). exists fl. split; auto.
  intros buf Hlen. destruct (@new_page_ok s fl buf Hi Hbu Hlen) as (s2 & E2 & _). exists (np_off s fl), s2.
  split; auto. destruct fl; reflexivity.
Qed.
(** reopening succeeds, changes no byte and gives the same answers *)
Theorem C15_free_list_survives_reopening tr s k : reach tr s ->
  exists s', new_page_file (open_rws k (file s)) = (Ok tt, s') /\ file s' = file s /\
    forall buf o s1, new_page buf s = (Ok o, s1) -> exists s1', new_page buf s' = (Ok o, s1') /\ file s1' = file s1.
Proof.
  intros H. destruct (reach_inv H) as (fl & Hi & Hbu & Hp & Hf & Hl).
  destruct (new_page_file_reopen k Hi) as (s' & E & Hi' & _ & Hfile & _ & Hb' & _). exists s'. split; auto. split; auto.
  intros buf o s1 E1. destruct (Z.le_gt_cases (zlen buf) pageSize) as [Hlen|Hlen].
  2:{ rewrite new_page_too_large in E1 by auto. discriminate. }
  destruct (@new_page_ok s fl buf Hi Hbu Hlen) as (s2 & E2 & F2 & _). rewrite E1 in E2. injection E2 as -> <-.
  destruct (@new_page_ok s' fl buf Hi' Hb' Hlen) as (s3 & E3 & F3 & _). exists s3.
  replace (np_off s fl) with (np_off s' fl) by (unfold np_off; rewrite Hfile; reflexivity).
  split; [exact E3|]. rewrite F2, F3. unfold np_file, np_off. rewrite Hfile. reflexivity.
Qed.


(** ** C16 *)
(** Full statement: no FreePage of a page in use and no NewPage panics, whatever
    happened before. *)
Definition never_panics : Prop := forall tr s, reach tr s ->
  (forall buf, fst (new_page buf s) <> Panic) /\ (forall o, live tr o -> o < 2^63 -> fst (free_page o s) <> Panic).

(** NewPage never panics; FreePage of a page in use succeeds as long as the pages
    free at the last opening plus the pages freed since are fewer than 512. *)
Theorem C16_no_panic_partial tr s : reach tr s ->
  (forall buf, fst (new_page buf s) <> Panic) /\
  (ring_use tr < 512 -> forall o, live tr o -> o < 2^63 -> exists s', free_page o s = (Ok tt, s')).
Proof.
  intros H. destruct (reach_inv2 H) as (fl & tail & (Hi & Hb & Hp & Hf & Hl) & Hra & Hru). split.
  - intros buf. destruct (Z.le_gt_cases (zlen buf) pageSize) as [Hlen|Hlen].
    + destruct (@new_page_ok s fl buf Hi Hb Hlen) as (s2 & E2 & _). rewrite E2. discriminate.
    + rewrite new_page_too_large by auto. discriminate.
  - intros Hu o Ho Hlt. destruct (Hl _ Ho) as (L1 & L2 & L3 & L4).
    destruct (@free_page_ok s fl tail o Hi Hra Hb) as (s2 & E2 & _); [|auto|lia|eauto].
    unfold page_ok. unfold pageSize in *; repeat split; auto; lia.
Qed.
(** a FreePage that is refused leaves everything as it was *)
Theorem C16_refused_free_changes_nothing tr s o e s' : reach tr s -> free_page o s = (Err e, s') -> s' = s.
Proof. intros H E. destruct (reach_inv H) as (fl & Hi & Hb & _). apply (free_page_err _ Hi Hb E). Qed.

Lemma live_keep tr e o : live tr o -> e <> EvFree o -> live (tr ++ [e]) o.
Proof.
  intros (t1 & b & x & t2 & -> & Hn) He. exists t1, b, x, (t2 ++ [e]). rewrite <- app_assoc. split; [reflexivity|].
  intros Hin. apply in_app_iff in Hin. destruct Hin as [|[|[]]]; auto.
Qed.
Lemma live_new tr b o x : live (tr ++ [EvNew b o x]) o.
Proof. exists tr, b, x, []. split; [reflexivity|]. intros []. Qed.

(** a file of [n] pages, all in use *)
Lemma allocs n : exists tr s, reach tr s /\ Inv tr s [] /\ ring_at s [] 0 /\
  zlen (file s) = pageSize * (Z.of_nat n + 1) /\ (forall i, 1 <= i <= Z.of_nat n -> live tr (pageSize * i)).
Proof.
  induction n as [|n (tr & s & Hr & HI & Hra & Hz & Hl)].
  - destruct (new_page_file_fresh KBuf) as (s & E & Hi & Hra & Hz & _ & Hb & Hp).
    exists [], s. split; [econstructor; eauto|]. split; [|split; [auto|split; [rewrite Hz; reflexivity | intros; lia]]].
    split; [auto|]. split; [auto|]. split; [rewrite Hp, Hz; reflexivity|]. split; [reflexivity|].
    intros o (t1 & ? & ? & ? & E1 & _). destruct t1; discriminate.
  - pose proof HI as (Hi & Hb & Hp & Hf & Hlv).
    destruct (@new_page_ok_ring s [] [] Hi Hb ltac:(unfold pageSize, zlen; cbn [length]; lia)) as (s2 & E & Hfile & Hi2 & _ & Hb2 & Hp2 & _ & R1 & R2 & R3).
    pose proof (@r_new _ _ _ _ _ Hr E) as Hr2.
    assert (Hz2 : zlen (file s2) = pageSize * (Z.of_nat (S n) + 1)).
    { rewrite Hfile, (zlen_np_file [] Hi) by (unfold pageSize, zlen; cbn [length]; lia). unfold pageSize in *; lia. }
    cbn [np_off] in *.
    eexists; exists s2. split; [exact Hr2|].
    split; [|split; [unfold ring_at in *; rewrite R1, R2, R3; exact Hra|split; [exact Hz2|]]].
    + destruct (reach_inv Hr2) as (fl & HI2). destruct HI2 as (A & B & C & D & F).
      assert (fl = []) as ->.
      { rewrite freed_app, reused_app, Z.eqb_refl in D. cbn [freed reused] in D. rewrite !app_nil_r, Hf, app_nil_r in D.
        apply (f_equal (@length Z)) in D. rewrite app_length in D. destruct fl; [reflexivity|cbn [length] in D; lia]. }
      split; auto.
    + intros i Hin. destruct (Z.eq_dec i (Z.of_nat (S n))) as [->|].
      * replace (zlen (file s)) with (pageSize * Z.of_nat (S n)) by (unfold pageSize in *; lia). apply live_new.
      * apply live_keep; [apply Hl; lia | discriminate].
Qed.
(** [l] pages starting with page [i] *)
Definition pages (i : nat) (l : nat) : list Z := map (fun k => pageSize * Z.of_nat k) (seq i l).
Lemma zlen_pages i l : zlen (pages i l) = Z.of_nat l.
Proof. unfold zlen, pages. rewrite map_length, seq_length. reflexivity. Qed.
(** ... of which the first [m] were freed *)
Lemma alloc_frees n m : (m <= 512)%nat -> (m <= n)%nat -> Z.of_nat n < 2^32 ->
  exists tr s, reach tr s /\ Inv tr s (pages 1 m) /\ ring_at s (pages 1 m) 0 /\
  zlen (file s) = pageSize * (Z.of_nat n + 1) /\ (forall i, Z.of_nat m < i <= Z.of_nat n -> live tr (pageSize * i)).
Proof.
  intros Hm Hn Hlim. induction m as [|m IH].
  - destruct (allocs n) as (tr & s & H1 & H2 & H3 & H4 & H5). exists tr, s. split; auto. split; auto. split; auto. split; auto.
    intros; apply H5; lia.
  - destruct IH as (tr & s & Hr & HI & Hra & Hz & Hlv); [lia|lia|].
    pose proof HI as (Hi & Hb & Hp & Hf & Hl).
    assert (Ho : live tr (pageSize * Z.of_nat (S m))) by (apply Hlv; lia).
    destruct (Hl _ Ho) as (L1 & L2 & L3 & L4).
    assert (Hpo : page_ok (file s) (pageSize * Z.of_nat (S m))) by (split; unfold pageSize in *; [lia|repeat split; auto; lia]).
    destruct (@free_page_ok s _ 0 _ Hi Hra Hb Hpo L4) as (s2 & E & Hi2 & Hra2 & Hfile & _ & Hb2 & Hp2).
    { rewrite zlen_pages. lia. }
    pose proof (@r_free tr s (pageSize * Z.of_nat (S m)) s2 Hr ltac:(unfold pageSize in *; lia) ltac:(lia) E) as Hr2.
    assert (Epg : pages 1 (S m) = pages 1 m ++ [pageSize * Z.of_nat (S m)]).
    { unfold pages. rewrite seq_S, map_app. reflexivity. }
    assert (Hz2 : zlen (file s2) = zlen (file s)).
    { rewrite Hfile. assert (Hlp : zlen (pages 1 m ++ [pageSize * Z.of_nat (S m)]) <= 512) by (rewrite <- Epg, zlen_pages; lia).
      rewrite zlen_upd by (pose proof (zlen_nonneg (file s)); lia). rewrite zlen_enc_free by exact Hlp. destruct Hi; lia. }
    exists (tr ++ [EvFree (pageSize * Z.of_nat (S m))]), s2. split; [auto|]. rewrite Epg. split; [|split; [auto|split; [lia|]]].
    + split; [auto|]. split; [auto|]. split; [congruence|]. split.
      * rewrite freed_app, reused_app. cbn [freed reused]. rewrite app_nil_r, Hf, app_assoc. reflexivity.
      * intros o' Ho'. apply live_snoc in Ho'. destruct Ho' as [[Ho' Hne]|(? & ? & ?)]; [|discriminate].
        destruct (Hl _ Ho') as (M1 & M2 & M3 & M4). rewrite Hz2. split; auto. split; auto. split; auto.
        intros Hx. apply in_app_iff in Hx. destruct Hx as [Hx|[<-|[]]]; [auto|]. apply Hne; reflexivity.
    + intros i Hin. apply live_keep; [apply Hlv; lia|]. intros Hx.
      apply (f_equal (fun e => match e with EvFree o => o | _ => 0 end)) in Hx. cbv beta iota in Hx. unfold pageSize in *; lia.
Qed.
(** 513 pages in use, 512 of them freed, one of those reused, then one more
    FreePage of a page in use: a panic, with only 511 free pages. *)
Theorem C16_free_page_panics_refuted :
  exists tr s o s', reach tr s /\ live tr o /\ o < 2^63 /\ zlen (freed tr) - zlen (reused tr) = 511 /\
    free_page o s = (Panic, s').
Proof.
  destruct (@alloc_frees 513 512 ltac:(lia) ltac:(lia) ltac:(lia)) as (tr & s & Hr & HI & Hra & Hz & Hlv).
  pose proof HI as (Hi & Hb & Hp & Hf & Hl).
  destruct (@new_page_ok_ring s (pages 1 512) [] Hi Hb ltac:(unfold pageSize, zlen; cbn [length]; lia)) as (s2 & E & Hfile & Hi2 & _ & Hb2 & Hp2 & _ & R).
  assert (Epg : pages 1 512 = pageSize * 1 :: pages 2 511).
  { unfold pages. change 512%nat with (S 511). rewrite <- cons_seq. reflexivity. }
  rewrite Epg in R, Hi2, E. cbn [tl np_off] in R, Hi2, E. destruct R as (tail & Hra2 & _ & Hh2).
  pose proof (@r_new _ _ _ _ _ Hr E) as Hr2.
  destruct Hra as (_ & _ & _ & Hh & _). rewrite zlen_pages in Hh. change ((0 + Z.of_nat 512) mod 512) with 0 in Hh.
  pose proof Hra2 as (T1 & T2 & _ & Hh3 & _). rewrite zlen_pages in *.
  assert (Ho : live tr (pageSize * 513)) by (apply Hlv; lia). destruct (Hl _ Ho) as (L1 & L2 & L3 & L4).
  set (e := EvNew _ _ _) in Hr2.
  assert (He : e = EvNew [] (pageSize * 1) false).
  { unfold e. rewrite Hz. reflexivity. }
  assert (Hz2 : zlen (file s2) = zlen (file s)).
  { rewrite Hfile, (zlen_np_file [] Hi) by (unfold pageSize, zlen; cbn [length]; lia). rewrite Epg. reflexivity. }
  destruct (@free_page_panics s2 (pages 2 511) tail (pageSize * 513)) as (s3 & E3); auto.
  { unfold page_ok. rewrite Hz2, Hz. unfold pageSize. lia. }
  { intros Hin. apply L4. rewrite Epg. right. exact Hin. }
  { rewrite zlen_pages. lia. }
  { rewrite zlen_pages. lia. }
  exists (tr ++ [e]), s2, (pageSize * 513), s3. split; [auto|]. split; [apply live_keep; [auto|subst e; discriminate]|].
  split; [unfold pageSize; lia|]. split; [|exact E3].
  rewrite freed_app, reused_app, He. cbn [freed reused]. rewrite app_nil_r, Hf, !zlen_app, zlen_pages. change (zlen [pageSize * 1]) with 1. lia.
Qed.
Theorem C16_never_panics_refuted : ~ never_panics.
Proof.
  intros H. destruct C16_free_page_panics_refuted as (tr & s & o & s' & Hr & Hlv & Ho & _ & E).
  apply (proj2 (H tr s Hr) o Hlv Ho). rewrite E. reflexivity.
Qed.

(** ** C17 *)
(** Full statement: PageCount is the file size divided by the page size after any
    sequence of page file operations and after NewMultiBPTree set up a new index. *)
Theorem C17_page_count_partial tr s : reach tr s -> page_count s = zlen (file s) / pageSize.
Proof. intros H. destruct (reach_inv H) as (fl & Hi & Hb & Hp & _). exact Hp. Qed.
Theorem C17_page_count_refuted :
  exists s1 s2 m, new_page_file (open_rws KBuf []) = (Ok tt, s1) /\ new_multi s1 = (Ok m, s2) /\
    zlen (file s2) = 2 * pageSize /\ page_count s2 = 1.
Proof. do 3 eexists. repeat split; vm_compute; reflexivity. Qed.

(** ** A concrete history *)
Definition hx0 := snd (new_page_file (open_rws KBuf [])).
Definition hx1 := snd (new_page [1;2;3] hx0).
Definition hx2 := snd (new_page [] hx1).
Definition hx3 := snd ((seek_start 8200 ;;; pf_write [7]) hx2).
Definition hx4 := snd (free_page 4096 hx3).
Definition hx5 := snd (new_page_file (open_rws KMmap (file hx4))).
Definition hx6 := snd (new_page [9] hx5).
(** two pages are allocated, the second written, the first freed, the file reopened and the page reused *)
Example history_example : exists s, reach
  [EvNew [1;2;3] 4096 true; EvNew [] 8192 true; EvPut 8200 [7]; EvFree 4096; EvReopen KMmap; EvNew [9] 4096 false] s
  /\ slice (file s) 4096 4 = [9;0;0;0] /\ slice (file s) 8192 10 = [0;0;0;0;0;0;0;0;7;0] /\ page_count s = 3.
Proof.
  exists hx6. split; [|vm_compute; auto].
  assert (H0 : reach [] hx0) by (apply (@r_open KBuf); vm_compute; reflexivity).
  assert (H1 : reach [EvNew [1;2;3] 4096 true] hx1).
  { apply (@r_new [] hx0 [1;2;3] 4096 hx1 H0). vm_compute; reflexivity. }
  assert (H2 := @r_new _ hx1 [] 8192 hx2 H1 ltac:(vm_compute; reflexivity)).
  assert (H3 := @r_put _ hx2 8200 [7] 1 hx3 H2 ltac:(vm_compute; discriminate) ltac:(vm_compute; discriminate) ltac:(vm_compute; discriminate) ltac:(vm_compute; reflexivity)).
  assert (H4 := @r_free _ hx3 4096 hx4 H3 ltac:(vm_compute; auto) ltac:(vm_compute; discriminate) ltac:(vm_compute; reflexivity)).
  assert (H5 := @r_reopen _ hx4 KMmap hx5 H4 ltac:(vm_compute; reflexivity)).
  assert (H6 := @r_new _ hx5 [9] 4096 hx6 H5 ltac:(vm_compute; reflexivity)).
  cbn [app] in *. exact H6.
Qed.
