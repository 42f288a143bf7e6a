(** Common base of the model: machine values, byte strings, results and the
    state monad in which the Go code is written.

    Nothing here models a particular function of /repo; it fixes how Go and
    TypeScript values are represented:
    - a byte is a [Z] in [0,256); a byte slice / ArrayBuffer is [list Z];
    - integers are [Z]; wrap-around is written with [mod] where the code needs it;
    - a slice expression outside its bounds, an index out of range, an explicit
      [panic(..)] is [Panic]; a returned error is [Err];
    - [Crash] is the process dying (see Store.v), [Hang] is a loop whose fuel
      ran out (a loop that does not terminate). *)
From Coq Require Export ZArith List Lia Bool.
From Coq Require String.
Export String.StringSyntax.
From Coq Require Export ZifyBool ZifyNat.
Export ListNotations.
Global Open Scope Z_scope.
Global Open Scope list_scope.
Global Set Implicit Arguments.

Ltac Zify.zify_post_hook ::= Z.div_mod_to_equations.

(** ** Byte strings *)
Definition bytes := list Z.
Definition is_byte (b : Z) : Prop := 0 <= b < 256.
Definition is_bytes (l : bytes) : Prop := Forall is_byte l.

Definition zlen {A} (l : list A) : Z := Z.of_nat (length l).
Definition zeros (n : Z) : bytes := repeat 0 (Z.to_nat n).

(** [slice f o l]: the [l] bytes of [f] from offset [o] (shorter at the end). *)
Definition slice {A} (f : list A) (o l : Z) : list A :=
  firstn (Z.to_nat l) (skipn (Z.to_nat o) f).
(** [upd f o b]: [f] with [b] written at offset [o], growing if needed. *)
Definition upd {A} (f : list A) (o : Z) (b : list A) : list A :=
  firstn (Z.to_nat o) f ++ b ++ skipn (Z.to_nat (o + zlen b)) f.
Definition znth {A} (l : list A) (i : Z) : option A :=
  if i <? 0 then None else nth_error l (Z.to_nat i).
Definition zset {A} (l : list A) (i : Z) (x : A) : list A :=
  firstn (Z.to_nat i) l ++ match skipn (Z.to_nat i) l with [] => [] | _ :: r => x :: r end.

Arguments zlen : simpl never.
Arguments zeros : simpl never.
Arguments slice : simpl never.
Arguments upd : simpl never.
Arguments znth : simpl never.
Arguments zset : simpl never.

(** little-endian encoding of [v] on [n] bytes, and its inverse *)
Fixpoint le (n : nat) (v : Z) : bytes :=
  match n with O => [] | S n' => (v mod 256) :: le n' (v / 256) end.
Fixpoint unle (b : bytes) : Z :=
  match b with [] => 0 | x :: r => x + 256 * unle r end.
(** big-endian *)
Definition be (n : nat) (v : Z) : bytes := rev (le n v).
Definition unbe (b : bytes) : Z := unle (rev b).


Definition pageSize : Z := 4096.
Arguments pageSize : simpl never.
Definition max64 : Z := 2^64 - 1.

(** ** Results *)
Inductive err := EEof | EMsg (m : String.string).
Arguments EMsg m%string_scope.
Inductive res (A : Type) := Ok (a : A) | Err (e : err) | Panic | Crash | Hang.
Arguments Ok {A} a.
Arguments Err {A} e.
Arguments Panic {A}.
Arguments Crash {A}.
Arguments Hang {A}.

Definition rbind {A B} (m : res A) (k : A -> res B) : res B :=
  match m with
  | Ok a => k a | Err e => Err e | Panic => Panic | Crash => Crash | Hang => Hang
  end.

(** ** State monad *)
Definition M (S A : Type) := S -> res A * S.
Definition ret {S A} (a : A) : M S A := fun s => (Ok a, s).
Definition fail {S A} (e : err) : M S A := fun s => (Err e, s).
Definition panic {S A} : M S A := fun s => (Panic, s).
Definition lift {S A} (r : res A) : M S A := fun s => (r, s).
Definition bind {S A B} (m : M S A) (k : A -> M S B) : M S B := fun s =>
  match m s with
  | (Ok a, s') => k a s'
  | (Err e, s') => (Err e, s')
  | (Panic, s') => (Panic, s')
  | (Crash, s') => (Crash, s')
  | (Hang, s') => (Hang, s')
  end.
Notation "x <- m ;; k" := (bind m (fun x => k))
  (at level 61, m at next level, right associativity).
Notation "m ;;; k" := (bind m (fun _ => k))
  (at level 61, right associativity).
Notation "x <-- m ;;; k" := (rbind m (fun x => k))
  (at level 61, m at next level, right associativity).

Lemma bind_ok {S A B} (m : M S A) (k : A -> M S B) s a s' :
  m s = (Ok a, s') -> bind m k s = k a s'.
Proof. unfold bind; intros ->; reflexivity. Qed.

(** ** Lemmas: lengths *)
Lemma zlen_nonneg {A} (l : list A) : 0 <= zlen l.
Proof. unfold zlen; lia. Qed.
Lemma zlen_app {A} (a b : list A) : zlen (a ++ b) = zlen a + zlen b.
Proof. unfold zlen; rewrite app_length; lia. Qed.
Lemma zlen_cons {A} (x : A) l : zlen (x :: l) = 1 + zlen l.
Proof. unfold zlen; cbn [length]; lia. Qed.
Lemma zlen_nil {A} : zlen (@nil A) = 0.
Proof. reflexivity. Qed.
Lemma zlen_zero_nil {A} (l : list A) : zlen l = 0 -> l = [].
Proof. destruct l; unfold zlen; cbn [length]; [auto | lia]. Qed.
Lemma zlen_zeros n : 0 <= n -> zlen (zeros n) = n.
Proof. intros; unfold zlen, zeros; rewrite repeat_length; lia. Qed.
Lemma zlen_map {A B} (f : A -> B) l : zlen (map f l) = zlen l.
Proof. unfold zlen; rewrite map_length; reflexivity. Qed.
Lemma zlen_le n v : zlen (le n v) = Z.of_nat n.
Proof. unfold zlen; revert v; induction n as [|n IH]; intros v; cbn [le length]; [reflexivity | specialize (IH (v/256)); lia]. Qed.
Lemma length_le n v : length (le n v) = n.
Proof. revert v; induction n as [|n IH]; intros v; cbn [le length]; [reflexivity | rewrite IH; reflexivity]. Qed.
Lemma zlen_rev {A} (l : list A) : zlen (rev l) = zlen l.
Proof. unfold zlen; rewrite rev_length; reflexivity. Qed.
Lemma zlen_be n v : zlen (be n v) = Z.of_nat n.
Proof. unfold be; rewrite zlen_rev; apply zlen_le. Qed.

(** ** Extensionality through [nth_error] *)
Lemma nth_error_ext {A} (a b : list A) :
  (forall i, nth_error a i = nth_error b i) -> a = b.
Proof.
  revert b; induction a as [|x a IH]; intros [|y b] H; auto.
  - specialize (H 0%nat); discriminate.
  - specialize (H 0%nat); discriminate.
  - pose proof (H 0%nat) as H0; injection H0 as ->. f_equal.
    apply IH; intros i; exact (H (S i)).
Qed.
Lemma nth_error_firstn' {A} (l : list A) n i :
  nth_error (firstn n l) i = if Nat.ltb i n then nth_error l i else None.
Proof.
  revert l i; induction n as [|n IH]; intros [|x l] [|i]; cbn [firstn nth_error]; auto.
  - destruct (Nat.ltb _ _); reflexivity.
  - rewrite IH; reflexivity.
Qed.
Lemma nth_error_skipn' {A} (l : list A) n i :
  nth_error (skipn n l) i = nth_error l (n + i).
Proof.
  revert l; induction n as [|n IH]; intros [|x l]; cbn [skipn nth_error Nat.add]; auto.
  destruct i; reflexivity.
Qed.
Lemma nth_error_app' {A} (a b : list A) i :
  nth_error (a ++ b) i = if Nat.ltb i (length a) then nth_error a i else nth_error b (i - length a).
Proof.
  destruct (Nat.ltb_spec i (length a)).
  - apply nth_error_app1; auto.
  - apply nth_error_app2; auto.
Qed.
Lemma nth_error_slice {A} (f : list A) o l i : 0 <= o ->
  nth_error (slice f o l) i =
  if Z.of_nat i <? l then nth_error f (Z.to_nat (o + Z.of_nat i)) else None.
Proof.
  intros Ho. unfold slice. rewrite nth_error_firstn', nth_error_skipn'.
  replace (Z.to_nat o + i)%nat with (Z.to_nat (o + Z.of_nat i)) by lia.
  destruct (Nat.ltb_spec i (Z.to_nat l)); destruct (Z.ltb_spec (Z.of_nat i) l); auto; lia.
Qed.
Lemma nth_error_upd {A} (f b : list A) o i : 0 <= o <= zlen f ->
  nth_error (upd f o b) i =
  if Z.of_nat i <? o then nth_error f i
  else if Z.of_nat i <? o + zlen b then nth_error b (Z.to_nat (Z.of_nat i - o))
  else nth_error f i.
Proof.
  intros Ho. unfold upd, zlen in *. rewrite !nth_error_app', nth_error_firstn', firstn_length, nth_error_skipn'.
  replace (Nat.min (Z.to_nat o) (length f)) with (Z.to_nat o) by lia.
  destruct (Nat.ltb_spec i (Z.to_nat o)); destruct (Z.ltb_spec (Z.of_nat i) o); auto; try lia.
  destruct (Nat.ltb_spec (i - Z.to_nat o) (length b));
    destruct (Z.ltb_spec (Z.of_nat i) (o + Z.of_nat (length b))); auto; try lia.
  - f_equal; lia.
  - f_equal; lia.
Qed.
Lemma nth_error_None_ge {A} (l : list A) i : zlen l <= Z.of_nat i -> nth_error l i = None.
Proof. unfold zlen; intros; apply nth_error_None; lia. Qed.

Lemma skipn_skipn {A} (l : list A) a b : skipn a (skipn b l) = skipn (a + b) l.
Proof. apply nth_error_ext; intros i. rewrite !nth_error_skipn'. f_equal; lia. Qed.

(** ** Slices *)
Lemma zlen_slice_gen {A} (f : list A) o l : 0 <= o -> 0 <= l ->
  zlen (slice f o l) = Z.max 0 (Z.min l (zlen f - o)).
Proof. intros. unfold slice, zlen. rewrite firstn_length, skipn_length. lia. Qed.
Lemma zlen_slice {A} (f : list A) o l : 0 <= o -> 0 <= l -> o + l <= zlen f ->
  zlen (slice f o l) = l.
Proof. intros. rewrite zlen_slice_gen; lia. Qed.
Lemma zlen_upd {A} (f b : list A) o : 0 <= o <= zlen f ->
  zlen (upd f o b) = Z.max (zlen f) (o + zlen b).
Proof.
  intros. unfold upd, zlen in *. rewrite !app_length, firstn_length, skipn_length. lia.
Qed.
Lemma slice_all {A} (f : list A) : slice f 0 (zlen f) = f.
Proof. unfold slice, zlen. rewrite Nat2Z.id. apply firstn_all. Qed.
Lemma slice_zero {A} (f : list A) o : slice f o 0 = [].
Proof. reflexivity. Qed.
Lemma slice_slice {A} (f : list A) o l a b : 0 <= o -> 0 <= a -> a + b <= l ->
  slice (slice f o l) a b = slice f (o + a) b.
Proof.
  intros. apply nth_error_ext; intros i.
  rewrite !nth_error_slice by lia.
  destruct (Z.ltb_spec (Z.of_nat i) b); auto.
  replace (Z.of_nat (Z.to_nat (a + Z.of_nat i))) with (a + Z.of_nat i) by lia.
  destruct (Z.ltb_spec (a + Z.of_nat i) l); [f_equal; lia | lia].
Qed.
Lemma slice_upd_same {A} (f b : list A) o : 0 <= o <= zlen f ->
  slice (upd f o b) o (zlen b) = b.
Proof.
  intros H. apply nth_error_ext; intros i.
  rewrite nth_error_slice by lia.
  destruct (Z.ltb_spec (Z.of_nat i) (zlen b)).
  - rewrite nth_error_upd by lia.
    replace (Z.of_nat (Z.to_nat (o + Z.of_nat i))) with (o + Z.of_nat i) by lia.
    destruct (Z.ltb_spec (o + Z.of_nat i) o); [lia|].
    destruct (Z.ltb_spec (o + Z.of_nat i) (o + zlen b)); [|lia].
    f_equal; lia.
  - symmetry; apply nth_error_None_ge; lia.
Qed.
Lemma slice_upd_in {A} (f b : list A) o a l : 0 <= o <= zlen f ->
  0 <= a -> a + l <= zlen b -> slice (upd f o b) (o + a) l = slice b a l.
Proof.
  intros. rewrite <- (slice_upd_same f b (o:=o)) at 2 by lia.
  symmetry. apply slice_slice; lia.
Qed.
Lemma slice_upd_disj {A} (f b : list A) o o' l : 0 <= o <= zlen f -> 0 <= o' ->
  o' + l <= o \/ o + zlen b <= o' -> slice (upd f o b) o' l = slice f o' l.
Proof.
  intros H Ho' Hd. apply nth_error_ext; intros i.
  rewrite !nth_error_slice by lia.
  destruct (Z.ltb_spec (Z.of_nat i) l); auto.
  rewrite nth_error_upd by lia.
  replace (Z.of_nat (Z.to_nat (o' + Z.of_nat i))) with (o' + Z.of_nat i) by lia.
  destruct (Z.ltb_spec (o' + Z.of_nat i) o); auto.
  destruct (Z.ltb_spec (o' + Z.of_nat i) (o + zlen b)); auto. lia.
Qed.
(** an update inside a larger slice *)
Lemma slice_upd_inside {A} (f b : list A) o o' l : 0 <= o' <= o -> o + zlen b <= o' + l ->
  o <= zlen f -> o' + l <= zlen f ->
  slice (upd f o b) o' l = upd (slice f o' l) (o - o') b.
Proof.
  intros. pose proof (zlen_nonneg b). apply nth_error_ext; intros i.
  assert (Hs : zlen (slice f o' l) = l) by (apply zlen_slice; lia).
  rewrite nth_error_slice, nth_error_upd by lia.
  rewrite nth_error_upd by lia.
  rewrite nth_error_slice by lia.
  replace (Z.of_nat (Z.to_nat (o' + Z.of_nat i))) with (o' + Z.of_nat i) by lia.
  destruct (Z.ltb_spec (Z.of_nat i) l);
  destruct (Z.ltb_spec (o' + Z.of_nat i) o); destruct (Z.ltb_spec (Z.of_nat i) (o - o')); try lia; auto;
  destruct (Z.ltb_spec (o' + Z.of_nat i) (o + zlen b)); destruct (Z.ltb_spec (Z.of_nat i) (o - o' + zlen b)); try lia; auto.
  f_equal; lia.
Qed.
(** an update that covers the slice from its start *)
Lemma slice_upd_prefix {A} (f b : list A) o l : 0 <= o -> zlen b <= l ->
  o + l <= zlen f ->
  slice (upd f o b) o l = b ++ slice f (o + zlen b) (l - zlen b).
Proof.
  intros. pose proof (zlen_nonneg b).
  rewrite slice_upd_inside by lia.
  replace (o - o) with 0 by lia. unfold upd at 1. cbn [Z.to_nat firstn app].
  f_equal. unfold slice.
  rewrite skipn_firstn_comm. rewrite skipn_skipn. f_equal; [lia | f_equal; lia].
Qed.
Lemma slice_app_l {A} (a b : list A) l : l <= zlen a -> slice (a ++ b) 0 l = slice a 0 l.
Proof.
  intros. unfold slice, zlen in *. cbn [Z.to_nat skipn].
  rewrite firstn_app. replace (Z.to_nat l - length a)%nat with 0%nat by lia.
  cbn [firstn]. apply app_nil_r.
Qed.
Lemma slice_app_exact {A} (a b : list A) : slice (a ++ b) 0 (zlen a) = a.
Proof. rewrite slice_app_l by lia. apply slice_all. Qed.
Lemma slice_app_mid {A} (a b c : list A) o l : o = zlen a -> l = zlen b ->
  slice (a ++ b ++ c) o l = b.
Proof.
  intros -> ->. unfold slice, zlen. rewrite !Nat2Z.id.
  rewrite skipn_app, skipn_all, Nat.sub_diag. cbn [app skipn].
  rewrite firstn_app, firstn_all, Nat.sub_diag. cbn [firstn]. apply app_nil_r.
Qed.
Lemma slice_app_r {A} (a b : list A) o l : zlen a <= o -> slice (a ++ b) o l = slice b (o - zlen a) l.
Proof.
  intros. pose proof (zlen_nonneg a). unfold slice, zlen in *. f_equal.
  rewrite skipn_app, skipn_all2 by lia. cbn [app]. f_equal; lia.
Qed.
Lemma slice_app_within {A} (a b : list A) o l : 0 <= o -> o + l <= zlen a ->
  slice (a ++ b) o l = slice a o l.
Proof.
  intros. apply nth_error_ext; intros i. rewrite !nth_error_slice by lia.
  destruct (Z.ltb_spec (Z.of_nat i) l); auto.
  apply nth_error_app1. unfold zlen in *; lia.
Qed.
Lemma slice_past {A} (f : list A) o l : zlen f <= o -> slice f o l = [].
Proof.
  intros. unfold slice, zlen in *. rewrite skipn_all2 by lia. apply firstn_nil.
Qed.
Lemma slice_split {A} (f : list A) o a b : 0 <= o -> 0 <= a -> 0 <= b ->
  slice f o (a + b) = slice f o a ++ slice f (o + a) b.
Proof.
  intros. unfold slice.
  rewrite <- (firstn_skipn (Z.to_nat a) (firstn (Z.to_nat (a + b)) (skipn (Z.to_nat o) f))).
  f_equal.
  - rewrite firstn_firstn. f_equal. lia.
  - rewrite skipn_firstn_comm, skipn_skipn. f_equal; [lia|]. f_equal; lia.
Qed.
Lemma slice_zeros o l n : 0 <= o -> 0 <= l -> o + l <= n -> slice (zeros n) o l = zeros l.
Proof.
  intros. apply nth_error_ext; intros i. rewrite nth_error_slice by lia.
  unfold zeros.
  assert (R : forall k j, nth_error (repeat 0 k) j = if Nat.ltb j k then Some 0 else None).
  { induction k as [|k IH]; intros [|j]; cbn [repeat nth_error]; auto. rewrite IH. reflexivity. }
  rewrite !R. destruct (Z.ltb_spec (Z.of_nat i) l);
    destruct (Nat.ltb_spec i (Z.to_nat l)); try lia; auto.
  destruct (Nat.ltb_spec (Z.to_nat (o + Z.of_nat i)) (Z.to_nat n)); [auto | lia].
Qed.
Lemma upd_end {A} (f b : list A) : upd f (zlen f) b = f ++ b.
Proof.
  unfold upd, zlen. rewrite Nat2Z.id, firstn_all.
  rewrite skipn_all2 by lia. rewrite app_nil_r. reflexivity.
Qed.
Lemma upd_upd_same {A} (f a b : list A) o : 0 <= o <= zlen f -> zlen a = zlen b ->
  upd (upd f o a) o b = upd f o b.
Proof.
  intros. pose proof (zlen_upd f a (o:=o)). apply nth_error_ext; intros i.
  rewrite !nth_error_upd by lia.
  destruct (Z.ltb_spec (Z.of_nat i) o); auto.
  destruct (Z.ltb_spec (Z.of_nat i) (o + zlen b)); auto.
  destruct (Z.ltb_spec (Z.of_nat i) (o + zlen a)); [lia | auto].
Qed.

(** ** [is_bytes] *)
Lemma is_bytes_app a b : is_bytes (a ++ b) <-> is_bytes a /\ is_bytes b.
Proof. unfold is_bytes; apply Forall_app. Qed.
Lemma is_bytes_zeros n : is_bytes (zeros n).
Proof. unfold is_bytes, zeros. apply Forall_forall. intros x Hx; apply repeat_spec in Hx; subst; unfold is_byte; lia. Qed.
Lemma is_bytes_le n v : is_bytes (le n v).
Proof.
  unfold is_bytes. revert v; induction n as [|n IH]; intros v; cbn [le]; constructor; auto.
  unfold is_byte. apply Z.mod_pos_bound; lia.
Qed.
Lemma Forall_firstn {A} (P : A -> Prop) n l : Forall P l -> Forall P (firstn n l).
Proof. intros H; revert n; induction H; intros [|n]; cbn [firstn]; auto. Qed.
Lemma Forall_skipn {A} (P : A -> Prop) n l : Forall P l -> Forall P (skipn n l).
Proof. intros H; revert n; induction H; intros [|n]; cbn [skipn]; auto. Qed.
Lemma is_bytes_slice f o l : is_bytes f -> is_bytes (slice f o l).
Proof. intros; apply Forall_firstn, Forall_skipn; auto. Qed.
Lemma is_bytes_upd f o b : is_bytes f -> is_bytes b -> is_bytes (upd f o b).
Proof.
  intros; unfold upd. apply is_bytes_app; split; [apply Forall_firstn; auto|].
  apply is_bytes_app; split; [auto | apply Forall_skipn; auto].
Qed.

(** ** little endian round trip *)
Lemma unle_le n v : 0 <= v < 256 ^ Z.of_nat n -> unle (le n v) = v.
Proof.
  revert v; induction n as [|n IH]; intros v H.
  - cbn in *. lia.
  - cbn [le unle]. rewrite IH.
    + pose proof (Z.div_mod v 256 ltac:(lia)). lia.
    + rewrite Nat2Z.inj_succ, Z.pow_succ_r in H by lia.
      pose proof (Z.div_mod v 256 ltac:(lia)). split; [apply Z.div_pos; lia|].
      apply Z.div_lt_upper_bound; lia.
Qed.
Lemma le_unle b : is_bytes b -> le (length b) (unle b) = b.
Proof.
  induction b as [|x b IH]; intros H; [reflexivity|].
  inversion H as [|? ? Hx Hb]; subst. cbn [length unle le].
  unfold is_byte in Hx.
  replace ((x + 256 * unle b) mod 256) with x.
  2:{ rewrite Z.mul_comm, Z.mod_add by lia. rewrite Z.mod_small; lia. }
  replace ((x + 256 * unle b) / 256) with (unle b).
  2:{ rewrite Z.mul_comm, Z.div_add by lia. rewrite Z.div_small; lia. }
  rewrite IH; auto.
Qed.
Lemma unle_range b : is_bytes b -> 0 <= unle b < 256 ^ zlen b.
Proof.
  induction b as [|x b IH]; intros H; [change (256 ^ zlen (@nil Z)) with 1; cbn; lia|].
  inversion H as [|? ? Hx Hb]; subst. specialize (IH Hb). cbn [unle].
  rewrite zlen_cons, Z.add_comm, Z.pow_add_r by (pose proof (zlen_nonneg b); lia).
  unfold is_byte in Hx. lia.
Qed.
Lemma unbe_be n v : 0 <= v < 256 ^ Z.of_nat n -> unbe (be n v) = v.
Proof. intros; unfold unbe, be; rewrite rev_involutive; apply unle_le; auto. Qed.
Lemma is_bytes_rev l : is_bytes l -> is_bytes (rev l).
Proof. unfold is_bytes; intros; apply Forall_rev; auto. Qed.
Lemma is_bytes_be n v : is_bytes (be n v).
Proof. unfold be. apply is_bytes_rev, is_bytes_le. Qed.

Lemma firstn_app_exact {A} (a b : list A) n : n = length a -> firstn n (a ++ b) = a.
Proof. intros ->. rewrite firstn_app, firstn_all, Nat.sub_diag. cbn [firstn]. apply app_nil_r. Qed.
Lemma skipn_app_exact {A} (a b : list A) n : n = length a -> skipn n (a ++ b) = b.
Proof. intros ->. rewrite skipn_app, skipn_all, Nat.sub_diag. reflexivity. Qed.
