(** C11, C12: the storage under an index file. *)
From Verif Require Import Base Store.

(** ** Specification *)
(** the byte at position [i] *)
Definition byte_at (f : bytes) (i : Z) : option Z := if i <? 0 then None else nth_error f (Z.to_nat i).
(** [f'] is [f] after writing [b] at [o]: [b] in its range, the old bytes elsewhere *)
Definition overwritten (f : bytes) (o : Z) (b f' : bytes) : Prop :=
  zlen f' = Z.max (zlen f) (o + zlen b) /\
  forall i, byte_at f' i = if (o <=? i) && (i <? o + zlen b) then byte_at b (i - o) else byte_at f i.

(** ** Proofs *)
Lemma byte_at_slice f o l i : 0 <= o -> 0 <= i < l -> byte_at (slice f o l) i = byte_at f (o + i).
Proof.
  intros Ho Hi. unfold byte_at. destruct (Z.ltb_spec i 0); [lia|]. destruct (Z.ltb_spec (o + i) 0); [lia|].
  rewrite nth_error_slice by lia. rewrite Z2Nat.id by lia. destruct (Z.ltb_spec i l); [reflexivity|lia].
Qed.
Lemma overwritten_upd f o b : 0 <= o <= zlen f -> overwritten f o b (upd f o b).
Proof.
  intros Ho. split; [apply zlen_upd; auto|]. intros i. pose proof (zlen_nonneg b). unfold byte_at.
  destruct (Z.ltb_spec i 0) as [Hi|Hi].
  { destruct (Z.leb_spec o i); [lia|]. reflexivity. }
  rewrite nth_error_upd by auto. rewrite Z2Nat.id by lia.
  destruct (Z.ltb_spec i o); destruct (Z.leb_spec o i); try lia; cbn [andb]; auto.
  destruct (Z.ltb_spec i (o + zlen b)); auto. destruct (Z.ltb_spec (i - o) 0); [lia|reflexivity].
Qed.
Lemma overwritten_unique f o b f1 f2 : overwritten f o b f1 -> overwritten f o b f2 -> f1 = f2.
Proof.
  intros [_ H1] [_ H2]. apply nth_error_ext. intros i. specialize (H1 (Z.of_nat i)). specialize (H2 (Z.of_nat i)).
  rewrite <- H2 in H1. unfold byte_at in H1. destruct (Z.ltb_spec (Z.of_nat i) 0); [lia|]. rewrite Nat2Z.id in H1. auto.
Qed.

(** Seek(o) and Write(b) on either storage write [b] at [o] and nothing else *)
Theorem C11_write_effect s o b : budget s = None -> 0 <= o <= zlen (file s) ->
  exists n s1, (seek_start o ;;; rws_write b) s = (Ok n, s1) /\ overwritten (file s) o b (file s1).
Proof.
  intros Hb Ho. rewrite (@bind_ok _ _ _ _ _ _ _ _ (@seek_start_ok s o Ho)).
  destruct (@rws_write_ok (set_pos s o) b) as (n & p & E); [auto | auto |]. exists n. eexists. split; [exact E|].
  cbn [file set_pos set_file pos]. apply overwritten_upd; auto.
Qed.
(** and what is read afterwards, anywhere inside the file, is exactly that *)
Theorem C11_read_after_write s o b n s1 : budget s = None -> 0 <= o <= zlen (file s) ->
  (seek_start o ;;; rws_write b) s = (Ok n, s1) ->
  forall o' l, 0 <= o' -> 0 < l -> o' + l <= Z.max (zlen (file s)) (o + zlen b) ->
  exists d s2, (seek_start o' ;;; rws_read l) s1 = (Ok (d, None), s2) /\ zlen d = l /\ file s2 = file s1 /\
    forall i, 0 <= i < l ->
      byte_at d i = if (o <=? o' + i) && (o' + i <? o + zlen b) then byte_at b (o' + i - o) else byte_at (file s) (o' + i).
Proof.
  intros Hb Ho E o' l Ho' Hl Hin. destruct (@C11_write_effect _ _ b Hb Ho) as (n' & s1' & E' & [L H]).
  rewrite E in E'. injection E' as <- <-.
  rewrite (@bind_ok _ _ _ _ _ _ _ _ (@seek_start_ok s1 o' ltac:(lia))).
  rewrite rws_read_ok by (cbn [pos set_pos file]; lia). cbn [pos set_pos file].
  do 2 eexists. split; [reflexivity|]. split; [apply zlen_slice; lia|]. split; [reflexivity|].
  intros i Hi. rewrite byte_at_slice by lia. apply H.
Qed.
(** the memory mapped file and the in-memory buffer end up with the same bytes *)
Theorem C11_storages_agree s t o b n m s1 t1 : file s = file t -> budget s = None -> budget t = None ->
  0 <= o <= zlen (file s) ->
  (seek_start o ;;; rws_write b) s = (Ok n, s1) -> (seek_start o ;;; rws_write b) t = (Ok m, t1) -> file s1 = file t1.
Proof.
  intros Hf Hs Ht Ho E1 E2.
  destruct (@C11_write_effect _ _ b Hs Ho) as (n' & s1' & E1' & H1). rewrite E1 in E1'. injection E1' as <- <-.
  rewrite Hf in Ho. destruct (@C11_write_effect _ _ b Ht Ho) as (m' & t1' & E2' & H2). rewrite E2 in E2'. injection E2' as <- <-.
  rewrite Hf in H1. eapply overwritten_unique; eauto.
Qed.
Example C11_example : file (snd ((seek_start 2 ;;; rws_write [7; 8; 9]) (open_rws KMmap [0; 1; 2; 3]))) = [0; 1; 7; 8; 9].
Proof. reflexivity. Qed.

(** ** C12: Write of the memory mapped file reports the bytes written *)
(** it does when the mapping does not grow, or starts empty; the buffer always does *)
Theorem C12_write_count_partial s b : budget s = None -> 0 <= pos s <= zlen (file s) ->
  kind s = KBuf \/ zlen (file s) = 0 \/ pos s + zlen b <= zlen (file s) ->
  exists s1, rws_write b s = (Ok (zlen b), s1) /\ pos s1 = pos s + zlen b.
Proof.
  intros Hb Hp Hc. unfold rws_write. rewrite Hb. replace (set_budget s None) with s by (destruct s; cbn in *; subst; reflexivity).
  destruct (kind s) eqn:Ek.
  - destruct (Z.ltb_spec (zlen (file s)) (pos s)); [lia|]. eauto.
  - destruct (Z.ltb_spec (zlen (file s)) (pos s + zlen b)); [|eauto].
    destruct Hc as [Hc|[Hc|Hc]]; [discriminate| |lia]. destruct (Z.eqb_spec (zlen (file s)) 0); [|lia]. eauto.
Qed.
(** It does not when a non-empty mapping grows: the size of the whole file is
    reported, and the position moves past the end, ... *)
Theorem C12_refuted_growing_write s b : budget s = None -> kind s = KMmap -> 0 < pos s <= zlen (file s) ->
  zlen (file s) < pos s + zlen b ->
  exists s1, rws_write b s = (Ok (pos s + zlen b), s1) /\ pos s + zlen b <> zlen b /\
    zlen (file s1) = pos s + zlen b /\ pos s1 = pos s + zlen (file s1).
Proof.
  intros Hb Ek Hp Hg. unfold rws_write. rewrite Hb. replace (set_budget s None) with s by (destruct s; cbn in *; subst; reflexivity).
  rewrite Ek. destruct (Z.ltb_spec (zlen (file s)) (pos s + zlen b)); [|lia].
  destruct (Z.eqb_spec (zlen (file s)) 0); [lia|]. assert (Eb : forall (u v : bytes), match b with [] => u | _ => v end = v) by (destruct b; [change (zlen (@nil Z)) with 0 in Hg; lia|reflexivity]). rewrite !Eb.
  replace (zeros (pos s - zlen (file s))) with (@nil Z).
  2:{ unfold zeros. replace (Z.to_nat (pos s - zlen (file s))) with 0%nat by lia. reflexivity. }
  rewrite app_nil_r.
  assert (L : zlen (upd (file s) (pos s) b) = pos s + zlen b) by (rewrite zlen_upd by lia; lia).
  rewrite L. eexists. split; [reflexivity|]. split; [lia|]. cbn [file pos set_pos set_file]. rewrite L. auto.
Qed.
(** ... so that two consecutive writes at the end of a non-empty file are not
    contiguous: a hole as large as the old file lies between them *)
Theorem C12_refuted_hole f b c : f <> [] -> b <> [] -> c <> [] ->
  forall s, s = set_pos (open_rws KMmap f) (zlen f) ->
  file (snd ((rws_write b ;;; rws_write c) s)) = f ++ b ++ zeros (zlen f) ++ c.
Proof.
  intros Hf Hb Hc s ->.
  assert (Lf : 0 < zlen f) by (destruct f; [congruence | rewrite zlen_cons; pose proof (zlen_nonneg f); lia]).
  assert (Lb : 0 < zlen b) by (destruct b; [congruence | rewrite zlen_cons; pose proof (zlen_nonneg b); lia]).
  assert (Lc : 0 < zlen c) by (destruct c; [congruence | rewrite zlen_cons; pose proof (zlen_nonneg c); lia]).
  assert (Eb : forall (u v : bytes), match b with [] => u | _ => v end = v) by (destruct b; [congruence|reflexivity]).
  assert (Ec : forall (u v : bytes), match c with [] => u | _ => v end = v) by (destruct c; [congruence|reflexivity]).
  unfold bind. unfold rws_write at 1. cbn [budget set_pos open_rws set_budget kind file pos].
  destruct (Z.ltb_spec (zlen f) (zlen f + zlen b)); [|lia]. destruct (Z.eqb_spec (zlen f) 0); [lia|].
  rewrite !Eb. rewrite Z.sub_diag. change (zeros 0) with (@nil Z). rewrite app_nil_r, upd_end, zlen_app.
  unfold rws_write. cbn [budget set_pos set_file set_budget kind file pos].
  rewrite zlen_app. destruct (Z.ltb_spec (zlen f + zlen b) (zlen f + (zlen f + zlen b) + zlen c)); [|lia].
  cbn [snd file set_pos set_file]. rewrite !Ec.
  replace (zlen f + (zlen f + zlen b) - (zlen f + zlen b)) with (zlen f) by lia.
  replace (zlen f + (zlen f + zlen b)) with (zlen ((f ++ b) ++ zeros (zlen f))) by (rewrite !zlen_app, zlen_zeros; lia).
  rewrite upd_end. rewrite <- !app_assoc. reflexivity.
Qed.
Example C12_example : fst (rws_write [7; 8] (set_pos (open_rws KMmap [1; 2; 3]) 3)) = Ok 5 /\
  fst (rws_write [7; 8] (set_pos (open_rws KBuf [1; 2; 3]) 3)) = Ok 2.
Proof. split; reflexivity. Qed.
