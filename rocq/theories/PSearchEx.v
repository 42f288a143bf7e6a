(** A trigram index of more than one page: the hypotheses of C73_misses_refuted are met. *)
From Coq Require Import Permutation.
From Verif Require Import Base Varint Store PageFile PageHist RefValue Node LinkedPage BPTree BPRepr BPIter BPInsert BPLoop BPTop PTree Meta TsCodec Slots SlotAdd PSlots Cells IndexFile IFileInv PIndex Query QTree TsFile PNgram PClient PQuery PSpace PQueryEx Search PSearch.

(** 0-9 and a-z *)
Definition d36 (c : Z) : Z := if c <? 10 then 48 + c else 87 + c.
Definition word3 (k : Z) : bytes := [d36 (k / 1296); d36 (k / 36 mod 36); d36 (k mod 36)].
Lemma d36_inj a b : 0 <= a < 36 -> 0 <= b < 36 -> d36 a = d36 b -> a = b.
Proof. unfold d36. intros Ha Hb. destruct (Z.ltb_spec a 10), (Z.ltb_spec b 10); lia. Qed.
Lemma word3_inj a b : 0 <= a < 46656 -> 0 <= b < 46656 -> word3 a = word3 b -> a = b.
Proof.
  intros Ha Hb E. injection E as E1 E2 E3.
  apply d36_inj in E1; [|split; [apply Z.div_pos; lia|apply Z.div_lt_upper_bound; lia]|split; [apply Z.div_pos; lia|apply Z.div_lt_upper_bound; lia]].
  apply d36_inj in E2; try (apply Z.mod_pos_bound; lia). apply d36_inj in E3; try (apply Z.mod_pos_bound; lia).
  pose proof (Z.div_mod a 36 ltac:(lia)). pose proof (Z.div_mod b 36 ltac:(lia)). pose proof (Z.div_mod (a / 36) 36 ltac:(lia)). pose proof (Z.div_mod (b / 36) 36 ltac:(lia)).
  rewrite Z.div_div in * by lia. change (36 * 36) with 1296 in *. lia.
Qed.
Lemma word3_alnum k : 0 <= k < 46656 -> Forall (fun c => alnum c = true) (word3 k).
Proof.
  intros Hk. assert (D : forall c, 0 <= c < 36 -> alnum (d36 c) = true).
  { intros c Hc. unfold alnum, ascii_letter, ascii_upper, ascii_digit, d36. destruct (Z.ltb_spec c 10); lia. }
  repeat constructor; apply D; try (apply Z.mod_pos_bound; lia). split; [apply Z.div_pos; lia|apply Z.div_lt_upper_bound; lia].
Qed.
Definition tri_entry (k : nat) : rv * mptr := (RV (MP (Z.of_nat k) 3) (word3 (Z.of_nat k)), MP (Z.of_nat k) 2).
Definition u0 (m : lp) : ixr := IX m [97] FTUnigram 0 [].
Definition b0 (m : lp) : ixr := IX m [97] FTBigram 0 [].
Definition t0 (m : lp) (n : nat) : ixr := IX m [97] FTTrigram 0 (map tri_entry (rev (seq 1 n))).
Lemma tri_in k n : In (fst (tri_entry k)) (map fst (map tri_entry (rev (seq 1 n)))) -> (k <= n)%nat.
Proof.
  rewrite map_map. intros H. apply in_map_iff in H. destruct H as (j & E & Hj). apply in_rev, in_seq in Hj. unfold tri_entry in E. cbn [fst] in E. injection E as E _. lia.
Qed.
Lemma many_tri n : Z.of_nat n <= 5000 -> exists s m1 m2 m3, ifile determine_type (fun b => Some b) [] (FM 1 0 0 0) [u0 m1; b0 m2; t0 m3 n] s /\ zlen (file s) <= 4096 * 10002.
Proof.
  assert (Hwd : widths_ok determine_type) by (intros ft; pose proof (determine_type_range ft); lia).
  intros Hn. assert (G : exists s m1 m2 m3, ifile determine_type (fun b => Some b) [] (FM 1 0 0 0) [u0 m1; b0 m2; t0 m3 n] s /\ m1 <> m3 /\ m2 <> m3).
  { induction n as [|n IH].
    - destruct (@holds_create (ix_codec determine_type (fun b => Some b) []) KMmap 0) as (s0 & s1 & fl & ms & y0 & F1 & F2 & _ & F3 & _).
      { intros ft. apply ix_codec_ok; auto. change (zlen (@nil Z)) with 0; lia. }
      { lia. }
      pose proof (@if_new determine_type (fun b => Some b) KMmap 0 s0 file_slot s1 ltac:(lia) F1 F2) as H1.
      destruct (@C23_new_is_created_partial _ _ _ _ _ _ [97] FTUnigram Hwd H1) as (m1 & s2 & E2 & N1 & H2 & Z2 & _).
      { intros ix []. } { unfold pageSize in *; lia. } { change (zlen [97]) with 1; lia. } { unfold FTUnigram; lia. }
      cbn [app] in H2.
      destruct (@C23_new_is_created_partial _ _ _ _ _ _ [97] FTBigram Hwd H2) as (m2 & s3 & E3 & N2 & H3 & Z3 & _).
      { intros ix [<-|[]] [_ X]. discriminate. } { unfold pageSize in *; lia. } { change (zlen [97]) with 1; lia. } { unfold FTBigram; lia. }
      cbn [app] in H3.
      destruct (@C23_new_is_created_partial _ _ _ _ _ _ [97] FTTrigram Hwd H3) as (m3 & s4 & E4 & N3 & H4 & Z4 & _).
      { intros ix [<-|[<-|[]]] [_ X]; discriminate. } { unfold pageSize in *; lia. } { change (zlen [97]) with 1; lia. } { unfold FTTrigram; lia. }
      cbn [app map ix_at] in *. exists s4, m1, m2, m3. split; [exact H4|]. split; intros X; apply N3; rewrite X; [left|right; left]; auto.
    - destruct IH as (s & m1 & m2 & m3 & H & N1 & N2); [lia|]. pose proof (C71_space_bound Hwd H) as Hb. unfold total_entries, u0, b0, t0 in Hb. cbn [fold_right ix_es] in Hb. change (zlen (@nil (rv * mptr))) with 0 in Hb.
      unfold zlen at 2 3 in Hb. rewrite map_length, rev_length, seq_length in Hb. cbn [length] in Hb. change ((Z.of_nat 3 + 1) / 15) with 0 in Hb.
      destruct (@C33_insert_into_an_index_of_a_file _ _ _ _ _ _ (t0 m3 n) (fst (tri_entry (S n))) (snd (tri_entry (S n))) Hwd H) as (s' & _ & H').
      { right; right; left; auto. } { lia. }
      { unfold op_ok, tri_entry. cbn [fst snd mp_off mp_len rv_dp rv_val t0 ix_type ix_codec cwidth]. change (zlen (word3 (Z.of_nat (S n)))) with 3. change (determine_type FTTrigram) with 4. repeat split; intros; lia. }
      { right. reflexivity. }
      { intros X. apply tri_in in X. lia. }
      exists s', m1, m2, m3. split; [|auto]. cbn [at_index map u0 b0 t0 ix_at] in H'. rewrite lp_eqb_refl in H'.
      assert (lp_eqb m1 m3 = false) as Q1 by (destruct (lp_eqb m1 m3) eqn:Q; auto; apply lp_eqb_spec in Q; congruence).
      assert (lp_eqb m2 m3 = false) as Q2 by (destruct (lp_eqb m2 m3) eqn:Q; auto; apply lp_eqb_spec in Q; congruence).
      rewrite Q1, Q2 in H'. unfold with_put in H'. cbn [ix_at ix_name ix_type ix_total ix_es] in H'.
      unfold u0, b0, t0. rewrite seq_S, rev_app_distr. cbn [rev app map]. exact H'. }
  destruct G as (s & m1 & m2 & m3 & H & _). exists s, m1, m2, m3. split; auto.
  pose proof (C71_space_bound Hwd H) as Hb. unfold total_entries, u0, b0, t0 in Hb. cbn [fold_right ix_es] in Hb. change (zlen (@nil (rv * mptr))) with 0 in Hb.
  unfold zlen at 2 3 in Hb. rewrite map_length, rev_length, seq_length in Hb. cbn [length] in Hb. change ((Z.of_nat 3 + 1) / 15) with 0 in Hb. lia.
Qed.
Definition at3 (m1 m2 m3 : lp) (n : nat) (ty : Z) : ixr := if ty =? FTUnigram then u0 m1 else if ty =? FTBigram then b0 m2 else t0 m3 n.
(** a text of one word of three letters or digits is its only trigram *)
Lemma one_token tl a b c : alnum a = true -> alnum b = true -> alnum c = true -> ts_tokens tl 3 3 [a; b; c] = Ok [(tl [a; b; c], FTTrigram)].
Proof.
  intros Ha Hb Hc. assert (S : forall x, alnum x = true -> (x <=? 65535) = true).
  { intros x. unfold alnum, ascii_letter, ascii_upper, ascii_digit. lia. }
  unfold ts_tokens, ts_collect. cbn [ts_collect]. rewrite !js_alnum_ok, Ha, Hb, Hc. cbn [app length Nat.leb seq PNgram.traverse]. unfold ts_grams. cbn [gram_type Nat.add Nat.sub].
  cbn [rbind flat_map map seq length Nat.add Nat.sub nth app concat]. unfold utf16. cbn [flat_map]. rewrite !S by auto. cbn. reflexivity.
Qed.
Theorem C73_misses_hypotheses_met n : 4096 < Z.of_nat n <= 5000 -> exists s m1 m2 m3, let l := [u0 m1; b0 m2; t0 m3 n] in
  ifile determine_type (fun b => Some b) [] (FM 1 0 0 0) l s /\ searchable determine_type [] (FM 1 0 0 0) l s [97] (at3 m1 m2 m3 n) 3 3 /\
  ~ one_page determine_type (fun b => Some b) [] s (at3 m1 m2 m3 n FTTrigram) /\
  NoDup (map (fun e => rv_val (fst e)) (ix_es (at3 m1 m2 m3 n FTTrigram))) /\ Forall (fun e => rv_dp (fst e) <> MP 0 0) (ix_es (at3 m1 m2 m3 n FTTrigram)) /\
  (* every n-gram of the index is the only token of a text *)
  forall e, In e (ix_es (at3 m1 m2 m3 n FTTrigram)) -> forall tl, (forall w, tl w = w) -> ts_tokens tl 3 3 (rv_val (fst e)) = Ok [(rv_val (fst e), FTTrigram)].
Proof.
  assert (Hwd : widths_ok determine_type) by (intros ft; pose proof (determine_type_range ft); lia).
  intros Hn. destruct (@many_tri n (proj2 Hn)) as (s & m1 & m2 & m3 & H & Hz). exists s, m1, m2, m3. cbv zeta.
  assert (Hr : readable determine_type [] (FM 1 0 0 0) [u0 m1; b0 m2; t0 m3 n] s (t0 m3 n)).
  { constructor.
    - right; right; left; reflexivity.
    - intros ix [<-|[<-|[<-|[]]]]; split; discriminate.
    - reflexivity.
    - lia.
    - cbn [fm_entries]. lia.
    - repeat constructor; cbn [u0 b0 t0 ix_total]; lia.
    - intros X. apply (f_equal (@length _)) in X. cbn [t0 ix_es] in X. rewrite map_length, rev_length, seq_length in X. cbn [length] in X. lia.
    - cbn [t0 ix_es]. apply Forall_map, Forall_rev. apply Forall_forall. intros k Hk. apply in_seq in Hk. unfold entry_small, mptr_small, tri_entry. cbn [fst snd rv_dp mp_off mp_len]. lia. }
  split; auto. split; [|split; [|split; [|split]]].
  - constructor; [lia| |].
    + intros k ty E. destruct k as [|[|[|[|k]]]]; cbn in E; inversion E; subst ty; cbn; auto 6.
    + intros k ty E Hk. destruct k as [|[|[|[|k]]]]; cbn in E; inversion E; subst ty; try lia. exact Hr.
  - change (at3 m1 m2 m3 n FTTrigram) with (t0 m3 n). intros (nd & Hnd & Hlf).
    destruct (@walk_of_index _ _ _ _ _ _ Hwd H (fun _ => u0 m1) 1 (fuel_of s) (le_n _) ltac:(intros; cbn; lia) (t0 m3 n) Hr ltac:(discriminate)) as (es & h & pgs & mp & im & P & A & R & Hl & Hh & Er & Hrd & Hfe & Hsm & _).
    destruct R as (n0 & pg' & Hn0 & Hb & _). rewrite Er in Hnd. destruct mp as [o len]. pose proof (Hrd _ len _ Hn0) as X. cbn [mp_off] in X. rewrite X in Hnd. injection Hnd as <-.
    destruct h as [|h]; [|pose proof (body_leaf_dec Hb) as Y; congruence].
    destruct Hb as (_ & Ek & _). cbn [mp_off] in Hn0. destruct Hn0 as [(Hpg & (_ & _ & Hk & _) & t & Et) _].
    assert (Hz0 : zlen (page (file s) o) = 4096) by (apply zlen_page; exact Hpg). rewrite Et in Hz0. unfold enc_node in Hz0. rewrite !zlen_app in Hz0.
    set (c := ix_codec determine_type (fun b => Some b) [] (ix_type (t0 m3 n))) in *.
    assert (zlen (keys n0) <= zlen (concat (map (enc_key (cwidth c)) (keys n0)))).
    { apply concat_ge. intros k Hin. rewrite Forall_forall in Hk. destruct (Hk k Hin) as [[M1 M2] _]. unfold enc_key. rewrite !zlen_app.
      pose proof (put_uvarint_length M1). pose proof (zlen_nonneg (put_uvarint (mp_len (rv_dp k)))).
      pose proof (zlen_nonneg (if negb (cwidth c =? 0) then rv_val k else [])). lia. }
    assert (El : zlen (keys n0) = Z.of_nat n) by (unfold zlen; rewrite Ek, map_length, (Permutation_length P); cbn [t0 ix_es]; rewrite map_length, rev_length, seq_length; reflexivity).
    rewrite zlen_le in Hz0. pose proof (zlen_nonneg t). pose proof (zlen_nonneg (concat (map enc_lptr (lptrs n0)))). pose proof (zlen_nonneg (concat (map put_uvarint (iptrs n0)))).
    lia.
  - cbn [at3 t0 ix_es FTTrigram Z.eqb Pos.eqb]. change (at3 m1 m2 m3 n FTTrigram) with (t0 m3 n). cbn [t0 ix_es]. rewrite map_map, map_rev. apply NoDup_rev. apply nodup_map_in; [apply seq_NoDup|].
    intros a b Ha Hb E. apply in_seq in Ha, Hb. cbn [tri_entry fst rv_val] in E. apply word3_inj in E; lia.
  - change (at3 m1 m2 m3 n FTTrigram) with (t0 m3 n). cbn [t0 ix_es]. apply Forall_map, Forall_rev, Forall_forall. intros k Hk E. apply in_seq in Hk. cbn [tri_entry fst rv_dp] in E. injection E. lia.
  - change (at3 m1 m2 m3 n FTTrigram) with (t0 m3 n). cbn [t0 ix_es]. intros e He tl Htl. apply in_map_iff in He. destruct He as (k & <- & Hk). apply in_rev, in_seq in Hk. cbn [tri_entry fst rv_val].
    pose proof (@word3_alnum (Z.of_nat k) ltac:(lia)) as Hw. unfold word3 in *. inversion Hw as [|? ? W1 Hw1]; subst. inversion Hw1 as [|? ? W2 Hw2]; subst. inversion Hw2 as [|? ? W3 _]; subst.
    rewrite one_token, Htl by auto. reflexivity.
Qed.
