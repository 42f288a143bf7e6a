(** AddNext and Collect on the chain of meta pages. *)
From Verif Require Import Base Store PageFile RefValue LinkedPage BPLoop Slots.

Definition tail_of (ms : list Z) (n : nat) : lp := match n with O => head_of ms | S k => slot ms k end.
(** everything of [f] outside the pages [P] and the header of meta page [h] is the same in [f'] *)
Definition framed (f f' : bytes) (P : list Z) (h : Z) : Prop :=
  zlen f <= zlen f' /\
  forall o l, pageSize <= o -> 0 <= l -> o + l <= zlen f ->
    (forall p, In p P -> o + l <= p \/ p + pageSize <= o) -> (o + l <= h \/ h + 9 <= o) ->
    slice f' o l = slice f o l.

Lemma hdr_new nx c nx' c' (g : bytes) : zlen g = pageSize -> slice g 0 9 = le 8 nx ++ [c] ->
  (slice (upd g 8 [c']) 0 9 = le 8 nx ++ [c']) /\ (slice (upd g 0 (le 8 nx')) 0 9 = le 8 nx' ++ [c]).
Proof.
  intros L E. unfold pageSize in *.
  assert (E8 : slice g 0 8 = le 8 nx).
  { replace (slice g 0 8) with (slice (slice g 0 9) 0 8) by (rewrite slice_slice by lia; reflexivity).
    rewrite E. change 8 with (zlen (le 8 nx)). apply slice_app_exact. }
  assert (E1 : slice g 8 1 = [c]).
  { replace (slice g 8 1) with (slice (slice g 0 9) 8 1) by (rewrite slice_slice by lia; reflexivity).
    rewrite E. change (le 8 nx ++ [c]) with (le 8 nx ++ [c] ++ []). apply slice_app_mid; [rewrite zlen_le; reflexivity | reflexivity]. }
  split.
  - assert (A1 : slice (upd g 8 [c']) 0 8 = le 8 nx) by (rewrite slice_upd_disj; [exact E8 | lia | lia | lia]).
    assert (A2 : slice (upd g 8 [c']) (0 + 8) 1 = [c']) by (change 1 with (zlen [c']); apply slice_upd_same; lia).
    change 9 with (8 + 1). rewrite slice_split by lia. rewrite A1, A2. reflexivity.
  - assert (A1 : slice (upd g 0 (le 8 nx')) 0 (zlen (le 8 nx')) = le 8 nx') by (apply slice_upd_same; lia).
    assert (A2 : slice (upd g 0 (le 8 nx')) (0 + 8) 1 = [c]) by (rewrite slice_upd_disj; [exact E1 | lia | lia | rewrite zlen_le; lia]).
    rewrite zlen_le in A1. change (Z.of_nat 8) with 8 in A1.
    change 9 with (8 + 1). rewrite slice_split by lia. rewrite A1, A2. reflexivity.
Qed.
(** the same at a page of a file *)
Lemma hdr_new_at f o nx c nx' c' : page_ok f o -> slice f o 9 = le 8 nx ++ [c] ->
  (slice (upd f (o + 8) [c']) o 9 = le 8 nx ++ [c']) /\ (slice (upd f o (le 8 nx')) o 9 = le 8 nx' ++ [c]).
Proof.
  intros (H1 & H2 & H3 & H4) E. unfold pageSize in *.
  assert (Lg : zlen (slice f o 4096) = 4096) by (apply zlen_slice; lia).
  assert (Eg : slice (slice f o 4096) 0 9 = le 8 nx ++ [c]) by (rewrite slice_slice by lia; rewrite <- E; f_equal; lia).
  destruct (@hdr_new nx c nx' c' _ Lg Eg) as [A B]. split.
  - rewrite <- A. replace (slice (upd f (o + 8) [c']) o 9) with (slice (slice (upd f (o + 8) [c']) o 4096) 0 9) by (rewrite slice_slice by lia; f_equal; lia).
    rewrite slice_upd_inside; [f_equal; f_equal; lia | lia | unfold zlen; cbn [length]; lia | lia | lia].
  - rewrite <- B. replace (slice (upd f o (le 8 nx')) o 9) with (slice (slice (upd f o (le 8 nx')) o 4096) 0 9) by (rewrite slice_slice by lia; f_equal; lia).
    rewrite slice_upd_inside; [f_equal; f_equal; lia | lia | rewrite zlen_le; lia | lia | lia].
Qed.

Lemma page_empty_hdr c : slice (lp_empty_page c) 0 9 = le 8 (2^64 - 1) ++ [c].
Proof. unfold lp_empty_page. rewrite app_assoc. change 9 with (zlen (le 8 (2^64 - 1) ++ [c])). apply slice_app_exact. Qed.
Lemma zlen_empty_page c : zlen (lp_empty_page c) = pageSize.
Proof. unfold lp_empty_page. rewrite !zlen_app, zlen_le, zlen_zeros by (unfold pageSize; lia). change (zlen [c]) with 1. unfold pageSize; lia. Qed.
Lemma empty_page_rest c a l : 9 <= a -> 0 <= l -> a + l <= pageSize -> slice (lp_empty_page c) a l = zeros l.
Proof.
  intros. unfold lp_empty_page. rewrite app_assoc.
  assert (L9 : zlen (le 8 (2^64 - 1) ++ [c]) = 9) by (rewrite zlen_app, zlen_le; reflexivity).
  rewrite slice_app_r by lia. rewrite L9. apply slice_zeros; lia.
Qed.

Lemma nth_app_l (a b : list Z) j : (j < length a)%nat -> nth j (a ++ b) 0 = nth j a 0.
Proof. intros; apply app_nth1; auto. Qed.

Lemma lp_add_next_ok s fl ms n : pf_inv s fl -> budget s = None -> mchain (file s) ms n -> NoDup (ms ++ fl) -> zlen (file s) < 2^60 ->
  exists s' ms' fl', lp_add_next (tail_of ms n) s = (Ok (slot ms' n), s') /\
    pf_inv s' fl' /\ budget s' = None /\ kind s' = kind s /\ mchain (file s') ms' (S n) /\
    (ms' = ms /\ fl' = fl \/ ms' = ms ++ [np_off s fl] /\ fl' = tl fl) /\
    (unused_zero (file s) ms n -> unused_zero (file s') ms' (S n) /\ slice (file s') (root_off (slot ms' n)) 265 = zeros 265) /\
    framed (file s) (file s') fl (last_page ms) /\ (zlen (file s') <= zlen (file s) + pageSize /\
    zlen (file s') = zlen (file s) + pageSize * (zlen (ms' ++ fl') - zlen (ms ++ fl))).
Proof.
  intros Hi Hb H Hnd Hf.
  pose proof (mc_len H) as Hlen. pose proof (mc_n H) as Hn. pose proof (mc_n' H) as Hn'.
  assert (Hll : (length ms - 1 < length ms)%nat) by lia.
  destruct (nth_ok H Hll) as [Hp Hp62]. pose proof Hp as (P1 & P2 & P3 & P4).
  pose proof (mc_hdr H Hll) as Hh. pose proof (count_bounds H) as Hcb.
  set (c := count_of ms n (length ms - 1)) in *.
  assert (Hceq : c = Z.of_nat n - 15 * Z.of_nat (length ms - 1)).
  { unfold c, count_of. destruct (Nat.ltb_spec (S (length ms - 1)) (length ms)); lia. }
  assert (Htoff : lp_off (tail_of ms n) = last_page ms /\ (lp_idx (tail_of ms n) + 1) mod 256 = c).
  { destruct n as [|k]; cbn [tail_of].
    - unfold head_of, last_page; cbn [lp_off lp_idx]. split; [f_equal; lia|]. change ((255 + 1) mod 256) with 0. lia.
    - unfold slot, last_page; cbn [lp_off lp_idx]. rewrite Z.mod_small by lia. split; [f_equal; lia | lia]. }
  destruct Htoff as [Hto Hti]. set (m := tail_of ms n) in *.
  unfold last_page in *. set (o := nth (length ms - 1) ms 0) in *.
  unfold lp_add_next.
  destruct (@lp_count_ok s m (next_of ms (length ms - 1)) c) as (p1 & E1); [rewrite Hto; auto | rewrite Hto; auto |].
  rewrite (@bind_ok _ _ _ _ _ _ _ _ E1). rewrite Hti.
  destruct (Z.ltb_spec c c); [lia|]. unfold numSlots.
  destruct (Z.eqb_spec c 15) as [E15|N15]; cbn [negb].
  - (* a new meta page *)
    assert (Hnx : next_of ms (length ms - 1) = 2^64 - 1).
    { unfold next_of. rewrite (proj2 (nth_error_None ms (S (length ms - 1)))) by lia. reflexivity. }
    rewrite Hnx in Hh.
    destruct (@lp_next_page_offset_ok (set_pos s p1) m (2^64 - 1) c) as (p2 & E2); [rewrite Hto; auto | rewrite Hto; auto | lia |].
    rewrite (@bind_ok _ _ _ _ _ _ _ _ E2). rewrite Z.eqb_refl. cbn [negb].
    set (s2 := set_pos (set_pos s p1) p2).
    assert (Hi2 : pf_inv s2 fl) by (unfold s2; repeat apply pf_inv_pos; auto).
    assert (Hzb : zlen (@nil Z) <= pageSize) by (unfold pageSize, zlen; cbn [length]; lia).
    destruct (@new_page_ok s2 fl [] Hi2 Hb Hzb) as (s3 & E3 & Hfile3 & Hi3 & Hk3 & Hb3 & Hlp3 & _).
    rewrite (@bind_ok _ _ _ _ _ _ _ _ E3).
    set (no := np_off s2 fl) in *. change (np_off s2 fl) with (np_off s fl) in no.
    assert (Hno : no = np_off s fl) by reflexivity.
    destruct (np_off_ok Hi) as (N1 & N2 & N3). rewrite <- Hno in *.
    assert (Hok_ms : Forall (page_ok (file s)) ms).
    { pose proof (mc_ok H) as Hx. eapply Forall_impl; [|exact Hx]. intros a [X _]; auto. }
    destruct (np_fresh Hi Hok_ms Hnd) as [Hni Hnd2]. rewrite <- Hno in *.
    pose proof (zlen_np_file [] Hi2 Hzb) as Hz3. rewrite <- Hfile3 in Hz3. change (file s2) with (file s) in Hz3.
    assert (Hno60 : no + pageSize <= zlen (file s3) /\ no < 2^61).
    { rewrite Hno. unfold np_off. rewrite Hz3. destruct fl as [|x fl0]; [unfold pageSize in *; lia|].
      pose proof Hi as [_ _ _ Hokfl _ _]. inversion Hokfl as [|? ? (X1 & X2 & X3 & X4) _]; subst. unfold pageSize in *; lia. }
    destruct Hno60 as [Hno3 Hno60].
    assert (Hz3' : zlen (file s) <= zlen (file s3)) by (rewrite Hz3; destruct fl; unfold pageSize; lia).
    assert (Hno0 : 0 <= no) by (unfold pageSize in *; lia).
    rewrite Z.mod_small by lia.
    (* reset *)
    unfold lp_reset at 1. cbn [lp_off]. rewrite s64_small by lia.
    destruct (@seek_pf_write s3 no (lp_empty_page 1) Hb3) as (n4 & p4 & E4); [unfold pageSize in *; lia | rewrite zlen_empty_page; lia |].
    assert (E4' : (seek_start no;;; pf_write (lp_empty_page 1);;; ret tt) s3 = (Ok tt, set_pos (set_file s3 (upd (file s3) no (lp_empty_page 1))) p4)).
    { revert E4. unfold bind. destruct (seek_start no s3) as [[?| | | |] ?]; try discriminate. intros ->. reflexivity. }
    rewrite (@bind_ok _ _ _ _ _ _ _ _ E4'). set (s4 := set_pos _ p4).
    assert (Hf4 : file s4 = upd (file s3) no (lp_empty_page 1)) by reflexivity.
    assert (Hz4 : zlen (file s4) = zlen (file s3)) by (rewrite Hf4, zlen_upd by (unfold pageSize in *; lia); rewrite zlen_empty_page; lia).
    (* link *)
    assert (Hone : o <> no).
    { intros X. apply Hni. rewrite <- X. apply nth_In; auto. }
    assert (Hdis : o + pageSize <= no \/ no + pageSize <= o) by (apply aligned_disj; auto).
    rewrite Hto. rewrite s64_small by lia.
    destruct (@seek_pf_write s4 o (le 8 no)) as (n5 & p5 & E5);
      [exact Hb3 | unfold pageSize in *; lia | rewrite zlen_le; unfold pageSize in *; lia |].
    assert (E5' : (seek_start o;;; pf_write (le 8 no);;; ret (LP no 0)) s4 = (Ok (LP no 0), set_pos (set_file s4 (upd (file s4) o (le 8 no))) p5)).
    { revert E5. unfold bind. destruct (seek_start o s4) as [[?| | | |] ?]; try discriminate. intros ->. reflexivity. }
    rewrite E5'. set (s5 := set_pos _ p5).
    assert (Hf5 : file s5 = upd (file s4) o (le 8 no)) by reflexivity.
    assert (Hz5 : zlen (file s5) = zlen (file s3)) by (rewrite Hf5, zlen_upd by (unfold pageSize in *; lia); rewrite zlen_le; unfold pageSize in *; lia).
    (* frame *)
    assert (Hfr : forall a l, pageSize <= a -> 0 <= l -> (a + l <= no \/ no + pageSize <= a) -> (a + l <= o \/ o + 8 <= a) ->
               slice (file s5) a l = slice (file s) a l).
    { intros a l Ha Hl Hd1 Hd2. rewrite Hf5, slice_upd_disj; [|unfold pageSize in *; lia|unfold pageSize in *; lia|rewrite zlen_le; lia].
      rewrite Hf4, slice_upd_disj; [|unfold pageSize in *; lia|unfold pageSize in *; lia|rewrite zlen_empty_page; lia].
      rewrite Hfile3. change (file s) with (file s2). apply np_frame; auto. }
    assert (Hnew : forall a l, 0 <= a -> 0 <= l -> a + l <= pageSize -> slice (file s5) (no + a) l = slice (lp_empty_page 1) a l).
    { intros a l Ha Hl Hal. rewrite Hf5, slice_upd_disj; [|unfold pageSize in *; lia|unfold pageSize in *; lia|rewrite zlen_le; unfold pageSize in *; lia].
      rewrite Hf4. apply slice_upd_in; [unfold pageSize in *; lia | lia | rewrite zlen_empty_page; lia]. }
    assert (Hslot : slot (ms ++ [no]) n = LP no 0).
    { unfold slot. replace (n / 15)%nat with (length ms) by lia. rewrite app_nth2 by lia. rewrite Nat.sub_diag. cbn [nth]. f_equal. lia. }
    assert (HhN : forall j, (j < length ms)%nat -> page_ok (file s) (nth j ms 0)).
    { intros j Hj. destruct (nth_ok H Hj); auto. }
    assert (Hch : mchain (file s5) (ms ++ [no]) (S n)).
    { constructor.
      - rewrite app_length. lia.
      - rewrite app_length. cbn [length]. lia.
      - rewrite app_length. cbn [length]. lia.
      - apply Forall_app. split.
        + pose proof (mc_ok H) as Hx. eapply Forall_impl; [|exact Hx]. intros a [X Y]. split; auto. eapply page_ok_mono; [|exact X]. lia.
        + constructor; [|constructor]. split; [|lia]. unfold page_ok. unfold pageSize in *. lia.
      - clear Hnd2. rewrite <- (rev_involutive (ms ++ [no])). apply NoDup_rev.
        rewrite rev_app_distr. cbn [rev app]. constructor; [rewrite <- in_rev; auto|].
        apply NoDup_rev. exact (mc_nd H).
      - intros j Hj. rewrite app_length in Hj. cbn [length] in Hj.
        destruct (Nat.eq_dec j (length ms)) as [->|Hne].
        + rewrite app_nth2 by lia. rewrite Nat.sub_diag. cbn [nth].
          assert (Hn9 : slice (file s5) no 9 = slice (lp_empty_page 1) 0 9).
          { rewrite <- (Hnew 0 9) by (unfold pageSize; lia). f_equal; lia. }
          rewrite Hn9, page_empty_hdr.
          assert (Hna : next_of (ms ++ [no]) (length ms) = 2^64 - 1).
          { unfold next_of. rewrite (proj2 (nth_error_None _ _)) by (rewrite app_length; cbn [length]; lia). reflexivity. }
          assert (Hca : count_of (ms ++ [no]) (S n) (length ms) = 1).
          { unfold count_of. rewrite app_length. cbn [length]. destruct (Nat.ltb_spec (S (length ms)) (length ms + 1)); [lia|]. lia. }
          rewrite Hna, Hca. reflexivity.
        + assert (Hj' : (j < length ms)%nat) by lia. rewrite nth_app_l by auto. destruct (HhN j Hj') as (Q1 & Q2 & Q3 & Q4).
          assert (Hjn : nth j ms 0 <> no) by (intros X; apply Hni; rewrite <- X; apply nth_In; auto).
          pose proof (aligned_disj Q2 N2 Hjn) as Hdj.
          assert (Hcj : count_of (ms ++ [no]) (S n) j = 15).
          { unfold count_of. rewrite app_length. cbn [length]. destruct (Nat.ltb_spec (S j) (length ms + 1)); lia. }
          rewrite Hcj.
          destruct (Nat.eq_dec j (length ms - 1)) as [->|Hnl].
          * assert (Hnx' : next_of (ms ++ [no]) (length ms - 1) = no).
            { unfold next_of. assert (Hs1 : S (length ms - 1) = length ms) by (clear - Hlen; lia). rewrite Hs1.
              rewrite nth_error_app2 by (clear; lia). rewrite Nat.sub_diag. reflexivity. }
            rewrite Hnx'. fold o. rewrite Hf5.
            assert (Eo : slice (file s4) o 9 = le 8 (2^64 - 1) ++ [15]).
            { rewrite Hf4, slice_upd_disj; [|unfold pageSize in *; lia|unfold pageSize in *; lia|rewrite zlen_empty_page; unfold pageSize in *; lia].
              rewrite Hfile3. rewrite np_frame; auto; [|unfold pageSize in *; lia|].
              - change (file s2) with (file s). rewrite Hh. rewrite E15. reflexivity.
              - change (np_off s2 fl) with no. unfold pageSize in *; lia. }
            assert (Hpo4 : page_ok (file s4) o) by (eapply page_ok_mono; [|exact Hp]; rewrite Hz4; exact Hz3').
            apply (proj2 (@hdr_new_at (file s4) o (2^64-1) 15 no 0 Hpo4 Eo)).
          * assert (Hjo : nth j ms 0 <> o).
            { intros X. apply Hnl. apply (nth_inj (mc_nd H)); auto. }
            pose proof (aligned_disj Q2 P2 Hjo) as Hdo.
            rewrite Hfr; [|unfold pageSize in *; lia|lia|unfold pageSize in *; lia|unfold pageSize in *; lia].
            rewrite (mc_hdr H Hj').
            assert (HSj : (S j < length ms)%nat) by (clear - Hj' Hnl; lia).
            assert (Hna : next_of (ms ++ [no]) j = next_of ms j) by (unfold next_of; rewrite (nth_error_app1 ms [no] HSj); reflexivity).
            assert (Hca : count_of ms n j = 15) by (clear - HSj Hlen; unfold count_of; destruct (Nat.ltb_spec (S j) (length ms)); lia).
            rewrite Hna, Hca. reflexivity. }
    assert (Hzu : unused_zero (file s5) (ms ++ [no]) (S n)).
    { unfold unused_zero. cbv zeta. rewrite app_length. cbn [length]. replace (length ms + 1 - 1)%nat with (length ms) by lia.
        assert (Hcl : count_of (ms ++ [no]) (S n) (length ms) = 1).
        { unfold count_of. rewrite app_length. cbn [length]. destruct (Nat.ltb_spec (S (length ms)) (length ms + 1)); [lia|]. lia. }
        rewrite Hcl. unfold last_page. rewrite app_length. cbn [length]. replace (length ms + 1 - 1)%nat with (length ms) by lia.
        rewrite app_nth2 by lia. rewrite Nat.sub_diag. cbn [nth].
        rewrite Hnew by (unfold pageSize; lia). apply empty_page_rest; unfold pageSize; lia. }
    exists s5, (ms ++ [no]), (tl fl). rewrite Hslot. split; [reflexivity|].
    split.
    { unfold s5. apply pf_inv_write; [|unfold pageSize in *; lia|rewrite zlen_le; unfold pageSize in *; lia].
      unfold s4. apply pf_inv_write; [auto|unfold pageSize in *; lia|rewrite zlen_empty_page; lia]. }
    split; [exact Hb3|]. split; [exact Hk3|]. split; [exact Hch|]. split; [right; auto|]. split.
    { intros _. split; [exact Hzu|]. assert (Hro : root_off (LP no 0) = no + 9) by (unfold root_off; cbn [lp_off lp_idx]; rewrite Z.mod_small by lia; lia).
      rewrite Hro, Hnew by (unfold pageSize; lia). apply empty_page_rest; unfold pageSize; lia. }
    split; [|rewrite Hz5, Hz3; rewrite !zlen_app; change (zlen [no]) with 1; destruct fl; cbn [tl]; rewrite ?zlen_cons; change (zlen (@nil Z)) with 0; unfold pageSize; split; lia].
    split; [lia|]. intros a l Ha Hl Hal HP Hh9. apply Hfr; auto; [|lia].
    rewrite Hno. unfold np_off. destruct fl as [|x fl0]; [left; auto | apply HP; left; auto].
  - (* room in the page *)
    rewrite Hto.
    rewrite (Z.mod_small (o + 8)) by lia. rewrite s64_small by lia.
    set (s1 := set_pos s p1).
    destruct (@seek_pf_write s1 (o + 8) [(c + 1) mod 256]) as (n5 & p5 & E5);
      [exact Hb | cbn; unfold pageSize in *; lia | unfold zlen; cbn [length]; unfold pageSize in *; lia |].
    assert (E5' : forall A (x : A), (seek_start (o + 8);;; pf_write [(c + 1) mod 256];;; ret x) s1 = (Ok x, set_pos (set_file s1 (upd (file s1) (o + 8) [(c + 1) mod 256])) p5)).
    { intros A x. revert E5. unfold bind. destruct (seek_start (o + 8) s1) as [[?| | | |] ?]; try discriminate. intros ->. reflexivity. }
    rewrite E5'. rewrite (Z.mod_small (c + 1)) by lia. change (file s1) with (file s). set (s5 := set_pos _ p5).
    assert (Hf5 : file s5 = upd (file s) (o + 8) [c + 1]) by reflexivity.
    assert (Hz5 : zlen (file s5) = zlen (file s)) by (rewrite Hf5, zlen_upd by (unfold pageSize in *; lia); unfold zlen at 2; cbn [length]; unfold pageSize in *; lia).
    assert (Hfr : forall a l, pageSize <= a -> 0 <= l -> (a + l <= o + 8 \/ o + 9 <= a) -> slice (file s5) a l = slice (file s) a l).
    { intros a l Ha Hl Hd. rewrite Hf5. apply slice_upd_disj; [unfold pageSize in *; lia|unfold pageSize in *; lia|unfold zlen; cbn [length]; lia]. }
    assert (Hslot : slot ms n = LP o c).
    { unfold slot. replace (n / 15)%nat with (length ms - 1)%nat by lia. f_equal. lia. }
    assert (Hcn : count_of ms (S n) (length ms - 1) = c + 1).
    { unfold count_of. destruct (Nat.ltb_spec (S (length ms - 1)) (length ms)); [lia|]. lia. }
    assert (Hch : mchain (file s5) ms (S n)).
    { constructor; [exact Hlen | lia | lia | | exact (mc_nd H) | ].
      - pose proof (mc_ok H) as Hx. eapply Forall_impl; [|exact Hx]. intros a [X Y]. split; auto. eapply page_ok_mono; [|exact X]. lia.
      - intros j Hj. destruct (Nat.eq_dec j (length ms - 1)) as [->|Hnl].
        + rewrite Hcn. fold o. rewrite Hf5. apply (proj1 (@hdr_new_at (file s) o _ c 0 (c + 1) Hp Hh)).
        + destruct (nth_ok H Hj) as [(Q1 & Q2 & Q3 & Q4) _].
          assert (Hjo : nth j ms 0 <> o) by (intros X; apply Hnl, (nth_inj (mc_nd H)); auto).
          pose proof (aligned_disj Q2 P2 Hjo) as Hdo.
          rewrite Hfr; [|unfold pageSize in *; lia|lia|unfold pageSize in *; lia].
          rewrite (mc_hdr H Hj).
          assert (Hca : count_of ms (S n) j = count_of ms n j) by (unfold count_of; destruct (Nat.ltb_spec (S j) (length ms)); lia).
          rewrite Hca. reflexivity. }
    assert (Hzu : unused_zero (file s) ms n -> unused_zero (file s5) ms (S n)).
    { intros Hz. unfold unused_zero in *. cbv zeta in *. rewrite Hcn. unfold last_page in *. fold o.
        rewrite Hfr; [|unfold pageSize in *; lia|unfold pageSize in *; lia|lia].
        fold c in Hz. fold o in Hz.
        replace (slice (file s) (o + (9 + 265 * (c + 1))) (pageSize - (9 + 265 * (c + 1))))
          with (slice (slice (file s) (o + (9 + 265 * c)) (pageSize - (9 + 265 * c))) 265 (pageSize - (9 + 265 * (c + 1))))
          by (rewrite slice_slice by (unfold pageSize in *; lia); f_equal; lia).
        rewrite Hz. apply slice_zeros; unfold pageSize in *; lia. }
    exists s5, ms, fl. rewrite Hslot. split; [reflexivity|].
    split; [unfold s5; change (file s) with (file s1); apply pf_inv_write; [apply pf_inv_pos; auto | unfold pageSize in *; lia | cbn [file]; change (file s1) with (file s); unfold zlen at 1; cbn [length]; unfold pageSize in *; lia]|].
    split; [exact Hb|]. split; [reflexivity|]. split; [exact Hch|]. split; [left; auto|]. split.
    { intros Hz. split; [auto|]. assert (Hro : root_off (LP o c) = o + (9 + 265 * c)).
      { unfold root_off; cbn [lp_off lp_idx]. unfold slotSize. rewrite Z.mod_small by lia. lia. }
      rewrite Hro, Hfr; [|unfold pageSize in *; lia|lia|lia].
      unfold unused_zero in Hz. cbv zeta in Hz. fold c in Hz. unfold last_page in Hz. fold o in Hz.
      replace (slice (file s) (o + (9 + 265 * c)) 265) with (slice (slice (file s) (o + (9 + 265 * c)) (pageSize - (9 + 265 * c))) 0 265)
        by (rewrite slice_slice by (unfold pageSize in *; lia); f_equal; lia).
      rewrite Hz. apply slice_zeros; unfold pageSize in *; lia. }
    split; [|unfold pageSize; split; lia].
    split; [lia|]. intros a l Ha Hl Hal HP Hh9. apply Hfr; auto. lia.
Qed.

(** AddNext anywhere else is refused *)
Lemma lp_add_next_err s ms n k : mchain (file s) ms n -> (S k < n)%nat ->
  exists p, lp_add_next (slot ms k) s = (Err (EMsg "next pointer already exists"), set_pos s p).
Proof.
  intros H Hk'. assert (Hk : (k < n)%nat) by lia. pose proof (slot_idx H Hk) as Hj. destruct (nth_ok H Hj) as [Hp _].
  pose proof (mc_hdr H Hj) as Hh. pose proof (mc_n H) as Hn. pose proof (mc_n' H) as Hn'.
  unfold lp_add_next. destruct (@lp_count_ok s (slot ms k) _ _ Hp Hh) as (p1 & E1). rewrite (@bind_ok _ _ _ _ _ _ _ _ E1).
  cbn [lp_idx slot]. rewrite (Z.mod_small (_ + 1)) by lia.
  unfold count_of in *. unfold numSlots. destruct (Nat.ltb_spec (S (k / 15)) (length ms)) as [Hl|Hl].
  - destruct (Z.ltb_spec (Z.of_nat (k mod 15) + 1) 15) as [Hi|Hi].
    + exists p1. reflexivity.
    + rewrite Z.eqb_refl. cbn [negb].
      destruct (@lp_next_page_offset_ok (set_pos s p1) (slot ms k) _ _ Hp Hh (next_of_range _ H)) as (p2 & E2).
      rewrite (@bind_ok _ _ _ _ _ _ _ _ E2).
      assert (Hnx : next_of ms (k / 15) = nth (S (k / 15)) ms 0).
      { unfold next_of. rewrite (nth_error_nth' ms 0 Hl). reflexivity. }
      rewrite Hnx. destruct (nth_ok H Hl) as [(X & _) Y].
      destruct (Z.eqb_spec (nth (S (k / 15)) ms 0) (2^64 - 1)); [lia|]. exists p2. reflexivity.
  - destruct (Z.ltb_spec (Z.of_nat (k mod 15) + 1) (Z.of_nat n - 15 * Z.of_nat (k / 15))) as [Hi|Hi]; [|lia].
    exists p1. reflexivity.
Qed.
Lemma lp_add_next_head_err s ms n : mchain (file s) ms n -> (0 < n)%nat ->
  exists p, lp_add_next (head_of ms) s = (Err (EMsg "next pointer already exists"), set_pos s p).
Proof.
  intros H Hpos. assert (Hj : (0 < length ms)%nat) by (pose proof (mc_len H); lia). destruct (nth_ok H Hj) as [Hp _].
  pose proof (mc_hdr H Hj) as Hh. pose proof (mc_n H) as Hn. pose proof (mc_n' H) as Hn'.
  unfold lp_add_next. destruct (@lp_count_ok s (head_of ms) _ _ Hp Hh) as (p1 & E1). rewrite (@bind_ok _ _ _ _ _ _ _ _ E1).
  cbn [lp_idx head_of]. change ((255 + 1) mod 256) with 0.
  assert (Hc : 0 < count_of ms n 0). { unfold count_of. destruct (Nat.ltb_spec 1 (length ms)); lia. }
  destruct (Z.ltb_spec 0 (count_of ms n 0)); [|lia]. exists p1. reflexivity.
Qed.

(** ** Collect *)
Lemma collect_from_slot ms n : forall d k s acc fuel, mchain (file s) ms n -> (k + d = n)%nat -> (0 < d)%nat -> (d <= fuel)%nat ->
  exists p, lp_collect_from fuel (slot ms k) acc s = (Ok (acc ++ map (slot ms) (seq k d)), set_pos s p).
Proof.
  induction d as [|d IH]; intros k s acc fuel H Hkd Hd Hfuel; [lia|].
  destruct fuel as [|fuel]; [lia|]. cbn [lp_collect_from].
  assert (Hk : (k < n)%nat) by lia. destruct (@lp_next_ok s ms n k H Hk) as (p & E). rewrite E.
  assert (Hidx : negb (lp_idx (slot ms k) =? 255) = true).
  { unfold slot; cbn [lp_idx]. destruct (Z.eqb_spec (Z.of_nat (k mod 15)) 255); [lia|reflexivity]. }
  rewrite Hidx. destruct (Nat.ltb_spec (S k) n) as [Hlt|Hge].
  - destruct (IH (S k) (set_pos s p) (acc ++ [slot ms k]) fuel H ltac:(lia) ltac:(lia) ltac:(lia)) as (q & E2). exists q. rewrite E2.
    cbn [seq map]. rewrite <- app_assoc. reflexivity.
  - exists p. assert (d = 0%nat) by lia. subst d. reflexivity.
Qed.
Lemma lp_collect_ok s ms n fuel : mchain (file s) ms n -> (n < fuel)%nat ->
  exists p, lp_collect fuel (head_of ms) s = (Ok (map (slot ms) (seq 0 n)), set_pos s p).
Proof.
  intros H Hf. unfold lp_collect. destruct fuel as [|fuel]; [lia|]. cbn [lp_collect_from].
  change (negb (lp_idx (head_of ms) =? 255)) with false. cbv iota zeta. destruct (@lp_next_head s ms n H) as (p & E). rewrite E.
  destruct (Nat.ltb_spec 0 n) as [Hlt|Hge].
  - destruct (@collect_from_slot ms n n 0 (set_pos s p) [] fuel H ltac:(lia) ltac:(lia) ltac:(lia)) as (q & E2). exists q. rewrite E2. reflexivity.
  - exists p. assert (n = 0%nat) by lia. subst n. reflexivity.
Qed.

(** ** Opening the list *)
Lemma new_multi_reopen s ms n : mchain (file s) ms n -> nth 0 ms 0 = pageSize ->
  exists p, new_multi s = (Ok (head_of ms), set_pos s p).
Proof.
  intros H H0. assert (Hj : (0 < length ms)%nat) by (pose proof (mc_len H); lia). destruct (nth_ok H Hj) as [(P1 & P2 & P3 & P4) _].
  rewrite H0 in *. unfold new_multi, head_of. rewrite H0.
  change (lift (page_off 0)) with (@ret st Z 4096). unfold bind at 1. unfold ret at 1.
  rewrite (@bind_ok _ _ _ _ _ _ _ _ (@seek_start_ok s 4096 ltac:(unfold pageSize in *; lia))).
  rewrite (@bind_ok _ _ _ _ _ _ _ _ (@pf_read_ok (set_pos s 4096) pageSize ltac:(cbn; lia) ltac:(unfold pageSize; lia)
     ltac:(cbn; unfold pageSize in *; lia) ltac:(cbn; unfold pageSize in *; lia))).
  eexists. reflexivity.
Qed.
Lemma new_multi_fresh s : pf_inv s [] -> budget s = None -> zlen (file s) = pageSize ->
  exists s', new_multi s = (Ok (head_of [pageSize]), s') /\ pf_inv s' [] /\ budget s' = None /\ kind s' = kind s /\
    mchain (file s') [pageSize] 0 /\ unused_zero (file s') [pageSize] 0 /\ zlen (file s') = 2 * pageSize /\ lastPage s' = lastPage s.
Proof.
  intros Hi Hb Hz. unfold new_multi.
  change (lift (page_off 0)) with (@ret st Z 4096). unfold bind at 1. unfold ret at 1.
  rewrite (@bind_ok _ _ _ _ _ _ _ _ (@seek_start_ok s 4096 ltac:(unfold pageSize in *; lia))).
  assert (Er : pf_read pageSize (set_pos s 4096) = (Ok ([], Some EEof), set_pos s 4096)).
  { unfold pf_read. rewrite (@bind_ok _ _ _ _ _ _ _ _ (@seek_cur_ok (set_pos s 4096) ltac:(cbn [pos set_pos file]; unfold pageSize in *; lia))).
    cbn [pos set_pos]. change (pageSize <? 4096 mod pageSize + pageSize) with false. cbv iota.
    unfold rws_read. cbn [kind set_pos file pos]. destruct (kind s).
    - destruct (Z.leb_spec (zlen (file s)) 4096); [reflexivity|unfold pageSize in *; lia].
    - destruct (Z.ltb_spec (zlen (file s)) 4096); [unfold pageSize in *; lia|].
      rewrite slice_past by (unfold pageSize in *; lia). change (zlen (@nil Z)) with 0. change (0 <? pageSize) with true. cbv iota. reflexivity. }
  rewrite (@bind_ok _ _ _ _ _ _ _ _ Er). unfold lp_reset. cbn [lp_off]. change (s64 4096) with 4096.
  destruct (@seek_pf_write (set_pos s 4096) 4096 (lp_empty_page 0)) as (n5 & p5 & E5);
      [exact Hb | cbn [file set_pos]; unfold pageSize in *; lia | rewrite zlen_empty_page; unfold pageSize; lia |].
  assert (E5' : (seek_start 4096;;; pf_write (lp_empty_page 0);;; ret tt) (set_pos s 4096) =
     (Ok tt, set_pos (set_file (set_pos s 4096) (upd (file s) 4096 (lp_empty_page 0))) p5)).
  { revert E5. unfold bind. destruct (seek_start 4096 (set_pos s 4096)) as [[?| | | |] ?]; try discriminate. intros ->. reflexivity. }
  rewrite (@bind_ok _ _ _ _ _ _ _ _ E5'). eexists. split; [reflexivity|].
  assert (Ef : upd (file s) 4096 (lp_empty_page 0) = file s ++ lp_empty_page 0) by (rewrite <- upd_end; f_equal; unfold pageSize in *; lia).
  assert (Hz' : zlen (file s ++ lp_empty_page 0) = 2 * pageSize) by (rewrite zlen_app, zlen_empty_page; lia).
  cbn [file set_pos set_file budget kind lastPage]. rewrite Ef.
  split.
  { destruct Hi as [H1 H2 H3 H4 H5 H6]. constructor; cbn [file set_pos set_file ring fhead fcount]; auto; try rewrite Hz'.
    - unfold pageSize; lia.
    - unfold pageSize; lia.
    - rewrite slice_app_l by lia. exact H6. }
  split; [auto|]. split; [auto|].
  assert (Hpg : forall a l, 0 <= a -> 0 <= l -> slice (file s ++ lp_empty_page 0) (pageSize + a) l = slice (lp_empty_page 0) a l).
  { intros a l Ha Hl. rewrite slice_app_r by lia. f_equal; lia. }
  split; [|split; [|split; auto]].
  - constructor; cbn [length]; try lia.
    + constructor; [|constructor]. unfold page_ok. rewrite Hz'. unfold pageSize; lia.
    + constructor; [intros []|constructor].
    + intros j Hj. assert (j = 0%nat) by lia. subst j. cbn [nth].
      assert (E9 : slice (file s ++ lp_empty_page 0) pageSize 9 = slice (lp_empty_page 0) 0 9).
      { rewrite <- (Hpg 0 9) by lia. f_equal. }
      rewrite E9, page_empty_hdr. reflexivity.
  - unfold unused_zero, last_page. cbn [length nth]. cbv zeta. change (count_of [pageSize] 0 (1 - 1)) with 0. change (1 - 1)%nat with 0%nat. cbn [nth].
    rewrite Hpg by (unfold pageSize; lia). apply empty_page_rest; unfold pageSize; lia.
Qed.
