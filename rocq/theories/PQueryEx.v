(** Concrete indexes for PQuery.v and PJsonlQuery.v: their hypotheses are met. *)
From Coq Require Import Permutation.
From Verif Require Import Base Varint Store PageFile PageHist RefValue Node LinkedPage BPTree BPRepr BPIter BPInsert BPLoop BPTop PTree Meta TsCodec Slots SlotAdd PSlots Cells IndexFile IFileInv PIndex Json Jsonl JsonDoc JsonlSpec PJsonl PJsonlEx Query QTree TsFile PQuery PJsonlQuery PSpace.

(** ** An index with more entries than a page has bytes is not on one page *)
Lemma concat_ge {A} (f : A -> bytes) l : (forall x, In x l -> 1 <= zlen (f x)) -> zlen l <= zlen (concat (map f l)).
Proof.
  induction l as [|x l IH]; intros H; [apply Z.le_refl|]. cbn [map concat]. rewrite zlen_app, zlen_cons. pose proof (H x (or_introl eq_refl)).
  assert (zlen l <= zlen (concat (map f l))) by (apply IH; intros; apply H; right; auto). lia.
Qed.
Theorem many_entries_many_pages wd parse D fm l s ix v : widths_ok wd -> ifile wd parse D fm l s -> readable wd D fm l s ix -> value_type v = Some (ix_type ix) ->
  4096 < zlen (ix_es ix) -> ~ one_page wd parse D s ix.
Proof.
  intros Hwd Hif Hr Hv Hlen (nd & Hnd & Hlf).
  destruct (tree_of_index Hwd Hif Hr v Hv (le_n (fuel_of s))) as (es & h & pgs & mp & P & A & R & Hl & Hh & Er & Hrd & Hfe & Hsm & _).
  destruct R as (n0 & pg' & Hn & Hb & _). rewrite Er in Hnd. destruct mp as [o len]. pose proof (Hrd _ len _ Hn) as X. cbn [mp_off] in X. rewrite X in Hnd. injection Hnd as <-.
  destruct h as [|h]; [|pose proof (body_leaf_dec Hb) as Y; congruence].
  destruct Hb as (_ & Ek & _). cbn [mp_off] in Hn. destruct Hn as [(Hpg & (_ & _ & Hk & _) & t & Et) _].
  assert (Hz : zlen (page (file s) o) = 4096) by (apply zlen_page; exact Hpg). rewrite Et in Hz. unfold enc_node in Hz. rewrite !zlen_app in Hz.
  assert (zlen (keys n0) <= zlen (concat (map (enc_key (cwidth (ix_codec wd parse D (ix_type ix)))) (keys n0)))).
  { apply concat_ge. intros k Hin. rewrite Forall_forall in Hk. destruct (Hk k Hin) as [[M1 M2] _]. unfold enc_key. rewrite !zlen_app.
    pose proof (put_uvarint_length M1). pose proof (zlen_nonneg (put_uvarint (mp_len (rv_dp k)))).
    pose proof (zlen_nonneg (if negb (cwidth (ix_codec wd parse D (ix_type ix)) =? 0) then rv_val k else [])). lia. }
  assert (El : zlen (keys n0) = zlen (ix_es ix)) by (unfold zlen; rewrite Ek, map_length, (Permutation_length P); reflexivity).
  rewrite zlen_le in Hz. pose proof (zlen_nonneg t). pose proof (zlen_nonneg (concat (map enc_lptr (lptrs n0)))). pose proof (zlen_nonneg (concat (map put_uvarint (iptrs n0)))).
  lia.
Qed.

(** ** An index of 5000 numbers *)
Definition num_entry (k : nat) : rv * mptr := (RV (MP (Z.of_nat k) 1) (le 8 (Z.of_nat k)), MP (Z.of_nat k) 2).
Definition ixn (m : lp) (n : nat) : ixr := IX m [97] FTFloat64 0 (map num_entry (rev (seq 1 n))).
Lemma num_in k n : In (fst (num_entry k)) (map fst (map num_entry (rev (seq 1 n)))) -> (k <= n)%nat.
Proof.
  rewrite map_map. intros H. apply in_map_iff in H. destruct H as (j & E & Hj). apply in_rev, in_seq in Hj. unfold num_entry in E. cbn [fst] in E. injection E as E _. lia.
Qed.
Lemma many n : Z.of_nat n <= 5000 -> exists s m, ifile determine_type (fun b => Some b) [] (FM 1 0 0 0) [ixn m n] s /\ zlen (file s) <= 4096 * 10002.
Proof.
  assert (Hwd : widths_ok determine_type) by (intros ft; pose proof (determine_type_range ft); lia).
  intros Hn. assert (G : exists s m, ifile determine_type (fun b => Some b) [] (FM 1 0 0 0) [ixn m n] s).
  { induction n as [|n IH].
    - destruct (@holds_create (ix_codec determine_type (fun b => Some b) []) KMmap 0) as (s0 & s1 & fl & ms & x0 & F1 & F2 & _ & F3 & _).
      { intros ft. apply ix_codec_ok; auto. change (zlen (@nil Z)) with 0; lia. }
      { lia. }
      pose proof (@if_new determine_type (fun b => Some b) KMmap 0 s0 file_slot s1 ltac:(lia) F1 F2) as H1.
      destruct (@C23_new_is_created_partial _ _ _ _ _ _ [97] FTFloat64 Hwd H1) as (m1 & s2 & E2 & _ & H2 & Z2 & _).
      { intros ix []. } { unfold pageSize in *; lia. } { change (zlen [97]) with 1; lia. } { unfold FTFloat64; lia. }
      exists s2, m1. exact H2.
    - destruct IH as (s & m & H); [lia|]. pose proof (C71_space_bound Hwd H) as Hb. unfold total_entries, ixn in Hb. cbn [fold_right ix_es] in Hb. unfold zlen at 2 3 in Hb. rewrite map_length, rev_length, seq_length in Hb.
      cbn [length] in Hb. change ((Z.of_nat 1 + 1) / 15) with 0 in Hb.
      destruct (@C33_insert_into_an_index_of_a_file _ _ _ _ _ _ (ixn m n) (fst (num_entry (S n))) (snd (num_entry (S n))) Hwd H) as (s' & _ & H').
      { left; auto. } { lia. }
      { unfold op_ok, num_entry. cbn [fst snd mp_off mp_len rv_dp rv_val ixn ix_type ix_codec cwidth]. rewrite zlen_le. change (determine_type FTFloat64) with 9. repeat split; intros; lia. }
      { right. cbn [num_entry fst rv_val]. rewrite zlen_le. reflexivity. }
      { intros X. apply num_in in X. lia. }
      exists s', m. cbn [at_index map ixn ix_at] in H'. rewrite lp_eqb_refl in H'. unfold with_put in H'. cbn [ix_at ix_name ix_type ix_total ix_es] in H'.
      unfold ixn. rewrite seq_S, rev_app_distr. cbn [rev app map]. exact H'. }
  destruct G as (s & m & H). exists s, m. split; auto.
  pose proof (C71_space_bound Hwd H) as Hb. unfold total_entries, ixn in Hb. cbn [fold_right ix_es] in Hb. unfold zlen at 2 3 in Hb. rewrite map_length, rev_length, seq_length in Hb.
  cbn [length] in Hb. change ((Z.of_nat 1 + 1) / 15) with 0 in Hb. lia.
Qed.
Lemma nodup_map_in {A B} (f : A -> B) l : NoDup l -> (forall a b, In a l -> In b l -> f a = f b -> a = b) -> NoDup (map f l).
Proof.
  induction 1 as [|x l Hx Hnd IH]; intros H; [constructor|]. cbn [map]. constructor; [|apply IH; intros; apply H; auto; right; auto].
  intros X. apply in_map_iff in X. destruct X as (y & E & Hy). apply Hx. rewrite <- (H y x); auto; [right; auto|left; auto].
Qed.
(** C48, C49, C68: the hypotheses are met, by an index of more than one page *)
Theorem C48_hypotheses_met n : 4096 < Z.of_nat n <= 5000 -> exists s m, let ix := ixn m n in
  ifile determine_type (fun b => Some b) [] (FM 1 0 0 0) [ix] s /\ readable determine_type [] (FM 1 0 0 0) [ix] s ix /\
  value_type (WNum (le 8 17)) = Some (ix_type ix) /\ ~ one_page determine_type (fun b => Some b) [] s ix /\
  NoDup (map (fun e => rv_val (fst e)) (ix_es ix)) /\ Forall (fun e => rv_dp (fst e) <> MP 0 0) (ix_es ix).
Proof.
  assert (Hwd : widths_ok determine_type) by (intros ft; pose proof (determine_type_range ft); lia).
  intros Hn. destruct (@many n (proj2 Hn)) as (s & m & H & Hz). exists s, m. cbv zeta.
  assert (Hr : readable determine_type [] (FM 1 0 0 0) [ixn m n] s (ixn m n)).
  { constructor.
    - left; reflexivity.
    - intros ix [<-|[]]. split; discriminate.
    - reflexivity.
    - lia.
    - cbn [fm_entries]. lia.
    - constructor; [cbn [ixn ix_total]; lia|constructor].
    - intros X. apply (f_equal (@length _)) in X. cbn [ixn ix_es] in X. rewrite map_length, rev_length, seq_length in X. cbn [length] in X. lia.
    - cbn [ixn ix_es]. apply Forall_map, Forall_rev. apply Forall_forall. intros k Hk. apply in_seq in Hk. unfold entry_small, mptr_small, num_entry. cbn [fst snd rv_dp mp_off mp_len]. lia. }
  split; auto. split; auto. split; auto. split; [|split].
  - eapply many_entries_many_pages with (v := WNum (le 8 17)); eauto. cbn [ixn ix_es]. unfold zlen. rewrite map_length, rev_length, seq_length. lia.
  - cbn [ixn ix_es]. rewrite map_map, map_rev. apply NoDup_rev. apply nodup_map_in; [apply seq_NoDup|].
    intros a b Ha Hb E. apply in_seq in Ha, Hb. cbn [num_entry fst rv_val] in E. apply le8_inj in E; lia.
  - cbn [ixn ix_es]. apply Forall_map, Forall_rev, Forall_forall. intros k Hk E. apply in_seq in Hk. cbn [num_entry fst rv_dp] in E. injection E. lia.
Qed.

(** ** Queries on the JSONL file of PJsonlEx.v: {"a":1} and {"a" : [] , "b":"x","c":{"d":true}} *)
Notation s12m := (s12 KMmap).
Lemma s12_small : zlen (file s12m) <= 2^31.
Proof. apply Z.leb_le. vm_compute. reflexivity. Qed.
Lemma s12_sync : exists r, jsonl_sync un tf gr [] file_slot D12 (fresh KMmap) = (r, s12m).
Proof. exists (fst (jsonl_sync un tf gr [] file_slot D12 (fresh KMmap))). unfold s12. destruct (jsonl_sync un tf gr [] file_slot D12 (fresh KMmap)). reflexivity. Qed.
(** the hypotheses of C70 are met, and an answer *)
Theorem C70_example : lines_found un tf [line1; line2] [98] QLe Desc (WStr [121]) 5
    (ts_query (jparse un tf) (fuel_of s12m) (file s12m) D12 (QY [CW [98] QLe (WStr [121])] [Desc] None) 5) /\
  ts_query (jparse un tf) (fuel_of s12m) (file s12m) D12 (QY [CW [98] QLe (WStr [121])] [Desc] None) 5 = Ok [line_text line2].
Proof.
  split; [|vm_compute; reflexivity]. destruct s12_sync as (r & Er).
  apply (@C70_lines_below_partial un tf gr [] tf_8 D12 (fresh KMmap) s12m [line1; line2] [123] r [98] (WStr [121]) FTString (fuel_of s12m)).
  - apply life_of. reflexivity.
  - exact fits12.
  - exact Er.
  - exact s12_small.
  - reflexivity.
  - reflexivity.
  - exists (line2, FD [98] (JStr [120]) 15 18). split; [|split; reflexivity]. change (all_fields un [line1; line2]) with [(line1, FD [97] (JNum [49]) 4 5); (line2, FD [97] (JArr [] INil) 4 8); (line2, FD [98] (JStr [120]) 15 18); (line2, FD [99] (JObj [] (MCons [] [100] [] [] (JBool true) [] MNil)) 23 33); (line2, FD [99; 46; 100] (JBool true) 28 32)]. right; right; left; reflexivity.
  - intros gn gt. apply no_grams.
  - apply le_n.
  - right; reflexivity.
Qed.
(** C48 fails for ascending < and <= on an index of one page, where first() follows a
    pointer into the data file as if it were a page of the index file: the query for the
    records with "b" <= "y" fails, though there is one. *)
Theorem C48_one_page_lt_le_refuted : exists fm l ix,
  ifile determine_type (jparse un tf) D12 fm l s12m /\ readable determine_type D12 fm l s12m ix /\ value_type (WStr [121]) = Some (ix_type ix) /\
  filter (satisfies QLe [121]) (ix_es ix) <> [] /\ filter (satisfies QLt [121]) (ix_es ix) <> [] /\
  (exists e, ts_query (jparse un tf) (fuel_of s12m) (file s12m) D12 (ask ix QLe Asc (WStr [121]) None) 5 = Err e) /\
  (exists e, ts_query (jparse un tf) (fuel_of s12m) (file s12m) D12 (ask ix QLt Asc (WStr [121]) None) 5 = Err e).
Proof.
  destruct s12_sync as (r & Er).
  destruct (@end_index un tf gr [] tf_8 D12 (fresh KMmap) s12m [line1; line2] [123] r [98] (WStr [121]) FTString (fuel_of s12m)) as (fm & l & ix & Hif & Hr & En & Et & Es).
  - apply life_of. reflexivity.
  - exact fits12.
  - exact Er.
  - exact s12_small.
  - reflexivity.
  - reflexivity.
  - exists (line2, FD [98] (JStr [120]) 15 18). split; [|split; reflexivity]. change (all_fields un [line1; line2]) with [(line1, FD [97] (JNum [49]) 4 5); (line2, FD [97] (JArr [] INil) 4 8); (line2, FD [98] (JStr [120]) 15 18); (line2, FD [99] (JObj [] (MCons [] [100] [] [] (JBool true) [] MNil)) 23 33); (line2, FD [99; 46; 100] (JBool true) 28 32)]. right; right; left; reflexivity.
  - intros gn gt. apply no_grams.
  - apply le_n.
  - exists fm, l, ix. split; auto. split; auto. unfold ask. rewrite En, Et. split; [reflexivity|].
    change (rev (entries_of un tf gr [] (occs un 0 [line1; line2]) ([98], FTString))) with [(RV (MP 24 3) [120], MP 8 35)] in Es. rewrite Es.
    split; [discriminate|]. split; [discriminate|]. split; eexists; vm_compute; reflexivity.
Qed.
