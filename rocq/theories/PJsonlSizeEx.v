(** Concrete data files for C85 and for the theorems of C70 about indexes of several pages. *)
From Coq Require Import Permutation Sorted.
From Verif Require Import Base Varint Store PageFile RefValue Node LinkedPage BPTree PTree Meta IndexFile IFileInv PIndex Json Jsonl JsonlRun JsonDoc JsonlSpec JsonlHist PJsonl PJsonlEx PJsonlQuery TsFile Query QTree PQuery PQueryEx PJsonlSize PJsonlSearch PJsonlSearchEx.

Notation history := (history un tf gr []).
Lemma history_of k D : zlen D < 2^44 -> history D (fresh k).
Proof. intros H. apply (@hi_data un tf gr [] [] D); [|exact H]. apply (@hi_new un tf gr [] k (opened k) file_slot (fresh k)); destruct k; vm_compute; reflexivity. Qed.
(** the two lines of PJsonlEx.v, synchronized in two steps with a reopening between them *)
Definition reopened (k : rws_kind) : st := snd (new_index_file 0 (snd (new_page_file (open_rws k (file (s1 k)))))).
Theorem C85_example k : history D12 (reopened k) /\ fits D12 [line1; line2] [123].
Proof.
  split; [|exact fits12]. replace D12 with (D1 ++ skipn (length D1) D12) by reflexivity. apply hi_data; [|reflexivity].
  apply (@hi_open un tf gr [] D1 (s1 k) k (snd (new_page_file (open_rws k (file (s1 k))))) file_slot (reopened k)).
  - apply (@hi_sync un tf gr [] D1 (fresh k) (fst (sync D1 (fresh k))) (s1 k)); [apply history_of; reflexivity|]. unfold s1. destruct (sync D1 (fresh k)). reflexivity.
  - destruct k; vm_compute; reflexivity.
  - destruct k; vm_compute; reflexivity.
Qed.

(** *** Many lines {"a":1} *)
Definition many (n : nat) : list line := repeat line1 n.
Definition Dn (n : nat) : bytes := data_of (many n) [].
Lemma many_text n : zlen (lines_text (many n)) = 8 * Z.of_nat n.
Proof. induction n as [|n IH]; [reflexivity|]. cbn [many repeat lines_text]. fold (many n). rewrite zlen_app, zlen_cons, IH. change (zlen (line_text line1)) with 7. lia. Qed.
Lemma many_occs n : forall at_, Forall (fun o : occ => zlen (fd_name (fst o)) <= 236) (occs un at_ (many n)).
Proof. induction n as [|n IH]; intros at_; [constructor|]. cbn [many repeat occs]. fold (many n). apply Forall_app. split; [|apply IH]. constructor; [cbn; vm_compute; discriminate|constructor]. Qed.
Lemma fits_many n : fits (Dn n) (many n) [].
Proof.
  split; [reflexivity|]. split; [intros []|]. split; [|apply unsearched, many_occs].
  unfold many. apply Forall_forall. intros x Hx. apply repeat_spec in Hx. subst x.
  pose proof fits12 as (_ & _ & H & _). inversion H; auto.
Qed.
Lemma many_fields n : all_fields un (many n) = repeat (line1, FD [97] (JNum [49]) 4 5) n.
Proof. induction n as [|n IH]; [reflexivity|]. unfold all_fields. cbn [many repeat flat_map]. fold (many n). fold (all_fields un (many n)). rewrite IH. reflexivity. Qed.
Lemma filter_repeat {A} (f : A -> bool) x n : f x = true -> filter f (repeat x n) = repeat x n.
Proof. intros H. induction n as [|n IH]; [reflexivity|]. cbn [repeat filter]. rewrite H, IH. reflexivity. Qed.
Lemma many_entries n : zlen (entries_of un tf gr [] (occs un 0 (many n)) ([97], FTFloat64)) = Z.of_nat n.
Proof.
  assert (G : forall n at_, zlen (entries_of un tf gr [] (occs un at_ (many n)) ([97], FTFloat64)) = Z.of_nat n); [|apply G].
  clear. induction n as [|n IH]; intros at_; [reflexivity|]. cbn [many repeat occs]. fold (many n).
  unfold entries_of, posts in *. rewrite flat_map_app, filter_app, flat_map_app.
  match goal with |- zlen (?x ++ ?y) = _ => assert (E : zlen x = 1) by reflexivity; pose proof (zlen_app x y) as Ez end. rewrite Ez, E. etransitivity; [apply f_equal; apply IH|]. lia.
Qed.
(** 5000 such lines: Synchronize succeeds, the index file is below 2 GiB, and the index
    of the numbers "a" takes more than one page. So C70's theorems on such indexes apply:
    the query for "a" >= 1, descending, returns 4999 of the 5000 lines, and the query for
    "a" <= 1, ascending, all. *)
Definition one : wval := WNum (49 :: zeros 7).
Theorem C70_many_lines_example k (n : nat) : 4096 < Z.of_nat n <= 5000 -> exists s', sync (Dn n) (fresh k) = (Ok tt, s') /\ zlen (file s') <= 2^31 /\
  ~ small_index un tf (Dn n) s' [97] FTFloat64 /\
  (exists l, ts_query (jparse un tf) (fuel_of s') (file s') (Dn n) (QY [CW [97] QGe one] [Desc] None) (n + 1) = Ok l /\ length l = (n - 1)%nat) /\
  (exists l, ts_query (jparse un tf) (fuel_of s') (file s') (Dn n) (QY [CW [97] QLe one] [Asc] None) (n + 1) = Ok l /\ length l = n).
Proof.
  intros Hn. assert (HD : zlen (Dn n) = 8 * Z.of_nat n) by (unfold Dn, data_of; rewrite app_nil_r; apply many_text).
  assert (Hh : history (Dn n) (fresh k)) by (apply history_of; lia).
  destruct (sync (Dn n) (fresh k)) as [r s'] eqn:E.
  destruct (@C85_index_file_size un tf gr [] tf_8 _ _ _ _ _ _ Hh (fits_many n) E) as [-> Hsz].
  destruct (@C85_every_history_is_a_life un tf gr [] tf_8 _ _ _ _ _ _ Hh (fits_many n) E) as (Hl & _ & _).
  exists s'. split; [reflexivity|]. assert (Hf : zlen (file s') <= 2^31) by lia. split; [exact Hf|].
  assert (Hname : exists x, In x (all_fields un (many n)) /\ fd_name (snd x) = [97] /\ type_of (fd_value (snd x)) = FTFloat64).
  { exists (line1, FD [97] (JNum [49]) 4 5). split; [|split; reflexivity]. rewrite many_fields. destruct n as [|n']; [cbn in Hn; lia|left; reflexivity]. }
  assert (Hg : forall gn gt, In gt [FTUnigram; FTBigram; FTTrigram] -> total_of un tf gr [] (occs un 0 (many n)) (gn, gt) < 2^31) by (intros; apply no_grams; auto).
  assert (Hsmall : ~ small_index un tf (Dn n) s' [97] FTFloat64).
  { intros Hs. destruct (@end_index un tf gr [] tf_8 (Dn n) (fresh k) s' (many n) [] (Ok tt) [97] one FTFloat64 (fuel_of s')) as (fm & l & ix & Hif & Hr & En & Et & Es); auto; [apply fits_many|lia|].
    apply (proj1 (small_one gr Hif Hr En Et)) in Hs.
    assert (Hm : zlen (ix_es ix) = Z.of_nat n) by (rewrite Es; unfold zlen; rewrite rev_length; exact (many_entries n)).
    assert (Hc : 4096 < zlen (ix_es ix)) by lia.
    assert (Hwd : widths_ok determine_type) by (intros ft; pose proof (determine_type_range ft); lia).
    assert (Hv : value_type one = Some (ix_type ix)) by (rewrite Et; reflexivity).
    exact (many_entries_many_pages one Hwd Hif Hr Hv Hc Hs). }
  split; [exact Hsmall|]. split.
  - destruct (@C70_descending_above_refuted un tf gr [] tf_8 (Dn n) (fresh k) s' (many n) [] (Ok tt) [97] one FTFloat64 (fuel_of s')) with (op := QGe) (limit := @None nat) (n := (n + 1)%nat) as (last & rest & found & P & _ & F & _ & Q); auto; [apply fits_many|lia|].
    rewrite Q. eexists. split; [reflexivity|]. rewrite map_length.
    rewrite many_fields, filter_repeat in P by reflexivity. 
    assert (Hin : forall y, In y rest -> y = (line1, FD [97] (JNum [49]) 4 5)) by (intros y Hy; eapply repeat_spec; eapply Permutation_in; [exact P|right; exact Hy]).
    assert (Hff : filter (hit un tf [97] QGe one) rest = rest).
    { clear - Hin. induction rest as [|y rest IH]; [reflexivity|]. cbn [filter]. rewrite IH by (intros; apply Hin; right; auto). rewrite (Hin y (or_introl eq_refl)). reflexivity. }
    rewrite Hff in F. apply Permutation_length in F, P. rewrite repeat_length in P. cbn [length] in P. rewrite firstn_length. lia.
  - destruct (@C70_ascending_below_partial un tf gr [] tf_8 (Dn n) (fresh k) s' (many n) [] (Ok tt) [97] one FTFloat64 (fuel_of s')) with (op := QLe) (limit := @None nat) (n := (n + 1)%nat) as (found & F & _ & Q); auto; [apply fits_many|lia|].
    rewrite Q. eexists. split; [reflexivity|]. rewrite map_length, firstn_length.
    rewrite many_fields, filter_repeat in F by reflexivity. apply Permutation_length in F. rewrite repeat_length in F. lia.
Qed.
(** an index of one page *)
Theorem C70_one_page_example : lines_found un tf [line1; line2] [98] QGe Asc (WStr [120]) 5
    (ts_query (jparse un tf) (fuel_of s12m) (file s12m) D12 (QY [CW [98] QGe (WStr [120])] [Asc] None) 5) /\
  ts_query (jparse un tf) (fuel_of s12m) (file s12m) D12 (QY [CW [98] QGe (WStr [120])] [Asc] None) 5 = Ok [line_text line2].
Proof.
  split; [|vm_compute; reflexivity]. destruct s12_sync as (r & Er).
  apply (@C70_one_page_partial un tf gr [] tf_8 D12 (fresh KMmap) s12m [line1; line2] [123] r [98] (WStr [120]) FTString (fuel_of s12m)); auto.
  - apply life_of. reflexivity.
  - exact fits12.
  - exact s12_small.
  - reflexivity.
  - exists (line2, FD [98] (JStr [120]) 15 18). split; [|split; reflexivity]. change (all_fields un [line1; line2]) with [(line1, FD [97] (JNum [49]) 4 5); (line2, FD [97] (JArr [] INil) 4 8); (line2, FD [98] (JStr [120]) 15 18); (line2, FD [99] (JObj [] (MCons [] [100] [] [] (JBool true) [] MNil)) 23 33); (line2, FD [99; 46; 100] (JBool true) 28 32)]. right; right; left; reflexivity.
  - intros gn gt. apply no_grams.
  - apply one_pageb_ok. vm_compute. reflexivity.
Qed.
