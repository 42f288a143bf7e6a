(** Concrete data files with a search header: the hypotheses of PJsonlSearch.v are met,
    and what fails, fails on them. *)
From Coq Require Import Permutation.
From Verif Require Import Base Varint Store PageFile RefValue Node LinkedPage BPTree PTree Meta IndexFile IFileInv PIndex Json Jsonl JsonDoc JsonlSpec PJsonl PJsonlEx PJsonlQuery TsFile Query QTree PQuery PNgram Search PSearch PJsonlSearch.

(** NFKD of texts of ASCII characters and U+FDFA, which becomes 18 characters, three of
    them spaces (Unicode Character Database) *)
Definition fdfa : list (Z * Z) :=
  [(1589,2); (1604,2); (1609,2); (32,1); (1575,2); (1604,2); (1604,2); (1607,2); (32,1); (1593,2); (1604,2); (1610,2); (1607,2); (32,1); (1608,2); (1587,2); (1604,2); (1605,2)].
Fixpoint nf (b : bytes) : list (Z * Z) :=
  match b with
  | [] => []
  | c :: t => match t with
              | d :: e :: u => if (c =? 239) && (d =? 183) && (e =? 186) then fdfa ++ nf u else (c, 1) :: nf t
              | _ => (c, 1) :: nf t
              end
  end.
Notation ng := (grams_of nf).
(** the field "a" is searched *)
Definition ha : list bytes := [[97]].
Notation ssync := (jsonl_sync un tf ng ha file_slot).
Lemma slife_of k D : zlen D < 2^63 -> PJsonl.life un tf ng ha D (fresh k).
Proof. intros H. apply (@lf_data un tf ng ha [] D); [|exact H]. apply (@lf_new un tf ng ha k (opened k) file_slot (fresh k)); destruct k; vm_compute; reflexivity. Qed.
Definition text_line (t : bytes) : line := LN [] [] (MCons [] [97] [] [] (JStr t) [] MNil) [].

(** {"a":"Hi you"} and {"a":"hi"} *)
Definition la : line := text_line [72; 105; 32; 121; 111; 117].
Definition lb : line := text_line [104; 105].
Definition Dab : bytes := data_of [la; lb] [].
Definition sab : st := snd (ssync Dab (fresh KMmap)).
(** the same, computed once *)
Definition sabl : st := Eval vm_compute in sab.
Lemma sab_eq : sab = sabl.
Proof. vm_compute. reflexivity. Qed.
Lemma fits_ab : PJsonl.fits un tf ng ha Dab [la; lb] [].
Proof.
  split; [reflexivity|]. split; [intros []|]. split.
  - repeat constructor; cbn; try exact I; auto; try lia; try body; try reflexivity.
  - apply (@C81_limits_partial un tf ha nf tf_8). repeat apply Forall_cons; [| |constructor]; (split; [vm_compute; discriminate|intros _; eexists; split; [reflexivity|]; split; [reflexivity|]; split; [repeat constructor; cbn; lia|vm_compute; discriminate]]).
Qed.
Definition bytes_eqb (a b : bytes) : bool := if list_eq_dec Z.eq_dec a b then true else false.
Definition one_pageb (D : bytes) (s : st) (name : bytes) (ty : Z) : bool :=
  match find_or_create file_slot name ty s with
  | (Ok (m, im), q) => bytes_eqb (file q) (file s) && match ts_rd (mkCodec (determine_type ty) D (jparse un tf)) (file s) (root_at (file s) m) with Ok n => is_leaf n | _ => false end
  | _ => false
  end.
Lemma one_pageb_ok D s name ty : one_pageb D s name ty = true -> fits_one_page un tf D s name ty.
Proof.
  unfold one_pageb, fits_one_page, reads. destruct (find_or_create file_slot name ty s) as [[[m im]| | | |] q]; try discriminate. intros H. apply andb_true_iff in H. destruct H as [H1 H2].
  unfold bytes_eqb in H1. destruct (list_eq_dec Z.eq_dec (file q) (file s)) as [E|]; [|discriminate].
  destruct (ts_rd _ (file s) (root_at (file s) m)) as [n| | | |] eqn:Er; try discriminate. exists m, im, n. split; [exists q; auto|auto].
Qed.
(** all hypotheses of the theorems of C81 are met by the search for "hi" with the default
    lengths; it returns each of the two lines three times: for "h", for "i" and for "hi" *)
Theorem C81_example {num} (zero : num) plus score sort choose : (forall t, Permutation (sort t) t) -> (forall i, (choose i <= i)%nat) ->
  exists r, ts_search zero plus score sort (map lower) choose (fun w => w) (jparse un tf) 10 (fuel_of sab) (file sab) Dab [97] [104; 105] None = Ok r /\
    Permutation (map fst r) [line_text la; line_text lb; line_text la; line_text lb; line_text la; line_text lb].
Proof.
  intros Hsort Hch. assert (Hz : zlen (file sab) <=? 2^31 = true) by (rewrite sab_eq; vm_compute; reflexivity).
  apply (@C81_one_page_partial un tf ha nf tf_8 Dab (fresh KMmap) sab [la; lb] [] (fst (ssync Dab (fresh KMmap))) [97] 1 2 10 (fuel_of sab) num zero plus score sort (map lower) choose (fun w => w) [104; 105] None).
  - apply slife_of. reflexivity.
  - exact fits_ab.
  - unfold sab. destruct (ssync Dab (fresh KMmap)); reflexivity.
  - lia.
  - reflexivity.
  - intros fn ty Hty. destruct (list_eq_dec Z.eq_dec fn [97]) as [->|Hne].
    + assert (X : total_of un tf ng ha (occs un 0 [la; lb]) ([97], ty) <? 2^31 = true) by (destruct Hty as [<-|[<-|[<-|[]]]]; vm_compute; reflexivity). apply Z.ltb_lt. exact X.
    + unfold total_of. assert (E : filter (fun p => id_eqb (po_id p) (fn, ty)) (posts un tf ng ha (occs un 0 [la; lb])) = []).
      { assert (F : Forall (fun p => fst (po_id p) = [97]) (posts un tf ng ha (occs un 0 [la; lb]))) by (repeat constructor).
        induction F as [|p l Hp F IH]; [reflexivity|]. cbn [filter]. unfold id_eqb at 1. cbn [fst]. rewrite Hp. destruct (list_eq_dec Z.eq_dec [97] fn); [congruence|exact IH]. }
      rewrite E. reflexivity.
  - reflexivity.
  - intros x [<-|[<-|[]]] _; vm_compute; reflexivity.
  - lia.
  - intros n Hn. exists (hd (la, FD [] JNull 0 0) (all_fields un [la; lb])). split; [left; reflexivity|]. split; [reflexivity|]. assert (n = 1 \/ n = 2)%nat as [-> | ->] by lia; discriminate.
  - repeat constructor; lia.
  - reflexivity.
  - reflexivity.
  - reflexivity.
  - exact Hsort.
  - exact Hch.
  - lia.
  - intros ty [<-|[<-|[<-|[]]]]; vm_compute; lia.
  - intros n ty Hn E. assert (n = 1 \/ n = 2)%nat as [-> | ->] by lia; injection E as <-.
    + apply one_pageb_ok. rewrite sab_eq. vm_compute. reflexivity.
    + apply one_pageb_ok. rewrite sab_eq. vm_compute. reflexivity.
Qed.

(** ** C82 *)
(** {"a":null}: with the search header Synchronize fails, without it succeeds. *)
Definition ln : line := LN [] [] (MCons [] [97] [] [] JNull [] MNil) [].
Definition Dn : bytes := data_of [ln] [].
(** {"a":"\uFDFA hello"} {"a":"the night"} *)
Definition l1 : line := text_line [239; 183; 186; 32; 104; 101; 108; 108; 111].
Definition l2 : line := text_line [116; 104; 101; 32; 110; 105; 103; 104; 116].
Definition D12' : bytes := data_of [l1; l2] [].
Lemma fits_plain ls : Forall (line_fits tf) ls -> Forall (fun o : occ => zlen (fd_name (fst o)) <= 236) (occs un 0 ls) -> PJsonl.fits un tf ng [] (data_of ls []) ls [].
Proof.
  intros H1 H2. split; [reflexivity|]. split; [intros []|]. split; [exact H1|]. eapply Forall_impl; [|exact H2]. intros o Ho. split; [exact Ho|]. intros X. discriminate X.
Qed.
(** A null in a searched field is enough to make Synchronize fail. *)
Theorem C82_null_refuted k : PJsonl.life un tf ng ha Dn (fresh k) /\ PJsonl.fits un tf ng [] Dn [ln] [] /\
  fst (jsonl_sync un tf ng [] file_slot Dn (fresh k)) = Ok tt /\ fst (ssync Dn (fresh k)) = Err (EMsg "expected string").
Proof.
  split; [apply slife_of; reflexivity|]. split; [|split; destruct k; vm_compute; reflexivity].
  apply fits_plain; [repeat constructor; cbn; try exact I; auto; try lia; try body; try reflexivity|vm_compute; repeat constructor; discriminate].
Qed.
(** So are two texts of the same length, the first with a character that becomes many: the keys of
    their n-grams collide. *)
Theorem C82_collision_refuted k : PJsonl.life un tf ng ha D12' (fresh k) /\ PJsonl.fits un tf ng [] D12' [l1; l2] [] /\
  fst (jsonl_sync un tf ng [] file_slot D12' (fresh k)) = Ok tt /\ fst (ssync D12' (fresh k)) = Err (EMsg "key already exists").
Proof.
  split; [apply slife_of; reflexivity|]. split; [|split; destruct k; vm_compute; reflexivity].
  apply fits_plain; [repeat constructor; cbn; try exact I; auto; try lia; try body; try reflexivity|vm_compute; repeat constructor; discriminate].
Qed.
(** the hypotheses of C82_ordinary_indexes_partial are met by the two lines of C81_example *)
Example C82_example : PJsonl.fits un tf ng ha Dab [la; lb] [] /\ PJsonl.life un tf ng ha Dab (fresh KMmap) /\ PJsonl.life un tf ng [] Dab (fresh KMmap) /\
  ordinary ([97], FTString) /\ exists_index sab ([97], FTString).
Proof.
  split; [exact fits_ab|]. split; [apply slife_of; reflexivity|]. split; [|split; [split; [split; vm_compute; [discriminate|split; [discriminate|reflexivity]]|intros [X|[X|[X|[]]]]; discriminate X]|]].
  - apply (@lf_data un tf ng [] [] Dab); [|reflexivity]. apply (@lf_new un tf ng [] KMmap (opened KMmap) file_slot (fresh KMmap)); vm_compute; reflexivity.
  - assert (B : one_pageb Dab sab [97] FTString = true) by (rewrite sab_eq; vm_compute; reflexivity). destruct (one_pageb_ok _ _ _ _ B) as (m & im & n & R & _). eexists. exact R.
Qed.
