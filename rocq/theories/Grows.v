(** No operation of the model ever makes the index file shorter. *)
From Verif Require Import Base Varint Store PageFile RefValue Node LinkedPage BPTree Meta IndexFile Json Jsonl.

Definition grows {A} (m : M st A) : Prop := forall s, zlen (file s) <= zlen (file (snd (m s))).
Lemma grows_ret {A} (a : A) : grows (ret a). Proof. intros s; cbn; lia. Qed.
Lemma grows_fail {A} e : grows (@fail st A e). Proof. intros s; cbn; lia. Qed.
Lemma grows_panic {A} : grows (@panic st A). Proof. intros s; cbn; lia. Qed.
Lemma grows_lift {A} (r : res A) : grows (lift r). Proof. intros s; cbn; lia. Qed.
Lemma grows_bind {A B} (m : M st A) (k : A -> M st B) : grows m -> (forall a, grows (k a)) -> grows (bind m k).
Proof.
  intros Hm Hk s. unfold bind. pose proof (Hm s) as H1. destruct (m s) as [[a|e| | |] s1]; cbn [snd] in *; auto.
  pose proof (Hk a s1). lia.
Qed.
Lemma grows_then {A} {m : M st A} {s r s'} : grows m -> m s = (r, s') -> zlen (file s) <= zlen (file s').
Proof. intros H E. pose proof (H s) as X. rewrite E in X. exact X. Qed.
Lemma grows_seek_abs a : grows (seek_abs a).
Proof. intros s. unfold seek_abs. destruct (kind s); repeat match goal with |- context [if ?b then _ else _] => destruct b end; cbn; lia. Qed.
Lemma grows_seek_start a : grows (seek_start a). Proof. apply grows_seek_abs. Qed.
Lemma grows_seek_cur : grows seek_cur. Proof. intros s. apply grows_seek_abs. Qed.
Lemma grows_seek_end : grows seek_end. Proof. intros s. apply grows_seek_abs. Qed.
Lemma grows_rws_read l : grows (rws_read l).
Proof. intros s. unfold rws_read. destruct (kind s); repeat match goal with |- context [if ?b then _ else _] => destruct b end; cbn; lia. Qed.
Lemma grows_upd (f : bytes) o b : zlen f <= zlen (upd f o b).
Proof. unfold upd, zlen. rewrite !app_length, firstn_length, skipn_length. lia. Qed.
Lemma grows_rws_write b : grows (rws_write b).
Proof.
  intros s. unfold rws_write. destruct (budget s) as [[|k]|]; [cbn; lia| |]; (destruct (kind s) eqn:Ek; cbn [kind set_budget file pos]; rewrite ?Ek;
    repeat match goal with |- context [if ?b then _ else _] => destruct b end; cbn [snd file set_pos set_file set_budget pos]; try lia; try apply grows_upd;
    (etransitivity; [|apply grows_upd]; rewrite zlen_app; pose proof (zlen_nonneg (zeros (pos s - zlen (file s)))); lia)).
Qed.
Create HintDb gr.
#[global] Hint Resolve grows_ret grows_fail grows_panic grows_lift grows_seek_abs grows_seek_start grows_seek_cur grows_seek_end grows_rws_read grows_rws_write : gr.
Ltac gr := repeat first [ solve [auto with gr] | apply grows_bind; intros | match goal with
  | |- grows (if ?b then _ else _) => destruct b
  | |- grows (match ?x with _ => _ end) => destruct x
  | |- grows (let _ := _ in _) => cbv zeta
  end ].
Lemma grows_pf_read l : grows (pf_read l). Proof. unfold pf_read. gr. Qed.
Lemma grows_pf_write l : grows (pf_write l). Proof. unfold pf_write. gr. Qed.
#[global] Hint Resolve grows_pf_read grows_pf_write : gr.
Lemma grows_read_full l : grows (read_full l). Proof. unfold read_full. gr. Qed.
#[global] Hint Resolve grows_read_full : gr.
Lemma grows_wfree : grows write_free_page_indices.
Proof.
  intros s. unfold write_free_page_indices. destruct (_ && _); [cbn; lia|]. match goal with |- context [snd (?m s)] => assert (H : grows m) by gr; apply H end.
Qed.
#[global] Hint Resolve grows_wfree : gr.
Lemma grows_fpi : grows free_page_index.
Proof.
  intros s. unfold free_page_index. destruct (fcount s =? 0); [cbn; lia|]. destruct (znth _ _); [|cbn; lia].
  match goal with |- context [snd (?m ?x)] => assert (H : grows m) by gr; pose proof (H x) as H1; cbn [file set_free] in H1; exact H1 end.
Qed.
#[global] Hint Resolve grows_fpi : gr.
Lemma grows_setlast (n : Z) : grows (fun s => (Ok n, set_lastPage s (lastPage s + 1))).
Proof. intros s. cbn. lia. Qed.
#[global] Hint Resolve grows_setlast : gr.
Lemma grows_new_page b : grows (new_page b).
Proof. unfold new_page. gr. Qed.
#[global] Hint Resolve grows_new_page : gr.
Lemma grows_lp_root m : grows (lp_root m). Proof. unfold lp_root. gr. Qed.
Lemma grows_lp_set_root m p : grows (lp_set_root m p). Proof. unfold lp_set_root. gr. Qed.
Lemma grows_lp_metadata m : grows (lp_metadata m). Proof. unfold lp_metadata. gr. Qed.
Lemma grows_lp_set_metadata m d : grows (lp_set_metadata m d). Proof. unfold lp_set_metadata. gr. Qed.
Lemma grows_lp_count m : grows (lp_count m). Proof. unfold lp_count. gr. Qed.
Lemma grows_lp_npo m : grows (lp_next_page_offset m). Proof. unfold lp_next_page_offset. gr. Qed.
#[global] Hint Resolve grows_lp_root grows_lp_set_root grows_lp_metadata grows_lp_set_metadata grows_lp_count grows_lp_npo : gr.
Lemma grows_lp_next m : grows (lp_next m). Proof. unfold lp_next. gr. Qed.
Lemma grows_lp_reset m c : grows (lp_reset m c). Proof. unfold lp_reset. gr. Qed.
#[global] Hint Resolve grows_lp_next grows_lp_reset : gr.
Lemma grows_lp_add_next m : grows (lp_add_next m). Proof. unfold lp_add_next. gr. Qed.
Lemma grows_write_node c o n : grows (write_node c o n). Proof. unfold write_node. gr. Qed.
#[global] Hint Resolve grows_lp_add_next grows_write_node : gr.
Lemma grows_ins_loop c m : forall rest tr, grows (ins_loop c m tr rest).
Proof. induction rest as [|p rest IH]; intros tr; cbn [ins_loop]; gr. Qed.
#[global] Hint Resolve grows_ins_loop : gr.
Lemma grows_bp_insert c m k v : grows (bp_insert c m k v).
Proof.
  intros s. unfold bp_insert. destruct (_ && _); [cbn; lia|]. destruct (bp_root _ _) as [[[root off]|]|e| | |]; try (cbn [snd]; lia).
  - destruct (traverse _ _ _ _ _) as [[|leaf rest]|e| | |]; try (cbn [snd]; lia). cbv zeta. destruct (bsearch _ _) as [j []]; [cbn; lia|]. apply grows_ins_loop.
  - match goal with |- context [snd (?m s)] => assert (H : grows m) by gr; apply H end.
Qed.
#[global] Hint Resolve grows_bp_insert : gr.
Lemma grows_find_from name ft : forall fuel mp, grows (find_or_create_from fuel mp name ft).
Proof.
  induction fuel as [|fuel IH]; intros mp; cbn [find_or_create_from]; [gr|]. intros s. pose proof (grows_lp_next mp s) as H1.
  destruct (lp_next mp s) as [[n|[|e]| | |] s1]; cbn [snd] in *; auto.
  - match goal with |- context [snd (?m s1)] => assert (H : grows m) by gr; pose proof (H s1) as H2 end. lia.
  - match goal with |- context [snd (?m s1)] => assert (H : grows m) by gr; pose proof (H s1) as H2 end. lia.
Qed.
Lemma grows_find tree name ft : grows (find_or_create tree name ft).
Proof. intros s. apply grows_find_from. Qed.
Lemma grows_save page m : grows (save_index_meta page m). Proof. unfold save_index_meta. gr. Qed.
Lemma grows_if_metadata t : grows (if_metadata t). Proof. unfold if_metadata. gr. Qed.
Lemma grows_if_set_metadata t m : grows (if_set_metadata t m). Proof. unfold if_set_metadata. gr. Qed.
#[global] Hint Resolve grows_find grows_save grows_if_metadata grows_if_set_metadata : gr.

(** ** the JSONL handler *)
Section J.
Variables (unquote : bytes -> bytes) (to_float : bytes -> option bytes) (grams : bytes -> Z -> res (list (bytes * Z * Z))) (hdrs : list bytes).
Lemma grows_put_grams c page mp len data : forall l t, grows (put_grams c page mp len data l t).
Proof. induction l as [|[[w o] n] l IH]; intros t; cbn [put_grams]; gr. Qed.
#[local] Hint Resolve grows_put_grams : gr.
Lemma grows_index_value page meta r data v fo obj d ft : (forall d, grows (obj d)) -> grows (index_value unquote to_float grams page meta r data v fo obj d ft).
Proof. intros H. unfold index_value. gr. Qed.
#[local] Hint Resolve grows_index_value : gr.
Lemma grows_index_ft tree r data name v fo obj d ft : (forall d, grows (obj d)) -> grows (index_ft unquote to_float grams tree r data name v fo obj d ft).
Proof. intros H. unfold index_ft. gr. Qed.
Lemma grows_index_fts f : (forall d ft, grows (f d ft)) -> forall fts d, grows (index_fts f fts d).
Proof. intros H. induction fts as [|ft fts IH]; intros d; cbn [index_fts]; gr. Qed.
Lemma grows_handle tree r data : forall fuel path d, grows (handle_object unquote to_float grams hdrs fuel tree r data path d).
Proof.
  induction fuel as [|fuel IH]; intros path d; cbn [handle_object]; [gr|]. gr. apply grows_index_fts. intros. apply grows_index_ft. auto.
Qed.
Lemma grows_sync_loop tree df : forall fuel m, grows (sync_loop unquote to_float grams hdrs fuel tree df m).
Proof.
  induction fuel as [|fuel IH]; intros m; cbn [sync_loop]; [gr|]. gr. apply grows_handle.
Qed.
Lemma grows_sync tree df : grows (jsonl_sync unquote to_float grams hdrs tree df).
Proof. unfold jsonl_sync. gr. apply grows_sync_loop. Qed.
End J.
