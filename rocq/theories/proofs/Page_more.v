(** C91: what a page is told about an option or a tag. *)
From Verif.model Require Import Base F32 Utf8 Prim Coll Data Gram Indexer Nodes Classic Lit Raw Js Lib Page.
From Verif.spec Require Import Spec Data_spec Js_spec Lib_spec Page_spec.
From Coq Require Import Lia.

Section page.
Context (low : N -> list N) (P : platform) {S : Type} (observer : N -> bool -> js (S := S)) (order_at : world (S := S) -> search_order).
Lemma borrowed_back (w : world (S := S)) h v n : w_handlers w !! h = Some (Cell v (Shared n)) ->
  release_shared (set_cell w h (Cell v (Shared (n + 1)))) h = w.
Proof.
  intros H. unfold release_shared, set_cell. cbn [w_lib w_handlers w_js w_log]. rewrite lookup_insert. rewrite insert_insert, insert_id.
  - by destruct w.
  - rewrite H. do 3 f_equal. lia.
Qed.
Lemma asked_status fuel (w : world (S := S)) h n k :
  (forall v e, w_handlers w !! h = Some (Cell (HCat v) (Shared n)) ->
     run low P observer order_at fuel w (JAsk (AskStatus h (IOption e)) k) =
     run low P observer order_at fuel w (k (ABool (bool_decide (eo_keys e ∈ ch_active v))))) /\
  (forall v t, w_handlers w !! h = Some (Cell (HTag v) (Shared n)) ->
     run low P observer order_at fuel w (JAsk (AskStatus h (ITag t)) k) =
     run low P observer order_at fuel w (k (ABool (bool_decide (jt_index t ∈ th_active v))))) /\
  (forall v t, w_handlers w !! h = Some (Cell (HCat v) (Shared n)) ->
     run low P observer order_at fuel w (JAsk (AskStatus h (ITag t)) k) = run low P observer order_at fuel w (k Threw)) /\
  (forall v e, w_handlers w !! h = Some (Cell (HTag v) (Shared n)) ->
     run low P observer order_at fuel w (JAsk (AskStatus h (IOption e)) k) = run low P observer order_at fuel w (k Threw)).
Proof.
  assert (A : forall i v b, w_handlers w !! h = Some (Cell v (Shared n)) -> h_status v i = b ->
    ask_status w h i = match b with Done b => (w, ABool b) | _ => (w, Threw) end).
  { intros i v b H E. unfold ask_status, borrow_shared. rewrite H, E. destruct b; [|reflexivity..]. by rewrite (borrowed_back w h v n H). }
  assert (R : forall i, run low P observer order_at fuel w (JAsk (AskStatus h i) k) =
    '(w', a) ← Done (ask_status w h i); run low P observer order_at fuel w' (k a)) by (intros i; destruct fuel; reflexivity).
  repeat split; intros v x H; rewrite R, (A _ _ _ H eq_refl); reflexivity.
Qed.
End page.

(** ** A page that toggles a tag and asks for its status *)
From Verif.spec Require Import Samples Raw_samples Gram_samples Js_samples Lib_samples Page_samples Page_more_samples.
Lemma look_up_shown :
  page_end (run ascii_low host64 clearing plain_page 2 (opened sample_lib) (look_up (first_tag sample_lib)))
    = Some ([(0, true)], [10], false).
Proof. vm_compute. reflexivity. Qed.
