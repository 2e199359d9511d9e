(** Facts about the sample pages. *)
From Coq Require Import Lia ZifyN ZifyBool.
From Verif.model Require Import Base F32 Utf8 Prim Coll Data Gram Indexer Nodes Classic Lit Raw Js Lib Page.
From Verif.spec Require Import Spec Data_spec Js_spec Lib_spec Page_spec Samples Raw_samples Gram_samples Js_samples Lib_samples Page_samples.
From Verif.proofs Require Import Base_facts Js_facts Page_facts Page_story Page_props.

Section samples.
  Context (low : N -> list N) (P : platform) (order_at : world (S := list N) -> search_order).
  Notation world := (world (S := list N)).
  Notation run obs := (run low P obs order_at).
  Implicit Types w : world.

  (** ** A cascade without end *)
  Lemma endless cl fuel : forall w, s_classic (w_lib w) = Some cl -> s_classic_dead (w_lib w) = false ->
    run spawning fuel w watch_another = Stuck.
  Proof.
    induction fuel as [|fuel IH]; intros w Hc Hd.
    all: unfold watch_another; rewrite run_ask; cbn [Page.answer]; unfold get_categories; rewrite Hc, Hd.
    all: cbn [lock_unwrap of_opt mbind res_bind new_handler with_handle].
    all: set (h := fresh _); rewrite run_ask; cbn [Page.answer h_add_general].
    all: unfold change, borrow_exclusive; cbn [set_cell w_handlers]; rewrite lookup_insert.
    all: cbn [h_add_general mbind res_bind]; rewrite run_ask; cbn [Page.answer].
    all: unfold ask_toggle, borrow_exclusive; cbn [log set_cell w_handlers]; rewrite lookup_insert.
    all: cbn [h_toggle]; destruct (ch_toggle _ _) as [c calls] eqn:T.
    all: assert (Hcs : exists b, calls = [(7, b)]) by
      (revert T; unfold ch_toggle, ch_add_general, ch_new; cbn [ch_active ch_general ch_option ch_handle];
       destruct (toggle_key _ _) as [a b]; intros [= <- <-]; exists b; reflexivity).
    all: destruct Hcs as [b ->]; cbn [notify]; cbn [inner].
    1: done.
    change (spawning 7 b) with watch_another. rewrite IH; done.
  Qed.
  Lemma cascade_endless st cl : s_classic st = Some cl -> s_classic_dead st = false ->
    forall fuel, run spawning fuel (opened st) watch_another = Stuck.
  Proof. intros Hc Hd fuel. by apply (endless cl). Qed.

  (** ** A category handler frozen for good *)
  Lemma frozen st cl t : s_classic st = Some cl -> s_classic_dead st = false -> tag_handle_ok t ->
    exists w h v, run searching 1 (opened st) (live_results t) = Done (w, false) /\
      being_read w h (HCat v) /\ ch_active v = ∅.
  Proof.
    intros Hc Hd Ht. unfold live_results, opened. rewrite run_ask. cbn [Page.answer w_lib].
    unfold get_categories. rewrite Hc, Hd. cbn [lock_unwrap of_opt mbind res_bind new_handler with_handle].
    set (h := fresh _). rewrite run_ask. cbn [Page.answer set_cell w_lib w_handlers w_js w_log]. unfold get_tags. rewrite Hc, Hd.
    cbn [lock_unwrap of_opt mbind res_bind new_handler with_handle w_handlers]. set (h' := fresh _).
    assert (N : h' <> h).
    { intros E. assert (X : h' ∉ dom (<[h := Cell (HCat (ch_new cl)) (Shared 0)]> ∅ : gmap N cell)) by apply is_fresh.
      apply X. rewrite E, dom_insert_L. set_solver. }
    rewrite run_set, run_ask. cbn [Page.answer set_js set_cell w_lib w_handlers w_js w_log].
    unfold change, borrow_exclusive. cbn [set_js set_cell w_handlers]. rewrite lookup_insert. cbn [h_add_general set_cell log w_lib w_handlers w_js w_log mbind res_bind].
    rewrite run_ask. cbn [Page.answer]. unfold ask_toggle, borrow_exclusive. cbn [log set_js set_cell w_handlers]. rewrite lookup_insert.
    cbn [h_toggle]. unfold th_toggle. rewrite (tag_handle_id _ Ht). cbn [mbind res_bind].
    destruct (toggle_key _ _) as [a b] eqn:T. cbn [mbind res_bind th_add_general th_new th_handle th_general th_tag].
    unfold toggle_calls. rewrite lookup_empty. cbn [default app map notify inner].
    change (searching 7 b) with search_again. unfold search_again. rewrite run_get. cbn [log set_js set_cell w_js].
    rewrite run_search. unfold enter_search. cbn [log set_js set_cell w_handlers].
    assert (N' : h <> h') by congruence.
    repeat (rewrite lookup_insert || rewrite lookup_insert_ne by assumption).
    unfold borrow_shared. cbn [log set_js set_cell w_handlers].
    repeat (rewrite lookup_insert || rewrite lookup_insert_ne by assumption).
    cbn [log set_js set_cell w_handlers].
    repeat (rewrite lookup_insert || rewrite lookup_insert_ne by assumption).
    rewrite run_return. cbn [mbind res_bind]. rewrite run_return.
    eexists _, h, (ch_new cl). split; [reflexivity|]. split; [|done]. exists 0. cbn [log set_js set_cell w_handlers].
    repeat (rewrite lookup_insert || rewrite lookup_insert_ne by assumption). reflexivity.
  Qed.
  Lemma read_toggle obs call w h v i : being_read w h v -> Page.answer P (S := list N) obs call w (AskToggle h i) = Done (w, Threw).
  Proof.
    intros [n H]. cbn [Page.answer]. unfold ask_toggle, borrow_exclusive. rewrite H.
    destruct (n + 1) eqn:E; [lia|done].
  Qed.
  Lemma frozen_for_good st cl t : s_classic st = Some cl -> s_classic_dead st = false -> tag_handle_ok t ->
    exists w h v, run searching 1 (opened st) (live_results t) = Done (w, false) /\ w_handlers w !! h = Some v /\
      forall obs fuel p w' threw, run obs fuel w p = Done (w', threw) ->
        forall i fuel' k, run obs fuel' w' (JAsk (AskToggle h i) k) = run obs fuel' w' (k Threw).
  Proof.
    intros Hc Hd Ht. destruct (frozen st cl t Hc Hd Ht) as (w & h & v & E & R & _). destruct R as [n R].
    exists w, h, (Cell (HCat v) (Shared (n + 1))). split; [exact E|]. split; [exact R|]. intros obs fuel p w' threw E' i fuel' k.
    rewrite run_ask, (read_toggle obs _ w' h (HCat v)); [done|]. eapply run_read; [exact E'|]. by exists n.
  Qed.
End samples.

Lemma sample_lib_loaded : exists cl, s_classic sample_lib = Some cl /\ s_classic_dead sample_lib = false /\
  s_index_dead sample_lib = false /\ tag_handle_ok (first_tag sample_lib).
Proof.
  assert (E : exists cl x, s_classic sample_lib = Some cl /\ s_classic_dead sample_lib = false /\ s_index_dead sample_lib = false /\
    imap (fun i t => t_id t =? N.of_nat i) (cl_tags cl) = replicate (length (cl_tags cl)) true /\
    (cl_tags cl : list tag) !! 0%nat = Some x).
  { eexists _, _. split; [vm_compute; reflexivity|]. repeat split; vm_compute; reflexivity. }
  destruct E as (cl & x & E & D & D' & T & L). exists cl. split; [exact E|]. split; [exact D|]. split; [exact D'|].
  unfold first_tag. rewrite E. split; [|by exists x]. cbn [jt_handle]. intros i t Ht.
  assert (H : imap (fun i t => t_id t =? N.of_nat i) (cl_tags cl) !! i = Some (t_id t =? N.of_nat i)).
  { rewrite list_lookup_imap. by rewrite Ht. }
  rewrite T, lookup_replicate in H. destruct H as [H _]. symmetry in H. by apply N.eqb_eq.
Qed.
Lemma sample_pages : page_end (run ascii_low host64 searching plain_page 1 (opened sample_lib) (live_results (first_tag sample_lib)))
    = Some ([(0, false); (1, true)], [21; 11; 51], false) /\
  page_end (run ascii_low host64 clearing plain_page 2 (opened sample_lib) (careful (first_tag sample_lib)))
    = Some ([(0, true); (1, true)], [21; 11; 51; 10], false).
Proof. split; vm_compute; reflexivity. Qed.
Lemma code_makers : (forall f b, makes_none (clearing f b)) /\ (forall f b, makes_none (searching f b)).
Proof. split; intros f b s; destruct s as [|x [|y [|z s]]]; simpl; try done. Qed.
Lemma code_clearing f b : searches_not (clearing f b) /\ tags_ok (clearing f b).
Proof. split; intros s; destruct s as [|x [|y [|z s]]]; simpl; try done. Qed.
Lemma code_plain t : plain_filters (careful t).
Proof.
  intros a. destruct a as [| | |h|]; simpl; try done. intros a. destruct a as [| | |h'|]; simpl; try done.
  intros _ _. split; [done|]. split; [done|]. intros [| | | |]; done.
Qed.
Lemma code_tags t : tag_handle_ok t -> tags_ok (careful t).
Proof.
  intros T. split; [done|]. intros [| | |h|]; simpl; try done. split; [done|].
  intros [| | |h'|]; simpl; try done. split; [done|]. intros _. split; [done|]. intros _. split; [done|]. intros [| | | |]; done.
Qed.
Lemma opened_idle st : all_idle (opened st).
Proof. intros h c H. cbn in H. by rewrite lookup_empty in H. Qed.
Lemma sample_makers : (exists cl, s_classic sample_lib = Some cl /\ s_classic_dead sample_lib = false) /\
  (forall f b, makes_none (clearing f b)) /\ (forall f b, makes_none (searching f b)).
Proof.
  split; [|exact code_makers]. destruct sample_lib_loaded as (cl & E & D & _). exists cl. split; [exact E|exact D].
Qed.
Lemma sample_careful : (exists cl, s_classic sample_lib = Some cl /\ s_classic_dead sample_lib = false /\
    s_index_dead sample_lib = false /\ tag_handle_ok (first_tag sample_lib)) /\
  (forall f b, searches_not (clearing f b) /\ tags_ok (clearing f b)) /\
  plain_filters (careful (first_tag sample_lib)) /\ tags_ok (careful (first_tag sample_lib)) /\ all_idle (opened sample_lib) /\
  page_end (run ascii_low host64 searching plain_page 1 (opened sample_lib) (live_results (first_tag sample_lib)))
    = Some ([(0, false); (1, true)], [21; 11; 51], false).
Proof.
  split; [exact sample_lib_loaded|]. split; [exact code_clearing|]. split; [exact (code_plain _)|].
  split; [|split; [exact (opened_idle _)|exact (proj1 sample_pages)]].
  destruct sample_lib_loaded as (cl & _ & _ & _ & T). exact (code_tags _ T).
Qed.
