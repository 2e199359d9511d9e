(** C90-C93: pages whose observers call the library again. *)
From Verif.model Require Import Base F32 Utf8 Prim Coll Data Gram Indexer Nodes Classic Lit Raw Js Lib Page.
From Verif.spec Require Import Spec Data_spec Js_spec Lib_spec Page_spec Lib_samples Page_samples Page_more_samples.
From Verif.proofs Require Import Page_facts Page_story Page_props Page_more Page_samples_facts.

(** C90. Observers run while the handler that calls them is being changed. *)
Theorem C90_observers_run_inside : forall low P {S} observer order_at fuel (w : world (S := S)) h i,
  ask_toggle observer (run low P observer order_at fuel) w h i =
  ask_toggle observer (only_if_busy h (run low P observer order_at fuel)) w h i.
Proof. exact observers_find_busy. Qed.
Print Assumptions C90_observers_run_inside.
Theorem C90_call_throws : forall low P {S} observer order_at fuel (w : world (S := S)) h v r k,
  being_changed w h v -> sent_to r = Some h ->
  run low P observer order_at fuel w (JAsk r k) = run low P observer order_at fuel w (k Threw).
Proof. exact changed_throws_run. Qed.
Print Assumptions C90_call_throws.
Theorem C90_search_throws : forall low P {S} observer order_at fuel (w : world (S := S)) h v categories tags input order getters entries k,
  being_changed w h v -> h = categories \/ h = tags -> exists w1, being_changed w1 h v /\
  run low P observer order_at fuel w (JSearch categories tags input order getters entries k) =
  run low P observer order_at fuel w1 (k Threw).
Proof. exact changed_search_throws. Qed.
Print Assumptions C90_search_throws.
Theorem C90_unchanged : forall low P {S} observer order_at fuel (w : world (S := S)) p w' t h v,
  run low P observer order_at fuel w p = Done (w', t) ->
  (being_changed w h v -> being_changed w' h v) /\ (being_read w h v -> being_read w' h v).
Proof. exact run_in_use. Qed.
Print Assumptions C90_unchanged.
Example C90_hyps : exists v w, being_changed (S := list N) w 1 v /\ sent_to (AskStatus 1 (ITag (first_tag sample_lib))) = Some 1 /\
  w_handlers w = {[ 1 := Cell v Exclusive ]} /\ w_lib w = sample_lib.
Proof. exists (HTag no_tags), (World sample_lib {[ 1 := Cell (HTag no_tags) Exclusive ]} [] []). repeat split. Qed.

(** C91 *)
Theorem C91_accounted : forall low P {S} observer order_at fuel p (w w' : world (S := S)) t,
  run low P observer order_at fuel w p = Done (w', t) ->
  exists es, w_log w' = w_log w ++ es /\
    (forall h v b, w_handlers w !! h = Some (Cell (HCat v) b) ->
       exists b', w_handlers w' !! h = Some (Cell (HCat (cat_run v (cat_history h es))) b') /\
         calls_by h es = cat_calls v (cat_history h es)) /\
    (forall h v b, w_handlers w !! h = Some (Cell (HTag v) b) ->
       exists v' b', tag_run v (tag_history h es) = Done v' /\ w_handlers w' !! h = Some (Cell (HTag v') b') /\
         calls_by h es = tag_calls v (tag_history h es)).
Proof. exact run_accounted. Qed.
Print Assumptions C91_accounted.
Theorem C91_status : forall low P {S} observer order_at fuel p (w w' : world (S := S)) t,
  run low P observer order_at fuel w p = Done (w', t) ->
  exists es, w_log w' = w_log w ++ es /\
    forall h v b, w_handlers w !! h = Some (Cell (HCat v) b) ->
      exists v' b', w_handlers w' !! h = Some (Cell (HCat v') b') /\
        forall item, ch_get_status v' item =
          xorb (ch_get_status v item) (Nat.odd (toggles eo_keys (cat_history h es) (eo_keys item))).
Proof. exact @run_status. Qed.
Print Assumptions C91_status.
(** Asking an idle handler for a status changes nothing and tells whether the option, or the number of
    the tag, is switched on; asking with the wrong kind of object throws. *)
Theorem C91_asked : forall low P {S} observer order_at fuel (w : world (S := S)) h n k,
  (forall v e, w_handlers w !! h = Some (Cell (HCat v) (Shared n)) ->
     run low P observer order_at fuel w (JAsk (AskStatus h (IOption e)) k) =
     run low P observer order_at fuel w (k (ABool (bool_decide (eo_keys e ∈ ch_active v))))) /\
  (forall v t, w_handlers w !! h = Some (Cell (HTag v) (Shared n)) ->
     run low P observer order_at fuel w (JAsk (AskStatus h (ITag t)) k) =
     run low P observer order_at fuel w (k (ABool (bool_decide (jt_index t ∈ th_active v))))) /\
  (forall v t, w_handlers w !! h = Some (Cell (HCat v) (Shared n)) ->
     run low P observer order_at fuel w (JAsk (AskStatus h (ITag t)) k) = run low P observer order_at fuel w (k Threw)) /\
  (forall v e, w_handlers w !! h = Some (Cell (HTag v) (Shared n)) ->
     run low P observer order_at fuel w (JAsk (AskStatus h (IOption e)) k) = run low P observer order_at fuel w (k Threw)).
Proof. exact @asked_status. Qed.
Print Assumptions C91_asked.
Example C91_shown_on :
  page_end (run ascii_low host64 clearing plain_page 2 (opened sample_lib) (look_up (first_tag sample_lib)))
    = Some ([(0, true)], [10], false).
Proof. exact look_up_shown. Qed.
(** An observer of the tags (51) toggles a category (10) and throws; the page goes on to search. *)
Example C91_hyps :
  page_end (run ascii_low host64 clearing plain_page 2 (opened sample_lib) (careful (first_tag sample_lib)))
    = Some ([(0, true); (1, true)], [21; 11; 51; 10], false).
Proof. exact (proj2 sample_pages). Qed.

(** C92. An observer that makes a handler, watches it and toggles an option of it. *)
Theorem C92_ends_refuted : forall low P order_at st cl, s_classic st = Some cl -> s_classic_dead st = false ->
  forall fuel, run low P spawning order_at fuel (opened st) watch_another = Stuck.
Proof. exact cascade_endless. Qed.
Print Assumptions C92_ends_refuted.
(** What holds: if observers make no handlers, every page's code ends, *)
Theorem C92_ends_partial : forall low P {S} observer order_at, (forall f b, makes_none (observer f b)) ->
  forall p (w : world (S := S)), exists fuel w' t, run low P observer order_at fuel w p = Done (w', t).
Proof. exact every_run_ends. Qed.
Print Assumptions C92_ends_partial.
(** and in code that makes none either, observers nest no deeper than there are idle handlers. *)
Theorem C92_depth : forall low P {S} observer order_at, (forall f b, makes_none (observer f b)) ->
  forall (w : world (S := S)) p, makes_none p ->
  exists w' t, run low P observer order_at (size (idle_handlers w)) w p = Done (w', t).
Proof. exact run_ends_depth. Qed.
Print Assumptions C92_depth.
(** Allowing deeper nesting changes nothing. *)
Theorem C92_fuel : forall low P {S} observer order_at fuel fuel' (w : world (S := S)) p x, (fuel <= fuel')%nat ->
  run low P observer order_at fuel w p = Done x -> run low P observer order_at fuel' w p = Done x.
Proof. exact run_more. Qed.
Print Assumptions C92_fuel.
Example C92_hyps : (exists cl, s_classic sample_lib = Some cl /\ s_classic_dead sample_lib = false) /\
  (forall f b, makes_none (clearing f b)) /\ (forall f b, makes_none (searching f b)).
Proof. exact sample_makers. Qed.

(** C93. A tag observer that searches: its page's category handler throws at every later toggle. *)
Theorem C93_usable_refuted : forall low P order_at st cl t,
  s_classic st = Some cl -> s_classic_dead st = false -> tag_handle_ok t ->
  exists w h v, run low P searching order_at 1 (opened st) (live_results t) = Done (w, false) /\ w_handlers w !! h = Some v /\
    forall obs fuel p w' threw, run low P obs order_at fuel w p = Done (w', threw) ->
      forall i fuel' k, run low P obs order_at fuel' w' (JAsk (AskToggle h i) k) = run low P obs order_at fuel' w' (k Threw).
Proof. exact frozen_for_good. Qed.
Print Assumptions C93_usable_refuted.
(** What holds: if only the page's own code searches, and no search panics. *)
Theorem C93_usable_partial : forall low P {S} observer order_at,
  (forall f b, searches_not (observer f b)) -> (forall f b, tags_ok (observer f b)) ->
  forall fuel p (w w' : world (S := S)) t, plain_filters p -> tags_ok p ->
  run low P observer order_at fuel w p = Done (w', t) -> s_index_dead (w_lib w') = false -> all_idle w -> all_idle w'.
Proof. exact run_usable. Qed.
Print Assumptions C93_usable_partial.
Example C93_hyps : (exists cl, s_classic sample_lib = Some cl /\ s_classic_dead sample_lib = false /\
    s_index_dead sample_lib = false /\ tag_handle_ok (first_tag sample_lib)) /\
  (forall f b, searches_not (clearing f b) /\ tags_ok (clearing f b)) /\
  plain_filters (careful (first_tag sample_lib)) /\ tags_ok (careful (first_tag sample_lib)) /\ all_idle (opened sample_lib) /\
  page_end (run ascii_low host64 searching plain_page 1 (opened sample_lib) (live_results (first_tag sample_lib)))
    = Some ([(0, false); (1, true)], [21; 11; 51], false).
Proof. exact sample_careful. Qed.
