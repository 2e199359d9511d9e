(** C150: switching on more gives fewer results. *)
From Verif.model Require Import Base F32 Utf8 Prim Coll Data Gram Indexer Nodes Classic Lit Raw Js Lib.
From Verif.spec Require Import Spec Js_spec Lib_spec Samples Raw_samples Gram_samples Lib_samples End_samples Chosen_spec Narrow_spec.
From Verif.proofs Require Import Narrow_facts.

(** With more options and tags on, and more filter entries, a search finds nothing new; without an order, what it still
    finds is in the same order as before. *)
Theorem C150_narrows : forall low u o1 o2 st q c1 c2 t1 t2 order e1 e2 st1 st2 p1 p2,
  valid_search_order o1 -> valid_search_order o2 -> se_rank o1 = se_rank o2 ->
  handlers_ok c2 t2 -> fewer_options c1 c2 -> fewer_tags t1 t2 -> (forall e, e ∈ e1 -> e ∈ e2) ->
  search low u o1 st q c1 t1 order e1 = (st1, Done p1) -> search low u o2 st q c2 t2 order e2 = (st2, Done p2) ->
  (forall id, id ∈ pp_export p2 -> id ∈ pp_export p1) /\ (order = None -> pp_export p2 `sublist_of` pp_export p1).
Proof. exact search_narrow. Qed.
Print Assumptions C150_narrows.
(** With all on that is on in either of two handlers, a search finds exactly what it finds with both of them. *)
Theorem C150_meets : forall low u o1 o2 o st q c1 c2 c t1 t2 t order e st1 st2 st' p1 p2 p,
  valid_search_order o1 -> valid_search_order o2 -> valid_search_order o -> se_rank o1 = se_rank o -> se_rank o2 = se_rank o ->
  handlers_ok c t -> joins_options c1 c2 c -> joins_tags t1 t2 t ->
  search low u o1 st q c1 t1 order e = (st1, Done p1) -> search low u o2 st q c2 t2 order e = (st2, Done p2) ->
  search low u o st q c t order e = (st', Done p) ->
  forall id, id ∈ pp_export p <-> id ∈ pp_export p1 /\ id ∈ pp_export p2.
Proof. exact search_meet. Qed.
Print Assumptions C150_meets.
Example C150_hyps : let st := after [InitOp sample_file] in
  let on ops := cat_run (cats_of st) ops in
  handlers_ok (on [pick_red; pick_blue]) (tags_of st) /\ joins_options (on [pick_red]) (on [pick_blue]) (on [pick_red; pick_blue]) /\
  joins_tags (tags_of st) (tags_of st) (tags_of st) /\
  map (fun c => answer st three_words c (tags_of st) None []) [on []; on [pick_red]; on [pick_blue]; on [pick_red; pick_blue]] =
    [Done [1; 2; 0]; Done [0]; Done [2; 0]; Done [0]].
Proof. exact sample_narrow. Qed.
