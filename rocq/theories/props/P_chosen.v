(** C148, C149: what is switched on. *)
From Verif.model Require Import Base F32 Utf8 Prim Coll Data Gram Indexer Nodes Classic Lit Raw Js Lib.
From Verif.spec Require Import Spec Data_spec Gram_spec Classic_spec Raw_spec Js_spec Lib_spec Samples Raw_samples Gram_samples Lib_samples End_samples Sorted_samples Chosen_spec.
From Verif.proofs Require Import Chosen_facts.

(** Two searches for the same query, whose handlers show the same options and tags as on, and whose filters have the same
    entries in any order, give the same answer, whatever else is in the handlers, and in whatever order the maps and sets
    are gone through. *)
Theorem C148_chosen : forall low u o1 o2 st q c1 c2 t1 t2 order e1 e2,
  valid_search_order o1 -> valid_search_order o2 -> se_rank o1 = se_rank o2 ->
  handlers_ok c1 t1 -> same_options c1 c2 -> same_tags t1 t2 -> e1 ≡ₚ e2 ->
  search low u o1 st q c1 t1 order e1 = search low u o2 st q c2 t2 order e2.
Proof. exact search_chosen. Qed.
Print Assumptions C148_chosen.
(** Handlers show the same if each option, resp. tag, was toggled equally often up to an even number. *)
Theorem C148_options : forall h ops1 ops2,
  (forall k, Nat.odd (toggles eo_keys ops1 k) = Nat.odd (toggles eo_keys ops2 k)) -> same_options (cat_run h ops1) (cat_run h ops2).
Proof. exact options_history. Qed.
Print Assumptions C148_options.
Theorem C148_tags : forall h ops1 ops2 h1 h2, Forall tag_op_ok ops1 -> Forall tag_op_ok ops2 ->
  tag_run h ops1 = Done h1 -> tag_run h ops2 = Done h2 ->
  (forall k, Nat.odd (toggles jt_index ops1 k) = Nat.odd (toggles jt_index ops2 k)) -> same_tags h1 h2.
Proof. exact tags_history. Qed.
Print Assumptions C148_tags.
(** A click and the click that takes it back leave no trace. *)
Theorem C148_undone : forall h ops item item' ops', eo_keys item = eo_keys item' ->
  same_options (cat_run h (ops ++ [Toggle item; Toggle item'] ++ ops')) (cat_run h (ops ++ ops')).
Proof. exact undone. Qed.
Print Assumptions C148_undone.
Example C148_hyps : let st := after [InitOp sample_file] in
  let c1 := cat_run (cats_of st) [pick_red; pick_blue; pick_red] in let c2 := cat_run (cats_of st) [AddGeneral 7; pick_blue] in
  let e1 := from_one ++ [(s_image_url, JObj 1 [])] in let e2 := (s_image_url, JObj 1 []) :: from_one in
  handlers_ok c1 (tags_of st) /\ same_options c1 c2 /\ e1 ≡ₚ e2 /\
  [answer st three_words c1 (tags_of st) None []; answer st three_words c2 (tags_of st) None [];
   answer st three_words c1 (tags_of st) None e1; answer st three_words c2 (tags_of st) None e2] = repeat (Done [2; 0]) 4.
Proof. exact sample_chosen. Qed.

(** EXPECTED: in a category that is marked as exclusive, one option at most is on. REFUTED: a file may mark a category,
    and both of its options can be switched on. *)
Theorem C149_exclusive_refuted : exists gi cl, deserialize_all wasm32 5 exclusive_file = Done (gi, cl) /\
  ~ one_at_most (cat_run (ch_new cl) [pick_red; pick_blue]).
Proof. exact exclusive_both. Qed.
Print Assumptions C149_exclusive_refuted.
(** Any two options of any index can be on together; the mark is not looked at. *)
Theorem C149_both : forall cl item1 item2, eo_keys item1 <> eo_keys item2 ->
  let h := cat_run (ch_new cl) [Toggle item1; Toggle item2] in ch_get_status h item1 = true /\ ch_get_status h item2 = true.
Proof. exact both_on. Qed.
Print Assumptions C149_both.
(** What holds: the indexer marks no category, so that in every handler of an index it built, loaded or not, the
    expectation holds, there being no such category. Missing: files made by anything else. *)
Theorem C149_exclusive_partial : forall parse o input c cl handle h,
  optimize parse o input = Done (c, cl) -> same_classic cl handle -> ch_handle h = handle -> one_at_most h.
Proof. exact built_exclusive. Qed.
Print Assumptions C149_exclusive_partial.
Example C149_hyps : match optimize sample_parse hash_order sample_raw with
  | Done (_, cl) => map cat_exclusive (cl_categories cl) = [false; false] | _ => False end.
Proof. exact sample_unmarked. Qed.
