(** C40 (with an order), C46, C51, C52, C57, C61-C64, C66, C67, C77: the entry points.
    [low] is [char::to_lowercase] and [u] says whether panics unwind; nothing is assumed
    about them. *)
From Verif.model Require Import Base F32 Utf8 Prim Coll Data Gram Indexer Nodes Classic Lit Raw Js Lib.
From Verif.spec Require Import Spec Data_spec Gram_spec Classic_spec Raw_spec Js_spec Lib_spec Samples Raw_samples
  Gram_samples Lib_samples.
From Verif.proofs Require Import Lib_facts Handler_exact Suggest_facts Lib_samples_facts Lib_examples.

(** C40, the rest: ranks that are all different leave nothing to the hash orders. *)
Theorem C40_same_order : forall low u1 u2 o1 o2 gi cl input categories tags key table entries filters,
  consistent_gram_index ngram_index_size gi ->
  parse_filters entries = Some filters -> valid_search_order o1 -> valid_search_order o2 ->
  handlers_ok categories tags ->
  get_orders (cl_order cl) key = Some table ->
  (length (c_products (gi_container gi)) <= length table)%nat -> NoDup table ->
  search low u1 o1 (loaded gi cl) input categories tags (Some key) entries =
  search low u2 o2 (loaded gi cl) input categories tags (Some key) entries.
Proof. exact ordered_same. Qed.
Print Assumptions C40_same_order.
Example C40_order_hyps : exists gi cl table, deserialize_all host64 ngram_index_size sample_file = Done (gi, cl) /\
  consistent_gram_index ngram_index_size gi /\ get_orders (cl_order cl) s_price_up = Some table /\
  (length (c_products (gi_container gi)) <= length table)%nat /\ NoDup table /\
  valid_search_order plain_search /\ valid_search_order other_search /\ handlers_ok no_cats no_tags.
Proof. exact sample_ordered. Qed.

(** C46 *)
Theorem C46_rearranged : forall low u o gi cl input categories tags key table entries filters,
  consistent_gram_index ngram_index_size gi ->
  parse_filters entries = Some filters -> valid_search_order o -> handlers_ok categories tags ->
  get_orders (cl_order cl) key = Some table ->
  (length (c_products (gi_container gi)) <= length table)%nat ->
  exists l l',
    search low u o (loaded gi cl) input categories tags None entries =
      (loaded gi cl, Done (pp_new (gi_container gi) l)) /\
    search low u o (loaded gi cl) input categories tags (Some key) entries =
      (loaded gi cl, Done (pp_new (gi_container gi) l')) /\
    l' ≡ₚ l /\ ranks_ascend table l'.
Proof. exact search_ordered. Qed.
Print Assumptions C46_rearranged.
Theorem C46_unknown : forall low u o gi cl input categories tags key entries,
  valid_search_order o -> handlers_ok categories tags -> get_orders (cl_order cl) key = None ->
  search low u o (loaded gi cl) input categories tags (Some key) entries = (loaded gi cl, Nope).
Proof. exact search_unknown_order. Qed.
Print Assumptions C46_unknown.
(** The orders of an index built from raw products; C18: storing keeps them. *)
Theorem C46_orders : forall parse o input c cl, optimize parse o input = Done (c, cl) ->
  (forall key, get_orders (cl_order cl) key = None <->
     key ∉ [s_alphabetical; s_price_up; s_price_down]) /\
  (forall key table, get_orders (cl_order cl) key = Some table ->
     table ≡ₚ map N.of_nat (seq 0 (length input))) /\
  (forall u ho gi, valid_order ho -> exists l,
     lib_get_orders u ho (loaded gi cl) = Done l /\ l ≡ₚ [s_alphabetical; s_price_up; s_price_down]).
Proof. exact built_orders. Qed.
Print Assumptions C46_orders.
Example C46_hyps : map (fun order => answer (after [InitOp sample_file]) three_words no_cats no_tags order [])
    [None; Some s_alphabetical; Some s_price_up; Some s_price_down; Some s_price]
  = [Done [1; 2; 0]; Done [1; 0; 2]; Done [1; 0; 2]; Done [0; 2; 1]; Nope].
Proof. vm_compute; reflexivity. Qed.

(** C51, the part about [search]. *)
Theorem C51_search : forall low u o st input categories tags order entries,
  (exists feature v, (feature, v) ∈ entries /\ forall identity props, v <> JObj identity props) ->
  search low u o st input categories tags order entries = (st, Nope).
Proof. exact malformed_search. Qed.
Print Assumptions C51_search.

(** C52 *)
Theorem C52_exactly_those : forall low o gi input categories tags filters,
  valid_search_order o -> handlers_ok categories tags ->
  exists res ok,
    gram_search ngram_index_size (se_rank o) gi (lower low input) = Done res /\
    (forall p, ok p = true <-> passes categories tags filters (c_features (gi_container gi)) p) /\
    search_filtered low o gi input categories tags filters =
      Done (map p_sid (filter (fun p => ok p = true) (map fst res))).
Proof. exact filtered_spec. Qed.
Print Assumptions C52_exactly_those.
(** [search] without an order delivers that list. *)
Theorem C52_delivered : forall low u o gi cl input categories tags entries filters,
  parse_filters entries = Some filters -> valid_search_order o -> handlers_ok categories tags ->
  exists l, search_filtered low o gi input categories tags filters = Done l /\
    search low u o (loaded gi cl) input categories tags None entries =
      (loaded gi cl, Done (pp_new (gi_container gi) l)).
Proof. exact search_unordered. Qed.
Print Assumptions C52_delivered.
Example C52_hyps : handlers_ok (with_first_option (after [InitOp sample_file])) no_tags /\
  answer (after [InitOp sample_file]) three_words no_cats no_tags None [] = Done [1; 2; 0] /\
  answer (after [InitOp sample_file]) three_words (with_first_option (after [InitOp sample_file])) no_tags None []
    = Done [0].
Proof. exact sample_filtering. Qed.

(** C57, the part about [search]. *)
Theorem C57_search : forall low u P ops o input categories tags order entries st' p n,
  valid_search_order o -> handlers_ok categories tags ->
  search low u o (lib_run low u P lib_init ops) input categories tags order entries = (st', Done p) ->
  exists c ids, p = pp_new c ids /\
    calls pp_next n p = then_none n (map (JsProduct c) ids) /\
    forall sid, sid ∈ ids ->
      exists q, c_products c !! N.to_nat sid = Some q /\ jp_product (JsProduct c sid) = Done q.
Proof. exact search_answers. Qed.
Print Assumptions C57_search.

(** C61 *)
Theorem C61_nothing_before : forall low u P ops, no_loads low u P lib_init ops ->
  let st := lib_run low u P lib_init ops in
  (forall o input categories tags order entries,
     search low u o st input categories tags order entries = (lib_init, Nope)) /\
  get_categories st = Nope /\ get_tags st = Nope /\ (forall o, lib_get_orders u o st = Nope) /\
  (forall query, tag_suggestion st query = Nope).
Proof. exact nothing_available. Qed.
Print Assumptions C61_nothing_before.
Example C61_hyps : no_loads ascii_low true host64 lib_init
  [InitOp [7]; SearchOp plain_search word_lamp no_cats no_tags None []; InitOp []].
Proof. repeat split; vm_compute; intros E; first [done | discriminate E]. Qed.

(** C62 *)
Theorem C62_failed_load : forall low u P ops bytes,
  let st := lib_run low u P lib_init ops in
  (initialize P st bytes).2 <> Done true ->
  (initialize P st bytes).2 = Panic /\ (initialize P st bytes).1 = st.
Proof. exact failed_initialize. Qed.
Print Assumptions C62_failed_load.
Example C62_hyps : (initialize host64 (after [InitOp sample_file]) [7]).2 = Panic /\
  answer (after [InitOp sample_file; InitOp [7]]) word_chair no_cats no_tags None [] = Done [1].
Proof. split; vm_compute; reflexivity. Qed.

(** C63: all answers are functions of the state, and that is the state of the last file;
    [no_panics]: unless a search panicked (C77). *)
Theorem C63_last_load : forall low u P ops1 bytes ops2,
  let st := lib_run low u P lib_init ops1 in
  loads P st (InitOp bytes) -> no_loads low u P (lib_step low u P st (InitOp bytes)) ops2 ->
  exists gi cl, deserialize_all P ngram_index_size bytes = Done (gi, cl) /\
    let st' := lib_run low u P lib_init (ops1 ++ InitOp bytes :: ops2) in
    s_index st' = Some gi /\ s_classic st' = Some cl /\
    (no_panics low u P (lib_step low u P st (InitOp bytes)) ops2 -> st' = loaded gi cl).
Proof. exact last_loaded. Qed.
Print Assumptions C63_last_load.
Example C63_hyps : loads host64 (after [InitOp sample_file]) (InitOp shuffled_file) /\
  answer (after [InitOp sample_file]) word_chair no_cats no_tags None [] = Done [1] /\
  answer (after [InitOp sample_file; InitOp shuffled_file; InitOp [7]]) word_chair no_cats no_tags None [] = Done [0].
Proof. repeat split; vm_compute; reflexivity. Qed.

(** C64. Red is switched on in a handler of the first file; after loading the second, the
    chair, which is not red, passes its filter. *)
Theorem C64_old_handler_refuted :
  let before := after [InitOp sample_file] in
  let st := after [InitOp sample_file; InitOp shuffled_file] in
  option_name before 0 0 = Some lit_red /\ option_name st 1 2 = Some lit_red /\
  answer st word_chair (with_option before 0 0) no_tags None [] = Done [0] /\
  answer st word_chair (with_option st 1 2) no_tags None [] = Done [] /\
  (p_title <$> (c ← (gi_container <$> s_index st); c_products c !! 0%nat)) = Some (r_title raw_chair) /\
  Forall (fun opt => lit_red ∉ ro_values opt) (r_options raw_chair).
Proof. exact stale_handler. Qed.
Print Assumptions C64_old_handler_refuted.
(** What holds: the handler keeps filtering, by the positions its own index lists (C52). So it
    works as a new one if what is switched on lists the same positions in the new index, as
    after loading the same file again. *)
Theorem C64_old_handler_partial : forall low u o st input categories tags categories' tags' order entries,
  valid_search_order o -> handlers_ok categories tags -> handlers_ok categories' tags' ->
  same_options categories categories' -> same_tags tags tags' ->
  search low u o st input categories tags order entries =
  search low u o st input categories' tags' order entries.
Proof. exact same_handlers. Qed.
Print Assumptions C64_old_handler_partial.
(** Exactly when, for a given search: both pairs of handlers let the same of the found products
    pass. Any other pair, old or new, with the same verdicts on those cannot be told apart. *)
Theorem C64_exactly : forall low u o gi cl input categories tags categories' tags' order entries filters res,
  consistent_gram_index ngram_index_size gi -> parse_filters entries = Some filters -> valid_search_order o ->
  handlers_ok categories tags -> handlers_ok categories' tags' ->
  match order with
  | None => True
  | Some key => exists table, get_orders (cl_order cl) key = Some table /\
      (length (c_products (gi_container gi)) <= length table)%nat
  end ->
  gram_search ngram_index_size (se_rank o) gi (lower low input) = Done res ->
  search low u o (loaded gi cl) input categories tags order entries =
    search low u o (loaded gi cl) input categories' tags' order entries <->
  forall p x, (p, x) ∈ res ->
    passes categories tags filters (c_features (gi_container gi)) p <->
    passes categories' tags' filters (c_features (gi_container gi)) p.
Proof. exact handlers_exact. Qed.
Print Assumptions C64_exactly.
(** C57: every loaded index is such a [gi]. The two handlers of the refutation agree on the
    table and not on the chair. *)
Example C64_hyps :
  let before := after [InitOp sample_file] in
  let st := after [InitOp sample_file; InitOp shuffled_file] in
  handlers_ok (with_option before 0 0) no_tags /\ handlers_ok (with_option st 1 2) no_tags /\
  map (fun cats => map (fun input => answer st input cats no_tags None []) [word_chair; drop 11 three_words])
    [no_cats; with_option before 0 0; with_option st 1 2] = [[Done [0]; Done [1]]; [Done [0]; Done []]; [Done []; Done []]].
Proof. exact two_handlers. Qed.

(** C66, as the code computes overlaps. *)
Theorem C66_rounded : forall gi cl query ws, splits query ws ->
  match tag_suggestion (loaded gi cl) query with
  | Done r => exists keyword t,
      first_best (fun x => f32_gt (overlap (t_name x.2) x.1 3) f32_0_8 = true)
        (fun x y => f32_gt (overlap (t_name x.2) x.1 3) (overlap (t_name y.2) y.1 3) = true)
        (pairs ws (cl_tags cl)) (keyword, t) /\
      r = TagSuggestion (JSTag cl (t_id t)) keyword
  | Nope => forall x, x ∈ pairs ws (cl_tags cl) -> f32_gt (overlap (t_name x.2) x.1 3) f32_0_8 = false
  | _ => False
  end.
Proof. exact suggestion_rounded. Qed.
Print Assumptions C66_rounded.
(** With exact fractions instead, as long as no pair has two strings of 4096 bytes or more. *)
Theorem C66_exact : forall gi cl query ws, splits query ws ->
  (forall x, x ∈ pairs ws (cl_tags cl) -> shorter x < 4096) ->
  match tag_suggestion (loaded gi cl) query with
  | Done r => exists keyword t,
      first_best similar closer (pairs ws (cl_tags cl)) (keyword, t) /\
      r = TagSuggestion (JSTag cl (t_id t)) keyword
  | Nope => forall x, x ∈ pairs ws (cl_tags cl) -> ~ similar x
  | _ => False
  end.
Proof. exact suggestion_exact. Qed.
Print Assumptions C66_exact.
Theorem C66_keywords : forall query, exists ws, splits query ws /\ forall ws', splits query ws' -> ws' = ws.
Proof. exact keywords_exist. Qed.
Print Assumptions C66_keywords.
Example C66_hyps : splits query_lamps [word_red; word_lampe; []; word_lamps] /\
  tag_suggestion (loaded sample_index (tagged three_tags)) query_lamps =
    Done (TagSuggestion (JSTag (tagged three_tags) 2) word_lampe).
Proof. exact sample_suggestion. Qed.

(** C67: lengths are counted in bytes but agreements in chars. *)
Theorem C67_name_refuted : forall gi, 3 <= lenN (utf8 danish) /\ splits danish [danish] /\
  (exists t, t ∈ cl_tags (tagged [danish]) /\ t_name t = danish) /\
  tag_suggestion (loaded gi (tagged [danish])) danish = Nope.
Proof. exact danish_not_suggested. Qed.
Print Assumptions C67_name_refuted.
(** What holds: names with fewer than five bytes for every four chars. *)
Theorem C67_name_partial : forall gi cl query ws t, splits query ws ->
  t_name t ∈ ws -> t ∈ cl_tags cl ->
  3 <= lenN (utf8 (t_name t)) < 2 ^ 21 -> 4 * lenN (utf8 (t_name t)) < 5 * lenN (t_name t) ->
  exists r, tag_suggestion (loaded gi cl) query = Done r.
Proof. exact exact_name_suggested. Qed.
Print Assumptions C67_name_partial.
Theorem C67_ascii_partial : forall gi cl query ws t, splits query ws ->
  t_name t ∈ ws -> t ∈ cl_tags cl -> Forall (fun c => c < 128) (t_name t) ->
  3 <= lenN (t_name t) < 2 ^ 21 ->
  exists r, tag_suggestion (loaded gi cl) query = Done r.
Proof. exact ascii_name_suggested. Qed.
Print Assumptions C67_ascii_partial.
Example C67_hyps : splits word_lamps [word_lamps] /\ Forall (fun c => c < 128) word_lamps /\
  (exists t, t ∈ cl_tags (tagged three_tags) /\ t_name t = word_lamps) /\ 3 <= lenN word_lamps < 2 ^ 21.
Proof. exact sample_name. Qed.

(** C77 *)
Theorem C77_panic_is_final : forall low u P ops1 op ops2,
  let st := lib_run low u P lib_init ops1 in search_panics low u st op ->
  let st' := lib_run low u P lib_init (ops1 ++ op :: ops2) in
  (forall bytes, (initialize P st' bytes).2 = Panic) /\
  (forall o input categories tags order entries filters, parse_filters entries = Some filters ->
     (search low u o st' input categories tags order entries).2 = if u then Nope else Panic).
Proof. exact dead_for_good. Qed.
Print Assumptions C77_panic_is_final.
Example C77_hyps : search_panics ascii_low true (after [InitOp sample_file])
  (SearchOp plain_search word_chair broken_cats no_tags None []).
Proof. vm_compute; reflexivity. Qed.
(** A search with handlers of existing options and tags never panics when the order tables
    cover the catalogue. *)
Theorem C77_no_panic : forall low u o gi cl input categories tags order entries,
  consistent_gram_index ngram_index_size gi -> valid_search_order o -> handlers_ok categories tags ->
  (forall key table, get_orders (cl_order cl) key = Some table ->
     (length (c_products (gi_container gi)) <= length table)%nat) ->
  search low u o (loaded gi cl) input categories tags order entries = (loaded gi cl, Nope) \/
  exists ids,
    search low u o (loaded gi cl) input categories tags order entries =
      (loaded gi cl, Done (pp_new (gi_container gi) ids)) /\
    Forall (fun sid => N.to_nat sid < length (c_products (gi_container gi)))%nat ids.
Proof. exact search_outcome. Qed.
Print Assumptions C77_no_panic.
