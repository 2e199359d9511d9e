(** C125: which searches panic, whatever bytes were loaded ([loaded gi cl] is the state after any
    accepted file, C121). [low] is [char::to_lowercase] and [u] says whether panics unwind. *)
From Verif.model Require Import Base F32 Utf8 Prim Coll Data Gram Indexer Nodes Classic Lit Raw Js Lib.
From Verif.spec Require Import Spec Data_spec Gram_spec Classic_spec Raw_spec Js_spec Lib_spec Panics_spec Samples
  Raw_samples Gram_samples Lib_samples Trunc_samples.
From Verif.proofs Require Import Panics_facts Panics_samples_facts.

(** C125. With handlers whose active options and tags exist: a search without an order never panics,
    and one by an order panics exactly when it finds two products, one of them beyond the
    order's table. *)
Theorem C125_plain : forall low u o gi cl input cats tags entries, valid_search_order o -> handlers_ok cats tags ->
  (search low u o (loaded gi cl) input cats tags None entries).2 <> Panic.
Proof. exact ok_no_panic. Qed.
Print Assumptions C125_plain.
Theorem C125_ordered : forall low u o gi cl input cats tags key entries, valid_search_order o -> handlers_ok cats tags ->
  (search low u o (loaded gi cl) input cats tags (Some key) entries).2 = Panic <->
  exists table ids, get_orders (cl_order cl) key = Some table /\
    finds (search low u o (loaded gi cl) input cats tags None entries) gi ids /\ not_ranked table ids.
Proof. exact ordered_panic_ok. Qed.
Print Assumptions C125_ordered.
(** With any handlers, what is said of searches without an order carries over. *)
Theorem C125_any_handlers : forall low u o gi cl input cats tags key entries,
  (search low u o (loaded gi cl) input cats tags (Some key) entries).2 = Panic <->
  (search low u o (loaded gi cl) input cats tags None entries).2 = Panic \/
  exists table ids, get_orders (cl_order cl) key = Some table /\
    finds (search low u o (loaded gi cl) input cats tags None entries) gi ids /\ not_ranked table ids.
Proof. exact ordered_panic. Qed.
Print Assumptions C125_any_handlers.

(** With handlers where some active option or tag is missing: the hash orders of the handlers' sets
    may make the search panic ... *)
Theorem C125_may : forall low u o gi cl input cats tags entries filters ids, valid_search_order o ->
  parse_filters entries = Some filters ->
  finds (search low u o (loaded gi cl) input (ch_new cl) (th_new cl) None []) gi ids ->
  (exists o', valid_search_order o' /\ se_rank o' = se_rank o /\
     (search low u o' (loaded gi cl) input cats tags None entries).2 = Panic) <->
  exists sid, sid ∈ ids /\ (option_missing cats \/ tag_missing tags /\ has_options cats sid).
Proof. exact may_panic. Qed.
Print Assumptions C125_may.
(** ... and all of them make it panic. *)
Theorem C125_must : forall low u o gi cl input cats tags entries filters ids, valid_search_order o ->
  parse_filters entries = Some filters ->
  finds (search low u o (loaded gi cl) input (ch_new cl) (th_new cl) None []) gi ids ->
  (forall o', valid_search_order o' -> se_rank o' = se_rank o ->
     (search low u o' (loaded gi cl) input cats tags None entries).2 = Panic) <->
  exists sid, sid ∈ ids /\ has_options cats sid /\ (option_missing cats \/ tag_missing tags /\ has_tags tags sid).
Proof. exact must_panic. Qed.
Print Assumptions C125_must.

(** "Red" is on, and so is an option that is not there. Of the three
    products found by three words one is red; the chair is not. *)
Example C125_hyps : option_missing half_broken /\
  (forall o, valid_search_order o -> exists gi cl ids, after [InitOp sample_file] = loaded gi cl /\
     finds (search ascii_low true o (loaded gi cl) word_chair (ch_new cl) (th_new cl) None []) gi ids) /\
  (search ascii_low true plain_search (after [InitOp sample_file]) three_words half_broken no_tags None []).2 = Panic /\
  (search ascii_low true other_search (after [InitOp sample_file]) three_words half_broken no_tags None []).2 = Panic /\
  exists o1 o2, o1 ∈ [plain_search; other_search] /\ o2 ∈ [plain_search; other_search] /\
    (search ascii_low true o1 (after [InitOp sample_file]) word_chair half_broken no_tags None []).2 = Panic /\
    (search ascii_low true o2 (after [InitOp sample_file]) word_chair half_broken no_tags None []).2 <> Panic.
Proof. exact half_broken_facts. Qed.
(** The last order of a cut file (C113) has an empty table. *)
Example C125_cut : exists gi cl, after [InitOp crowd_cut] = loaded gi cl /\ get_orders (cl_order cl) s_price_up = Some [] /\
  not_ranked [] [1; 2; 0] /\
  finds (search ascii_low true plain_search (loaded gi cl) three_words no_cats no_tags None []) gi [1; 2; 0].
Proof. exact cut_facts. Qed.
