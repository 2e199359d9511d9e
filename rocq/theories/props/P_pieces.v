(** C145: queries and their pieces. *)
From Verif.model Require Import Base F32 Utf8 Prim Coll Data Gram Indexer Nodes Classic Lit Raw Js Lib.
From Verif.spec Require Import Spec Gram_spec Classic_spec Raw_spec Js_spec Lib_spec End_spec Samples Raw_samples Gram_samples Lib_samples End_samples Typing_samples
  Pieces_spec Pieces_samples.
From Verif.proofs Require Import Pieces_facts Pieces_samples_facts.

(** In any index in which nothing begins with a NUL: a product is found if and only if one of the pieces of the
    query, searched for alone, finds it. *)
Theorem C145_pieces : forall n o gi q res id, (1 <= n <= 764)%nat -> gi_roots gi !! 0 = None -> valid_order o ->
  gram_search n o gi q = Done res ->
  (exists p x, (p, x) ∈ res /\ p_id p = id) <-> exists w, piece n w q /\ finds n gi w id.
Proof. exact found_pieces. Qed.
Print Assumptions C145_pieces.
(** So queries with the same pieces find the same products. *)
Theorem C145_same : forall n gi q q' id, (1 <= n <= 764)%nat -> gi_roots gi !! 0 = None ->
  (forall w, piece n w q -> piece n w q') -> finds n gi q id -> finds n gi q' id.
Proof. exact same_pieces. Qed.
Print Assumptions C145_same.
(** One would expect the order of words not to matter. It does: "old cat" finds the old cat, "cat old" nothing. *)
Theorem C145_words_refuted : exists gi,
  index_from wasm32 5 hash_order cats (plain_container cats) = Done gi /\ gi_roots gi !! 0 = None /\
  found gi (joined [word_old; word_cat]) = Done [0] /\ found gi (joined [word_cat; word_old]) = Done [].
Proof. exact old_cats. Qed.
Print Assumptions C145_words_refuted.
(** What holds for words in another order, or more often: what is found no more was found by a piece with a space. *)
Theorem C145_words_partial : forall n gi ws ws' id, (1 <= n <= 764)%nat -> gi_roots gi !! 0 = None -> (forall w, w ∈ ws -> w ∈ ws') ->
  finds n gi (joined ws) id -> finds n gi (joined ws') id \/ exists w, piece n w (joined ws) /\ 32 ∈ w /\ finds n gi w id.
Proof. exact words_found. Qed.
Print Assumptions C145_words_partial.
(** What is delivered in the browser, after any calls. *)
Theorem C145_search : forall low u Q ops gi o1 o2 q1 q2 categories tags order order' entries st1 p1 st2 p2 n j, let st := lib_run low u Q lib_init ops in
  valid_search_order o1 -> valid_search_order o2 -> handlers_ok categories tags ->
  s_index st = Some gi -> NoDup (map p_id (c_products (gi_container gi))) -> gi_roots gi !! 0 = None ->
  (forall w, piece 5 w (lower low q1) -> piece 5 w (lower low q2)) ->
  search low u o1 st q1 categories tags order entries = (st1, Done p1) ->
  search low u o2 st q2 categories tags order' entries = (st2, Done p2) ->
  Some j ∈ calls pp_next n p1 -> exists m, Some j ∈ calls pp_next m p2.
Proof. exact same_pieces_search. Qed.
Print Assumptions C145_search.
Theorem C145_words_search : forall low u Q ops gi o1 o2 ws1 ws2 categories tags order order' entries st1 p1 st2 p2 n j, let st := lib_run low u Q lib_init ops in
  valid_search_order o1 -> valid_search_order o2 -> handlers_ok categories tags ->
  s_index st = Some gi -> NoDup (map p_id (c_products (gi_container gi))) -> gi_roots gi !! 0 = None ->
  low 32 = [32] -> (forall w, w ∈ ws1 -> w ∈ ws2) ->
  (forall w id, piece 5 w (lower low (joined ws1)) -> 32 ∈ w -> ~ finds 5 gi w id) ->
  search low u o1 st (joined ws1) categories tags order entries = (st1, Done p1) ->
  search low u o2 st (joined ws2) categories tags order' entries = (st2, Done p2) ->
  Some j ∈ calls pp_next n p1 -> exists m, Some j ∈ calls pp_next m p2.
Proof. exact words_search. Qed.
Print Assumptions C145_words_search.
Example C145_hyps : let st := after [InitOp sample_file] in let gi := index_of st in
  s_index st = Some gi /\ NoDup (map p_id (c_products (gi_container gi))) /\ gi_roots gi !! 0 = None /\ ascii_low 32 = [32] /\
  (forall w id, piece 5 w (lower ascii_low (joined [a_chair; a_table])) -> 32 ∈ w -> ~ finds 5 gi w id) /\
  answer st (joined [a_chair; a_table]) (cats_of st) (tags_of st) None [] = Done [1; 2] /\
  answer st (joined [a_table; a_chair; a_table]) (cats_of st) (tags_of st) None [] = Done [2; 1].
Proof. exact two_words. Qed.
