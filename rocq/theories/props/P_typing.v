(** C101: typing on. The windows of a query are padded at the front, so those of a query are the
    first of any query that goes on from it. *)
From Verif.model Require Import Base F32 Utf8 Prim Coll Data Gram Indexer Nodes Classic Lit Raw Js Lib.
From Verif.spec Require Import Spec Data_spec Gram_spec Classic_spec Raw_spec Js_spec Lib_spec End_spec Samples
  Raw_samples Gram_samples Lib_samples End_samples Typing_samples.
From Verif.proofs Require Import Typing_props Typing_samples_facts.

(** For any index whatsoever, read from any file. *)
Theorem C101_prefix : forall n gi o1 o2 q x r1 r2, (1 <= n <= 764)%nat -> valid_order o1 -> valid_order o2 ->
  gram_search n o1 gi q = Done r1 -> gram_search n o2 gi (q ++ x) = Done r2 ->
  forall p c, (p, c) ∈ r1 -> exists d, (p, d) ∈ r2.
Proof. exact typing_on. Qed.
Print Assumptions C101_prefix.
(** In an index that was built the confidence does not sink either, rounding included. *)
Theorem C101_confidence : forall P n o source pc gi, (1 <= n <= 764)%nat -> valid_build_order o ->
  total_grams (map snd source) < 2 ^ 32 -> index_from P n o source pc = Done gi ->
  forall o1 o2 q x r1 r2, valid_order o1 -> valid_order o2 ->
  gram_search n o1 gi q = Done r1 -> gram_search n o2 gi (q ++ x) = Done r2 ->
  forall p c d, (p, c) ∈ r1 -> (p, d) ∈ r2 -> f32_le c d.
Proof. exact typing_on_confidence. Qed.
Print Assumptions C101_confidence.
(** Typing on both sides, when no text has a NUL. *)
Theorem C101_around : forall P n o source pc gi, (1 <= n <= 764)%nat -> valid_build_order o ->
  total_grams (map snd source) < 2 ^ 32 -> index_from P n o source pc = Done gi ->
  forall o1 o2 u q v r1 r2, valid_order o1 -> valid_order o2 -> Forall (fun '(_, t) => 0 ∉ t) source ->
  gram_search n o1 gi q = Done r1 -> gram_search n o2 gi (u ++ q ++ v) = Done r2 ->
  forall p c, (p, c) ∈ r1 -> exists p' d, (p', d) ∈ r2 /\ p_id p' = p_id p /\ f32_le c d.
Proof. exact typing_around. Qed.
Print Assumptions C101_around.
(** In the library, after any calls: the same handlers and filters, any orders. *)
Theorem C101_search : forall low u Q ops o1 o2 query more categories tags order order' entries st1 p1 st2 p2 n j,
  let st := lib_run low u Q lib_init ops in
  valid_search_order o1 -> valid_search_order o2 -> handlers_ok categories tags ->
  search low u o1 st query categories tags order entries = (st1, Done p1) ->
  search low u o2 st (query ++ more) categories tags order' entries = (st2, Done p2) ->
  Some j ∈ calls pp_next n p1 -> exists m, Some j ∈ calls pp_next m p2.
Proof. exact typing_on_search. Qed.
Print Assumptions C101_search.
(** Typing on finds more and may change who is first. *)
Example C101_hyps : exists gi,
  index_from wasm32 5 hash_order strangers (plain_container strangers) = Done gi /\
  Forall (fun '(_, t) => 0 ∉ t) strangers /\
  found gi abcde = Done [0] /\ found gi (abcde ++ words) = Done [1; 0] /\ found gi (words ++ abcde) = Done [1; 0].
Proof. exact typing_hyps. Qed.
Example C101_library : let st := after [InitOp sample_file] in
  answer st word_chair (cats_of st) (tags_of st) None [] = Done [1] /\
  answer st (word_chair ++ three_words) (cats_of st) (tags_of st) None [] = Done [1; 2; 0].
Proof. exact typing_library. Qed.
(** Without the hypothesis on NULs it fails: a text may begin with one. *)
Example C101_nul : exists gi,
  index_from wasm32 5 hash_order with_nul (plain_container with_nul) = Done gi /\
  found gi [97; 98] = Done [0] /\ found gi [99; 99; 97; 98] = Done [].
Proof. exact typing_nul. Qed.
