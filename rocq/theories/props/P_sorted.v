(** C116, C117: the order that a search is asked for, and its filter, said of the raw products. *)
From Verif.model Require Import Base F32 Utf8 Prim Coll Data Gram Indexer Nodes Classic Lit Raw Js Lib.
From Verif.spec Require Import Spec Data_spec Gram_spec Classic_spec Raw_spec Js_spec Lib_spec End_spec Reorder_spec Choice_spec Sorted_spec
  Samples Raw_samples Gram_samples Lib_samples End_samples Sorted_samples.
From Verif.proofs Require Import Sorted_end Choice_end Sorted_samples_facts.

(** C116. After the catalogue's file was loaded, a search with an order delivers what the search
    without order delivers, each product once, by title or by price, and products with the same
    title or price in the order of the catalogue. *)
Theorem C116_sorted : forall low parse P Q bo ro so input,
  valid_build_order bo -> valid_ser_order so -> low_ok low -> parse_ok parse ->
  raw_fits Q low input -> total_grams (map (raw_text low) input) < 2 ^ 32 ->
  forall u ops1 bytes ops2, index_and_serialize low parse P bo ro so input = Done bytes ->
  let st := lib_run low u Q lib_init ops1 in
  loads Q st (InitOp bytes) -> no_loads low u Q (lib_step low u Q st (InitOp bytes)) ops2 ->
  forall o query categories tags key entries st' p,
  let st1 := lib_run low u Q lib_init (ops1 ++ InitOp bytes :: ops2) in
  valid_search_order o -> handlers_ok categories tags ->
  search low u o st1 query categories tags (Some key) entries = (st', Done p) ->
  key ∈ [s_alphabetical; s_price_up; s_price_down] /\
  exists p0 js0 js,
    search low u o st1 query categories tags None entries = (st1, Done p0) /\
    (forall n, calls pp_next n p0 = then_none n js0) /\ (forall n, calls pp_next n p = then_none n js) /\
    js ≡ₚ js0 /\ NoDup (map jp_sid js) /\ Forall (fun j => (N.to_nat (jp_sid j) < length input)%nat) js /\
    (key = s_alphabetical \/ prices_numeric parse input -> stand_in_order parse key input js).
Proof. exact delivered_in_order. Qed.
Print Assumptions C116_sorted.
(** The other hypotheses are met as in C73_hyps, and the answers are those of C46_hyps. *)
Example C116_hyps : prices_numeric sample_parse sample_raw /\
  goes_before sample_parse s_price_up raw_chair raw_lamp /\ goes_before sample_parse s_price_down raw_lamp raw_chair /\
  goes_before sample_parse s_alphabetical raw_chair raw_lamp /\ goes_before sample_parse s_alphabetical raw_lamp raw_table /\
  ~ goes_before sample_parse s_price_up raw_lamp raw_table /\ ~ goes_before sample_parse s_price_up raw_table raw_lamp.
Proof. exact sample_before. Qed.

(** C117. C112 with filters: of the products that score points and have all that is switched on,
    a search answers with those that every entry of the filter lets pass. *)
Theorem C117_filtered : forall low parse P Q bo ro so input,
  valid_build_order bo -> valid_ser_order so -> low_ok low -> parse_ok parse ->
  raw_fits Q low input -> total_grams (map (raw_text low) input) < 2 ^ 32 -> NoDup (map r_id input) ->
  lenN input <= usize_max P ->
  forall u ops1 bytes ops2, index_and_serialize low parse P bo ro so input = Done bytes ->
  let st := lib_run low u Q lib_init ops1 in
  loads Q st (InitOp bytes) -> no_loads low u Q (lib_step low u Q st (InitOp bytes)) ops2 ->
  forall o query categories tags order entries st' p,
  let st1 := lib_run low u Q lib_init (ops1 ++ InitOp bytes :: ops2) in
  valid_search_order o -> handlers_ok categories tags ->
  s_classic st1 = Some (ch_handle categories) -> s_classic st1 = Some (th_handle tags) ->
  search low u o st1 query categories tags order entries = (st', Done p) ->
  Forall (fun e => exists props, plain_object e.2 props) entries ->
  exists limit choice answer js, cutoff_for (lenN input) limit /\
    (forall w, length w = ngram_index_size -> likeliest ngram_index_size (map (raw_text low) input) w (choice w)) /\
    (forall w r, length w = ngram_index_size ->
       clearly_likeliest ngram_index_size (map (raw_text low) input) w r -> choice w = r) /\
    answers_among ngram_index_size limit choice low input query
      (fun raw => suits categories tags raw /\ let_pass parse entries raw) answer /\
    (order = None -> falling (map snd answer)) /\
    (forall n, calls pp_next n p = then_none n js) /\
    Forall2 (fun '(raw, _) j => delivers parse raw j) answer js.
Proof. exact answered_with. Qed.
Print Assumptions C117_filtered.
(** [{price: {from: 1}}] drops the chair, which costs 0.5. *)
Example C117_hyps : Forall (fun e => exists props, plain_object e.2 props) from_one /\
  let_pass sample_parse from_one raw_lamp /\ ~ let_pass sample_parse from_one raw_chair /\
  answer (after [InitOp sample_file]) three_words no_cats no_tags None [] = Done [1; 2; 0] /\
  answer (after [InitOp sample_file]) three_words no_cats no_tags None from_one = Done [2; 0] /\
  answer (after [InitOp sample_file]) three_words no_cats no_tags (Some s_alphabetical) from_one = Done [0; 2].
Proof. exact sample_filtered. Qed.
