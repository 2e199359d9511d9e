(** C124: from the text of a catalogue to the answer of a search, with prices in cents.
    [low] is [char::to_lowercase]; all else is what the code does with the bytes of the text. *)
From Coq Require Import String Reals.
From Verif.model Require Import Base F32 Utf8 Prim Coll Data Gram Indexer Nodes Classic Lit Raw Js Lib Json Parse.
From Verif.spec Require Import Spec Data_spec Gram_spec Classic_spec Raw_spec Js_spec Lib_spec End_spec Reorder_spec Choice_spec
  Sorted_spec Json_spec Parse_spec Text_spec Samples Raw_samples Gram_samples Lib_samples End_samples Json_samples Sorted_samples.
From Verif.proofs Require Import Json_samples_facts Text_end Text_samples_facts.
Local Open Scope N_scope.

(** What is delivered: the products that score points, have all that is switched on, and pass. *)
Theorem C124_answered : forall low P Q mo bo ro so t entries,
  valid_order mo -> valid_build_order bo -> valid_ser_order so -> low_ok low ->
  valid_str t -> is_catalogue means entries t ->
  raw_fits Q low (map snd entries) -> total_grams (map (raw_text low) (map snd entries)) < 2 ^ 32 ->
  forall u ops1 bytes ops2, ids_differ entries -> lenN entries <= usize_max P ->
  main low parse_f32 P mo bo ro so (utf8 t) = Done bytes ->
  let st := lib_run low u Q lib_init ops1 in
  loads Q st (InitOp bytes) -> no_loads low u Q (lib_step low u Q st (InitOp bytes)) ops2 ->
  forall o query categories tags order filters st' p,
  let st1 := lib_run low u Q lib_init (ops1 ++ InitOp bytes :: ops2) in
  valid_search_order o -> handlers_ok categories tags ->
  s_classic st1 = Some (ch_handle categories) -> s_classic st1 = Some (th_handle tags) ->
  search low u o st1 query categories tags order filters = (st', Done p) ->
  Forall (fun e => exists props, plain_object e.2 props) filters ->
  exists l limit choice answer js, survivors entries l /\ cutoff_for (lenN l) limit /\
    (forall w, length w = ngram_index_size -> likeliest ngram_index_size (map (raw_text low) (map snd l)) w (choice w)) /\
    (forall w r, length w = ngram_index_size ->
       clearly_likeliest ngram_index_size (map (raw_text low) (map snd l)) w r -> choice w = r) /\
    answers_among ngram_index_size limit choice low (map snd l) query
      (fun raw => suits categories tags raw /\ let_pass parse_f32 filters raw) answer /\
    (order = None -> falling (map snd answer)) /\
    (forall n, calls pp_next n p = then_none n js) /\
    Forall2 (fun '(raw, _) j => delivers parse_f32 raw j) answer js.
Proof. exact text_answered. Qed.
Print Assumptions C124_answered.

(** In which order: by title, or by the cents of the prices written in the text. *)
Theorem C124_sorted : forall low P Q mo bo ro so t entries,
  valid_order mo -> valid_build_order bo -> valid_ser_order so -> low_ok low ->
  valid_str t -> is_catalogue means entries t ->
  raw_fits Q low (map snd entries) -> total_grams (map (raw_text low) (map snd entries)) < 2 ^ 32 ->
  forall u ops1 bytes ops2, all_in_cents entries ->
  main low parse_f32 P mo bo ro so (utf8 t) = Done bytes ->
  let st := lib_run low u Q lib_init ops1 in
  loads Q st (InitOp bytes) -> no_loads low u Q (lib_step low u Q st (InitOp bytes)) ops2 ->
  forall o query categories tags key filters st' p,
  let st1 := lib_run low u Q lib_init (ops1 ++ InitOp bytes :: ops2) in
  valid_search_order o -> handlers_ok categories tags ->
  search low u o st1 query categories tags (Some key) filters = (st', Done p) ->
  key ∈ [s_alphabetical; s_price_up; s_price_down] /\
  exists l p0 js0 js, survivors entries l /\
    search low u o st1 query categories tags None filters = (st1, Done p0) /\
    (forall n, calls pp_next n p0 = then_none n js0) /\ (forall n, calls pp_next n p = then_none n js) /\
    js ≡ₚ js0 /\ NoDup (map jp_sid js) /\
    exists raws, Forall2 (fun j raw => exists k, l !! N.to_nat (jp_sid j) = Some (k, raw)) js raws /\
      forall a b ra rb, (a < b)%nat -> raws !! a = Some ra -> raws !! b = Some rb -> may_precede key ra rb.
Proof. exact text_sorted. Qed.
Print Assumptions C124_sorted.

(** What passes a filter on the price, if no bound is within 1/256 of the price. *)
Theorem C124_filtered : forall filters raw k, costs_at_most raw k -> clear_bounds filters k ->
  let_pass parse_f32 filters raw <-> cents_pass filters k.
Proof. exact cents_let_pass. Qed.
Print Assumptions C124_filtered.

(** The table, the lamp and the chair, numbered 0, 1, 2, cost 2.00, 2.00 and 0.50. *)
Example C124_hyps : valid_str sample_text /\ is_catalogue means sample_entries sample_text /\
  raw_fits host64 ascii_low (map snd sample_entries) /\ ids_differ sample_entries /\ all_in_cents sample_entries /\
  main ascii_low parse_f32 host64 map_order hash_order no_order sample_order (utf8 sample_text) = Done json_file /\
  loads host64 lib_init (InitOp json_file).
Proof.
  destruct sample_main as (H1 & H2 & H3 & _ & _ & H4 & _). split; [exact H1|]. split; [exact H2|]. split; [exact H3|].
  split; [exact sample_ids|]. split; [exact sample_in_cents|]. split; [exact sample_text_main|exact H4].
Qed.
Example C124_answers :
  answer json_state three_words no_cats no_tags None [] = Done [2; 0; 1] /\
  answer json_state three_words no_cats no_tags (Some s_price_up) [] = Done [2; 0; 1] /\
  answer json_state three_words no_cats no_tags (Some s_price_down) [] = Done [0; 1; 2] /\
  answer json_state three_words no_cats no_tags (Some s_alphabetical) from_one = Done [1; 0].
Proof. exact sample_text_answers. Qed.
Example C124_bounds : (costs_at_most raw_lamp 200 /\ costs_at_most raw_chair 50) /\
  clear_bounds from_one 200 /\ clear_bounds from_one 50 /\ cents_pass from_one 200 /\ ~ cents_pass from_one 50.
Proof.
  destruct sample_cents as (H1 & H2 & _). split; [split; assumption|]. split; [apply from_one_clear; right; reflexivity|].
  split; [apply from_one_clear; left; reflexivity|]. exact from_one_passes.
Qed.
