(** C73, C79: from raw catalogues to delivered products. [low] is [char::to_lowercase], [parse]
    is [str::parse::<f32>]; the file is built on the platform [P] and loaded on [Q]. *)
From Verif.model Require Import Base F32 Utf8 Prim Coll Data Gram Indexer Nodes Classic Lit Raw Js Lib.
From Verif.spec Require Import Spec Data_spec Gram_spec Classic_spec Raw_spec Js_spec Lib_spec End_spec Samples
  Raw_samples Gram_samples Lib_samples End_samples.
From Verif.proofs Require Import End_props End_samples_facts.

(** C73 *)
Theorem C73_loads : forall low parse P Q bo ro so input,
  valid_build_order bo -> valid_ser_order so -> low_ok low -> parse_ok parse ->
  raw_fits Q low input -> total_grams (map (raw_text low) input) < 2 ^ 32 -> prices_parse parse input ->
  exists bytes gi cl,
    index_and_serialize low parse P bo ro so input = Done bytes /\
    forall st rest, s_index_dead st = false -> s_classic_dead st = false ->
      initialize Q st (bytes ++ rest) = (loaded gi cl, Done true).
Proof. exact catalogue_loads. Qed.
Print Assumptions C73_loads.
(** As long as no other file is loaded: [j] is any product delivered by any search with
    handlers of that file. *)
Theorem C73_delivered : forall low parse P Q bo ro so input,
  valid_build_order bo -> valid_ser_order so -> low_ok low -> parse_ok parse ->
  raw_fits Q low input -> total_grams (map (raw_text low) input) < 2 ^ 32 ->
  forall u ops1 bytes ops2, index_and_serialize low parse P bo ro so input = Done bytes ->
  let st := lib_run low u Q lib_init ops1 in
  loads Q st (InitOp bytes) -> no_loads low u Q (lib_step low u Q st (InitOp bytes)) ops2 ->
  forall o query categories tags order entries st' p n j,
  let st1 := lib_run low u Q lib_init (ops1 ++ InitOp bytes :: ops2) in
  valid_search_order o -> handlers_ok categories tags ->
  s_classic st1 = Some (ch_handle categories) -> s_classic st1 = Some (th_handle tags) ->
  search low u o st1 query categories tags order entries = (st', Done p) ->
  Some j ∈ calls pp_next n p ->
  exists raw, input !! N.to_nat (jp_sid j) = Some raw /\ delivers parse raw j /\ relevant low input query raw /\
    raw_has_options input categories (N.to_nat (jp_sid j)) /\ raw_has_tags input tags (N.to_nat (jp_sid j)).
Proof. exact catalogue_delivered. Qed.
Print Assumptions C73_delivered.
Example C73_hyps : valid_build_order hash_order /\ valid_ser_order sample_order /\ low_ok ascii_low /\
  parse_ok sample_parse /\ raw_fits host64 ascii_low sample_raw /\ raw_fits wasm32 ascii_low sample_raw /\
  total_grams (map (raw_text ascii_low) sample_raw) < 2 ^ 32 /\ prices_parse sample_parse sample_raw.
Proof. exact end_hyps. Qed.
(** Blue things tagged as new. *)
Example C73_delivery :
  let st := after [InitOp sample_file] in let cats := with_option st 0 1 in let tags := with_tag st 1 in
  handlers_ok cats tags /\ s_classic st = Some (ch_handle cats) /\ s_classic st = Some (th_handle tags) /\
  answer st three_words cats tags None [] = Done [0] /\
  answer st three_words (cats_of st) (tags_of st) None [] = Done [1; 2; 0] /\
  (x ← s_classic st; option_names x 0 1) = Some (lit_colour, lit_blue) /\
  (x ← s_classic st; tag_name_at x 1) = Some lit_new.
Proof. exact sample_delivery. Qed.
Example C73_file : loads host64 lib_init (InitOp sample_file) /\
  index_and_serialize ascii_low sample_parse host64 hash_order no_order sample_order sample_raw = Done sample_file.
Proof. split; [exact sample_loading|exact sample_indexed]. Qed.

(** Not every product is relevant. *)
Example C73_irrelevant : ~ relevant ascii_low sample_raw word_jumpy raw_chair /\
  Forall (fun raw => 0 ∉ raw_text ascii_low raw) sample_raw.
Proof. exact chair_irrelevant. Qed.

(** C79: the other direction. *)
Theorem C79_found : forall low parse P Q bo ro so input,
  valid_build_order bo -> valid_ser_order so -> low_ok low -> parse_ok parse ->
  raw_fits Q low input -> total_grams (map (raw_text low) input) < 2 ^ 32 ->
  forall u ops1 bytes ops2, index_and_serialize low parse P bo ro so input = Done bytes ->
  let st := lib_run low u Q lib_init ops1 in
  loads Q st (InitOp bytes) -> no_loads low u Q (lib_step low u Q st (InitOp bytes)) ops2 ->
  forall o query categories tags order st' p i raw w,
  let st1 := lib_run low u Q lib_init (ops1 ++ InitOp bytes :: ops2) in
  valid_search_order o -> handlers_ok categories tags ->
  s_classic st1 = Some (ch_handle categories) -> s_classic st1 = Some (th_handle tags) ->
  search low u o st1 query categories tags order [] = (st', Done p) ->
  NoDup (map r_id input) -> lenN input <= usize_max P ->
  input !! i = Some raw -> raw_has_options input categories i -> raw_has_tags input tags i ->
  length w = ngram_index_size -> 0 ∉ w -> occurs w (lower low query) -> occurs w (raw_text low raw) ->
  (forall limit, cutoff_for (lenN input) limit -> total_occurrences w (map (raw_text low) input) < limit) -> distinctive low input w ->
  exists n j, Some j ∈ calls pp_next n p /\ jp_sid j = N.of_nat i.
Proof. exact catalogue_found. Qed.
Print Assumptions C79_found.
Example C79_hyps :
  let st := after [InitOp sample_file] in
  NoDup (map r_id sample_raw) /\ lenN sample_raw <= usize_max host64 /\
  sample_raw !! 1%nat = Some raw_chair /\
  raw_has_options sample_raw (cats_of st) 1 /\ raw_has_tags sample_raw (tags_of st) 1 /\
  length word_chair = ngram_index_size /\ 0 ∉ word_chair /\ occurs word_chair (lower ascii_low three_words) /\
  occurs word_chair (raw_text ascii_low raw_chair) /\
  (forall limit, cutoff_for (lenN sample_raw) limit ->
     total_occurrences word_chair (map (raw_text ascii_low) sample_raw) < limit) /\
  distinctive ascii_low sample_raw word_chair.
Proof. exact chair_found. Qed.
