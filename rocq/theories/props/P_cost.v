(** C94-C99: how much work a search is, and how large an index and its file are. *)
From Verif.model Require Import Base F32 Utf8 Prim Coll Data Gram Indexer Nodes Classic Lit Raw Js Lib.
From Verif.spec Require Import Spec Data_spec Gram_spec Classic_spec Raw_spec Js_spec Lib_spec End_spec Samples Raw_samples Gram_samples
  Lib_samples End_samples Cost_samples.
From Verif.proofs Require Import Length_facts Size_facts Cost_props Bytes_facts Lib_samples_facts End_samples_facts Cost_samples_facts.
From Verif.spec Require Import Cost_spec.

(** C94. The comment speaks of the five most popular grams. Here the gram that corrects the
    second one is not one of the five. *)
Theorem C94_five_refuted : exists o source gi root c,
  valid_build_order o /\ total_grams (map snd source) < 2 ^ 32 /\
  index_from wasm32 5 o source (plain_container source) = Done gi /\ gi_roots gi !! 97 = Some root /\
  search_gram 5 gi (97 :: 63 :: [120; 121; 122]) = Done (Some (97 :: 103 :: [120; 121; 122], c)) /\
  63 <> 103 /\ 103 ∉ map n_item (take 5 (n_children root)).
Proof. exact sixth_chosen. Qed.
Print Assumptions C94_five_refuted.
(** What happens instead: every child of the first gram is tried, so there are more calls than children. *)
Theorem C94_all_tried_partial : forall P n o source pc gi, (1 <= n)%nat -> valid_build_order o ->
  total_grams (map snd source) < 2 ^ 32 -> index_from P n o source pc = Done gi ->
  forall q0 q root, (3 <= n)%nat -> gi_roots gi !! q0 = Some root ->
  (length (n_children root) < calls (counted_search_gram n gi (q0 :: q)))%nat.
Proof. exact every_child_tried. Qed.
Print Assumptions C94_all_tried_partial.

(** C95. [counted_search_gram] is the search for one window with its calls counted. *)
Theorem C95_same_value : forall n gi q, (n <= 764)%nat ->
  search_gram n gi q = Done (value (counted_search_gram n gi q)).
Proof. exact counted_gram_value. Qed.
Print Assumptions C95_same_value.
Theorem C95_calls : forall P n o source pc gi, (1 <= n)%nat -> valid_build_order o ->
  total_grams (map snd source) < 2 ^ 32 -> index_from P n o source pc = Done gi ->
  forall q, (calls (counted_search_gram n gi q) <= n * (n * (2 * length (alphabet (map snd source)) + 2)) ^ (n / 3))%nat.
Proof. exact gram_calls. Qed.
Print Assumptions C95_calls.
Theorem C95_depth : forall n gi q, (1 <= n)%nat -> (depth (counted_search_gram n gi q) <= n + n / 3)%nat.
Proof. exact counted_gram_depth. Qed.
Print Assumptions C95_depth.
(** All windows of a query, in an index that was written to a file and loaded from it. *)
Theorem C95_query_calls : forall low parse P Q bo ro so input bytes rest gi cl,
  valid_build_order bo -> valid_ser_order so -> low_ok low -> parse_ok parse ->
  raw_fits Q low input -> total_grams (map (raw_text low) input) < 2 ^ 32 ->
  index_and_serialize low parse P bo ro so input = Done bytes ->
  deserialize_all Q ngram_index_size (bytes ++ rest) = Done (gi, cl) ->
  forall query, (list_sum (map (fun w => calls (counted_search_gram ngram_index_size gi w)) (windows ngram_index_size query)) <=
    50 * length query * S (length (alphabet (map (raw_text low) input))))%nat.
Proof. exact file_calls. Qed.
Print Assumptions C95_query_calls.

(** C96. The nodes are as many as the different factors of at most [n] grams; hence at most [n] for each gram of the texts. *)
Theorem C96_nodes : forall P n o source pc gi, (1 <= n)%nat -> valid_build_order o ->
  total_grams (map snd source) < 2 ^ 32 -> index_from P n o source pc = Done gi ->
  exists ws, NoDup ws /\ trie_nodes (gi_roots gi) = length ws /\
    forall w, w ∈ ws <-> w <> [] /\ (length w <= n)%nat /\ exists p t, (p, t) ∈ source /\ occurs w t.
Proof. exact node_total. Qed.
Print Assumptions C96_nodes.
Theorem C96_node_bound : forall P n o source pc gi, (1 <= n)%nat -> valid_build_order o ->
  total_grams (map snd source) < 2 ^ 32 -> index_from P n o source pc = Done gi ->
  N.of_nat (trie_nodes (gi_roots gi)) <= N.of_nat n * total_grams (map snd source).
Proof. exact node_bound. Qed.
Print Assumptions C96_node_bound.
Theorem C96_posting_bound : forall P n o source pc gi, (1 <= n)%nat -> valid_build_order o ->
  total_grams (map snd source) < 2 ^ 32 -> index_from P n o source pc = Done gi ->
  N.of_nat (size (gi_data gi)) <= N.of_nat (posting_entries (gi_data gi)) /\
  N.of_nat (posting_entries (gi_data gi)) <= total_grams (map snd source).
Proof. exact posting_bound. Qed.
Print Assumptions C96_posting_bound.
Example C94_C95_C96_hyps : exists gi, index_from wasm32 5 hash_order unpopular (plain_container unpopular) = Done gi /\
  calls (counted_search_gram 5 gi misspelt) = 16%nat /\ depth (counted_search_gram 5 gi misspelt) = 5%nat /\
  length (alphabet (map snd unpopular)) = 10%nat /\ trie_nodes (gi_roots gi) = 25%nat /\
  posting_entries (gi_data gi) = 14%nat /\ size (gi_data gi) = 9%nat /\ total_grams (map snd unpopular) = 25.
Proof. exact sample_counts. Qed.

(** C97 *)
Theorem C97_same_length : forall low parse P n bo1 bo2 ro1 ro2 so1 so2 input bytes1 bytes2,
  valid_build_order bo1 -> valid_build_order bo2 -> valid_ser_order so1 -> valid_ser_order so2 ->
  index_and_serialize_with_n low parse P n bo1 ro1 so1 input = Done bytes1 ->
  index_and_serialize_with_n low parse P n bo2 ro2 so2 input = Done bytes2 ->
  length bytes1 = length bytes2.
Proof. exact file_length. Qed.
Print Assumptions C97_same_length.
(** The order of the products, however, matters. *)
Theorem C97_product_order_matters : exists input1 input2 bytes1 bytes2, input1 ≡ₚ input2 /\
  index_and_serialize ascii_low sample_parse wasm32 hash_order no_order sample_order input1 = Done bytes1 /\
  index_and_serialize ascii_low sample_parse wasm32 hash_order no_order sample_order input2 = Done bytes2 /\
  length bytes1 <> length bytes2.
Proof. exact order_matters. Qed.
Print Assumptions C97_product_order_matters.

(** C98. The catalogue fits a platform whose counts are below 2^28. *)
Theorem C98_file_size : forall low parse P n bo ro so input bytes, (1 <= n <= 764)%nat ->
  valid_build_order bo -> valid_ser_order so -> low_ok low -> parse_ok parse -> raw_fits modest low input ->
  index_and_serialize_with_n low parse P n bo ro so input = Done bytes ->
  lenN bytes <= 139 + 12 * lenN (catalogue_strings input) + total_bytes (catalogue_strings input) +
    (14 * N.of_nat n + 13) * total_grams (map (raw_text low) input).
Proof. exact file_bytes. Qed.
Print Assumptions C98_file_size.
Example C97_C98_hyps : valid_build_order hash_order /\ valid_ser_order sample_order /\ low_ok ascii_low /\ parse_ok sample_parse /\
  raw_fits modest ascii_low sample_raw /\
  exists bytes, index_and_serialize_with_n ascii_low sample_parse wasm32 5 hash_order no_order sample_order sample_raw = Done bytes /\
  lenN bytes = 1570 /\ lenN (catalogue_strings sample_raw) = 32 /\ total_bytes (catalogue_strings sample_raw) = 163 /\
  total_grams (map (raw_text ascii_low) sample_raw) = 45.
Proof. exact sample_file_size. Qed.

(** C99. Files of 15 + 6d bytes load with a trie that is d + 1 nodes deep. *)
Theorem C99_depth_refuted : forall n d, (n <= 764)%nat -> exists bytes gi cl nd, length bytes = (15 + 6 * d)%nat /\
  deserialize_all wasm32 n bytes = Done (gi, cl) /\ gi_roots gi !! 97 = Some nd /\ node_depth nd = S d.
Proof. exact branch_loads. Qed.
Print Assumptions C99_depth_refuted.
(** What holds: whatever the file, six times the depth is at most its length, *)
Theorem C99_depth_partial : forall P n bytes gi cl g nd, deserialize_all P n bytes = Done (gi, cl) ->
  gi_roots gi !! g = Some nd -> (6 * node_depth nd <= length bytes)%nat.
Proof. exact loaded_depth. Qed.
Print Assumptions C99_depth_partial.
(** and a file written by the indexer loads with tries no deeper than the gram size. *)
Theorem C99_written_depth : forall low parse P Q bo ro so input bytes rest gi cl,
  valid_build_order bo -> valid_ser_order so -> low_ok low -> parse_ok parse ->
  raw_fits Q low input -> total_grams (map (raw_text low) input) < 2 ^ 32 ->
  index_and_serialize low parse P bo ro so input = Done bytes ->
  deserialize_all Q ngram_index_size (bytes ++ rest) = Done (gi, cl) ->
  forall g nd, gi_roots gi !! g = Some nd -> (node_depth nd <= ngram_index_size)%nat.
Proof. exact file_depth. Qed.
Print Assumptions C99_written_depth.
Example C99_hyps : index_and_serialize ascii_low sample_parse host64 hash_order no_order sample_order sample_raw = Done sample_file /\
  exists gi cl nd, deserialize_all host64 ngram_index_size (sample_file ++ []) = Done (gi, cl) /\ gi_roots gi !! 97 = Some nd /\ node_depth nd = 5%nat.
Proof. exact sample_file_depth. Qed.
