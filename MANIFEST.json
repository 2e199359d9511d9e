{
 "claims": [
  {
   "property": "C01",
   "status": "partial",
   "theorems": [
    "C01_u64_band_behaviour",
    "C01_u64_roundtrip_partial",
    "C01_u64_roundtrip_refuted"
   ],
   "note": "REFUTED: numbers from 2^56 to 2^63-1 swallow the byte after them (or fail at end of input). The partial theorem is the exact characterisation: a number round-trips iff it is outside that band; C01_u64_band_behaviour says what is read instead."
  },
  {
   "property": "C02",
   "status": "proved",
   "theorems": [
    "C02_u64_roundtrip",
    "C02_usize_roundtrip"
   ],
   "note": "For u64, and for usize on any platform whose usize holds the number."
  },
  {
   "property": "C03",
   "status": "proved",
   "theorems": [
    "C03_compact",
    "C03_prefix_free"
   ],
   "note": "Exact length, shape of the bytes, and prefix-freeness."
  },
  {
   "property": "C04",
   "status": "proved",
   "theorems": [
    "C04_decode_safe",
    "C04_fails_iff"
   ],
   "note": "Totality, bounds, and the exact set of failing inputs."
  },
  {
   "property": "C05",
   "status": "partial",
   "theorems": [
    "C05_truncated_partial",
    "C05_truncated_refuted"
   ],
   "note": "REFUTED: a cut integer is usually accepted and read as its low bits. The partial theorem gives the exact result for every cut; only cuts after nine bytes are rejected."
  },
  {
   "property": "C06",
   "status": "proved",
   "theorems": [
    "C06_bool",
    "C06_char",
    "C06_char_scalar",
    "C06_f32",
    "C06_primitives_never_panic",
    "C06_u32",
    "C06_u32_rejects",
    "C06_u8"
   ],
   "note": "NaN payloads are not modelled, so f32 is stated for non-NaN values."
  },
  {
   "property": "C07",
   "status": "proved",
   "theorems": [
    "C07_decoded_string_is_payload",
    "C07_string_roundtrip",
    "C07_utf8"
   ],
   "note": "For strings whose byte length fits (str_ok)."
  },
  {
   "property": "C08",
   "status": "proved",
   "theorems": [
    "C08_string_fails_iff",
    "C08_string_panics_iff",
    "C08_string_succeeds_iff"
   ],
   "note": "Exact characterisations of panic, failure and success."
  },
  {
   "property": "C09",
   "status": "proved",
   "theorems": [
    "C09_truncation",
    "C09_truncation_cut"
   ],
   "note": "C09_truncation_cut pins the result down uniquely."
  },
  {
   "property": "C10",
   "status": "partial",
   "theorems": [
    "C10_nonempty_description_partial",
    "C10_nonempty_description_refuted"
   ],
   "note": "REFUTED: a description of over 100 bytes that starts with the only space within reach is stored empty. The partial theorem says these are exactly the lost descriptions."
  },
  {
   "property": "C11",
   "status": "proved",
   "theorems": [
    "C11_id_list_roundtrip"
   ],
   "note": "For lists whose length and ids fit (len_ok, size_ok)."
  },
  {
   "property": "C12",
   "status": "proved",
   "theorems": [
    "C12_array_roundtrip",
    "C12_map_roundtrip",
    "C12_vec_roundtrip"
   ],
   "note": "For any element codec that round-trips and any hash iteration order."
  },
  {
   "property": "C13",
   "status": "proved",
   "theorems": [
    "C13_first_seen",
    "C13_get_or_insert",
    "C13_vendor_numbering"
   ],
   "note": "Numbering by first appearance through insert and through get_or_insert."
  },
  {
   "property": "C14",
   "status": "proved",
   "theorems": [
    "C14_inserts_ok",
    "C14_vendors_roundtrip"
   ],
   "note": "For any hash order and any table whose names and sizes fit."
  },
  {
   "property": "C15",
   "status": "proved",
   "theorems": [
    "C15_features_roundtrip"
   ],
   "note": "For any hash order; NaN payloads are not modelled."
  },
  {
   "property": "C16",
   "status": "proved",
   "theorems": [
    "C16_catalogue_roundtrip",
    "C16_what_is_stored"
   ],
   "note": "C16_what_is_stored spells out what a loaded catalogue contains."
  },
  {
   "property": "C17",
   "status": "proved",
   "theorems": [
    "C17_gram_index_roundtrip",
    "C17_what_is_stored"
   ],
   "note": "Roots identical, posting lists sorted by position, catalogue as in C16."
  },
  {
   "property": "C18",
   "status": "proved",
   "theorems": [
    "C18_classic_roundtrip",
    "C18_what_is_stored"
   ],
   "note": "Everything but option ids, which are renumbered 0,1,2,... (see C19)."
  },
  {
   "property": "C19",
   "status": "partial",
   "theorems": [
    "C19_catalogue_iff",
    "C19_reload_equal_iff",
    "C19_reload_equal_partial",
    "C19_reload_equal_refuted"
   ],
   "note": "REFUTED: option ids are assigned in order of first appearance over all categories but are renumbered category by category when loaded. C19_reload_equal_iff and C19_catalogue_iff say exactly when the reloaded index is ==."
  },
  {
   "property": "C20",
   "status": "proved",
   "theorems": [
    "C20_any_target",
    "C20_file_roundtrip"
   ],
   "note": "For any reader whose limits hold the sizes in the index; trailing bytes are ignored."
  },
  {
   "property": "C21",
   "status": "proved",
   "theorems": [
    "C21_load_consistent",
    "C21_load_terminates"
   ],
   "note": "No ascending order is claimed, see C74."
  },
  {
   "property": "C22",
   "status": "partial",
   "theorems": [
    "C22_load_no_panic_partial",
    "C22_load_no_panic_refuted"
   ],
   "note": "REFUTED: three bytes make the loader panic. The partial theorem covers written files followed by anything; C121 says exactly which bytes make the loader panic, and why."
  },
  {
   "property": "C23",
   "status": "proved",
   "theorems": [
    "C23_other_gram_size"
   ],
   "note": "It panics (assert in the array reader)."
  },
  {
   "property": "C68",
   "status": "proved",
   "theorems": [
    "C68_numeric_id",
    "C68_trailing_run_unique"
   ],
   "note": "Exact to 19 digits; wraps in release, panics with overflow checks beyond."
  },
  {
   "property": "C69",
   "status": "partial",
   "theorems": [
    "C69_product_eq_means",
    "C69_product_eq_partial",
    "C69_product_eq_transitive_refuted"
   ],
   "note": "REFUTED: not transitive. Reflexive and symmetric, and the exact meaning of == is proved."
  },
  {
   "property": "C70",
   "status": "proved",
   "theorems": [
    "C70_padded_gram"
   ],
   "note": "For gram sizes of at least 1."
  },
  {
   "property": "C74",
   "status": "partial",
   "theorems": [
    "C74_any_numbers",
    "C74_exactly",
    "C74_loaded_lists_ascend_partial",
    "C74_loaded_lists_ascend_refuted"
   ],
   "note": "REFUTED in release builds (wrap-around of stored differences); proved for builds with overflow checks. C74_exactly says when it holds without them: when the stored differences add up to less than a word; C74_any_numbers says what is read otherwise."
  },
  {
   "property": "C24",
   "status": "proved",
   "theorems": [
    "C24_index_total",
    "C24_trie_factors"
   ],
   "note": "For texts of fewer than 2^32 grams in total. The text of a product is the feed given to the indexer; optimize's feeds are treated under C71 and C73."
  },
  {
   "property": "C25",
   "status": "proved",
   "theorems": [
    "C25_weights"
   ],
   "note": "Exact f32 quotient, and in (0,1]."
  },
  {
   "property": "C26",
   "status": "proved",
   "theorems": [
    "C26_children",
    "C26_most_popular_chain"
   ],
   "note": "Also: the chain is empty exactly for grams in no text."
  },
  {
   "property": "C27",
   "status": "proved",
   "theorems": [
    "C27_owners",
    "C27_posting_lists"
   ],
   "note": "For catalogues of any size below 2^64; the cut-off is that of C28."
  },
  {
   "property": "C28",
   "status": "proved",
   "theorems": [
    "C28_cutoff",
    "C28_cutoff_above",
    "C28_cutoff_near"
   ],
   "note": "Exact up to 5,242,880; C28_cutoff_above shows that bound is sharp, and C28_cutoff_near bounds the error beyond."
  },
  {
   "property": "C29",
   "status": "partial",
   "theorems": [
    "C29_exactly",
    "C29_window_kept_partial",
    "C29_window_kept_refuted"
   ],
   "note": "REFUTED: occurrences are counted, not products, so a window repeated in one product's text is dropped. The partial theorem: kept when no product repeats it."
  },
  {
   "property": "C30",
   "status": "partial",
   "theorems": [
    "C30_small_catalogue_refuted"
   ],
   "note": "REFUTED, for every such catalogue and every query: the cut-off is 0 or 1, so no posting list is kept."
  },
  {
   "property": "C31",
   "status": "proved",
   "theorems": [
    "C31_chosen_gram_occurs",
    "C31_result_has_gram",
    "C31_search_total"
   ],
   "note": "For gram sizes up to 764 (the cost counter is a u8), also that search never panics. Windows padded with NUL can be chosen only when a text contains NUL or is shorter than a window."
  },
  {
   "property": "C32",
   "status": "proved",
   "theorems": [
    "C32_bounded_edits",
    "C32_one_correction"
   ],
   "note": "For any index, not only built ones."
  },
  {
   "property": "C33",
   "status": "proved",
   "theorems": [
    "C33_best_of_inserted",
    "C33_best_of_replaced",
    "C33_occurring_window"
   ],
   "note": "Also for near matches: no gram within n/3 substitutions, or one insertion, is more confident than the chosen one."
  },
  {
   "property": "C34",
   "status": "partial",
   "theorems": [
    "C34_exact_found_partial",
    "C34_exact_found_refuted"
   ],
   "note": "REFUTED: a likelier similar word is chosen instead of the exact one. The partial theorem: found when every correction of the window is less confident."
  },
  {
   "property": "C35",
   "status": "proved",
   "theorems": [
    "C35_short_query"
   ],
   "note": ""
  },
  {
   "property": "C36",
   "status": "proved",
   "theorems": [
    "C36_skip_branch_dead"
   ],
   "note": "For any index and gram sizes up to 5."
  },
  {
   "property": "C37",
   "status": "proved",
   "theorems": [
    "C37_results_ranked"
   ],
   "note": ""
  },
  {
   "property": "C38",
   "status": "proved",
   "theorems": [
    "C38_confidence_is_sum"
   ],
   "note": "For any index."
  },
  {
   "property": "C39",
   "status": "proved",
   "theorems": [
    "C39_chosen_confidence",
    "C39_total_confidence"
   ],
   "note": ""
  },
  {
   "property": "C40",
   "status": "proved",
   "theorems": [
    "C40_same_order",
    "C40_same_places",
    "C40_same_results"
   ],
   "note": "For any index; the statement about requested orders is C46."
  },
  {
   "property": "C41",
   "status": "partial",
   "theorems": [
    "C41_builds_agree_refuted",
    "C41_confidences_agree_partial",
    "C41_exactly_partial",
    "C41_paths_agree_partial",
    "C41_postings_agree_partial"
   ],
   "note": "REFUTED: children of equal weight keep hash order and the first one wins. The partial theorems: posting lists, paths, weights, and confidences of chosen grams agree, and C41_exactly_partial says exactly when the whole index is the same for every hash order: when no two different grams follow a sequence equally often, as far as rounded shares tell."
  },
  {
   "property": "C42",
   "status": "partial",
   "theorems": [
    "C42_exactly",
    "C42_not_merged_partial",
    "C42_not_merged_refuted"
   ],
   "note": "REFUTED when two products share an id. The partial theorem covers distinct ids."
  },
  {
   "property": "C43",
   "status": "proved",
   "theorems": [
    "C43_permutations",
    "C43_ranks"
   ],
   "note": "For any key and total comparator; the tables of a built catalogue are permutations whatever the prices."
  },
  {
   "property": "C44",
   "status": "proved",
   "theorems": [
    "C44_orders"
   ],
   "note": "Titles by code point (valid strings); prices when none is NaN. Sorting is modelled as a stable sort."
  },
  {
   "property": "C45",
   "status": "partial",
   "theorems": [
    "C45_prices_partial",
    "C45_prices_refuted"
   ],
   "note": "REFUTED: prices 2, NaN, 1 keep catalogue order, since a NaN compares equal to everything. The partial theorem: sorted when no price is NaN."
  },
  {
   "property": "C58",
   "status": "proved",
   "theorems": [
    "C58_exact",
    "C58_price"
   ],
   "note": "Before and after storing and loading; the f64 reported is the same number as the f32."
  },
  {
   "property": "C59",
   "status": "partial",
   "theorems": [
    "C59_image_partial",
    "C59_image_refuted",
    "C59_image_reported"
   ],
   "note": "REFUTED: a product without images shifts the image column. What is reported is characterised exactly; the claim holds for the products before the first one without an image."
  },
  {
   "property": "C71",
   "status": "proved",
   "theorems": [
    "C71_products"
   ],
   "note": ""
  },
  {
   "property": "C72",
   "status": "proved",
   "theorems": [
    "C72_file",
    "C72_optimize"
   ],
   "note": "For gram sizes 1 to 764 and fewer than 2^32 grams; the code uses 5."
  },
  {
   "property": "C75",
   "status": "proved",
   "theorems": [
    "C75_categories"
   ],
   "note": ""
  },
  {
   "property": "C76",
   "status": "proved",
   "theorems": [
    "C76_tags"
   ],
   "note": "A product that mentions a tag twice is listed twice."
  },
  {
   "property": "C47",
   "status": "proved",
   "theorems": [
    "C47_category_filter"
   ],
   "note": "For every history of handler calls on a handle of a built or loaded index."
  },
  {
   "property": "C48",
   "status": "proved",
   "theorems": [
    "C48_tag_filter"
   ],
   "note": "For every history of handler calls on a handle of a built or loaded index."
  },
  {
   "property": "C49",
   "status": "proved",
   "theorems": [
    "C49_exact_floats",
    "C49_exact_integers",
    "C49_range"
   ],
   "note": "Bounds may be any JavaScript values, infinities and NaN included; widening to f64 is shown exact."
  },
  {
   "property": "C50",
   "status": "partial",
   "theorems": [
    "C50_exact_ignored",
    "C50_exact_partial",
    "C50_exact_refuted",
    "C50_made"
   ],
   "note": "REFUTED: a plain object {exact: v} parses as a range without bounds, so it keeps every product. Proved: an exact filter, once made, selects by equality; parsing makes one only if reading from or to throws."
  },
  {
   "property": "C53",
   "status": "proved",
   "theorems": [
    "C53_options",
    "C53_options_from",
    "C53_tags",
    "C53_tags_run"
   ],
   "note": "For every history; for tags the handles must lead to tags of a numbered list, as those from iterators do (C56)."
  },
  {
   "property": "C54",
   "status": "proved",
   "theorems": [
    "C54_option_calls",
    "C54_tag_calls"
   ],
   "note": "The order among the observers of one option is registration order as long as none was removed."
  },
  {
   "property": "C55",
   "status": "proved",
   "theorems": [
    "C55_option_listener",
    "C55_tag_listener"
   ],
   "note": "Category and tag handlers."
  },
  {
   "property": "C56",
   "status": "proved",
   "theorems": [
    "C56_categories",
    "C56_option_keys",
    "C56_options",
    "C56_tag_keys",
    "C56_tags"
   ],
   "note": "For any number of calls."
  },
  {
   "property": "C60",
   "status": "proved",
   "theorems": [
    "C60_numeric",
    "C60_string"
   ],
   "note": ""
  },
  {
   "property": "C46",
   "status": "proved",
   "theorems": [
    "C46_orders",
    "C46_rearranged",
    "C46_unknown"
   ],
   "note": "The tables are those of any loaded index that cover the catalogue; C46_orders: built ones do."
  },
  {
   "property": "C51",
   "status": "proved",
   "theorems": [
    "C51_exactly",
    "C51_in_order",
    "C51_malformed",
    "C51_search"
   ],
   "note": "P_js.v: parsing; P_lib.v: search."
  },
  {
   "property": "C52",
   "status": "proved",
   "theorems": [
    "C52_delivered",
    "C52_exactly_those"
   ],
   "note": ""
  },
  {
   "property": "C57",
   "status": "proved",
   "theorems": [
    "C57_results",
    "C57_search"
   ],
   "note": "After every history of initialize and search calls."
  },
  {
   "property": "C61",
   "status": "proved",
   "theorems": [
    "C61_nothing_before"
   ],
   "note": ""
  },
  {
   "property": "C62",
   "status": "proved",
   "theorems": [
    "C62_failed_load"
   ],
   "note": "The state, on which all answers depend, is the same."
  },
  {
   "property": "C63",
   "status": "proved",
   "theorems": [
    "C63_last_load"
   ],
   "note": "A search that panicked (C77) makes later calls fail instead."
  },
  {
   "property": "C64",
   "status": "partial",
   "theorems": [
    "C64_exactly",
    "C64_old_handler_partial",
    "C64_old_handler_refuted"
   ],
   "note": "REFUTED: a handler filters by the positions its own index lists, so after loading another file it keeps wrong products. Proved: it behaves as a fresh one if the active options and tags list the same positions. C64_exactly says when it does: when both let the same of the found products pass."
  },
  {
   "property": "C65",
   "status": "partial",
   "theorems": [
    "C65_between_stores_refuted",
    "C65_for_good_refuted",
    "C65_one_loader_partial"
   ],
   "note": "REFUTED: a search between the two stores sees two files; two concurrent loads mix two files for good. Proved: with one loading thread a search is at most one file behind."
  },
  {
   "property": "C66",
   "status": "proved",
   "theorems": [
    "C66_exact",
    "C66_keywords",
    "C66_rounded"
   ],
   "note": "With f32 overlaps for all inputs; with exact fractions when no pair has two strings of 4096 bytes or more."
  },
  {
   "property": "C67",
   "status": "partial",
   "theorems": [
    "C67_ascii_partial",
    "C67_name_partial",
    "C67_name_refuted"
   ],
   "note": "REFUTED: lengths are counted in bytes but agreements in chars, so non-ASCII names are not suggested. Proved: names of 3 bytes or more with fewer than five bytes for every four chars, ASCII ones in particular."
  },
  {
   "property": "C77",
   "status": "proved",
   "theorems": [
    "C77_no_panic",
    "C77_panic_is_final"
   ],
   "note": ""
  },
  {
   "property": "C78",
   "status": "proved",
   "theorems": [
    "C78_ends",
    "C78_no_deadlock",
    "C78_threads_end",
    "C78_threads_no_deadlock"
   ],
   "note": ""
  },
  {
   "property": "C73",
   "status": "proved",
   "theorems": [
    "C73_delivered",
    "C73_loads"
   ],
   "note": "C73_loads: the file of any catalogue whose prices parse and whose sizes fit the loading platform (raw_fits; texts of fewer than 2^32 chars) loads on it, whatever the platform it was built on and all hash orders. C73_delivered: every product delivered by a search with handlers of that file carries the raw product's title, id, vendor, price and shortened description, has all active options and tags, and its text has a piece that is, up to one correction, a piece of the query."
  },
  {
   "property": "C79",
   "status": "proved",
   "theorems": [
    "C79_found"
   ],
   "note": "The converse of C73: products are found when a piece of the query is distinctive. The conditions are those of C27 (kept posting lists) and C34 (no likelier similar piece), stated on the raw texts."
  },
  {
   "property": "C80",
   "status": "proved",
   "theorems": [
    "C80_reads_json",
    "C80_unambiguous"
   ],
   "note": ""
  },
  {
   "property": "C81",
   "status": "partial",
   "theorems": [
    "C81_accepts_refuted",
    "C81_determined",
    "C81_rejects",
    "C81_rejects_escapes",
    "C81_special",
    "C81_writable"
   ],
   "note": "REFUTED: C81_accepts_refuted, and C81_rejects_escapes for every such catalogue. Proved instead: exactly which texts are accepted (C81_rejects, C82_survivors) and which catalogues have one (C81_writable)."
  },
  {
   "property": "C82",
   "status": "partial",
   "theorems": [
    "C82_complete_refuted",
    "C82_distinct",
    "C82_survivors"
   ],
   "note": "REFUTED for repeated keys. Proved: exactly the last entry of every key is indexed; all are if the keys differ."
  },
  {
   "property": "C83",
   "status": "partial",
   "theorems": [
    "C83_main",
    "C83_main_other",
    "C83_no_panic_refuted",
    "C83_outcome"
   ],
   "note": "REFUTED: unreadable prices panic. Proved: the exact outcome for every text."
  },
  {
   "property": "C84",
   "status": "partial",
   "theorems": [
    "C84_same_file_refuted",
    "C84_same_products"
   ],
   "note": "REFUTED: products are numbered in map order. Proved: the same products are indexed."
  },
  {
   "property": "C85",
   "status": "proved",
   "theorems": [
    "C85_delivered"
   ],
   "note": "For texts whose strings and counts fit the loading platform."
  },
  {
   "property": "C86",
   "status": "proved",
   "theorems": [
    "C86_accepts",
    "C86_index",
    "C86_infinity",
    "C86_monotone",
    "C86_nan",
    "C86_nearest",
    "C86_optimize",
    "C86_unambiguous",
    "C86_valid"
   ],
   "note": "C86_nearest: for texts of fewer than 65000 chars (longer ones can make the saturating exponent matter)."
  },
  {
   "property": "C87",
   "status": "partial",
   "theorems": [
    "C87_close_partial",
    "C87_nearest_cent",
    "C87_same_number_refuted",
    "C87_whole"
   ],
   "note": "REFUTED: 19.99 is reported as a smaller number. Proved: within 1/256 up to 131072.00 in whole cents, which determines the cents; exact for whole numbers below 2^24."
  },
  {
   "property": "C88",
   "status": "partial",
   "theorems": [
    "C88_cents_partial",
    "C88_cents_refuted"
   ],
   "note": "REFUTED: prices one cent apart can be the same f32 above 131072.00. Proved: the orders are those of the cents up to there."
  },
  {
   "property": "C89",
   "status": "partial",
   "theorems": [
    "C89_bound_refuted",
    "C89_drops_partial",
    "C89_exact",
    "C89_keeps_partial"
   ],
   "note": "REFUTED: a product of price 19.99 fails the filter from 19.99. Proved: exact if the price is an f32, and for bounds 1/256 away from prices in whole cents up to 131072.00."
  },
  {
   "property": "C90",
   "status": "proved",
   "theorems": [
    "C90_call_throws",
    "C90_observers_run_inside",
    "C90_search_throws",
    "C90_unchanged"
   ],
   "note": "The borrow cells are those of wasm-bindgen 0.2.80."
  },
  {
   "property": "C91",
   "status": "proved",
   "theorems": [
    "C91_accounted",
    "C91_asked",
    "C91_status"
   ],
   "note": ""
  },
  {
   "property": "C92",
   "status": "partial",
   "theorems": [
    "C92_depth",
    "C92_ends_partial",
    "C92_ends_refuted",
    "C92_fuel"
   ],
   "note": "REFUTED by an observer that makes a new handler each time. Proved: if observers make no handlers, every page ends, nested at most as deep as there are idle handlers."
  },
  {
   "property": "C93",
   "status": "partial",
   "theorems": [
    "C93_usable_partial",
    "C93_usable_refuted"
   ],
   "note": "REFUTED: a search from a tag observer leaves the category handler locked for good. Proved: all handlers are idle again if observers do not search and no search panics."
  },
  {
   "property": "C94",
   "status": "partial",
   "theorems": [
    "C94_all_tried_partial",
    "C94_five_refuted"
   ],
   "note": "REFUTED: in an index with six second grams the sixth is chosen. Proved: there are more calls than the first gram has children, as all of them are tried."
  },
  {
   "property": "C95",
   "status": "proved",
   "theorems": [
    "C95_calls",
    "C95_depth",
    "C95_query_calls",
    "C95_same_value"
   ],
   "note": "Counts the calls of recursive_search in a copy of it proved to return the same (C95_same_value)."
  },
  {
   "property": "C96",
   "status": "proved",
   "theorems": [
    "C96_node_bound",
    "C96_nodes",
    "C96_posting_bound"
   ],
   "note": ""
  },
  {
   "property": "C97",
   "status": "proved",
   "theorems": [
    "C97_product_order_matters",
    "C97_same_length"
   ],
   "note": "C97_product_order_matters shows that the claim does not extend to permuted products."
  },
  {
   "property": "C98",
   "status": "proved",
   "theorems": [
    "C98_file_size"
   ],
   "note": ""
  },
  {
   "property": "C99",
   "status": "partial",
   "theorems": [
    "C99_depth_partial",
    "C99_depth_refuted",
    "C99_written_depth"
   ],
   "note": "REFUTED: C99_depth_refuted gives files of every depth. Proved: depth linear in the length for all files, at most the gram size for files the indexer wrote."
  },
  {
   "property": "C100",
   "status": "partial",
   "theorems": [
    "C100_index_equal_iff",
    "C100_round_trip_test_partial",
    "C100_round_trip_test_refuted"
   ],
   "note": "REFUTED: C100_round_trip_test_refuted. The partial theorem is exact: the test passes if and only if all prices are numbers, values first appear category by category, and no description is cut to nothing; otherwise it panics."
  },
  {
   "property": "C101",
   "status": "proved",
   "theorems": [
    "C101_around",
    "C101_confidence",
    "C101_prefix",
    "C101_search"
   ],
   "note": ""
  },
  {
   "property": "C102",
   "status": "proved",
   "theorems": [
    "C102_contents",
    "C102_explained",
    "C102_linearizable",
    "C102_one_thread"
   ],
   "note": ""
  },
  {
   "property": "C103",
   "status": "partial",
   "theorems": [
    "C103_for_good",
    "C103_indexed_size",
    "C103_race_refuted",
    "C103_same_size_partial",
    "C103_unordered_partial"
   ],
   "note": "REFUTED: C103_race_refuted: a search by an order between the two stores of an initialize that replaces a catalogue by a larger one indexes past the old rank table, panics with both guards held and poisons both mutexes; C103_for_good: every later call fails. Proved: it cannot happen if all files have the same number of products (which the indexer's files of such catalogues do), nor if no search asks for an order."
  },
  {
   "property": "C104",
   "status": "proved",
   "theorems": [
    "C104_file",
    "C104_index_from",
    "C104_text",
    "C104_zero"
   ],
   "note": ""
  },
  {
   "property": "C105",
   "status": "proved",
   "theorems": [
    "C105_freeze",
    "C105_load",
    "C105_stable",
    "C105_unique"
   ],
   "note": ""
  },
  {
   "property": "C106",
   "status": "partial",
   "theorems": [
    "C106_any_file",
    "C106_never_shrinks",
    "C106_reload_partial",
    "C106_reload_refuted"
   ],
   "note": "REFUTED: C106_reload_refuted: nothing in the arenas is ever freed. The partial theorem is exact: k loads of a written file hold k times the nodes of its trie and 2k boxes; C106_any_file bounds it from below for arbitrary bytes."
  },
  {
   "property": "C107",
   "status": "proved",
   "theorems": [
    "C107_delivered",
    "C107_search"
   ],
   "note": "The condition that nothing ties is in the statement; C41 shows that it cannot be dropped."
  },
  {
   "property": "C108",
   "status": "proved",
   "theorems": [
    "C108_case",
    "C108_query"
   ],
   "note": "C108_case inherits the condition that nothing ties; C108_query needs none."
  },
  {
   "property": "C109",
   "status": "partial",
   "theorems": [
    "C109_joined_partial",
    "C109_within_field_refuted"
   ],
   "note": "REFUTED: C109_within_field_refuted: description, title and vendor are indexed as one text without separators, so the end of a title and the start of a vendor name match together. C109_joined_partial: delivery depends on nothing but ids, options, tags and the joined text (without ties); C73 says how a delivered product's joined text matches."
  },
  {
   "property": "C110",
   "status": "proved",
   "theorems": [
    "C110_choice"
   ],
   "note": "Gram sizes up to five; the code uses five. Ties are left open in C110_choice's first part, as C41 demands."
  },
  {
   "property": "C111",
   "status": "proved",
   "theorems": [
    "C111_search"
   ],
   "note": "For windows of up to 5 grams; C119 covers up to 764. The limit is the cut-off of C28."
  },
  {
   "property": "C112",
   "status": "proved",
   "theorems": [
    "C112_answer"
   ],
   "note": "Without feature filters; those are C49, C50 and C89."
  },
  {
   "property": "C113",
   "status": "partial",
   "theorems": [
    "C113_cut_partial",
    "C113_cut_refuted",
    "C113_few",
    "C113_multiples"
   ],
   "note": "REFUTED: C113_cut_refuted: numbers may end with the input, so a file of 128 products that lost its last 129 bytes is accepted and panics on the first search by price. C113_cut_partial says exactly which cut files are accepted and as what; C113_few: with fewer than 128 products none is; C113_multiples: with 128, 256, ... products one always is."
  },
  {
   "property": "C114",
   "status": "proved",
   "theorems": [
    "C114_no_prefix",
    "C114_unique"
   ],
   "note": ""
  },
  {
   "property": "C115",
   "status": "proved",
   "theorems": [
    "C115_again"
   ],
   "note": ""
  },
  {
   "property": "C116",
   "status": "proved",
   "theorems": [
    "C116_sorted"
   ],
   "note": ""
  },
  {
   "property": "C117",
   "status": "proved",
   "theorems": [
    "C117_filtered"
   ],
   "note": ""
  },
  {
   "property": "C118",
   "status": "proved",
   "theorems": [
    "C118_determined",
    "C118_no_panic",
    "C118_other_size",
    "C118_reads",
    "C118_roundtrip",
    "C118_writes"
   ],
   "note": ""
  },
  {
   "property": "C119",
   "status": "proved",
   "theorems": [
    "C119_choice",
    "C119_search"
   ],
   "note": "The readings of Reading_spec.v are stated on the texts alone; beyond 764 the 8-bit change counter may overflow."
  },
  {
   "property": "C120",
   "status": "partial",
   "theorems": [
    "C120_likelihood_partial",
    "C120_likelihood_refuted"
   ],
   "note": "REFUTED for windows of six or more: the branch that gives up the last gram keeps the weight of the gram given up and leaves out that of its replacement. Holds up to windows of five, the size the library uses."
  },
  {
   "property": "C121",
   "status": "proved",
   "theorems": [
    "C121_causes",
    "C121_fate",
    "C121_number",
    "C121_one_fate"
   ],
   "note": "Numbers, texts and the whole file; by C121_causes the reason for a panic is in the file."
  },
  {
   "property": "C122",
   "status": "proved",
   "theorems": [
    "C122_any",
    "C122_numbers",
    "C122_others",
    "C122_slices"
   ],
   "note": "The four tests as they are: Example C122_tests; the benchmarks' queries: C122_benches."
  },
  {
   "property": "C123",
   "status": "partial",
   "theorems": [
    "C123_catalogue",
    "C123_orders",
    "C123_product_amount_refuted",
    "C123_rows",
    "C123_table"
   ],
   "note": "REFUTED that product_amount is a number of products (C123_product_amount_refuted). Proved: it is a number of occurrences (C123_catalogue), and everything else said of the table."
  },
  {
   "property": "C124",
   "status": "proved",
   "theorems": [
    "C124_answered",
    "C124_filtered",
    "C124_sorted"
   ],
   "note": "C112, C116 and C117 for texts, with the model of str::parse::<f32>; prices beyond 131072.00 are C88's business."
  },
  {
   "property": "C125",
   "status": "proved",
   "theorems": [
    "C125_any_handlers",
    "C125_may",
    "C125_must",
    "C125_ordered",
    "C125_plain"
   ],
   "note": "Exact conditions; C77 says what a panic leads to, C113 which files have short tables."
  },
  {
   "property": "C126",
   "status": "proved",
   "theorems": [
    "C126_arrives",
    "C126_back_and_there",
    "C126_equal",
    "C126_same",
    "C126_shown",
    "C126_there_and_back"
   ],
   "note": "model/Border.v models the generated wasm-bindgen glue for strings (TextEncoder, TextDecoder)."
  },
  {
   "property": "C127",
   "status": "partial",
   "theorems": [
    "C127_crowded_refuted",
    "C127_delivered_partial",
    "C127_likelier_refuted",
    "C127_strangers_partial"
   ],
   "note": "REFUTED as expected (C127_crowded_refuted, C127_likelier_refuted). Proved instead: products without any of the query's first chars hide nothing, up to what is delivered. Proofs use Flocq's rounding lemmas (standard library axioms of the reals)."
  },
  {
   "property": "C128",
   "status": "proved",
   "theorems": [
    "C128_chosen",
    "C128_usable"
   ],
   "note": "For all loaded bytes (C128_usable) and for files of catalogues (C128_chosen)."
  },
  {
   "property": "C129",
   "status": "partial",
   "theorems": [
    "C129_beginning",
    "C129_own_name_partial",
    "C129_own_name_refuted"
   ],
   "note": "REFUTED as expected (C129_own_name_refuted). Proved instead: exactly when a tag's own name suggests it (C129_own_name_partial) and what the beginning of a name suggests."
  },
  {
   "property": "C130",
   "status": "partial",
   "theorems": [
    "C130_all_products",
    "C130_nodes_partial",
    "C130_nodes_refuted",
    "C130_products_partial",
    "C130_products_refuted"
   ],
   "note": "REFUTED as expected (C130_products_refuted, C130_nodes_refuted). Proved instead: the contracts hold among the products of one catalogue, and exactly when they hold among nodes."
  },
  {
   "property": "C131",
   "status": "partial",
   "theorems": [
    "C131_again",
    "C131_amounts_partial",
    "C131_by_ngram",
    "C131_finish",
    "C131_lengths_partial",
    "C131_names_refuted",
    "C131_pr_product",
    "C131_text",
    "C131_timed"
   ],
   "note": "REFUTED as expected (C131_names_refuted). Proved instead: exactly which names are right, that all benchmarks and tables finish, and what each row says and what the timed searches find."
  },
  {
   "property": "C132",
   "status": "proved",
   "theorems": [
    "C132_larger",
    "C132_same",
    "C132_size"
   ],
   "note": ""
  },
  {
   "property": "C133",
   "status": "partial",
   "theorems": [
    "C133_growth_partial",
    "C133_growth_refuted"
   ],
   "note": "REFUTED as expected (C133_growth_refuted). Proved instead: the file grows by at least a byte for each added product if every window that was listed stays listed."
  },
  {
   "property": "C134",
   "status": "proved",
   "theorems": [
    "C134_delivered",
    "C134_found"
   ],
   "note": ""
  },
  {
   "property": "C135",
   "status": "partial",
   "theorems": [
    "C135_noticed_partial",
    "C135_noticed_refuted"
   ],
   "note": "REFUTED as expected, for every catalogue with an ASCII char in a title (C135_noticed_refuted). Proved instead: what exactly is different afterwards, and that bytes of 128 and above are noticed."
  },
  {
   "property": "C136",
   "status": "proved",
   "theorems": [
    "C136_categories",
    "C136_classic",
    "C136_container",
    "C136_empty",
    "C136_exact",
    "C136_key",
    "C136_keys",
    "C136_nodes",
    "C136_parsed",
    "C136_range",
    "C136_ranker",
    "C136_shown",
    "C136_tags"
   ],
   "note": ""
  },
  {
   "property": "C137",
   "status": "partial",
   "theorems": [
    "C137_alike",
    "C137_bounded",
    "C137_delivered",
    "C137_longer",
    "C137_more_partial",
    "C137_typed_first_refuted"
   ],
   "note": "REFUTED as expected (C137_typed_first_refuted): a text that repeats part of the query comes before the text that is the query. Proved instead: when a product comes no later than another, equal confidences for equal texts, and bounds of confidences."
  },
  {
   "property": "C138",
   "status": "partial",
   "theorems": [
    "C138_noticed_partial",
    "C138_noticed_refuted"
   ],
   "note": "REFUTED as expected, for every price of every catalogue (C138_noticed_refuted): any four bytes are accepted, the new price is reported, and searches by price keep the old order. Proved instead: nothing but that price is different."
  },
  {
   "property": "C139",
   "status": "proved",
   "theorems": [
    "C139_safe",
    "C139_same",
    "C139_same_match"
   ],
   "note": "C139_same ties the search of Gram.v, where the counter is unbounded and accesses are total, to model/Machine.v, where they are not."
  },
  {
   "property": "C140",
   "status": "proved",
   "theorems": [
    "C140_cut",
    "C140_read",
    "C140_write"
   ],
   "note": "Ties the codec of Prim.v and Coll.v, where shifts and slices are total, to model/Words.v, where they are not."
  },
  {
   "property": "C141",
   "status": "proved",
   "theorems": [
    "C141_alone",
    "C141_counted",
    "C141_freed",
    "C141_in_use",
    "C141_released",
    "C141_shares"
   ],
   "note": "A page is any sequence of events; what methods compute is left out of model/Objects.v."
  },
  {
   "property": "C142",
   "status": "partial",
   "theorems": [
    "C142_others_usable_partial",
    "C142_others_usable_refuted",
    "C142_search_refuted",
    "C142_status_refuted",
    "C142_trap_refuted"
   ],
   "note": "REFUTED: toggling a freed option leaves its handler borrowed, so that every later call of the handler throws; the status of a freed option and a search with a freed tag handler do the same to later changes. What holds: an object stays usable unless a call that needed it went wrong."
  },
  {
   "property": "C143",
   "status": "proved",
   "theorems": [
    "C143_bytes",
    "C143_layout"
   ],
   "note": "Both directions: every written file has the layout, and every file with the layout is written for some hash order."
  },
  {
   "property": "C144",
   "status": "partial",
   "theorems": [
    "C144_ends",
    "C144_few",
    "C144_history",
    "C144_left_partial",
    "C144_ok",
    "C144_ok_iff",
    "C144_others",
    "C144_panic",
    "C144_whole_refuted"
   ],
   "note": "REFUTED: std::fs::write empties the old index first, so a failed run loses it, and with 128 products or more the cut file can be accepted by initialize with an empty order (C144_whole_refuted). The rest holds; C144_left_partial says exactly what a failed run leaves, and C144_few that below 128 products a cut file makes initialize panic."
  },
  {
   "property": "C145",
   "status": "partial",
   "theorems": [
    "C145_pieces",
    "C145_same",
    "C145_search",
    "C145_words_partial",
    "C145_words_refuted",
    "C145_words_search"
   ],
   "note": "REFUTED for the order of words (C145_words_refuted). Proved: a query finds exactly what its pieces find (C145_pieces), and words in another order find the same but for pieces with a space (C145_words_partial, C145_words_search)."
  },
  {
   "property": "C146",
   "status": "partial",
   "theorems": [
    "C146_capped",
    "C146_number",
    "C146_reserved_partial",
    "C146_reserved_refuted"
   ],
   "note": "REFUTED for files that are refused in the end (C146_reserved_refuted, C146_number). Proved for every file that loads (C146_reserved_partial); the refused requests are the only difference (C146_capped)."
  },
  {
   "property": "C147",
   "status": "proved",
   "theorems": [
    "C147_empty",
    "C147_held",
    "C147_shortest",
    "C147_two"
   ],
   "note": "For any bytes that load; the bound is reached. The files of at most 8 bytes that load are listed."
  },
  {
   "property": "C148",
   "status": "proved",
   "theorems": [
    "C148_chosen",
    "C148_options",
    "C148_tags",
    "C148_undone"
   ],
   "note": "For handlers whose active options and tags exist in the index (as in all that a page can reach); the same ranking of equal scores is assumed on both sides."
  },
  {
   "property": "C149",
   "status": "partial",
   "theorems": [
    "C149_both",
    "C149_exclusive_partial",
    "C149_exclusive_refuted"
   ],
   "note": "REFUTED for files that mark a category (C149_exclusive_refuted, C149_both). Proved for every index that was built by the indexer, loaded or not: none has such a category (C149_exclusive_partial)."
  },
  {
   "property": "C150",
   "status": "proved",
   "theorems": [
    "C150_meets",
    "C150_narrows"
   ],
   "note": "For any two searches that give results, on any state; that searches give results is C77 and C125."
  }
 ]
}