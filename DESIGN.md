# Design of the formal model of JoakimLevorsen/algolia-index

## What is modelled

The whole Rust crate except the wasm glue is modelled as executable Gallina
functions under `rocq/theories/model/`, one definition per Rust function, each with a comment
citing file and lines.

| file | Rust source |
| --- | --- |
| `model/Base.v` | result type (`Done`/`Nope`=`None`/`Panic`/`Stuck`=model fuel), loops, platform (word size, capacity limits, overflow checks), stable sort |
| `model/F32.v` | `f32`/`f64` arithmetic as the standard library's executable IEEE-754 `SpecFloat` (binary32, binary64) |
| `model/Utf8.v` | Rust `String`/`str` as lists of Unicode scalar values with the UTF-8 codec |
| `model/Prim.v` | `serialize/primitives.rs` |
| `model/Coll.v` | `serialize/collections.rs`, `serialize/sequential_array.rs` |
| `model/Data.v` | `data/vendor.rs`, `data/features.rs`, `data/product.rs`, `data/container.rs` |
| `model/Gram.v` | `ngram/index.rs` (types, search), `ngram/result_ranker.rs` |
| `model/Machine.v` | the search of `ngram/index.rs` again, with its 8-bit counter and checked array accesses; C139 shows that it is the search of `model/Gram.v` |
| `model/Words.v` | src/serialize/primitives.rs (`u64`), src/serialize/collections.rs (`limit_string_len`) again, with machine words and checked slices |
| `model/Indexer.v` | `ngram/indexer.rs` (shared mutable nodes as a heap of addresses) |
| `model/Nodes.v` | `serialize/nodes.rs` |
| `model/Classic.v` | `classic_indexes/*.rs` |
| `model/Raw.v` | `data/raw_parser.rs` |
| `model/Js.v` | `js_interactable/*.rs` |
| `model/Lit.v` | the string literals of the crate |
| `model/Lib.v` | `lib.rs`, `serialize/all_indexes.rs` |
| `model/Json.v` | `lib.rs`: `index`, `main.rs`: `main`, and what `serde_json::from_str` and the derived `Deserialize` impls of `data/raw_parser.rs` do |
| `model/Serde_array.v` | `serde_array.rs` (compiled but unused), with `serde_json` as the format |
| `model/Parse.v` | what `str::parse::<f32>` (core::num::dec2flt), used by `data/raw_parser.rs`, does |
| `model/Page.v` | what `#[wasm_bindgen]` adds to the methods of `lib.rs` and `js_interactable/*.rs`: borrow cells, exceptions, observers that call back |
| `model/Equal.v` | derived `PartialEq` of `index.rs`, `container.rs`, `features.rs`, `vendor.rs`; the round-trip test of `serialize/mod.rs` |
| `model/Tests.v` | the unit tests of `serialize/primitives.rs` and `serialize/collections.rs`, the statistics of `ngram/index.rs`, the queries of `benches/searching/by_query_len.rs` |
| `model/Objects.v` | what `#[wasm_bindgen]` does with all exported objects: borrows, null pointers, `free`, and who shares an `Arc<ClassicIndexes>` |
| `model/Disk.v` | `main.rs`: `main` with the files it reads and writes, and failures of `std::fs::read_to_string` and `std::fs::write` |
| `model/Border.v` | what `#[wasm_bindgen]` does to the strings that the exported functions take and return |
| `model/Access.v` | the remaining accessors and constructors of `data`, `classic`, `ngram` and `js_interactable` |
| `model/Bench.v` | `benches/`, `tests/` and the tests of `ngram/index.rs` that build an index; without times |
| `model/Conc.v` | `lib.rs`: `initialize` and `search` of several threads, one step per lock operation |
| `model/Threads.v` | `lib.rs`: all entry points on several threads, one step per lock, access and unlock, with contents, panics and poisoning |
| `model/Memory.v` | `lib.rs` arenas, `data/container.rs` `SuperAlloc`, all decoders and `immutalize` again, with references into the arenas and what is allocated |

Independent specifications live in `spec/` (`*_spec.v`; the `*samples.v` files there hold the concrete
cases), lemmas in `proofs/`, and the property theorems, with nothing else, in `props/`:

| file | properties | specification |
| --- | --- | --- |
| `props/P_codec.v` | C01-C12 | `Spec.v` |
| `props/P_data.v` | C13-C23, C68-C70, C74 | `Data_spec.v`, `Seq_spec.v` |
| `props/P_trie.v` | C24-C30 | `Gram_spec.v` |
| `props/P_search.v` | C31-C42 | `Gram_spec.v` |
| `props/P_classic.v` | C43-C45, C58, C59, C71, C72, C75, C76 | `Classic_spec.v`, `Raw_spec.v` |
| `props/P_js.v` | C47-C51, C53-C57, C60 | `Js_spec.v` |
| `props/P_lib.v` | C40, C46, C51, C52, C57, C61-C64, C66, C67, C77 | `Lib_spec.v` |
| `props/P_conc.v` | C65, C78 | `Conc_spec.v` |
| `props/P_end.v` | C73, C79 | `End_spec.v` |
| `props/P_json.v` | C80-C85 | `Json_spec.v` |
| `props/P_parse.v` | C86-C89 | `Parse_spec.v` |
| `props/P_page.v` | C90-C93 | `Page_spec.v` |
| `props/P_cost.v` | C94-C99 | `Cost_spec.v` |
| `props/P_equal.v` | C19 (exact), C100 | `Equal_spec.v` |
| `props/P_typing.v` | C101 | `Gram_spec.v`, `Lib_spec.v` |
| `props/P_threads.v` | C78, C102, C103 | `Threads_spec.v` |
| `props/P_outcome.v` | C104 | `Outcome_spec.v`, `Json_spec.v` |
| `props/P_memory.v` | C105, C106 | `Memory_spec.v` |
| `props/P_reorder.v` | C107-C109 | `Reorder_spec.v` |
| `props/P_choice.v` | C110-C112 | `Choice_spec.v` |
| `props/P_trunc.v` | C113 | `Trunc_spec.v` |
| `props/P_again.v` | C114, C115 | `Data_spec.v` |
| `props/P_sorted.v` | C116, C117 | `Sorted_spec.v`, `Choice_spec.v` |
| `props/P_serde.v` | C118 | `Serde_array_spec.v`, `Json_spec.v` |
| `props/P_reading.v` | C119, C120 | `Reading_spec.v`, `Choice_spec.v` |
| `props/P_grammar.v` | C121 | `Grammar_spec.v` |
| `props/P_tests.v` | C122, C123 | `Tests_spec.v` |
| `props/P_text.v` | C124 | `Text_spec.v`, `Choice_spec.v`, `Json_spec.v` |
| `props/P_panics.v` | C125 | `Panics_spec.v`, `Js_spec.v` |
| `props/P_border.v` | C126 | `Border_spec.v`, `Shown_spec.v` |
| `props/P_growth.v` | C127 | `Growth_spec.v`, `Reading_spec.v`, `Reorder_spec.v` |
| `props/P_suggest.v` | C128, C129 | `Suggest_spec.v`, `Lib_spec.v`, `End_spec.v` |
| `props/P_contract.v` | C130 | `Contract_spec.v` |
| `props/P_bench.v` | C131 | `Bench_spec.v` |
| `props/P_filesize.v` | C132, C133 | `Filesize_spec.v` |
| `props/P_slip.v` | C134 | `Slip_spec.v`, `Slip_samples.v` |
| `props/P_corrupt.v` | C135 | `Corrupt_spec.v`, `Corrupt_samples.v` |
| `props/P_access.v` | C136 | |
| `props/P_rank.v` | C137 | `Rank_samples.v` |
| `props/P_reprice.v` | C138 | `Reprice_spec.v` |
| `props/P_machine.v` | C139 | `Machine_samples.v` |
| `props/P_words.v` | C140 | none |
| `props/P_objects.v` | C141, C142 | `Objects_spec.v`, `Objects_samples.v` |
| `props/P_layout.v` | C143 | `Layout_spec.v` |
| `props/P_disk.v` | C144 | `Disk_spec.v`, `Disk_samples.v` |
| `props/P_pieces.v` | C145 | `Pieces_spec.v`, `Pieces_samples.v` |
| `props/P_reserve.v` | C146 | `Reserve_spec.v` |
| `props/P_held.v` | C147 | `Held_spec.v` |
| `props/P_chosen.v` | C148, C149 | `Chosen_spec.v` |
| `props/P_narrow.v` | C150 | `Narrow_spec.v` |

## Modelling decisions

* **Panics** are explicit (`Panic`), `Option::None` is `Nope`. `Stuck` is returned only when the
  model's own recursion fuel runs out; theorems show that never happens.
* **Hash maps** (`AHashMap`, randomly seeded) are `gmap`s; every place where Rust iterates over a map
  takes an *iteration-order oracle* argument, an arbitrary function returning a permutation of the
  entries. Theorems quantify over all oracles, i.e. over all hash seeds.
* **Platform**: `usize` width, the largest accepted `with_capacity`, and debug/release overflow
  behaviour are fields of a `platform` record the theorems quantify over.
* **References** into arenas are modelled by the values they point to (they are immutable);
  `model/Memory.v` models the arenas and references themselves, and C105 shows that the values
  are what the references show;
  the mutable `Rc<RefCell<..>>` trie used while indexing is modelled with a heap of addresses.
* **Sorting** is a stable insertion sort; a theorem shows every stable sort returns the same list
  when the comparator is a total preorder. (For inconsistent comparators - NaN - Rust leaves the
  order unspecified; the insertion sort is then one admissible behaviour.)
* **Floats**: one canonical NaN (payloads are not modelled).
* **Oracles**: `char::to_lowercase` and `str::parse::<f32>` are arbitrary functions (the latter
  returning well-formed floats); theorems quantify over them. `model/Parse.v` models the latter
  exactly, and C86-C89 are about that function.
* **Integers** `usize`/`u64` in the codecs are `N` with explicit wrap, shift and range checks.

## Not modelled

* The source of `serde` and `serde_json` (1.0.136, 1.0.79): `model/Json.v` models what they do with
  the types of this crate, from their documentation and source. (The limit of 128 nested values
  and the range check of numbers do not apply to skipped fields.)
* Links, directories and the content of error messages of the file system.
* `wasm_bindgen` glue other than borrow cells, freeing (`model/Page.v`, `model/Objects.v`) and strings
  (`model/Border.v`): arguments of a wrong type.
* Memory exhaustion, stack overflow and running time; `println!`; sizes in bytes of what the
  arenas hold and how they grow (`model/Memory.v` counts nodes and boxes).
* Concurrent use of anything but the entry points of `lib.rs` (`model/Threads.v`): handlers are
  used by one thread at a time, which Rust's ownership enforces. Fairness of the scheduler.
* `preprocessor.rs` (commented out); what benchmarks measure; `Display` of an `f32` in the tables of sizes is any function.

## Trusted base

* Coq 8.16.1's kernel (and its `vm_compute`), and the compiled libraries it loads: the standard
  library, std++ and Flocq. No axioms, plugins or unsafe flags of our own.
* The correspondence between the Rust source and the definitions in `model/`, which is by reading.
* What `Print Assumptions` lists (it is printed below every theorem when building). 313 of the
  433 theorems are closed under the global context. The other 120 reason about rounding with
  real numbers and list axioms of the standard library.
  These list `ClassicalDedekindReals.sig_forall_dec`, `ClassicalDedekindReals.sig_not_dec`, `Classical_Prop.classic`, `FunctionalExtensionality.functional_extensionality_dep`:
  `C114_no_prefix`, `C131_finish`, `C131_timed`, `C131_by_ngram`, `C131_pr_product`, `C110_choice`, `C111_search`, `C112_answer`, `C44_orders`, `C45_prices_partial`, `C58_exact`, `C72_file`, `C130_nodes_partial`, `C135_noticed_refuted`, `C94_all_tried_partial`, `C95_calls`, `C95_query_calls`, `C96_nodes`, `C96_node_bound`, `C96_posting_bound`, `C98_file_size`, `C99_written_depth`, `C144_ends`, `C144_history`, `C144_few`, `C73_loads`, `C73_delivered`, `C79_found`, `C100_round_trip_test_partial`, `C132_size`, `C132_larger`, `C132_same`, `C133_growth_refuted`, `C133_growth_partial`, `C127_strangers_partial`, `C127_delivered_partial`, `C49_exact_floats`, `C49_exact_integers`, `C83_outcome`, `C85_delivered`, `C66_rounded`, `C66_exact`, `C67_name_partial`, `C67_ascii_partial`, `C104_index_from`, `C104_file`, `C104_text`, `C86_nearest`, `C86_nan`, `C86_monotone`, `C86_valid`, `C86_index`, `C87_same_number_refuted`, `C87_close_partial`, `C87_whole`, `C88_cents_partial`, `C89_bound_refuted`, `C89_keeps_partial`, `C89_drops_partial`, `C89_exact`, `C137_more_partial`, `C137_longer`, `C137_alike`, `C137_bounded`, `C137_delivered`, `C119_choice`, `C119_search`, `C120_likelihood_partial`, `C107_search`, `C107_delivered`, `C108_case`, `C109_joined_partial`, `C138_noticed_refuted`, `C31_chosen_gram_occurs`, `C31_result_has_gram`, `C33_occurring_window`, `C33_best_of_replaced`, `C33_best_of_inserted`, `C34_exact_found_partial`, `C35_short_query`, `C37_results_ranked`, `C39_chosen_confidence`, `C39_total_confidence`, `C40_same_places`, `C41_postings_agree_partial`, `C41_paths_agree_partial`, `C41_confidences_agree_partial`, `C41_exactly_partial`, `C42_not_merged_partial`, `C134_found`, `C134_delivered`, `C116_sorted`, `C117_filtered`, `C128_usable`, `C128_chosen`, `C129_own_name_partial`, `C129_beginning`, `C123_catalogue`, `C124_answered`, `C124_sorted`, `C124_filtered`, `C103_indexed_size`, `C24_index_total`, `C24_trie_factors`, `C25_weights`, `C26_children`, `C26_most_popular_chain`, `C27_posting_lists`, `C28_cutoff`, `C28_cutoff_near`, `C29_window_kept_refuted`, `C29_window_kept_partial`, `C29_exactly`, `C30_small_catalogue_refuted`, `C113_few`, `C113_multiples`, `C101_confidence`, `C101_around`.
  These list only `ClassicalDedekindReals.sig_forall_dec`, `FunctionalExtensionality.functional_extensionality_dep`:
  `C87_nearest_cent`, `C88_cents_refuted`.

## Plan per property

* **C01** Every u64 survives the integer encoding: `model/Prim.v`; false of the code: `_refuted` witness plus, for every value in the bad band, what happens instead.
* **C02** Small and very large integers round-trip: induction on 7-bit groups.
* **C03** Integer encoding is compact and self-delimiting: induction on groups; prefix-freeness follows.
* **C04** Integer decoding is safe on arbitrary bytes: case analysis on the at most 9 loop rounds.
* **C05** Truncated integers are rejected: false: `_refuted`, plus which prefixes are accepted.
* **C06** u32, char, bool, u8 and f32 round-trip: from C02; f32 bits via SpecFloat.
* **C07** Strings round-trip as UTF-8: UTF-8 codec proved inverse both ways.
* **C08** A string whose announced length exceeds the input panics, and nothing else does: case analysis.
* **C09** Description truncation keeps a short, word-aligned prefix: invariant of the scan loop.
* **C10** A non-empty description is never stored empty: false: `_refuted` (description starting with its only early space).
* **C11** Product id lists round-trip as sorted multisets: sort + delta induction.
* **C12** Collections round-trip whatever the hash seed: generic round-trip combinators; map folds over any permutation.
* **C13** Vendors are numbered by first appearance and stored once: invariant over insert histories.
* **C14** The vendor table round-trips: from C12,C13.
* **C15** Feature tables round-trip: from C12.
* **C16** The product catalogue round-trips except for truncated descriptions: composition.
* **C17** The n-gram index round-trips: tree induction.
* **C18** Categories, tags and orders round-trip: composition.
* **C19** A reloaded classic index compares equal to the original: false: `_refuted`, ids are renumbered; C18 says what is preserved; exactly when it is equal, for any index and for any catalogue.
* **C20** The whole file round-trips on any target: composition.
* **C21** Loading arbitrary bytes terminates and yields only consistent indexes: decoder invariants.
* **C22** Loading never panics on malformed bytes: false: `_refuted`.
* **C23** An index of another gram size is never silently accepted: decoder case analysis.
* **C24** The trie contains exactly the text factors up to length N: refinement heap -> path counts.
* **C25** Trie weights are occurrence ratios: refinement + Flocq real analysis of SpecFloat division.
* **C26** Children are listed most frequent first: sorting lemmas.
* **C27** Posting lists record every window occurrence: invariant over the feed.
* **C28** The posting cut-off is 80 percent rounded down: Flocq rounding bound; exact up to 5,242,880 products, a witness that one more is too many, and relative error bounds for any size.
* **C29** Windows present in under 80 percent of products stay searchable: false: `_refuted`.
* **C30** Catalogues of one or two products can be searched: false: proved that every query is empty.
* **C31** Every matched gram really occurs in the catalogue: path invariant of the recursion.
* **C32** Fuzzy matching is bounded: edit-script relation by induction.
* **C33** A window that occurs is matched at least as confidently as its exact spelling: monotonicity of best_result + float order.
* **C34** A product containing the query text is found: false: `_refuted`.
* **C35** Queries shorter than the gram size find nothing: root lookup of NUL.
* **C36** For gram sizes up to five a superfluous typed character is never repaired by skipping it: recursion lemma on input length.
* **C37** Search results are distinct and ranked: ranker invariant + sorting.
* **C38** A result's confidence is the sum over its hits: ranker invariant.
* **C39** Confidences are never NaN or negative: Flocq interval lemmas.
* **C40** The answer does not depend on hash seeds: permutation invariance of ranking.
* **C41** Indexing the same catalogue twice gives equivalent search: false: `_refuted`; exactly when it holds: `C41_exactly_partial`.
* **C42** Different products are never merged: false: `_refuted`; true for distinct ids.
* **C43** Order tables are rank permutations: sort + inverse permutation.
* **C44** The three built-in orders sort by title, by price and by descending price: instances of C43.
* **C45** Prices are ordered whatever the price strings: false: `_refuted`.
* **C46** Ordered search is the unordered search rearranged by rank: sort by rank.
* **C47** The category filter keeps exactly the products having every active option: membership invariants of the builder.
* **C48** The tag filter keeps exactly the products having every active tag: same.
* **C49** Range filters are inclusive interval tests: Flocq comparison lemmas on f64.
* **C50** Exact filters select products by equality: false: `_refuted`, exact is unreachable for plain objects.
* **C51** A malformed filter yields no result object: case analysis.
* **C52** Filters only ever remove and all apply: filter composition.
* **C53** Toggling is parity: induction over histories.
* **C54** Each toggle notifies exactly the right observers once: same.
* **C55** Removing a listener removes one registration only: swap_remove lemma.
* **C56** Iterators enumerate every category, option and tag once, in order, then stop: induction on calls.
* **C57** Result iteration yields the search results in order: same.
* **C58** The price reported for a product is its own: invariant of feature columns.
* **C59** The image reported for a product is its own: false: `_refuted`; exact condition proved.
* **C60** Feature accessors are typed: case analysis.
* **C61** Nothing is available before initialization: state machine induction.
* **C62** A failed initialize leaves the previous index in place: same.
* **C63** The last successful initialize wins: same.
* **C64** Handlers keep working after re-initialization: false: `_refuted`; the exact condition from C52, since no two found products have one position.
* **C65** initialize is atomic for concurrent searches: small-step interleaving model; false: `_refuted`.
* **C66** Tag suggestions are best overlapping tags: fold invariant.
* **C67** Typing a tag's exact name suggests a tag: false: `_refuted`; true for ASCII.
* **C68** The numeric product id is the trailing decimal number: digit induction.
* **C69** Product equality is an equivalence relation: transitivity false: `_refuted`; reflexive and symmetric proved.
* **C70** The padded gram reader takes exactly N-1 items: induction.
* **C71** Indexing preserves the raw product data: fold invariant.
* **C72** An unparseable price aborts indexing: fold invariant.
* **C73** Indexing then loading then searching is coherent end to end: composition of all of the above.
* **C74** Loaded product lists are in catalogue order: decoder invariants; false with wrapping sums: `_refuted`, and exactly then: both loops run in lockstep, and a wrapped sum is smaller than the one before.
* **C75** The category index is built exactly from the raw options: fold invariant over mentions.
* **C76** The tag index is built exactly from the raw tags: fold invariant, any hash order.
* **C77** A panicking search disables the library, but none panics on a consistent index: state machine induction.
* **C78** Concurrent calls never deadlock: progress of the interleaving model.
* **C79** A search finds the products it should, end to end: composition of C27, C34 and C73.
* **C80** Exactly the JSON texts are read: mutual induction on derivations; soundness by induction on fuel.
* **C81** Every JSON text that describes a catalogue is indexed: false: `_refuted`; exact characterisation by structure, and a printer for the converse.
* **C82** Every product of the text is indexed: false: `_refuted`; map invariant.
* **C83** index returns a file or an error: false: `_refuted`; from C72.
* **C84** The same text always gives the same file: false: `_refuted`; from C82.
* **C85** Delivered products come from the JSON file: composition of C73, C80-C82.
* **C86** Price strings are read as the nearest floats: grammar by structure; Flocq for the rounding.
* **C87** The reported price is the price of the catalogue: false: `_refuted`; error bound from C86.
* **C88** The price orders sort by the decimal prices: false: `_refuted`; from C44 and the error bound.
* **C89** A price filter keeps exactly the prices in its range: false: `_refuted`; from C49 and the error bound.
* **C90** While its observers run, a handler rejects every call: `model/Page.v`; a frame relation kept by all runs.
* **C91** Handler histories are sequential whatever observers do: the log of a run replayed per handler; C53 for the statuses.
* **C92** Cascades of observers end: false: `_refuted`; induction on the number of idle handlers.
* **C93** Handlers stay usable: false: `_refuted`; borrows unchanged by code that does not search.
* **C94** A correction considers only the five most popular grams: false: `_refuted`; lower bound on the counted calls.
* **C95** A search takes boundedly many calls: a counting copy of the search with the same value; induction on the remaining changes.
* **C96** The index is linear in the texts: nodes as paths, paths as factors (C24); postings from C27.
* **C97** Hash orders do not change the length of the file: lengths of encodings are sums, invariant under permutation.
* **C98** The file is linear in the catalogue: the sums of C97 bounded part by part, with C96.
* **C99** Loaded tries are no deeper than the gram size: false: `_refuted`; every node takes six bytes; C24 for written files.
* **C100** The repository's round-trip test passes on every catalogue: false: `_refuted`; C20 gives what is read back, then each derived equality is characterised.
* **C101** Typing on never loses a product: windows of a query are a prefix of those of its continuations; rounded addition is monotone.
* **C102** Concurrent calls behave like undisturbed ones: programs of lock operations (`model/Threads.v`), an invariant that remembers for each call in which moments it read each cell.
* **C103** A race between loading and searching cannot disable the library: false, `_refuted` by a schedule of 20 steps; safety by an invariant on the contents of the cells when all files have one size or no search is ordered.
* **C104** Indexing ends in one of two ways: the counters modulo 2^32 as an invariant of the heap; the root counter sums to the number of grams fed.
* **C105** References into the arenas show the decoded values: a simulation between decoders that allocate (`model/Memory.v`) and decoders on values, stable when memory grows.
* **C106** Loading again needs no more memory: false, `_refuted`; the simulation of C105 also counts the nodes.
* **C107** Catalogue order does not matter: without ties the built index is a function of the multiset of texts (C41's equality), owners of grams transfer along the permutation by id, scores follow, and filters are compared through names.
* **C108** Case does not matter: the lower-cased texts are equal, so C107's argument applies.
* **C109** A match lies within one field: false: `_refuted`; delivery is a function of the joined text.
* **C110** The likeliest similar window is chosen: C32 and C33 with tries replaced by occurrences in texts (C24, C25).
* **C111** A search is a function of the texts: C110 window by window, posting lists replaced by owners (C27).
* **C112** From catalogue to answer: C111 through the file (C20), the handlers and the producer.
* **C113** Cut files: decoders read alike what is followed by more bytes, unless they used up their input, so all but the last table is as in the whole file; the last table by C05.
* **C114** A file says where it ends: the round trip (C20) applied to both files.
* **C115** Writing again: storing is idempotent and keeps what is storable.
* **C116** Ordered searches: the rank tables (C44) survive the file (C20) and sort what was found (C46), which has no position twice.
* **C117** C112 with filters: the only numeric feature of an indexed catalogue is the price.
* **C118** Arrays of a fixed size: the loop of the visitor in closed form, then the grammar of C80 in both directions.
* **C119** Readings: every result of the recursion is a reading (by its cases), and every reading is offered at least its sureness (by induction on the reading); trie paths and weights are turned into texts by C24 and C25.
* **C120** Confidence and likelihood: refuted with windows of six; up to five from C110.
* **C121** The file format: each decoder agrees with a form of the grammar; one lemma for sequencing, one for loops, the tree by its fuel. Fates are unique, by induction on the derivation.
* **C122** The codec's tests: from C01, C06 and C07, by induction on the list given.
* **C123** The statistics: counts by induction on the entries of the map, with the order left open; then C27.
* **C124** From text to answer: C117 and C116 applied to the entries that survive (C82), with C86 to C89 for the prices.
* **C125** Which searches panic: the three places of a search that can panic (an option, a tag, a rank), each exactly; for the hash orders the two extreme ones (missing keys first, missing keys last) decide.
* **C126** Strings at the border: UTF-16 and UTF-8 of the same chars, by induction on code units; every decoder of a text checks its bytes.
* **C127** Growth: refuted by two catalogues; for strangers, the readings of a window stay, the limit of the cutoff and the weights grow monotonically under f32 rounding.
* **C128, C129** Suggestions: from the choice of the highest score (C36, C80) and the consistency of loaded files; a score of 1 is reached exactly by words that begin alike.
* **C130** Comparison contracts: case analysis on `SFcompare`.
* **C131** Benchmarks: as C74 and C97; the quotient by 1000 with Flocq's relative error.
* **C132** Size of a file: each part of the file is measured from what C24, C27, C71, C75 and C76 say is in it. A posting list for a window is the merge of the lists of the longer windows that end in it; splitting a sorted list never makes its gaps take fewer bytes.
* **C133** More products: every part but the posting lists only grows; a computed catalogue where these shrink more.
* **C134** Slips: a typed part with one slip has five chars in a row that differ from five of the text in at most one place (two if chars are swapped); C117 then gives the points.
* **C135** Changed bytes: decoding two files that differ only in products of the catalogue goes the same way, step by step; a lone byte above 127 is not UTF-8.
* **C136** Accessors: by unfolding, with the invariant that loaded tags are numbered by position.
* **C137** Ranks: the points of a text form a subsequence of those of a text with more windows; float addition is monotone.
* **C138** Prices: the reader of a map is run on a list of items with their bytes, one of which is foreign.
* **C139** Machine: induction on the places left and on the input that both searches take the same steps; the counter is at most a third of the size plus one.
* **C140** Words: induction on the rounds left that both readers take the same steps; a cut is at the length of a prefix, whose next byte starts a char.
* **C141** Objects: the count of an index equals the number of its holders after every event.
* **C142** Objects: the borrows of an object are those of the calls in progress and those lost in calls that went wrong; the latter are never released.
* **C143** Layout: each writer equals a relation on bytes, part by part; an order of a table's entries is an order of hashing.
* **C144** Disk: cases of a run; induction on a history of runs and saves, with the truncation theorems of C113 for what was cut short.
* **C145** Pieces: the hits of a query are those of its windows, and windows without padding are its pieces; a piece without a space lies in a word.
* **C146** Reserve: each element that is read eats a byte, so a length that is read to its end is at most the bytes that are left.
* **C147** Held: every decoder weighs at most what it reads; an entry that overwrites another only makes a map lighter.
* **C148, C149** Chosen: the status of every option determines the set of active ones, and a filter's verdict is a conjunction over its entries; the mark of a category is carried along and never read.
* **C150** Narrow: both answers filter the same list of matches, and what passes with more on passes with less; sorting only rearranges.
