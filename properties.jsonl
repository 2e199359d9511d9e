{"id": "C01", "title": "Every u64 survives the integer encoding", "statement": "Serializing any u64 and deserializing the bytes, whatever bytes follow, gives the same number back and leaves exactly the following bytes unread.", "quantifier": "all u64 values and all trailing byte strings", "why_tests_cant": "2^64 values times unbounded trailing data; the repository test samples six values and misses a 2^56..2^63 band in which the claim is false", "anchors": ["src/serialize/primitives.rs: Serializable for u64", "src/serialize/primitives.rs: Deserializable for u64"]}
{"id": "C02", "title": "Small and very large integers round-trip", "statement": "Every integer below 2^56 or at least 2^63 - which includes every u32, every char code and every collection length or product id that fits in memory - is read back unchanged, and the bytes after it are untouched.", "quantifier": "all u64 values outside 2^56..2^63 and all trailing byte strings", "why_tests_cant": "needs all values and every alignment of the 7-bit groups", "anchors": ["src/serialize/primitives.rs: u64, usize, u32 impls"]}
{"id": "C03", "title": "Integer encoding is compact and self-delimiting", "statement": "An encoded u64 occupies exactly one byte per started group of 7 significant bits (1 to 10 bytes), all bytes but the last have the top bit set and the last does not; hence two encodings followed by arbitrary data can only be equal byte strings if the numbers and the data are equal.", "quantifier": "all pairs of u64 values and trailing byte strings", "why_tests_cant": "quantifies over pairs of unbounded streams", "anchors": ["src/serialize/primitives.rs: Serializable for u64"]}
{"id": "C04", "title": "Integer decoding is safe on arbitrary bytes", "statement": "Decoding an integer from any byte string never panics; it fails exactly when the input is empty or consists of nine bytes of which the first eight are continuation bytes; otherwise it consumes between 1 and 10 bytes, leaves a suffix of the input and yields a number below 2^64.", "quantifier": "all byte strings", "why_tests_cant": "all byte strings, including hostile ones", "anchors": ["src/serialize/primitives.rs: Deserializable for u64"]}
{"id": "C05", "title": "Truncated integers are rejected", "statement": "If the buffer ends in the middle of an encoded integer (a proper prefix of the encoding), decoding reports failure.", "quantifier": "all u64 values needing several bytes, all proper prefixes", "why_tests_cant": "every value and every cut point (crash/truncation point of the file)", "anchors": ["src/serialize/primitives.rs: Deserializable for u64"]}
{"id": "C06", "title": "u32, char, bool, u8 and f32 round-trip", "statement": "Every u32, every Unicode scalar value, both booleans, every byte and every non-NaN f32 is read back identically from its encoding with any following bytes untouched; decoding a char never yields a surrogate or a code above 10FFFF, and a u32 decode rejects larger numbers.", "quantifier": "all values of each primitive type, all trailing bytes", "why_tests_cant": "whole value domains with arbitrary continuations", "anchors": ["src/serialize/primitives.rs"]}
{"id": "C07", "title": "Strings round-trip as UTF-8", "statement": "Every string is read back identically from its encoding with following bytes untouched, and any string that decodes successfully from arbitrary bytes is valid Unicode whose UTF-8 bytes are exactly the consumed payload.", "quantifier": "all strings, all byte strings", "why_tests_cant": "all Unicode strings and all malformed byte sequences", "anchors": ["src/serialize/collections.rs: Serializable for String, Deserializable for String"]}
{"id": "C08", "title": "A string whose announced length exceeds the input panics, and nothing else does", "statement": "Decoding a string from arbitrary bytes panics exactly when the announced length exceeds the bytes left, fails softly when the payload is not UTF-8, and otherwise succeeds.", "quantifier": "all byte strings", "why_tests_cant": "all malformed inputs", "anchors": ["src/serialize/collections.rs: Deserializable for String"]}
{"id": "C09", "title": "Description truncation keeps a short, word-aligned prefix", "statement": "The stored description is always a prefix of the original cut on a character boundary; it is the whole description if that is at most 100 bytes; it is never longer than 104 bytes; when cut at a space it is at most 100 bytes and is followed by a space in the original; truncating twice equals truncating once.", "quantifier": "all strings and all byte limits", "why_tests_cant": "unbounded strings with 1-4 byte characters at every alignment", "anchors": ["src/serialize/collections.rs: limit_string_len, serialize_string_with_limit", "src/data/product.rs: Serializable for Product"]}
{"id": "C10", "title": "A non-empty description is never stored empty", "statement": "If a product has a non-empty description then the description loaded back from the index file is non-empty.", "quantifier": "all descriptions", "why_tests_cant": "requires searching all strings for a counterexample", "anchors": ["src/serialize/collections.rs: limit_string_len", "src/data/product.rs: PartialEq for Product"]}
{"id": "C11", "title": "Product id lists round-trip as sorted multisets", "statement": "Writing any list of product ids in the delta-coded form and reading it back yields exactly the sorted list (same ids, same multiplicities), and following bytes are untouched.", "quantifier": "all finite lists of ids, all trailing bytes", "why_tests_cant": "unbounded lists and values", "anchors": ["src/serialize/sequential_array.rs: serialize, deserialize"]}
{"id": "C12", "title": "Collections round-trip whatever the hash seed", "statement": "A vector is read back element by element; a hash map written in any iteration order is read back as the same map; a fixed-size array is read back unchanged.", "quantifier": "all vectors, all maps, all iteration orders, all trailing bytes", "why_tests_cant": "iteration order of a randomly seeded hash map cannot be enumerated by tests", "anchors": ["src/serialize/collections.rs"]}
{"id": "C13", "title": "Vendors are numbered by first appearance and stored once", "statement": "After inserting any sequence of vendor names, each distinct name has exactly one vendor, ids are 0..k-1 in order of first appearance, and looking an id up gives the vendor with that name.", "quantifier": "all sequences of names", "why_tests_cant": "all histories of inserts", "anchors": ["src/data/vendor.rs: insert, get_or_insert, get"]}
{"id": "C14", "title": "The vendor table round-trips", "statement": "A vendor table built by inserts is read back identically (names and ids), whatever the hash iteration order when it was written.", "quantifier": "all insert histories, all hash orders", "why_tests_cant": "hash order nondeterminism and unbounded histories", "anchors": ["src/data/vendor.rs"]}
{"id": "C15", "title": "Feature tables round-trip", "statement": "A feature table with any keys and any string, float and integer columns is read back with the same columns, whatever the hash iteration order.", "quantifier": "all feature tables without NaN, all hash orders", "why_tests_cant": "unbounded tables and orders", "anchors": ["src/data/features.rs"]}
{"id": "C16", "title": "The product catalogue round-trips except for truncated descriptions", "statement": "Loading a stored catalogue gives the same products in the same positions with the same title, id and vendor, the truncated description, and the same features and vendors.", "quantifier": "all well-formed catalogues, all hash orders", "why_tests_cant": "unbounded catalogues", "anchors": ["src/data/container.rs", "src/data/product.rs"]}
{"id": "C17", "title": "The n-gram index round-trips", "statement": "Loading a stored n-gram index gives the same trie (items, weights, child order), the same posting lists in sorted order and the same catalogue.", "quantifier": "all well-formed indexes, all hash orders, all gram sizes", "why_tests_cant": "unbounded recursive structures", "anchors": ["src/serialize/nodes.rs"]}
{"id": "C18", "title": "Categories, tags and orders round-trip", "statement": "Loading stored categories, tags and orders gives the same category names, flags, option names and option members, the same tags with the same members and positions, and the same rank tables.", "quantifier": "all well-formed classic indexes, all hash orders", "why_tests_cant": "unbounded structures", "anchors": ["src/classic_indexes/categorical.rs", "src/classic_indexes/tag.rs", "src/classic_indexes/order.rs", "src/classic_indexes/mod.rs"]}
{"id": "C19", "title": "A reloaded classic index compares equal to the original", "statement": "For every catalogue, the classic indexes loaded back from the file are equal (==) to the ones that were written, as the repository's round-trip test asserts.", "quantifier": "all catalogues", "why_tests_cant": "the bundled sample data happens to have one category; the claim quantifies over all catalogues", "anchors": ["src/classic_indexes/categorical.rs: index, deserialize_many", "src/serialize/mod.rs: test_serialize_and_deserialize"]}
{"id": "C20", "title": "The whole file round-trips on any target", "statement": "The bytes of serialize_all decode with deserialize_all into the n-gram index and classic indexes that were written (descriptions truncated, option ids renumbered), also when written on a 64-bit host and read on a 32-bit one as long as lengths fit, and bytes appended after the file are ignored.", "quantifier": "all index pairs, all hash orders, both word sizes, all trailing bytes", "why_tests_cant": "cross-platform, all catalogues and all hash seeds", "anchors": ["src/serialize/all_indexes.rs"]}
{"id": "C21", "title": "Loading arbitrary bytes terminates and yields only consistent indexes", "statement": "deserialize_all on any byte string terminates; if it succeeds, every product's position equals its id, every product's vendor is in the vendor table, every posting list, tag and option only references existing products and agrees with its id set, and tag and option ids equal positions.", "quantifier": "all byte strings", "why_tests_cant": "all hostile inputs", "anchors": ["src/serialize/all_indexes.rs", "src/serialize/nodes.rs", "src/data/container.rs", "src/classic_indexes/categorical.rs", "src/classic_indexes/tag.rs"]}
{"id": "C22", "title": "Loading never panics on malformed bytes", "statement": "deserialize_all on any byte string either succeeds or reports failure, it does not panic.", "quantifier": "all byte strings", "why_tests_cant": "all malformed inputs", "anchors": ["src/serialize/all_indexes.rs", "src/serialize/collections.rs: Deserializable for String"]}
{"id": "C23", "title": "An index of another gram size is never silently accepted", "statement": "Loading a file that contains at least one posting list with a different gram size never succeeds.", "quantifier": "all files, all pairs of gram sizes", "why_tests_cant": "all files", "anchors": ["src/serialize/collections.rs: Deserializable for [T;N]", "src/serialize/nodes.rs"]}
{"id": "C24", "title": "The trie contains exactly the text factors up to length N", "statement": "After indexing, a path of 1..N grams exists in the trie exactly when that gram sequence occurs contiguously in the lowercased text of some product.", "quantifier": "all catalogues, all gram sizes, all hash orders", "why_tests_cant": "unbounded texts; the mutable shared-node construction interleaves N insertion cursors", "anchors": ["src/ngram/indexer.rs: index_from"]}
{"id": "C25", "title": "Trie weights are occurrence ratios", "statement": "The weight of the node for path p is the f32 quotient of the number of occurrences of p and of its parent path (all text positions for a root); with less than 2^32 grams in total every weight is in (0,1].", "quantifier": "all catalogues with fewer than 2^32 grams, all gram sizes", "why_tests_cant": "counting over unbounded texts and rounding for all counts", "anchors": ["src/ngram/indexer.rs: immutalize, occurances_to_weight"]}
{"id": "C26", "title": "Children are listed most frequent first", "statement": "In every trie node the children are distinct and ordered by non-increasing weight, and the most popular chain from a gram follows a heaviest child at each step and has at most N grams.", "quantifier": "all catalogues, all hash orders", "why_tests_cant": "needs every tree", "anchors": ["src/ngram/indexer.rs: immutalize", "src/ngram/index.rs: most_popular_chain"]}
{"id": "C27", "title": "Posting lists record every window occurrence", "statement": "The posting list of an N-gram window (padded with NUL at the text start) holds each product once per occurrence of that window in its text, sorted by product position, and exists exactly when the window occurs and its total occurrence count is below the cut-off.", "quantifier": "all catalogues, all gram sizes", "why_tests_cant": "unbounded texts", "anchors": ["src/ngram/indexer.rs: index_from"]}
{"id": "C28", "title": "The posting cut-off is 80 percent rounded down", "statement": "For a catalogue of n products (n up to 4,000,000) the cut-off computed in f32 arithmetic equals floor(4n/5); for any number of products that fits 64 bits it misses four fifths by no more than one and a five-millionth of n.", "quantifier": "all n below 2^64 (exact up to 5 242 880)", "why_tests_cant": "all catalogue sizes with IEEE rounding", "anchors": ["src/ngram/indexer.rs: DATA_CUTOFF_PERCENTAGE"]}
{"id": "C29", "title": "Windows present in under 80 percent of products stay searchable", "statement": "If a window occurs in fewer products than the cut-off then its posting list is kept.", "quantifier": "all catalogues", "why_tests_cant": "all catalogues; needs a repeated window", "anchors": ["src/ngram/indexer.rs: index_from retain"]}
{"id": "C30", "title": "Catalogues of one or two products can be searched", "statement": "For a catalogue of one or two products there is some query that returns a product.", "quantifier": "all one- and two-product catalogues, all queries", "why_tests_cant": "all queries", "anchors": ["src/ngram/indexer.rs: index_from retain", "src/ngram/index.rs: search"]}
{"id": "C31", "title": "Every matched gram really occurs in the catalogue", "statement": "Whatever the query, the gram chosen for a query window occurs contiguously in the indexed text of some product, and every product returned by search has in its own text a chosen gram of one of the query windows.", "quantifier": "all catalogues, all queries", "why_tests_cant": "all catalogues and queries", "anchors": ["src/ngram/index.rs: search, search_gram, recursive_search"]}
{"id": "C32", "title": "Fuzzy matching is bounded", "statement": "The gram chosen for a window starts with the window's first gram and can be obtained from the window by at most floor(N/3) edit steps (substitute one, insert one, drop one) where the last step may be an insertion costing two.", "quantifier": "all tries, all windows, all gram sizes", "why_tests_cant": "all recursive branches", "anchors": ["src/ngram/index.rs: recursive_search"]}
{"id": "C33", "title": "A window that occurs is matched at least as confidently as its exact spelling", "statement": "If the query window occurs in the catalogue then some gram is chosen for it, with a confidence not below the product of the weights along the exact path.", "quantifier": "all catalogues with fewer than 2^32 grams, all windows", "why_tests_cant": "all tries and rounding", "anchors": ["src/ngram/index.rs: recursive_search"]}
{"id": "C34", "title": "A product containing the query text is found", "statement": "If a query of exactly N grams occurs verbatim in a product's text and its posting list was kept then the product is among the results.", "quantifier": "all catalogues, all queries", "why_tests_cant": "all catalogues; needs a competing more popular spelling", "anchors": ["src/ngram/index.rs: recursive_search best_result"]}
{"id": "C35", "title": "Queries shorter than the gram size find nothing", "statement": "If no indexed text contains NUL, any query with fewer than N (lowercased) characters returns no product.", "quantifier": "all NUL-free catalogues, all shorter queries", "why_tests_cant": "all catalogues and queries", "anchors": ["src/ngram/index.rs: search, search_gram"]}
{"id": "C36", "title": "For gram sizes up to five a superfluous typed character is never repaired by skipping it", "statement": "With N between 3 and 5 the branch that ignores the previous gram never contributes: the chosen gram is the same as if the branch were removed.", "quantifier": "all tries, all windows, N in 3..5", "why_tests_cant": "all tries", "anchors": ["src/ngram/index.rs: recursive_search"]}
{"id": "C37", "title": "Search results are distinct and ranked", "statement": "The results of a search have pairwise different product ids, are in non-increasing order of confidence, and each product id that was hit appears.", "quantifier": "all catalogues with fewer than 2^32 grams, all queries, all hash orders", "why_tests_cant": "float comparisons under all inputs", "anchors": ["src/ngram/result_ranker.rs", "src/ngram/index.rs: search"]}
{"id": "C38", "title": "A result's confidence is the sum over its hits", "statement": "The confidence of a returned product is the f32 sum, in query order, of the confidences of the windows whose posting list contains its id, once per occurrence.", "quantifier": "all indexes, all queries", "why_tests_cant": "accumulated rounding over unbounded hits", "anchors": ["src/ngram/result_ranker.rs: add", "src/ngram/index.rs: search"]}
{"id": "C39", "title": "Confidences are never NaN or negative", "statement": "Every confidence chosen for a window is in [0,1] and every accumulated confidence is a non-negative number, so ranking compares real numbers.", "quantifier": "all catalogues with fewer than 2^32 grams, all queries", "why_tests_cant": "IEEE corner cases", "anchors": ["src/ngram/index.rs: recursive_search", "src/ngram/result_ranker.rs"]}
{"id": "C40", "title": "The answer does not depend on hash seeds", "statement": "For a fixed index the set of (product, confidence) results is the same for every hash iteration order, and only products with equal confidence can change places; with an order requested the complete result list is the same.", "quantifier": "all indexes, all queries, all pairs of hash orders", "why_tests_cant": "random seeds", "anchors": ["src/ngram/result_ranker.rs: export_data_by_confidence", "src/lib.rs: search"]}
{"id": "C41", "title": "Indexing the same catalogue twice gives equivalent search", "statement": "Two indexes built from the same product list answer every query with the same set of products, whatever the hash seeds during the two builds.", "quantifier": "all catalogues, all queries, all pairs of hash orders", "why_tests_cant": "random seeds; needs a tie", "anchors": ["src/ngram/indexer.rs: immutalize", "src/ngram/index.rs: recursive_search"]}
{"id": "C42", "title": "Different products are never merged", "statement": "Two different products that are hit by a query both appear in the results.", "quantifier": "all catalogues, all queries", "why_tests_cant": "needs duplicate ids", "anchors": ["src/ngram/result_ranker.rs: add, HashExtractable"]}
{"id": "C43", "title": "Order tables are rank permutations", "statement": "Each order table built by the indexer is a permutation of 0..n-1 that ranks product positions by the key, equal keys in catalogue order.", "quantifier": "all catalogues, all total comparators", "why_tests_cant": "unbounded lists", "anchors": ["src/classic_indexes/order.rs: add, add_custom_cmp"]}
{"id": "C44", "title": "The three built-in orders sort by title, by price and by descending price", "statement": "When all prices are numbers, rank order agrees with byte/code-point order of titles, ascending price, and descending price respectively, ties in catalogue order.", "quantifier": "all catalogues without NaN prices", "why_tests_cant": "all catalogues", "anchors": ["src/data/raw_parser.rs: optimize", "src/classic_indexes/order.rs"]}
{"id": "C45", "title": "Prices are ordered whatever the price strings", "statement": "For every catalogue that indexes successfully, products with numeric prices appear in ascending price order under 'Price low to high'.", "quantifier": "all catalogues", "why_tests_cant": "needs a NaN price string", "anchors": ["src/data/raw_parser.rs: to_intermediate, optimize", "src/classic_indexes/order.rs: add"]}
{"id": "C46", "title": "Ordered search is the unordered search rearranged by rank", "statement": "Requesting a known order returns exactly the products of the unordered search, each as often, sorted by the order's rank; an unknown order returns no result object; the available orders are exactly the three built in.", "quantifier": "all loaded indexes, queries, filters, order names", "why_tests_cant": "all combinations", "anchors": ["src/lib.rs: search, get_orders", "src/classic_indexes/order.rs"]}
{"id": "C47", "title": "The category filter keeps exactly the products having every active option", "statement": "A product passes the category filter exactly when every toggled-on option was listed by that product in the raw data.", "quantifier": "all catalogues, all sets of active options", "why_tests_cant": "all catalogues and toggle histories", "anchors": ["src/js_interactable/category_handler.rs: is_valid", "src/classic_indexes/categorical.rs: index"]}
{"id": "C48", "title": "The tag filter keeps exactly the products having every active tag", "statement": "A product passes the tag filter exactly when every toggled-on tag was listed by that product in the raw data.", "quantifier": "all catalogues, all sets of active tags, all hash orders", "why_tests_cant": "all catalogues and toggle histories", "anchors": ["src/js_interactable/tag_handler.rs: is_valid", "src/classic_indexes/tag.rs: index"]}
{"id": "C49", "title": "Range filters are inclusive interval tests", "statement": "With a numeric from and/or to, a product is kept exactly when it has a numeric value for the feature that lies within the inclusive bounds; without numeric bounds nothing is removed.", "quantifier": "all feature tables, all bounds (including infinities and NaN), all products", "why_tests_cant": "all floats", "anchors": ["src/js_interactable/feature_filter.rs: filter", "src/data/features.rs: get_js"]}
{"id": "C50", "title": "Exact filters select products by equality", "statement": "A filter object {feature: {exact: v}} keeps exactly the products whose feature equals v.", "quantifier": "all feature tables, all values", "why_tests_cant": "JavaScript semantics of missing properties, all values", "anchors": ["src/js_interactable/feature_filter.rs: parse, filter"]}
{"id": "C51", "title": "A malformed filter yields no result object", "statement": "search returns nothing (None) when some filter entry's value is not an object, and parsing keeps one filter per entry in order otherwise.", "quantifier": "all filter objects", "why_tests_cant": "all JavaScript values", "anchors": ["src/js_interactable/feature_filter.rs: parse", "src/lib.rs: search"]}
{"id": "C52", "title": "Filters only ever remove and all apply", "statement": "The products delivered by a search are exactly the ranked hits, in order, that satisfy the category filter, the tag filter and every feature filter.", "quantifier": "all loaded indexes, queries, handlers, filters", "why_tests_cant": "all combinations", "anchors": ["src/lib.rs: search"]}
{"id": "C53", "title": "Toggling is parity", "statement": "After any sequence of toggles on a handler, an option (or tag) is active exactly when it was toggled an odd number of times, whatever happened to other options and observers.", "quantifier": "all operation histories", "why_tests_cant": "all histories", "anchors": ["src/js_interactable/category_handler.rs: toggle, get_status", "src/js_interactable/tag_handler.rs: toggle, get_status"]}
{"id": "C54", "title": "Each toggle notifies exactly the right observers once", "statement": "A toggle calls, once each and with the new state, first the observers registered for that option in their stored order and then all general observers in registration order; nobody else is called.", "quantifier": "all operation histories", "why_tests_cant": "all histories", "anchors": ["src/js_interactable/category_handler.rs: toggle, add_option_lister, add_general_observer", "src/js_interactable/tag_handler.rs"]}
{"id": "C55", "title": "Removing a listener removes one registration only", "statement": "Removing a listener removes exactly one registration of that function for that option and keeps all other registrations; it changes nothing if it was not registered.", "quantifier": "all histories", "why_tests_cant": "all histories", "anchors": ["src/js_interactable/category_handler.rs: remove_option_listener", "src/js_interactable/tag_handler.rs: remove_tag_listener"]}
{"id": "C56", "title": "Iterators enumerate every category, option and tag once, in order, then stop", "statement": "Calling next repeatedly yields every category / option / tag of the index exactly once in index order with keys that lead back to it, and then None forever.", "quantifier": "all indexes, all numbers of calls", "why_tests_cant": "all indexes and call histories", "anchors": ["src/js_interactable/category_handler.rs: CategoryIter, CategoryOptionIter", "src/js_interactable/tag_handler.rs: TagIter"]}
{"id": "C57", "title": "Result iteration yields the search results in order", "statement": "next_product yields the search's products in order, each once, then None forever, and never panics for a result of search.", "quantifier": "all searches, all numbers of calls", "why_tests_cant": "all call histories", "anchors": ["src/js_interactable/product_producer.rs: next_product"]}
{"id": "C58", "title": "The price reported for a product is its own", "statement": "For every catalogue that indexes, numeric_feature(\"price\") of the product at position i is the parsed minimum price of raw product i, before and after reloading.", "quantifier": "all catalogues, all positions", "why_tests_cant": "all catalogues", "anchors": ["src/data/raw_parser.rs: optimize", "src/js_interactable/product_producer.rs: numeric_feature", "src/data/features.rs: add_float, get"]}
{"id": "C59", "title": "The image reported for a product is its own", "statement": "For every catalogue, string_feature(\"image_url\") of the product at position i is the first image of raw product i, or nothing if it has none.", "quantifier": "all catalogues, all positions", "why_tests_cant": "the sample data has an image for every product; the claim quantifies over all catalogues", "anchors": ["src/data/raw_parser.rs: to_intermediate, optimize", "src/data/features.rs: add_string", "src/js_interactable/product_producer.rs: string_feature"]}
{"id": "C60", "title": "Feature accessors are typed", "statement": "numeric_feature answers only for float and integer columns and string_feature only for string columns; neither ever panics and both answer None beyond the column's end or for unknown keys.", "quantifier": "all feature tables, products, keys", "why_tests_cant": "all tables", "anchors": ["src/js_interactable/product_producer.rs: numeric_feature, string_feature", "src/data/features.rs: get"]}
{"id": "C61", "title": "Nothing is available before initialization", "statement": "Before a successful initialize, search, get_categories, get_tags, get_orders and tag_suggestion return None, whatever is called.", "quantifier": "all call histories without successful initialize", "why_tests_cant": "all histories", "anchors": ["src/lib.rs"]}
{"id": "C62", "title": "A failed initialize leaves the previous index in place", "statement": "If initialize panics on its input, later calls behave exactly as if it had not been called.", "quantifier": "all histories, all byte strings", "why_tests_cant": "all histories", "anchors": ["src/lib.rs: initialize"]}
{"id": "C63", "title": "The last successful initialize wins", "statement": "After any history, search and the getters answer from the bytes of the last successful initialize only.", "quantifier": "all histories", "why_tests_cant": "all histories", "anchors": ["src/lib.rs: initialize, search, get_categories"]}
{"id": "C64", "title": "Handlers keep working after re-initialization", "statement": "A category or tag handler obtained before a second initialize filters products of the new index by the new index's categories and tags.", "quantifier": "all pairs of index files", "why_tests_cant": "needs two catalogues", "anchors": ["src/lib.rs: search", "src/js_interactable/category_handler.rs", "src/js_interactable/tag_handler.rs"]}
{"id": "C65", "title": "initialize is atomic for concurrent searches", "statement": "In every interleaving of initialize and search calls each search sees the n-gram index and the classic index of the same file.", "quantifier": "all schedules", "why_tests_cant": "thread interleavings", "anchors": ["src/lib.rs: initialize, search"]}
{"id": "C66", "title": "Tag suggestions are best overlapping tags", "statement": "tag_suggestion returns a tag exactly when some space-separated keyword of at least 3 bytes overlaps some tag by more than 0.8, and then a pair with maximal overlap (the first such in keyword, then tag order).", "quantifier": "all tag lists, all queries", "why_tests_cant": "all strings and float comparisons", "anchors": ["src/lib.rs: tag_suggestion"]}
{"id": "C67", "title": "Typing a tag's exact name suggests a tag", "statement": "If a keyword of the query equals some tag's name of at least 3 bytes then tag_suggestion returns a suggestion.", "quantifier": "all tag lists, all queries", "why_tests_cant": "all Unicode strings", "anchors": ["src/lib.rs: tag_suggestion"]}
{"id": "C68", "title": "The numeric product id is the trailing decimal number", "statement": "get_id returns the number written by the maximal trailing run of decimal digits of the id string, exact when the run has at most 19 digits and modulo 2^64 in release builds otherwise.", "quantifier": "all id strings", "why_tests_cant": "all strings", "anchors": ["src/data/product.rs: get_id"]}
{"id": "C69", "title": "Product equality is an equivalence relation", "statement": "== on products is reflexive, symmetric and transitive.", "quantifier": "all triples of products", "why_tests_cant": "all triples", "anchors": ["src/data/product.rs: PartialEq for Product, Eq for Product"]}
{"id": "C70", "title": "The padded gram reader takes exactly N-1 items", "statement": "n_gram_with_1_padding consumes the first N-1 items of the iterator and returns them followed by one default item, or None if there are fewer.", "quantifier": "all iterators, all N >= 1", "why_tests_cant": "all lengths", "anchors": ["src/ngram/index.rs: n_gram_with_1_padding"]}
{"id": "C71", "title": "Indexing preserves the raw product data", "statement": "Indexing a catalogue yields one product per raw product in the same order with position as serialization id and the raw title, id, description and vendor name.", "quantifier": "all raw catalogues with parseable prices", "why_tests_cant": "all catalogues", "anchors": ["src/data/raw_parser.rs: optimize"]}
{"id": "C72", "title": "An unparseable price aborts indexing", "statement": "Indexing panics exactly when some raw product's minimum price does not parse as f32 (given fewer than 2^32 grams), otherwise it produces a file.", "quantifier": "all raw catalogues", "why_tests_cant": "all catalogues", "anchors": ["src/data/raw_parser.rs: to_intermediate"]}
{"id": "C73", "title": "Indexing then loading then searching is coherent end to end", "statement": "For every raw catalogue with parseable prices and any hash seeds, the produced bytes load successfully, and every product delivered by a search on them is a raw product (title, id, vendor, truncated description) whose raw tags and options include all active ones.", "quantifier": "all raw catalogues, hash orders, queries, handlers", "why_tests_cant": "whole pipeline over all catalogues", "anchors": ["src/lib.rs: index_and_serialize, initialize, search"]}
{"id": "C74", "title": "Loaded product lists are in catalogue order", "statement": "Whatever bytes deserialize_all accepts, every posting list, tag and option it returns lists its products in ascending order of position, as code that relies on sorted lists expects.", "quantifier": "all byte strings accepted by the loader, all targets and build profiles", "why_tests_cant": "only crafted or corrupted bytes with huge differences show the wrap-around, and only in release builds", "anchors": ["src/serialize/sequential_array.rs: deserialize", "src/serialize/all_indexes.rs: deserialize_all"]}
{"id": "C75", "title": "The category index is built exactly from the raw options", "statement": "The categories are the category names of the raw data and the options of a category its values, each once in order of first mention; an option lists, in catalogue order and once each, exactly the products that mention that value under that category; option ids number the category/value pairs by first mention.", "quantifier": "all raw catalogues that index", "why_tests_cant": "needs every interleaving of repeated categories, repeated values and shared value names over all products", "anchors": ["src/classic_indexes/categorical.rs: CategoryIndex::index", "src/classic_indexes/categorical.rs: CategoryOption::add"]}
{"id": "C76", "title": "The tag index is built exactly from the raw tags", "statement": "There is exactly one tag for each tag name of the raw data, whatever the hash order, carrying its position as id; its products are those that mention the tag, in catalogue order, once per mention, and its id set is exactly their positions.", "quantifier": "all raw catalogues that index, all hash orders", "why_tests_cant": "tag order depends on the hash seed of the run; repeated tags and names shared between products are unbounded", "anchors": ["src/classic_indexes/tag.rs: TagIndex::index", "src/classic_indexes/tag.rs: Tag::new"]}
{"id": "C77", "title": "A panicking search disables the library for good, but no search panics on a consistent index", "statement": "After a search that panicked every later initialize panics and every later search fails, whatever is called in between; and a search never panics when the loaded index is consistent, its order tables cover the catalogue and the handlers' active options and tags exist.", "quantifier": "all call histories, all byte strings, queries, handlers, filters, hash orders", "why_tests_cant": "all histories; mutex poisoning only shows in later calls", "anchors": ["src/lib.rs: initialize, search"]}
{"id": "C78", "title": "Concurrent calls never deadlock", "statement": "In every interleaving of entry-point calls on any number of threads either all calls have finished or some thread can move, and every schedule is finite.", "quantifier": "all schedules, all numbers of threads and calls", "why_tests_cant": "thread interleavings", "anchors": ["src/lib.rs: initialize, search, get_categories, get_tags, get_orders, tag_suggestion"]}
{"id": "C79", "title": "A search finds the products it should, end to end", "statement": "For every raw catalogue of products with different ids, once its file is loaded, a search whose query contains a five-char piece of a product's lower-cased text delivers that product (if it has all active options and tags), provided the piece occurs less than 4/5 as often as there are products and nothing else in the catalogue is spelled like it up to one correction.", "quantifier": "all raw catalogues, hash orders, platforms, histories, queries, handlers, result orders", "why_tests_cant": "whole pipeline over all catalogues and queries", "anchors": ["src/lib.rs: index_and_serialize, initialize, search", "src/ngram/indexer.rs", "src/ngram/index.rs"]}
{"id": "C80", "title": "Exactly the JSON texts are read", "statement": "The reader returns a value for a text exactly if the text is JSON by the grammar of RFC 8259, and then the value that the grammar gives it, of which there is only one.", "quantifier": "all texts, of any size and depth", "why_tests_cant": "all texts", "anchors": ["src/lib.rs: index (serde_json::from_str)"]}
{"id": "C81", "title": "Every JSON text that describes a catalogue is indexed", "statement": "If a JSON text is an object whose members are products with all fields present once, index accepts it. (False: fields of type &str cannot be read from strings with escapes, so one quotation mark in a title, vendor, id, tag, option or image url rejects the whole catalogue. Accepted are exactly the texts that write those strings without escapes, and a catalogue can be so written exactly if none of those strings has a quotation mark, a backslash or a control char.)", "quantifier": "all texts and catalogues", "why_tests_cant": "all texts", "anchors": ["src/lib.rs: index", "src/data/raw_parser.rs: SerializedProduct and its parts"]}
{"id": "C82", "title": "Every product of the text is indexed", "statement": "index works on exactly the products that the text describes. (False when a key is repeated: exactly the last entry of every key is kept.)", "quantifier": "all accepted texts, all hash orders", "why_tests_cant": "all texts", "anchors": ["src/lib.rs: index"]}
{"id": "C83", "title": "index returns a file or an error", "statement": "For no text does index panic. (False: it panics exactly if the text is accepted and the minimum price of a kept product is no float; it returns None exactly if the text is rejected. The indexing program does the same to the bytes of its input file and returns an error if they are not UTF-8.)", "quantifier": "all texts, hash orders, platforms (kept texts of fewer than 2^32 chars)", "why_tests_cant": "all texts", "anchors": ["src/lib.rs: index", "src/main.rs: main", "src/data/raw_parser.rs: to_intermediate"]}
{"id": "C84", "title": "The same text always gives the same file", "statement": "Two runs of index on the same text give the same bytes. (False: products are numbered in the order of a randomly seeded map. The two runs do index the same products.)", "quantifier": "all texts, all pairs of hash orders", "why_tests_cant": "depends on the hash seed", "anchors": ["src/lib.rs: index"]}
{"id": "C85", "title": "Delivered products come from the JSON file", "statement": "When the indexing program has turned a JSON file into an index file, and that has been loaded on any platform, every product a search delivers is the last entry of some key of the JSON file, with its title, id, vendor, price and shortened description; it has all active options and tags, and its text has a piece that is up to one correction a piece of the query.", "quantifier": "all JSON files that fit, platforms, hash orders, histories, queries, handlers, filters, result orders", "why_tests_cant": "whole pipeline over all files", "anchors": ["src/main.rs: main", "src/lib.rs: index, index_and_serialize, initialize, search"]}
{"id": "C86", "title": "Price strings are read as the nearest floats", "statement": "A price is readable exactly if it is a decimal number (sign, digits, perhaps a point and digits, perhaps an exponent), or inf, infinity or nan in any case; a decimal number is read as the f32 nearest to its exact value, ties to even, and as infinity beyond the range. So larger prices are never read as smaller ones, and index panics exactly if the price of a kept product is none of these.", "quantifier": "all strings (decimal value: of fewer than 65000 chars)", "why_tests_cant": "all decimal expansions, including exact halfway cases", "anchors": ["src/data/raw_parser.rs: to_intermediate", "src/lib.rs: index"]}
{"id": "C87", "title": "The reported price is the price of the catalogue", "statement": "The number reported for a product is the one JavaScript means by the decimals of its price. (False: for 19.99 it is smaller. It is within 1/256 for whole numbers of cents up to 131072.00, so rounding to cents gives the price, and exact for whole numbers below 2^24.)", "quantifier": "all catalogues, hash orders, prices", "why_tests_cant": "all prices", "anchors": ["src/data/raw_parser.rs: to_intermediate", "src/js_interactable/product_producer.rs: numeric_feature", "src/data/features.rs: get"]}
{"id": "C88", "title": "The price orders sort by the decimal prices", "statement": "If a product is cheaper than another, it has the smaller rank in price_up and the larger one in price_down. (False: 131072.02 and 131072.01 are the same f32. True for whole numbers of cents up to 131072.00, where equal prices are ranked by position.)", "quantifier": "all catalogues, hash orders", "why_tests_cant": "all prices and lists", "anchors": ["src/data/raw_parser.rs: to_intermediate", "src/data/raw_parser.rs: optimize", "src/classic_indexes/order.rs: add"]}
{"id": "C89", "title": "A price filter keeps exactly the prices in its range", "statement": "A range filter on price keeps a product exactly if its decimal price lies within the bounds. (False: a product of price 19.99 fails the filter from 19.99. True if the price is an f32, or if it is a whole number of cents up to 131072.00 and the bounds are more than 1/256 away from it.)", "quantifier": "all catalogues, prices, finite f64 bounds", "why_tests_cant": "all prices and bounds", "anchors": ["src/data/raw_parser.rs: to_intermediate", "src/js_interactable/feature_filter.rs: filter"]}
{"id": "C90", "title": "While its observers run, a handler rejects every call", "statement": "Observers only run while the handler that calls them is being changed. Then every method called on it throws, every search given it throws, and whatever JavaScript does it stays as it is until the toggle returns.", "quantifier": "all pages, observers, worlds", "why_tests_cant": "all JavaScript code, nested to any depth", "anchors": ["src/js_interactable/category_handler.rs: toggle", "src/js_interactable/tag_handler.rs: toggle", "src/lib.rs: search"]}
{"id": "C91", "title": "Handler histories are sequential whatever observers do", "statement": "After any page code, with observers calling the library again, throwing or toggling other handlers, every handler is what its own operations, one after the other, make of it; it has called exactly the observers those operations call; and the status of an option has flipped once per toggle.", "quantifier": "all pages, observers, worlds", "why_tests_cant": "all interleavings of nested calls", "anchors": ["src/js_interactable/category_handler.rs: toggle", "src/js_interactable/tag_handler.rs: toggle", "src/js_interactable/category_handler.rs: add_general_observer", "src/js_interactable/tag_handler.rs: add_tag_lister"]}
{"id": "C92", "title": "Cascades of observers end", "statement": "Page code that ends by itself also ends with its observers. (False: an observer that makes a handler, watches it and toggles an option of it. True if observers make no handlers; the nesting is then at most the number of idle handlers.)", "quantifier": "all pages, observers, worlds", "why_tests_cant": "unbounded nesting", "anchors": ["src/js_interactable/category_handler.rs: toggle", "src/js_interactable/tag_handler.rs: toggle", "src/lib.rs: get_categories", "src/lib.rs: get_tags"]}
{"id": "C93", "title": "Handlers stay usable", "statement": "When page code has run, no handler is left locked. (False: if a tag observer searches, the category handler throws at every later toggle. True if only the page's own code searches, filter objects are read without throwing, tags are from numbered lists and no search panics.)", "quantifier": "all pages, observers, worlds, later code", "why_tests_cant": "all later executions", "anchors": ["src/lib.rs: search", "src/js_interactable/category_handler.rs: toggle", "src/js_interactable/tag_handler.rs: toggle"]}
{"id": "C94", "title": "A correction considers only the five most popular grams", "statement": "As the comment in search_gram says, apart from the typed gram and none a correction tries only the five most popular grams at a node. (False: every child of the node is tried; the one chosen need not be among the first five.)", "quantifier": "all texts, queries, hash orders", "why_tests_cant": "all indexes and queries; the cost grows with the texts", "anchors": ["src/ngram/index.rs:105-116", "src/ngram/index.rs:195-201"]}
{"id": "C95", "title": "A search takes boundedly many calls", "statement": "Matching one window of N grams takes at most N*(N*(2a+2))^(N/3) calls of recursive_search, nested at most N+N/3 deep, where a is the number of different grams of the texts; for a loaded catalogue (N = 5) a query of q chars takes at most 50*q*(a+1) calls.", "quantifier": "all texts, gram sizes, queries, hash orders", "why_tests_cant": "worst cases over all texts and queries", "anchors": ["src/ngram/index.rs: search", "src/ngram/index.rs: search_gram", "src/ngram/index.rs: recursive_search"]}
{"id": "C96", "title": "The index is linear in the texts", "statement": "The nodes of the trie are as many as the different factors of at most N grams of the texts, hence at most N for each gram; the posting lists have at most as many entries as the texts have grams.", "quantifier": "all texts, gram sizes, hash orders", "why_tests_cant": "all texts", "anchors": ["src/ngram/indexer.rs: index_from"]}
{"id": "C97", "title": "Hash orders do not change the length of the file", "statement": "For the same list of products and gram size, the files written under any two hash orders have the same length. (The order of the products can change it.)", "quantifier": "all catalogues, gram sizes, pairs of hash orders", "why_tests_cant": "two processes rarely show all orders of a map", "anchors": ["src/serialize/all_indexes.rs: serialize_all", "src/serialize/nodes.rs", "src/serialize/collections.rs", "src/lib.rs: index_and_serialize_with_n"]}
{"id": "C98", "title": "The file is linear in the catalogue", "statement": "A catalogue whose counts are below 2^28 is written in at most 139 + 12*s + b + (14*N+13)*g bytes, where s and b are the number and bytes of its strings and g the grams of its texts.", "quantifier": "all catalogues below 2^28, gram sizes up to 764, hash orders", "why_tests_cant": "all catalogues", "anchors": ["src/serialize/all_indexes.rs: serialize_all", "src/lib.rs: index_and_serialize_with_n"]}
{"id": "C99", "title": "Loaded tries are no deeper than the gram size", "statement": "Every trie of a loaded index is at most N nodes deep, so that recursion on it is bounded. (False for arbitrary files: a file of 15+6d bytes loads with a trie of depth d+1. True for files the indexer wrote; and six times the depth is at most the length of any file.)", "quantifier": "all files, gram sizes up to 764", "why_tests_cant": "unbounded files", "anchors": ["src/serialize/nodes.rs", "src/lib.rs: initialize"]}
{"id": "C100", "title": "The repository's round-trip test passes on every catalogue", "statement": "For every catalogue with readable prices that fits the platform, the test test_serialize_and_deserialize run on it passes: the n-gram index and the classic indexes read back from the file are == to the ones written.", "quantifier": "all catalogues, hash orders and gram sizes", "why_tests_cant": "the test runs on one file, ./test.json; it says nothing about catalogues with several categories, prices that are not numbers, or descriptions cut to nothing", "anchors": ["src/serialize/mod.rs: test_serialize_and_deserialize", "src/ngram/index.rs: PartialEq for GramNode, GramIndex", "src/data/container.rs: PartialEq for ProductContainer", "src/data/features.rs: PartialEq for Feature", "src/data/vendor.rs: PartialEq for VendorManager"]}
{"id": "C101", "title": "Typing on never loses a product", "statement": "A product found for a query, under given handlers and filters, is found for every query that continues it; in a built index its confidence does not sink, rounding included; if no text contains a NUL the same holds for every query that contains it.", "quantifier": "all indexes, queries, continuations, hash orders, calls before", "why_tests_cant": "all pairs of queries and indexes; float sums", "anchors": ["src/ngram/index.rs: search", "src/lib.rs: search"]}
{"id": "C102", "title": "Concurrent calls behave like undisturbed ones", "statement": "With every lock, read, store and unlock a step of its own, each reply of a concurrent call is the reply of the same call run alone on the SHARED_INDEX of one moment and the SHARED_CLASSIC_INDEX of a moment no earlier, both within the call; calls that lock one cell are linearizable; a single thread runs exactly the sequential entry points; each cell always holds its whole part of some file.", "quantifier": "all numbers of threads, all clients that choose calls by the replies they got, all schedules", "why_tests_cant": "thread interleavings; poisoning by panics", "anchors": ["src/lib.rs: SHARED_INDEX, SHARED_CLASSIC_INDEX, initialize, search, get_categories, get_tags, get_orders, tag_suggestion"]}
{"id": "C103", "title": "A race between loading and searching cannot disable the library", "statement": "If all files come from the indexer and all handlers are sound, no interleaving of calls poisons a mutex.", "quantifier": "all schedules, files and searches", "why_tests_cant": "thread interleavings", "anchors": ["src/lib.rs: initialize, search", "src/lib.rs: search, results.sort_by_cached_key"]}
{"id": "C104", "title": "Indexing ends in one of two ways", "statement": "Indexing with grams of at least one character never runs into a RefCell borrow panic; it panics exactly if the build checks for overflow and the texts have 2^32 grams or more, and otherwise returns an index. Writing a file panics exactly if a price is unreadable or counting overflows. With grams of no characters the first character that is fed panics.", "quantifier": "all products, texts, gram sizes, hash orders and platforms", "why_tests_cant": "texts of 2^32 characters; aliasing of RefCells depends on the text", "anchors": ["src/ngram/indexer.rs: index_from", "src/lib.rs: index, index_and_serialize"]}
{"id": "C105", "title": "References into the arenas show the decoded values", "statement": "Loading bytes into any state of the two arenas ends as decoding to plain values does; every reference that was made (to nodes, vendors, products, the container) shows exactly the decoded value, goes on doing so whatever is loaded later, and the downcast of SuperAlloc never fails. The same for freezing the indexer's trie.", "quantifier": "all byte strings, all contents of the arenas, all later loads", "why_tests_cant": "all bytes and all histories of the arenas", "anchors": ["src/data/container.rs: SuperAlloc", "src/serialize/nodes.rs: deserialize_arena", "src/data/vendor.rs: VendorManager::deserialize", "src/ngram/indexer.rs: immutalize"]}
{"id": "C106", "title": "Loading again needs no more memory", "statement": "Calling initialize again with a file does not need more memory than calling it once.", "quantifier": "all files and numbers of loads", "why_tests_cant": "leaks do not show in results", "anchors": ["src/lib.rs: NODE_ARENA, SUPER_ARENA, initialize"]}
{"id": "C107", "title": "The order of the catalogue does not matter to a search", "statement": "Let a catalogue have distinct ids and no ties (no two different grams follow a sequence equally often, the condition C41 shows to be exact). Index it and any permutation of it, with any hash orders; load the files anywhere, choose the same options and tags by name and search for the same text: the same product ids are found with the same confidences, place by place equally ranked, and the same products are delivered, although ids, option indices and tag ids inside the files differ.", "quantifier": "all catalogues without ties, permutations, hash orders, platforms, histories, queries and choices", "why_tests_cant": "all permutations of all catalogues, and all hash orders", "anchors": ["src/lib.rs: index_and_serialize, search", "src/ngram/indexer.rs: index_from, immutalize", "src/classic_indexes/mod.rs: new", "src/ngram/index.rs: search"]}
{"id": "C108", "title": "Search ignores case", "statement": "Two catalogues that differ only in the case of descriptions, titles and vendors, and two queries that differ only in case, deliver the same products (no ties, options and tags chosen by name as in C107); and in any state a query and its lower-case form have exactly the same outcome.", "quantifier": "all catalogues without ties, queries, hash orders, platforms, histories, lower-casing functions", "why_tests_cant": "all spellings of all texts", "anchors": ["src/lib.rs: search, index_and_serialize"]}
{"id": "C109", "title": "A match lies within one field", "statement": "A delivered product has, in its description, its title or its vendor name, a piece of five chars that is a piece of the query up to one correction.", "quantifier": "all catalogues and queries", "why_tests_cant": "all catalogues and queries", "anchors": ["src/lib.rs: index_and_serialize_with_n (210-225)"]}
{"id": "C110", "title": "The likeliest similar window is chosen", "statement": "For gram sizes up to five, the window that a built index matches with a typed window is one of the windows of the texts that begin with the same gram and differ in at most a third of the places or by one inserted gram; its confidence is the product of the shares with which each gram follows what is before it; no similar window is likelier; and nothing is matched exactly when no similar window occurs. Without a tie the choice is determined by the texts.", "quantifier": "all sources, hash orders and windows", "why_tests_cant": "all sources, hash orders and windows", "anchors": ["src/ngram/index.rs: search_gram, recursive_search", "src/ngram/indexer.rs"]}
{"id": "C111", "title": "A search is a function of the texts", "statement": "For products with different ids, a search of a built index finds exactly the products whose text scores points, each with the sum of its points, best first; the points of a text are, for each window of the query, the likelihood of the window chosen for it, as often as that window is in the text, unless it makes up four fifths of the number of products or more.", "quantifier": "all sources, hash orders and queries", "why_tests_cant": "all sources, hash orders and queries", "anchors": ["src/ngram/index.rs: search", "src/ngram/result_ranker.rs", "src/ngram/indexer.rs"]}
{"id": "C112", "title": "From catalogue to answer", "statement": "After the file of a catalogue was loaded, whatever was called before and since, a search without feature filters delivers exactly the raw products that score points for the query and have every option and tag that is switched on, each once, and best first unless another order is asked for.", "quantifier": "all catalogues, histories, handlers and queries", "why_tests_cant": "all catalogues, histories, handlers and queries", "anchors": ["src/lib.rs: index_and_serialize_with_n, initialize, search", "src/js_interactable/product_producer.rs"]}
{"id": "C113", "title": "A file that was cut short is not accepted", "statement": "No proper prefix of a written file is accepted by initialize.", "quantifier": "all indexes, files and cuts", "why_tests_cant": "every file has thousands of prefixes; which are accepted depends on the sizes written", "anchors": ["src/serialize/primitives.rs: u64::deserialize (72-115)", "src/serialize/collections.rs: Vec::deserialize, AHashMap::deserialize", "src/classic_indexes/order.rs: deserialize", "src/lib.rs: initialize, search (96)"]}
{"id": "C114", "title": "A file says where it ends and what it holds", "statement": "If two written files, each followed by anything, are the same bytes, then the files are the same and hold the same index. In particular the file of a catalogue is never a proper start of the file of another.", "quantifier": "all indexes, catalogues, hash orders and trailing bytes", "why_tests_cant": "all pairs of files", "anchors": ["src/serialize/all_indexes.rs: serialize_all, deserialize_all", "src/lib.rs: index_and_serialize"]}
{"id": "C115", "title": "Writing what was loaded loses nothing more", "statement": "If a written file is loaded, and what was loaded is written again, on any platform and with any hash order, then loading that gives the same index.", "quantifier": "all storable indexes, platforms and hash orders", "why_tests_cant": "all indexes", "anchors": ["src/serialize/all_indexes.rs: serialize_all, deserialize_all", "src/serialize/collections.rs: limit_string_len", "src/classic_indexes/categorical.rs: deserialize"]}
{"id": "C116", "title": "An ordered search is sorted by title or price", "statement": "After the file of a catalogue was loaded, whatever was called before and since, a search with an order delivers the products that the same search without order delivers, each once, sorted by title or, if all prices are numbers, by ascending or descending price; products with equal titles or prices stand as in the catalogue. No other order gives a result.", "quantifier": "all catalogues, histories, handlers, filters, queries and orders", "why_tests_cant": "all catalogues and all subsets of them that a search may find", "anchors": ["src/lib.rs: index_and_serialize, initialize, search (92-97)", "src/data/raw_parser.rs: optimize (160-185)", "src/classic_indexes/order.rs: add_custom_cmp, get_orders"]}
{"id": "C117", "title": "From catalogue to answer, with filters", "statement": "After the file of a catalogue was loaded, whatever was called before and since, a search delivers exactly the raw products that score points for the query, have every option and tag that is switched on and are let pass by each entry of the filter object: those whose price lies between the bounds for an entry named price, none for an entry with another name and a numeric bound, and all for an entry without numeric bounds.", "quantifier": "all catalogues, histories, handlers, queries and filter objects without throwing getters", "why_tests_cant": "all catalogues, histories, handlers, queries and filters", "anchors": ["src/lib.rs: search", "src/js_interactable/feature_filter.rs: parse, filter", "src/data/features.rs: get_js", "src/data/raw_parser.rs: optimize (60-85)"]}
{"id": "C118", "title": "Arrays of a fixed size are read exactly", "statement": "Reading an array of N bytes from a JSON text succeeds exactly when the text describes an array of N whole numbers up to 255 (in a structure with that field), and gives these bytes; every other text is an error and the unreachable! branch is never taken. What is written for an array is read back as it, and refused as an array of any other size.", "quantifier": "all texts, array sizes and arrays", "why_tests_cant": "all sizes N and all texts", "anchors": ["src/serde_array.rs: arrays::serialize, ArrayVisitor::visit_seq, arrays::deserialize, TypeWithArray, TypeWithConstGenericArray"]}
{"id": "C119", "title": "A match is the surest reading, for windows of any length", "statement": "For windows of n grams, 1 to 764, the index matches a typed window with its surest reading: starting at the first typed gram, grams of the texts are kept as typed, replaced, inserted before the next or, right after one was read, exchanged for the next typed one, beginning a correction only while fewer than n/3 were counted (an insertion counts twice); the sureness is the product of the shares of the grams read, where an exchange changes nothing. Nothing is matched if there is no reading, and a search finds exactly the texts that score points by these matches.", "quantifier": "all sources, window lengths up to 764, hash orders and queries", "why_tests_cant": "all tries and queries; exponentially many readings", "anchors": ["src/ngram/index.rs: search_gram, recursive_search, search", "src/ngram/result_ranker.rs"]}
{"id": "C120", "title": "The confidence in a match is the likelihood of what was matched", "statement": "The confidence that the index reports for a match is the likelihood of the matched window: the product of the shares with which its grams follow each other in the texts.", "quantifier": "all sources, window lengths and queries", "why_tests_cant": "all tries and queries", "anchors": ["src/ngram/index.rs: recursive_search (the branch that skips the last gram)"]}
{"id": "C121", "title": "The file format, for any bytes at all", "statement": "Whatever bytes the loader is given, the grammar of the file format (Grammar_spec.v) says which of three things happens: they are read, rejected, or make the loader panic. It gives every sequence of bytes one fate, and there are four reasons for a panic: a text longer than the rest of the file, a length that no collection can have, a gram of another size, and (with overflow checks) a sum of ids that overflows.", "quantifier": "all byte sequences, gram sizes and platforms", "why_tests_cant": "all byte sequences", "anchors": ["src/serialize/all_indexes.rs: deserialize_all", "src/serialize/nodes.rs", "src/serialize/collections.rs", "src/serialize/primitives.rs", "src/serialize/sequential_array.rs", "src/data/container.rs: deserialize", "src/classic_indexes/mod.rs: deserialize"]}
{"id": "C122", "title": "What the repository's tests of its codec can find", "statement": "The round trip test of numbers fails exactly if it is given a number from 2^56 up to 2^63 - 1, which it is not; those of chars, bools and texts pass whatever they are given. A benchmark's query is the start of its text, and panics unless a char ends there.", "quantifier": "all lists of u64, of chars, of bools and of storable texts; all texts and lengths", "why_tests_cant": "a statement about what the tests would say of every input", "anchors": ["src/serialize/primitives.rs: serialize_deserialize, many_serialize_deserialize, test_char_serialization, test_u64_serialization, test_bool_serialization, test_string_serialization", "src/serialize/collections.rs: test", "benches/searching/by_query_len.rs: search"]}
{"id": "C123", "title": "The statistics table of gram popularity", "statement": "The table has one row for each length of a posting list, in ascending order, with the number of grams that have such a list; a gram with one product and a space is counted once. The text is the same whatever the orders of the hash maps. The column product_amount counts products (refuted: it counts occurrences).", "quantifier": "all indexes of fewer than 2^31 grams, all hash orders", "why_tests_cant": "all indexes and all hash orders; the test only writes a file", "anchors": ["src/ngram/index.rs: test_gram_popularity"]}
{"id": "C124", "title": "From the text of a catalogue to the answer of a search", "statement": "For the JSON text of a catalogue that main turned into a file which was then loaded: a search delivers the products (the last one under each key) that score points, have all that is switched on and pass the filter; asked for an order it delivers the same products by title or by the cents of the prices written in the text, and a filter whose bounds are not within 1/256 of a price decides by the cents.", "quantifier": "all texts, platforms, hash orders, sequences of calls before and after loading, queries, selections, orders and filters; for the orders and filters, prices in whole cents up to 131072.00", "why_tests_cant": "all texts and searches", "anchors": ["src/main.rs: main", "src/lib.rs: index, index_and_serialize, initialize, search", "src/data/raw_parser.rs: optimize", "src/ngram/index.rs: search", "src/classic_indexes/order.rs", "src/js_interactable/feature_filter.rs"]}
{"id": "C125", "title": "Which searches panic, whatever was loaded", "statement": "After any accepted file: a search with handlers whose active options and tags exist panics exactly when it is by an order, finds at least two products and one of them lies beyond the order's table. If an active option or tag does not exist, some hash order makes the search panic exactly when a product is found (for a missing tag: one that has the active options), and every hash order does exactly when a found product has all active options (and tags) that do exist.", "quantifier": "all loaded files, handlers, hash orders, queries, filters and orders", "why_tests_cant": "whether a search panics can depend on the hash order of a set, which a test cannot choose", "anchors": ["src/lib.rs: search", "src/js_interactable/category_handler.rs: is_valid", "src/js_interactable/tag_handler.rs: is_valid"]}
{"id": "C126", "title": "Strings pass between JavaScript and Rust unharmed", "statement": "Whatever JavaScript string is passed, valid UTF-8 arrives; passed back, it has U+FFFD for every lone surrogate and is otherwise the same, so it is the same exactly if it has none. A Rust string arrives in JavaScript spelled in UTF-16, is equal there to no other, and passed back is itself. Every name, title, description, key and text feature of a file loaded from any bytes is such a string.", "quantifier": "all JavaScript strings, all Rust strings, all files of any bytes", "why_tests_cant": "all sequences of code units", "anchors": ["src/lib.rs: search, get_orders, tag_suggestion", "src/js_interactable/product_producer.rs: JsProduct", "src/js_interactable/category_handler.rs: name, get_name", "src/js_interactable/tag_handler.rs: get_name", "src/js_interactable/feature_filter.rs: parse", "src/serialize/collections.rs: String::deserialize"]}
{"id": "C127", "title": "Adding products never hides another", "statement": "A product that a query finds is found by the same query when the catalogue has more products. (REFUTED: a fourth hammer among six products hides all hammers, and a product with a likelier misspelling hides the exact word. What holds: if the new texts have none of the chars that the query's windows begin with, and each window has one surest reading, then all that was found is found with no less a score, and none of the new products is; up to 5242880 products.)", "quantifier": "all catalogues, all products added, all queries, all hash orders", "why_tests_cant": "all pairs of catalogues and all queries", "anchors": ["src/ngram/index.rs: search_gram, recursive_search", "src/ngram/indexer.rs: index_from, sort_grams", "src/lib.rs: search"]}
{"id": "C128", "title": "A suggested tag can be shown and chosen", "statement": "Whatever bytes were loaded, the name of a suggested tag can be read; the input given back with it is a word of the query and similar to the name; choosing the tag never panics and switches on that tag alone. With the file of a catalogue, some product has that tag, and a search with the tag chosen delivers exactly those products, of the ones delivered without it, that have the tag in the catalogue.", "quantifier": "all loaded bytes, all catalogues with distinct ids, all runs, all queries, all hash orders", "why_tests_cant": "all files, queries and histories", "anchors": ["src/lib.rs: tag_suggestion, search", "src/js_interactable/tag_handler.rs: toggle"]}
{"id": "C129", "title": "Typing a tag's name suggests that tag", "statement": "For a query that is the name of a tag, that tag is suggested. (REFUTED: the tag \"lamp\" hides the tag \"lampshade\". Exactly, for ASCII names of 3 to 4095 chars without spaces: it is suggested unless, for an earlier tag, one of the two names begins with the other, at least 3 chars.) A word that begins as a tag does suggests the first such tag.", "quantifier": "all lists of tags, all words", "why_tests_cant": "all lists of tags", "anchors": ["src/lib.rs: tag_suggestion, overlap"]}
{"id": "C130", "title": "Comparisons keep Rust's contracts of Eq and Ord", "statement": "== is an equivalence, cmp is a total order, and the two agree, for products and for trie nodes. (REFUTED for products of two catalogues and for nodes with a weight that is not a number. Proved: all is kept among the products of one catalogue; cmp on nodes keeps the contract exactly when all weights are numbers or no two nodes are ordered.)", "quantifier": "all lists of products and of nodes", "why_tests_cant": "all values", "anchors": ["src/data/product.rs: Ord, Eq for Product", "src/ngram/index.rs: Ord for GramNode"]}
{"id": "C131", "title": "Benchmarks and size tables measure what they say", "statement": "The number in a benchmark's name is the number of products or chars it uses. (REFUTED: c160_products uses 180 products; c25_chars_search and c34_chars_search search for 24 and 32 chars. All others do.) For every catalogue whose prices are numbers all benchmarks and tables finish; each row of a table has the size in thousands of bytes, to one part in 16777216, of the file the indexer would write for those products and that gram size, and does not depend on hash orders.", "quantifier": "all catalogues, shuffles, hash orders and gram sizes", "why_tests_cant": "they run on one catalogue and print to a file that nothing checks", "anchors": ["benches/indexing/product_amount.rs: test", "benches/indexing/gram_size.rs: test", "benches/searching/by_query_len.rs: make_index, search", "benches/searching/by_gram_size.rs: test", "tests/index_size_by_ngram.rs: do_test", "tests/index_size_pr_product.rs: index_size_pr_product", "src/ngram/index.rs: make_index, test_index_generation"]}
{"id": "C132", "title": "The size of a file", "statement": "The number of bytes of a file is given by a formula in the raw catalogue and the gram size: no hash order, platform or price changes it. A larger gram size never makes a smaller file, and makes a larger one unless no product text is longer than the smaller gram size and no posting list is kept.", "quantifier": "all catalogues with fewer than 2^32 grams, gram sizes, hash orders and platforms", "why_tests_cant": "the size tables of the tests print sizes for ten gram sizes of one catalogue", "anchors": ["src/lib.rs: index_and_serialize", "src/ngram/index.rs: serialize", "src/serialize/primitives.rs: serialize", "src/serialize/sequential_array.rs: serialize", "src/classic_indexes/categorical.rs: serialize", "src/classic_indexes/tag.rs: serialize", "src/classic_indexes/order.rs: serialize", "tests/index_size_by_ngram.rs: do_test"]}
{"id": "C133", "title": "More products make a larger file", "statement": "Adding products to a catalogue makes its file larger. (REFUTED: a sixth product with the description of three others makes the file of 1648 bytes one of 1335, as its windows become too frequent to be listed.) If every window that was listed stays listed, the file grows by at least a byte for each product.", "quantifier": "all catalogues with fewer than 2^32 grams, added products, gram sizes and hash orders", "why_tests_cant": "tests/index_size_pr_product.rs prints sizes of growing parts of one catalogue", "anchors": ["src/ngram/indexer.rs: index_from", "tests/index_size_pr_product.rs: index_size_pr_product"]}
{"id": "C134", "title": "One slip of the finger does not hide a product", "statement": "A product is found by a part of its text typed with one wrong char, one left out, one too many or two in the wrong order, if at least 5, 5, 8 or 6 other chars are right and everything in the catalogue that resembles five chars in a row of the input is in that text and not too common. In the library it is delivered if it meets the filters that were set. With one right char less nothing may be found.", "quantifier": "all catalogues with distinct ids and fewer than 2^32 grams, hash orders, places of the slip, and inputs around it", "why_tests_cant": "the fuzzy search tests type a handful of words of one catalogue", "anchors": ["src/ngram/index.rs: search, search_gram, recursive_search", "src/lib.rs: search", "src/ngram/indexer.rs: index_from"]}
{"id": "C135", "title": "A changed byte is noticed", "statement": "A file in which one byte was changed is not accepted. (REFUTED in every catalogue with an ASCII char in a title: replaced by any other ASCII char the file is accepted, and exactly that title is different; searches still match the old one.) Any byte of 128 and above in its place makes initialize panic, and the state stays as it was.", "quantifier": "all catalogues that fit, titles, places in them, replacing bytes, hash orders and platforms", "why_tests_cant": "no test changes a file, and there are as many changes as bytes times 255", "anchors": ["src/lib.rs: initialize", "src/serialize/all_indexes.rs: deserialize_all", "src/data/product.rs: deserialize", "src/serialize/collections.rs: String::deserialize"]}
{"id": "C136", "title": "Constructors and accessors keep what they are given", "statement": "Whatever bytes were loaded, TagIndex::get finds the tag with the number asked for exactly if there is one, and a JSTag for it shows its name and number (and panics past the end). get and indexing of categories agree, with None and a panic past the end. A new ranker is empty and merges exactly the products with the same id. The filter constructors make filters that accept by range and by equality, and only they are made from JavaScript's objects. Products of a new container show its data; a new classic index holds its parts; what is new is empty. partial_cmp of trie nodes always answers, even for weights that are not numbers.", "quantifier": "all byte strings, indexes, positions, products, values and hash orders", "why_tests_cant": "there are no tests of these functions; the positions past the end and the weights that are not numbers never occur in test data", "anchors": ["src/classic_indexes/tag.rs: get, iter, get_id", "src/classic_indexes/categorical.rs: get, index", "src/classic_indexes/mod.rs: ClassicIndexes::new", "src/classic_indexes/order.rs: OrderIndex::new, get_orders, options", "src/data/container.rs: ProductContainer::new", "src/data/features.rs: get_feature, new_empty", "src/ngram/result_ranker.rs: extract, ResultRanker::new, add", "src/ngram/index.rs: PartialOrd for GramNode", "src/js_interactable/feature_filter.rs: new_range, new_exactly, parse", "src/js_interactable/tag_handler.rs: JSTag::new"]}
{"id": "C137", "title": "A better match comes first", "statement": "A product whose text is what was typed comes before products whose text does not contain it; more generally, a product comes no later than another if each window is found in its text at least as often, in particular if its text contains the other's, and products with the same text get the same confidence. Confidences are bounded by the number of places of query and text, and by 2^24.", "quantifier": "all catalogues with distinct ids, gram sizes up to 764, queries and hash orders; from the catalogue to the browser for the size that is used", "why_tests_cant": "the order of results depends on rounded sums over all windows of all texts; a test shows the order for one catalogue", "anchors": ["src/ngram/result_ranker.rs: add, export_data_by_confidence", "src/ngram/index.rs: search, search_gram", "src/lib.rs: search"]}
{"id": "C138", "title": "An overwritten price is noticed", "statement": "If the four bytes of a stored price are overwritten by others, loading the file fails, or at least the searches by price follow the price that is reported.", "quantifier": "all catalogues, all their prices, any four bytes, all hash orders and platforms, all searches without filters", "why_tests_cant": "the price column sits at a place that depends on the catalogue and the hash order, and there are 2^32 prices", "anchors": ["src/data/features.rs: Feature::deserialize", "src/serialize/primitives.rs: f32::deserialize", "src/lib.rs: initialize, search"]}
{"id": "C139", "title": "The search stays within its machine integers and arrays", "statement": "Run statement by statement with its 8-bit counter of changes and its array accesses, the search neither overflows nor panics for windows of up to 764 grams, whatever index was loaded; 764 is the largest such size.", "quantifier": "all indexes, all queries, all gram sizes from 1 to 764, with and without overflow checks, all hash orders", "why_tests_cant": "the counter is at its limit only along the deepest corrections, of which there are exponentially many", "anchors": ["src/ngram/index.rs: search, search_gram, recursive_search"]}
{"id": "C140", "title": "The codec stays within its machine words and slices", "statement": "Run statement by statement on 64-bit words with an i32 counter, writing a number ends within ten rounds and reading one, from any bytes, never shifts out of range, overflows or slices past the end; a description is never cut inside a char.", "quantifier": "all 64-bit numbers, all byte sequences, all strings and limits, with and without overflow checks", "why_tests_cant": "the counter and the shifts are at their limits only for particular lengths of corrupt input, and a cut inside a char needs a particular text", "anchors": ["src/serialize/primitives.rs: u64::serialize, u64::deserialize", "src/serialize/collections.rs: limit_string_len"]}
{"id": "C141", "title": "Freeing objects gives back what they hold", "statement": "A classic index stays allocated exactly as long as it is the one in use or an object still shares it. A page in which no call threw can free all its objects, and loading another file then leaves only the new index. Freed objects stay freed; an object freed while one of its methods runs keeps its index for good.", "quantifier": "all sequences of loading, calling methods of any exported object, nested calls from observers, panics, and freeing, in any order", "why_tests_cant": "whether anything still refers to an old index cannot be observed from outside, and the possible nestings of calls are unbounded", "anchors": ["src/js_interactable/category_handler.rs: CategoryHandler, CategoryIter, CategoryOptionIter, ExportCategoryOption", "src/js_interactable/tag_handler.rs: TagHandler, TagIter, JSTag", "src/js_interactable/product_producer.rs: ProductProducer, JsProduct", "src/lib.rs: initialize, get_categories, get_tags, tag_suggestion, search"]}
{"id": "C142", "title": "A mistake with one object leaves the others usable", "statement": "Passing an object that was freed throws an exception and has no other effect; handlers stay usable.", "quantifier": "all sequences of events and all calls that take two objects", "why_tests_cant": "the damage shows only in a later call of another object, and whether it ever heals is a statement about all continuations", "anchors": ["src/js_interactable/category_handler.rs: CategoryHandler, CategoryIter, CategoryOptionIter, ExportCategoryOption", "src/js_interactable/tag_handler.rs: TagHandler, TagIter, JSTag", "src/js_interactable/product_producer.rs: ProductProducer, JsProduct", "src/lib.rs: initialize, get_categories, get_tags, tag_suggestion, search"]}
{"id": "C143", "title": "The file, byte for byte", "statement": "What may be written for an index is exactly what the layout in Layout_spec.v allows: numbers in the fewest base 128 digits, floats as IEEE 754 fields with the highest byte first, truth values as 0 or 1, texts after their length, ids as ascending differences, and the eight sections in turn, with tables in any order of their entries. Only bytes are written.", "quantifier": "all indexes and hash orders; all byte sequences", "why_tests_cant": "round trip tests accept any layout that the reader shares; all indexes and all hash orders", "anchors": ["src/serialize/primitives.rs: serialize", "src/serialize/collections.rs: serialize", "src/serialize/sequential_array.rs: serialize", "src/serialize/nodes.rs: serialize", "src/serialize/all_indexes.rs: serialize_all", "src/data/vendor.rs: serialize", "src/data/product.rs: serialize", "src/data/features.rs: serialize", "src/data/container.rs: serialize", "src/classic_indexes/mod.rs: serialize"]}
{"id": "C144", "title": "The files of the indexer", "statement": "A run of the indexer touches no file but the index. If it reports success, the index is what the input file gives, in full; if it panics, the index is as before; every run ends. A run that fails leaves the index as it was or at least leaves nothing that passes for an index. Through any sequence of runs and saves the index is the one at first or the start of one that was produced.", "quantifier": "all disks, inputs, platforms, hash orders, failures of reading and writing, and sequences of runs and saves", "why_tests_cant": "failures of a disk part way through a write, at every byte, over all histories", "anchors": ["src/main.rs: main", "src/lib.rs: index, initialize"]}
{"id": "C145", "title": "A query finds what its pieces find, in whatever order its words are", "statement": "A product is found for a query if and only if it is found for one of the query's pieces of N chars alone, so queries with the same pieces find the same products, and deliver the same products under the same handlers and filters. The order of the words of a query does not matter to which products are found. (REFUTED for the order of words: \"old cat\" and \"cat old\" differ, as pieces reach over spaces. What holds: whatever is found no more was found by a piece with a space.)", "quantifier": "all indexes in which no gram begins with NUL, queries, words, handlers, filters, states and hash orders", "why_tests_cant": "all indexes, built or loaded, and all pairs of queries", "anchors": ["src/ngram/index.rs: search, search_gram", "src/ngram/result_ranker.rs: add", "src/lib.rs: search"]}
{"id": "C146", "title": "Loading a file never reserves room for more elements than the file has bytes", "statement": "Every vector and map that is pre-allocated while a file is loaded is asked to hold at most as many elements as the file has bytes: loading gives the same result where every larger request is refused. (REFUTED for files that are then refused: at most 8 bytes can make loading reserve any room the machine allows before the file is found too short. It holds for every file that loads, whatever its bytes.)", "quantifier": "all byte strings, platforms, gram sizes and limits", "why_tests_cant": "all files, honest or not, and all limits", "anchors": ["src/serialize/collections.rs: Vec::deserialize, AHashMap::deserialize", "src/serialize/sequential_array.rs: deserialize", "src/data/vendor.rs: deserialize", "src/data/product.rs: deserialize", "src/serialize/nodes.rs: deserialize", "src/classic_indexes/categorical.rs: deserialize", "src/classic_indexes/tag.rs: deserialize", "src/serialize/all_indexes.rs: deserialize_all"]}
{"id": "C147", "title": "What is loaded is no larger than the file", "statement": "Whatever bytes are loaded, the vendors, products, features, trie nodes, posting lists, categories, tags and orders that result are together no larger than the file, each counted in the fewest bytes it can take. No file shorter than 8 bytes loads, and of the files of 8 bytes exactly two do, seven zeros followed by 0 or 128; they hold no products.", "quantifier": "all byte strings, platforms and gram sizes", "why_tests_cant": "all files, honest or not; all files of up to 8 bytes", "anchors": ["src/serialize/all_indexes.rs: deserialize_all", "src/serialize/nodes.rs: deserialize", "src/serialize/collections.rs: deserialize", "src/data/container.rs: deserialize", "src/classic_indexes/mod.rs: deserialize"]}
{"id": "C148", "title": "Only what is switched on matters", "statement": "Two searches for the same query whose handlers show the same options and tags as on, and whose filter entries are the same in any order, give the same answer, however the handlers came to that state and in whatever order maps and sets are gone through. Handlers show the same if every option and tag was toggled equally often up to an even number; a click and the click that takes it back leave no trace.", "quantifier": "all states, queries, handlers and their histories, filter entries and iteration orders", "why_tests_cant": "all histories of clicks and all iteration orders", "anchors": ["src/lib.rs: search", "src/js_interactable/category_handler.rs: toggle", "src/js_interactable/tag_handler.rs: toggle", "src/js_interactable/feature_filter.rs: parse"]}
{"id": "C149", "title": "Exclusive categories", "statement": "In a category that is marked as exclusive at most one option is on. (Expected from the field; it does not hold for files in general: the mark is never looked at and any two options can be on. The indexer marks no category.)", "quantifier": "all indexes and handlers", "why_tests_cant": "all files and all histories", "anchors": ["src/classic_indexes/categorical.rs: Category", "src/js_interactable/category_handler.rs: toggle"]}
{"id": "C150", "title": "Switching on more gives fewer results", "statement": "With more options and tags on and more filter entries, a search for the same query finds nothing that it did not find before, and without a sort order what is left keeps its order. With all on that is on in either of two pairs of handlers, a search finds exactly what it finds with both.", "quantifier": "all states, queries, handlers, filters, sort orders and iteration orders", "why_tests_cant": "all indexes and all sets of options, tags and filters", "anchors": ["src/lib.rs: search", "src/js_interactable/category_handler.rs: is_valid", "src/js_interactable/tag_handler.rs: is_valid", "src/js_interactable/feature_filter.rs: filter"]}
