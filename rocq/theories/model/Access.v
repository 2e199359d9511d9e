(** Constructors and accessors that the other parts of the model use in unfolded form. *)
From Verif.model Require Import Base F32 Utf8 Prim Coll Data Gram Indexer Nodes Classic Lit Raw Js Lib.

(** src/lib.rs:139-141, [TagSuggestionResult::get_input]. *)
Definition ts_get_input (r : tag_suggestion_result) : rstr := ts_input r.
(** src/lib.rs:143-145, [TagSuggestionResult::get_tag]: a clone shares the index. *)
Definition ts_get_tag (r : tag_suggestion_result) : js_tag := ts_tag r.
(** src/js_interactable/tag_handler.rs:146-148, [JSTag::new]. *)
Definition js_tag_new (handle : classic) (index : N) : js_tag := JSTag handle index.

(** src/classic_indexes/tag.rs:83-86, [TagIndex::get], by position; the iterator made on line 84 is
    dropped. *)
Definition tags_get (tags : tag_index) (id : N) : option tag := getN tags id.
(** src/classic_indexes/tag.rs:112-114, [TagIndex::iter]. *)
Definition tags_iter (tags : tag_index) : list tag := tags.
(** src/classic_indexes/tag.rs:39-41, [Tag::get_id]. *)
Definition tag_get_id (t : tag) : N := t_id t.
(** src/classic_indexes/categorical.rs:176-178, [CategoryIndex::get]. *)
Definition categories_get (categories : category_index) (index : N) : option category := getN categories index.
(** src/classic_indexes/categorical.rs:190-196, [Index for CategoryIndex]: panics past the end. *)
Definition categories_index (categories : category_index) (index : N) : res category := unwrap (getN categories index).
(** src/classic_indexes/order.rs:58-62, [OrderIndex::new], and 73-77, its [Default]. *)
Definition orders_new : order_index := ∅.
(** src/classic_indexes/mod.rs:40-50, [ClassicIndexes::new]. *)
Definition classic_new (categories : category_index) (tags : tag_index) (order : order_index) : classic :=
  Classic categories tags order.

(** src/data/container.rs:16-26, [ProductContainer::new]. *)
Definition container_new (products : list product) (vendors : vendor_manager) (extra_features : feature_set) : container :=
  Container products vendors extra_features.
(** src/data/features.rs:73-75, [FeatureSet::get_feature]. *)
Definition fs_get_feature (fs : feature_set) (key : rstr) : option feature := fs !! key.
(** src/data/features.rs:114-116, [FeatureSet::new_empty]. *)
Definition fs_new_empty : feature_set := ∅.
(** src/data/product.rs:66-70, [PartialOrd for Product]. *)
Definition product_partial_cmp (a b : product) : option comparison := Some (product_cmp a b).
(** src/data/product.rs:79-85, [HashExtractable for &Product], and src/ngram/result_ranker.rs:13-19,
    [HashExtractable for Product]. *)
Definition product_extract (p : product) : rstr := p_id p.
(** src/ngram/result_ranker.rs:21-27, [HashExtractable for String]. *)
Definition string_extract (s : rstr) : rstr := s.
(** src/ngram/result_ranker.rs:55-59, [ResultRanker::new]. *)
Definition ranker_new : ranker := ∅.
(** src/ngram/index.rs:55-59, [PartialOrd for GramNode]. *)
Definition node_partial_cmp (a b : node) : option comparison := Some (node_cmp a b).

(** src/js_interactable/feature_filter.rs:17-22, [FeatureFilter::new_range]. *)
Definition filter_range (from to : jsval) (feature : rstr) : feature_filter := FeatureFilter (Range from to) feature.
(** src/js_interactable/feature_filter.rs:24-29, [FeatureFilter::new_exactly]. *)
Definition filter_exactly (exactly : jsval) (feature : rstr) : feature_filter := FeatureFilter (Exact exactly) feature.
