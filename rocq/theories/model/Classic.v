(** src/classic_indexes/*.rs: categories, tags and orders. *)
From Verif.model Require Import Base F32 Utf8 Prim Coll Data Gram Indexer Nodes.

(** ** Categories *)

(** src/classic_indexes/categorical.rs:18-24, [CategoryOption]. *)
Record cat_option := CatOption {
  o_name : rstr;
  o_sid : N;                (* serialization_id *)
  o_content : list product;
  o_ids : gset N            (* products_by_serialization_id *)
}.
(** src/classic_indexes/categorical.rs:11-16, [Category]. *)
Record category := Category {
  cat_name : rstr;
  cat_options : list cat_option;
  cat_exclusive : bool
}.
(** src/classic_indexes/categorical.rs:8-9, [CategoryIndex]. *)
Definition category_index := list category.

(** src/classic_indexes/categorical.rs:84-90, [Category::new]. *)
Definition category_new (name : rstr) : category := Category name [] false.
(** src/classic_indexes/categorical.rs:94-101, [CategoryOption::new]. *)
Definition option_new (name : rstr) (sid : N) : cat_option := CatOption name sid [] ∅.

(** src/classic_indexes/categorical.rs:103-111, [CategoryOption::add]. *)
Definition option_add (o : cat_option) (p : product) : cat_option :=
  if decide (p_sid p ∈ o_ids o) then o
  else CatOption (o_name o) (o_sid o) (o_content o ++ [p]) ({[p_sid p]} ∪ o_ids o).

(** src/classic_indexes/categorical.rs:113-116, [CategoryOption::contains]. *)
Definition option_contains (o : cat_option) (p : product) : bool :=
  bool_decide (p_sid p ∈ o_ids o).

(** src/data/raw_parser.rs:44-48, [RawProductOption]. *)
Record raw_option := RawOption { ro_name : rstr; ro_values : list rstr }.

(** [iter_mut().find(pred)] followed by an update of the found element, or
    pushing a new one: update the first element satisfying [pred], or append
    [f new]. *)
Fixpoint find_or_push {A} (pred : A -> bool) (f : A -> A) (new : A) (l : list A) : list A :=
  match l with
  | [] => [f new]
  | x :: l' => if pred x then f x :: l' else x :: find_or_push pred f new l'
  end.

(** src/classic_indexes/categorical.rs:139-153, one value of an option: find or create the
    option (consuming an id), then add the product. *)
Definition index_value (p : product) (st : list cat_option * N) (raw_value : rstr)
  : list cat_option * N :=
  let '(options, next_id) := st in
  let found := existsb (fun o => str_eqb (o_name o) raw_value) options in
  (find_or_push (fun o => str_eqb (o_name o) raw_value) (fun o => option_add o p)
     (option_new raw_value next_id) options,
   if found then next_id else next_id + 1).

(** src/classic_indexes/categorical.rs:128-154, one raw option of a product: find or create
    the category, then index its values in it. *)
Definition index_option (p : product) (st : list category * N) (raw : raw_option)
  : list category * N :=
  let '(categories, next_id) := st in
  let opts := match find (fun c => str_eqb (cat_name c) (ro_name raw)) categories with
              | Some c => cat_options c
              | None => []
              end in
  let '(opts', next_id') := foldl (index_value p) (opts, next_id) (ro_values raw) in
  (find_or_push (fun c => str_eqb (cat_name c) (ro_name raw))
     (fun c => Category (cat_name c) opts' (cat_exclusive c))
     (category_new (ro_name raw)) categories, next_id').

(** src/classic_indexes/categorical.rs:120-158, [CategoryIndex::index]. Panics at
    [container.products[i]] (152) if there is no such product and some value is
    indexed; the model checks it for every product with options, which differs
    only for a missing product without values (never the case in [optimize]). *)
Definition category_index_build (options_list : list (list raw_option)) (c : container)
  : res category_index :=
  '(_, cats, _) ← foldM (fun '(i, categories, next_id) options =>
      p ← unwrap (getN (c_products c) i);
      let '(categories, next_id) := foldl (index_option p) (categories, next_id) options in
      Done (i + 1, categories, next_id)) options_list (0, [], 0);
  Done cats.

(** src/classic_indexes/categorical.rs:26-42, [Category::serialize]. *)
Definition enc_category : encoder category := fun c =>
  enc_bool (cat_exclusive c) ++ enc_str (cat_name c) ++
  enc_usize (lenN (cat_options c)) ++
  concat (map (fun o => enc_str (o_name o) ++ enc_product_refs (o_content o)) (cat_options c)).

(** src/classic_indexes/categorical.rs:45-82, [Category::deserialize]; threads
    [next_serialization_id]. *)
Definition dec_category (P : platform) (all_products : list product) (next_id : N)
  : decoder (category * N) := fun input =>
  '(input, exclusive) ← dec_bool input;
  '(input, name) ← dec_str P input;
  '(input, options_len) ← dec_usize P input;
  _ ← with_capacity P KOptions options_len;
  '(input, options, next_id) ← rep_N options_len (fun '(input, options, next_id) =>
    '(input_after_name, name) ← dec_str P input;
    '(new_input, (products, product_ids)) ← dec_product_refs P all_products input_after_name;
    Done (new_input,
          options ++ [CatOption name next_id products (list_to_set product_ids)],
          next_id + 1)) (input, [], next_id);
  Done (input, (Category name options exclusive, next_id)).

(** src/classic_indexes/categorical.rs:181-188, [CategoryIndex::serialize]. *)
Definition enc_categories : encoder category_index := fun cats =>
  enc_usize (lenN cats) ++ concat (map enc_category cats).

(** src/classic_indexes/categorical.rs:160-174, [CategoryIndex::deserialize_many]. *)
Definition dec_categories (P : platform) (products : list product) : decoder category_index :=
  fun input =>
  '(input, len) ← dec_usize P input;
  _ ← with_capacity P KCategories len;
  '(input, cats, _) ← rep_N len (fun '(input, cats, next_id) =>
    '(new_input, (cat, next_id)) ← dec_category P products next_id input;
    Done (new_input, cats ++ [cat], next_id)) (input, [], 0);
  Done (input, cats).

(** ** Tags *)

(** src/classic_indexes/tag.rs:8-14, [Tag]. *)
Record tag := Tag {
  t_name : rstr;
  t_products : list product;
  t_ids : gset N;           (* products_by_serialization_id *)
  t_id : N
}.
(** src/classic_indexes/tag.rs:16-17, [TagIndex]. *)
Definition tag_index := list tag.

(** src/classic_indexes/tag.rs:29-37, [Tag::new]. *)
Definition tag_new (name : rstr) (products : list product) (id : N) : tag :=
  Tag name products (list_to_set (map p_sid products)) id.

(** src/classic_indexes/tag.rs:43-46, [Tag::contains]. *)
Definition tag_contains (t : tag) (p : product) : bool := bool_decide (p_sid p ∈ t_ids t).

(** src/classic_indexes/tag.rs:96-99: [entry(tag).and_modify(push).or_insert(vec![product])]. *)
Definition tag_push (m : gmap rstr (list product)) (t : rstr) (p : product)
  : gmap rstr (list product) :=
  <[t := match m !! t with Some l => l ++ [p] | None => [p] end]> m.

(** src/classic_indexes/tag.rs:88-110, [TagIndex::index]; [o] is the hash order of the
    intermediate map; ids are positions in that order. *)
Definition tag_index_build (o : order_of (rstr * list product)) (tags_for_product : list (list rstr))
    (c : container) : res tag_index :=
  '(_, m) ← foldM (fun '(id, m) tags =>
      p ← unwrap (getN (c_products c) id);
      Done (id + 1, foldl (fun m t => tag_push m t p) m tags)) tags_for_product (0, ∅);
  Done (imap (fun id '(name, products) => tag_new name products (N.of_nat id))
          (o (map_to_list m))).

(** src/classic_indexes/tag.rs:19-26, [Tag::serialize]. *)
Definition enc_tag : encoder tag := fun t => enc_str (t_name t) ++ enc_product_refs (t_products t).
(** src/classic_indexes/tag.rs:49-54, [TagIndex::serialize]. *)
Definition enc_tags : encoder tag_index := enc_vec enc_tag.

(** src/classic_indexes/tag.rs:57-81, [TagIndex::deserialize]. *)
Definition dec_tags (P : platform) (existing : list product) : decoder tag_index := fun input =>
  '(input, tag_len) ← dec_usize P input;
  _ ← with_capacity P KTags tag_len;
  '(input, tags, _) ← rep_N tag_len (fun '(input, tags, id) =>
    '(new_input, name) ← dec_str P input;
    '(new_input, (products, product_ids)) ← dec_product_refs P existing new_input;
    Done (new_input, tags ++ [Tag name products (list_to_set product_ids) id], id + 1))
    (input, [], 0);
  Done (input, tags).

(** ** Orders *)

(** src/classic_indexes/order.rs:8-11, [OrderIndex]. *)
Definition order_index := gmap rstr (list N).

(** src/classic_indexes/order.rs:28-56, [OrderIndex::add_custom_cmp]. [maker] may panic. *)
Definition order_add_custom_cmp {T} (oi : order_index) (c : container)
    (maker : product -> feature_set -> res T) (cmp : T -> T -> comparison) (key : rstr)
  : res order_index :=
  data_and_id ← mapR (fun prod => v ← maker prod (c_features c); Done (v, p_sid prod))
                  (c_products c);
  let data_and_id := sort_by (fun a b => cmp a.1 b.1) data_and_id in
  '(_, order) ← foldM (fun '(order_position, order) '(_, serialization_id) =>
      order ← setN order serialization_id order_position;
      Done (order_position + 1, order)) data_and_id
      (0, replicate (length data_and_id) 0);
  Done (<[key := order]> oi).

(** src/classic_indexes/order.rs:14-26, [OrderIndex::add]; [pcmp] is [partial_cmp]. *)
Definition order_add {T} (oi : order_index) (c : container)
    (maker : product -> feature_set -> res T) (pcmp : T -> T -> option comparison) (key : rstr)
  : res order_index :=
  order_add_custom_cmp oi c maker (fun a b => unwrap_or_equal (pcmp a b)) key.

(** src/classic_indexes/order.rs:64-66, [get_orders]. *)
Definition get_orders (oi : order_index) (feature : rstr) : option (list N) := oi !! feature.

(** src/classic_indexes/order.rs:68-70, [options]: the keys in hash order [o]. *)
Definition order_options (o : order_of (rstr * list N)) (oi : order_index) : list rstr :=
  map fst (o (map_to_list oi)).

(** src/classic_indexes/order.rs:86-90, [OrderIndex::serialize]. *)
Definition enc_orders (o : order_of (rstr * list N)) : encoder order_index :=
  enc_map o enc_str (enc_vec enc_usize).
(** src/classic_indexes/order.rs:79-84, [OrderIndex::deserialize]. *)
Definition dec_orders (P : platform) : decoder order_index :=
  dec_map P KOrderMap (dec_str P) (dec_vec P KUsizes (dec_usize P)).

(** ** All classic indexes *)

(** src/classic_indexes/mod.rs:15-20, [ClassicIndexes]. *)
Record classic := Classic {
  cl_categories : category_index;
  cl_tags : tag_index;
  cl_order : order_index
}.

(** src/classic_indexes/mod.rs:53-59, [ClassicIndexes::serialize]. *)
Definition enc_classic (o : ser_order) : encoder classic := fun cl =>
  enc_categories (cl_categories cl) ++ enc_tags (cl_tags cl) ++ enc_orders (so_orders o) (cl_order cl).

(** src/classic_indexes/mod.rs:23-38, [ClassicIndexes::deserialize]. *)
Definition dec_classic (P : platform) (c : container) : decoder classic := fun input =>
  '(input, categories) ← dec_categories P (c_products c) input;
  '(input, tags) ← dec_tags P (c_products c) input;
  '(input, order) ← dec_orders P input;
  Done (input, Classic categories tags order).

(** ** Derived equality *)
(** Equality of vectors: same length, equal elements. *)
Fixpoint list_eqb {A} (eqb : A -> A -> bool) (a b : list A) : bool :=
  match a, b with
  | [], [] => true
  | x :: a', y :: b' => eqb x y && list_eqb eqb a' b'
  | _, _ => false
  end.
(** src/classic_indexes/categorical.rs:18-24, derived [PartialEq for CategoryOption]; products
    are compared through the references with [product_eqb]. *)
Definition option_eqb (a b : cat_option) : bool :=
  str_eqb (o_name a) (o_name b) && (o_sid a =? o_sid b) &&
  list_eqb product_eqb (o_content a) (o_content b) && bool_decide (o_ids a = o_ids b).
(** src/classic_indexes/categorical.rs:11-16, derived [PartialEq for Category]. *)
Definition category_eqb (a b : category) : bool :=
  str_eqb (cat_name a) (cat_name b) && list_eqb option_eqb (cat_options a) (cat_options b) &&
  Bool.eqb (cat_exclusive a) (cat_exclusive b).
(** src/classic_indexes/tag.rs:8-14, derived [PartialEq for Tag]. *)
Definition tag_eqb (a b : tag) : bool :=
  str_eqb (t_name a) (t_name b) && list_eqb product_eqb (t_products a) (t_products b) &&
  bool_decide (t_ids a = t_ids b) && (t_id a =? t_id b).
(** src/classic_indexes/mod.rs:15-20, derived [PartialEq for ClassicIndexes], with the derived
    ones of src/classic_indexes/categorical.rs:8-9, src/classic_indexes/tag.rs:16-17 and
    src/classic_indexes/order.rs:8-11. *)
Definition classic_eqb (a b : classic) : bool :=
  list_eqb category_eqb (cl_categories a) (cl_categories b) &&
  list_eqb tag_eqb (cl_tags a) (cl_tags b) && bool_decide (cl_order a = cl_order b).
