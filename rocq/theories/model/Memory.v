(** The arenas as memory: what [deserialize_all] allocates and which references it stores.
    src/lib.rs:32-33 (the two static arenas), src/data/container.rs:77-110 ([SuperAlloc]),
    src/data/vendor.rs, src/serialize/nodes.rs. The other files of the model work with the
    values that these references point to. *)
From Verif.model Require Import Base F32 Utf8 Prim Coll Data Gram Indexer Nodes Classic Lib.

(** ** What is in memory *)

(** A reference [&'static GramNode]: a position in [NODE_ARENA]. An arena never moves or drops
    what it holds, so positions are as good as addresses. *)
Definition node_ref := nat.
(** src/ngram/index.rs:37-43, [GramNode] with both fields that refer to children. *)
Record cnode := CNode {
  cn_item : N;
  cn_weight : f32;
  cn_by : list node_ref;          (* by_occurances *)
  cn_items : gmap N node_ref      (* items *)
}.
(** A reference [&'static Vendor]: an [Arena<Vendor>] in the super arena, and a position in it. *)
Record vendor_ref := VendorRef { vr_arena : nat; vr_at : nat }.
(** src/data/vendor.rs:14-18, [VendorManager]. The keys of [tags] are slices of the vendors'
    names; here they are the names. *)
Record cvendors := CVendors {
  cv_tags : gmap rstr vendor_ref;
  cv_by_id : list vendor_ref;
  cv_alloc : nat
}.
(** src/data/product.rs:10-17, [Product]. *)
Record cproduct := CProduct {
  cp_description : rstr;
  cp_title : rstr;
  cp_vendor : vendor_ref;
  cp_id : rstr;
  cp_sid : N
}.
(** src/data/container.rs:9-13, [ProductContainer]. *)
Record ccontainer := CContainer {
  cc_products : list cproduct;
  cc_vendors : cvendors;
  cc_features : feature_set
}.
(** src/data/container.rs:79, [Box<dyn Any + Send>]: the types that are ever put there
    (src/data/container.rs:37, src/data/vendor.rs:62 and src/serialize/nodes.rs:81). *)
Inductive boxed :=
| BVendors (l : list vendor)       (* Arena<Vendor>, filled later through [&self] *)
| BContainer (c : ccontainer).
Inductive type_id := TVendors | TContainer.
(** [Any::type_id]. *)
Definition type_of (b : boxed) : type_id :=
  match b with BVendors _ => TVendors | BContainer _ => TContainer end.

(** src/lib.rs:32-33, [NODE_ARENA] and [SUPER_ARENA]. *)
Record memory := Memory { m_nodes : list cnode; m_super : list boxed }.
Definition memory_init : memory := Memory [] [].

(** ** Programs that allocate *)
(** What was allocated before a failure or a panic stays allocated. *)
Definition mem (A : Type) := memory -> memory * res A.
Definition lift {A} (r : res A) : mem A := fun M => (M, r).
Definition andthen {A B} (m : mem A) (f : A -> mem B) : mem B := fun M =>
  match m M with
  | (M', Done a) => f a M'
  | (M', Nope) => (M', Nope)
  | (M', Panic) => (M', Panic)
  | (M', Stuck) => (M', Stuck)
  end.
Notation "x ⇐ m ; k" := (andthen m (fun x => k)) (at level 20, m at level 100, k at level 200, right associativity).
Notation "' x ⇐ m ; k" := (andthen m (fun x => k)) (at level 20, x pattern, m at level 100, k at level 200, right associativity).
(** The loops of [Base], for programs that allocate. *)
Fixpoint mrep_nat {S} (n : nat) (f : S -> mem S) (s : S) : mem S :=
  match n with
  | O => lift (Done s)
  | S n' => s' ⇐ f s; mrep_nat n' f s'
  end.
Fixpoint mrep_pos {S} (p : positive) (f : S -> mem S) (s : S) : mem S :=
  match p with
  | xH => f s
  | xO q => s' ⇐ mrep_pos q f s; mrep_pos q f s'
  | xI q => s0 ⇐ f s; s' ⇐ mrep_pos q f s0; mrep_pos q f s'
  end.
Definition mrep_N {S} (n : N) (f : S -> mem S) (s : S) : mem S :=
  match n with 0 => lift (Done s) | Npos p => mrep_pos p f s end.
(** Following a reference. Rust's references are always valid; here a reference to nothing is
    [Stuck], which theorems show never happens. *)
Definition deref {A} (o : option A) : res A := match o with Some a => Done a | None => Stuck end.

(** ** Arenas *)
(** [Arena::alloc] on [NODE_ARENA]. *)
Definition alloc_node (nd : cnode) : mem node_ref := fun M =>
  (Memory (m_nodes M ++ [nd]) (m_super M), Done (length (m_nodes M))).
(** src/data/container.rs:82-88, [SuperAlloc::alloc]: box the value, and [downcast_ref] the box
    to the type [t] of the value, panicking if it has another type. *)
Definition super_alloc (t : type_id) (b : boxed) : mem nat := fun M =>
  let M' := Memory (m_nodes M) (m_super M ++ [b]) in
  let any := length (m_super M) in
  (M', b' ← deref (m_super M' !! any);
       match type_of b', t with
       | TVendors, TVendors | TContainer, TContainer => Done any
       | _, _ => Panic
       end).
(** [Arena::alloc] on the [Arena<Vendor>] at [arena]. *)
Definition alloc_vendor (arena : nat) (v : vendor) : mem vendor_ref := fun M =>
  match m_super M !! arena with
  | Some (BVendors l) =>
    (Memory (m_nodes M) (<[arena := BVendors (l ++ [v])]> (m_super M)), Done (VendorRef arena (length l)))
  | _ => (M, Stuck)
  end.

(** ** Decoders that allocate *)
Definition mdecoder (A : Type) := list N -> mem (list N * A).

(** src/serialize/collections.rs:51-70, [Vec<&T>::deserialize_arena]. *)
Definition mdec_vec (P : platform) (k : kind) {A} (dec : mdecoder A) : mdecoder (list A) := fun input =>
  '(input, len) ⇐ lift (dec_usize P input);
  _ ⇐ lift (with_capacity P k len);
  mrep_N len (fun '(input, out) =>
    '(new_input, item) ⇐ dec input;
    lift (Done (new_input, out ++ [item]))) (input, []).

(** src/serialize/collections.rs:140-162, [AHashMap<K, &V>::deserialize_arena]. *)
Definition mdec_map (P : platform) (kd : kind) `{Countable K} {V}
    (deck : decoder K) (decv : mdecoder V) : mdecoder (gmap K V) := fun input =>
  '(input, len) ⇐ lift (dec_usize P input);
  _ ⇐ lift (with_capacity P kd len);
  mrep_N len (fun '(input, out) =>
    '(new_input, key) ⇐ lift (deck input);
    '(new_input, value) ⇐ decv new_input;
    lift (Done (new_input, <[key := value]> out))) (input, ∅).

(** src/serialize/nodes.rs:41-44: the map from items to children, following the references to
    the children. *)
Definition items_by_item (by_occurances : list node_ref) : mem (gmap N node_ref) := fun M =>
  (M, foldM (fun map item => nd ← deref (m_nodes M !! item); Done (<[cn_item nd := item]> map)) by_occurances ∅).

(** src/serialize/nodes.rs:30-54, [GramNode::deserialize_arena]: the children are allocated
    before their parent. [fuel] as in [Nodes.dec_node_fuel]. *)
Fixpoint mdec_node_fuel (P : platform) (fuel : nat) : mdecoder node_ref := fun input =>
  match fuel with
  | O => lift Stuck
  | S fuel' =>
    '(input, item) ⇐ lift (dec_char input);
    '(input, weight) ⇐ lift (dec_f32 input);
    '(input, by_occurances) ⇐ mdec_vec P KNodeRefs (mdec_node_fuel P fuel') input;
    items ⇐ items_by_item by_occurances;
    node ⇐ alloc_node (CNode item weight by_occurances items);
    lift (Done (input, node))
  end.
Definition mdec_node (P : platform) : mdecoder node_ref := fun input =>
  mdec_node_fuel P (S (length input)) input.

(** src/data/vendor.rs:91-119, [VendorManager::deserialize_arena]. *)
Definition mdec_vendors (P : platform) (arena : nat) : mdecoder cvendors := fun input =>
  '(input, len) ⇐ lift (dec_usize P input);
  _ ⇐ lift (with_capacity P KVendorMap len);
  _ ⇐ lift (with_capacity P KVendorVec len);
  '(input, vm, _) ⇐ mrep_N len (fun '(input, vm, id) =>
    '(new_input, name) ⇐ lift (dec_str P input);
    tag ⇐ alloc_vendor arena (Vendor name id);
    lift (Done (new_input,
          CVendors (<[name := tag]> (cv_tags vm)) (cv_by_id vm ++ [tag]) (cv_alloc vm),
          id + 1))) (input, CVendors ∅ [] arena, 0);
  lift (Done (input, vm)).

(** src/data/product.rs:107-130, [Product::deserialize]: the reference to the vendor is copied. *)
Definition mdec_product (P : platform) (sid : N) (vendors : cvendors) : decoder cproduct :=
  fun input =>
  '(input, description) ← dec_str P input;
  '(input, title) ← dec_str P input;
  '(input, id) ← dec_str P input;
  '(input, vendor_id) ← dec_usize P input;
  vendor ← of_opt (getN (cv_by_id vendors) vendor_id);
  Done (input, CProduct description title vendor id sid).

(** src/data/container.rs:28-61, [ProductContainer::deserialize]. *)
Definition mdec_container (P : platform) : mdecoder ccontainer := fun input =>
  arena ⇐ super_alloc TVendors (BVendors []);
  '(input, vendors) ⇐ mdec_vendors P arena input;
  '(input, product_count) ⇐ lift (dec_usize P input);
  '(input, products, _) ⇐ lift (rep_N product_count (fun '(input, products, id) =>
    '(new_input, product) ← mdec_product P id vendors input;
    Done (new_input, products ++ [product], id + 1)) (input, [], 0));
  '(input, extra_features) ⇐ lift (dec_features P input);
  lift (Done (input, CContainer products vendors extra_features)).

(** A reference [&'static Product]: a container in the super arena, and a position in its
    [products]. *)
Record product_ref := ProductRef { pr_container : nat; pr_at : nat }.
(** The slice [&container.products]. *)
Definition products_of (M : memory) (container : nat) : res (list cproduct) :=
  b ← deref (m_super M !! container);
  match b with BContainer c => Done (cc_products c) | _ => Stuck end.

(** src/data/product.rs:136-149, [Product::deserialize_from_sequential_ids] on that slice. *)
Definition mdec_product_refs (P : platform) (container : nat) : mdecoder (list product_ref * list N) :=
  fun input M =>
  (M, '(input, ids) ← dec_seq P input;
      _ ← with_capacity P KProductRefs (lenN ids);
      existing ← products_of M container;
      products ← mapR (fun id => _ ← of_opt (getN existing id); Done (ProductRef container (N.to_nat id))) ids;
      Done (input, (products, ids))).

(** src/ngram/index.rs:61-67, [GramIndex]. *)
Record cgram_index := CGramIndex {
  cg_roots : gmap N node_ref;
  cg_data : gmap (list N) (list product_ref);
  cg_container : nat
}.

(** src/serialize/nodes.rs:70-103, [GramIndex::deserialize]. *)
Definition mdec_gram_index (P : platform) (n : nat) : mdecoder cgram_index := fun input =>
  '(input, container) ⇐ mdec_container P input;
  container ⇐ super_alloc TContainer (BContainer container);
  '(input, roots) ⇐ mdec_map P KRootMap dec_char (mdec_node P) input;
  '(input, data) ⇐ mdec_map P KDataMap (dec_array P n dec_char)
      (fun input => '(input, (products, _)) ⇐ mdec_product_refs P container input;
                    lift (Done (input, products))) input;
  lift (Done (input, CGramIndex roots data container)).

(** ** Categories and tags *)
(** src/classic_indexes/categorical.rs:18-24, [CategoryOption]. *)
Record coption := COption {
  co_name : rstr; co_sid : N; co_content : list product_ref; co_ids : gset N }.
(** src/classic_indexes/categorical.rs:11-16, [Category]. *)
Record ccategory := CCategory { cca_name : rstr; cca_options : list coption; cca_exclusive : bool }.
(** src/classic_indexes/tag.rs:8-14, [Tag]. *)
Record ctag := CTag { ct_name : rstr; ct_products : list product_ref; ct_ids : gset N; ct_id : N }.
(** src/classic_indexes/mod.rs:15-20, [ClassicIndexes]. *)
Record cclassic := CClassic { ccl_categories : list ccategory; ccl_tags : list ctag; ccl_order : order_index }.

(** src/classic_indexes/categorical.rs:45-82, [Category::deserialize]. *)
Definition mdec_category (P : platform) (container : nat) (next_id : N) : mdecoder (ccategory * N) := fun input =>
  '(input, exclusive) ⇐ lift (dec_bool input);
  '(input, name) ⇐ lift (dec_str P input);
  '(input, options_len) ⇐ lift (dec_usize P input);
  _ ⇐ lift (with_capacity P KOptions options_len);
  '(input, options, next_id) ⇐ mrep_N options_len (fun '(input, options, next_id) =>
    '(input_after_name, name) ⇐ lift (dec_str P input);
    '(new_input, (products, product_ids)) ⇐ mdec_product_refs P container input_after_name;
    lift (Done (new_input,
          options ++ [COption name next_id products (list_to_set product_ids)],
          next_id + 1))) (input, [], next_id);
  lift (Done (input, (CCategory name options exclusive, next_id))).
(** src/classic_indexes/categorical.rs:160-174, [CategoryIndex::deserialize_many]. *)
Definition mdec_categories (P : platform) (container : nat) : mdecoder (list ccategory) := fun input =>
  '(input, len) ⇐ lift (dec_usize P input);
  _ ⇐ lift (with_capacity P KCategories len);
  '(input, cats, _) ⇐ mrep_N len (fun '(input, cats, next_id) =>
    '(new_input, (cat, next_id)) ⇐ mdec_category P container next_id input;
    lift (Done (new_input, cats ++ [cat], next_id))) (input, [], 0);
  lift (Done (input, cats)).
(** src/classic_indexes/tag.rs:57-81, [TagIndex::deserialize]. *)
Definition mdec_tags (P : platform) (container : nat) : mdecoder (list ctag) := fun input =>
  '(input, tag_len) ⇐ lift (dec_usize P input);
  _ ⇐ lift (with_capacity P KTags tag_len);
  '(input, tags, _) ⇐ mrep_N tag_len (fun '(input, tags, id) =>
    '(new_input, name) ⇐ lift (dec_str P input);
    '(new_input, (products, product_ids)) ⇐ mdec_product_refs P container new_input;
    lift (Done (new_input, tags ++ [CTag name products (list_to_set product_ids) id], id + 1)))
    (input, [], 0);
  lift (Done (input, tags)).
(** src/classic_indexes/mod.rs:23-38, [ClassicIndexes::deserialize]. *)
Definition mdec_classic (P : platform) (container : nat) : mdecoder cclassic := fun input =>
  '(input, categories) ⇐ mdec_categories P container input;
  '(input, tags) ⇐ mdec_tags P container input;
  '(input, order) ⇐ lift (dec_orders P input);
  lift (Done (input, CClassic categories tags order)).

(** src/serialize/all_indexes.rs:22-34, [deserialize_all]. *)
Definition mdeserialize_all (P : platform) (n : nat) (input : list N) : mem (cgram_index * cclassic) :=
  '(input, ngram) ⇐ mdec_gram_index P n input;
  '(_, classic) ⇐ mdec_classic P (cg_container ngram) input;
  lift (Done (ngram, classic)).

(** src/lib.rs:48-60, several calls of [initialize] as far as the arenas are concerned: an index
    that is replaced stays in them. A call that fails has panicked by [unwrap]; the arenas keep
    what it allocated. *)
Fixpoint load_all (P : platform) (files : list (list N)) (M : memory) : memory :=
  match files with
  | [] => M
  | file :: files' => load_all P files' (fst (mdeserialize_all P ngram_index_size file M))
  end.

(** ** Freezing a trie into the arena *)
(** src/ngram/indexer.rs:36-67, [immutalize]: the children are frozen in hash order, compared
    through their references, and the node is allocated after them. *)
Fixpoint mmapR {A B} (f : A -> mem B) (l : list A) : mem (list B) :=
  match l with
  | [] => lift (Done [])
  | x :: l' => y ⇐ f x; ys ⇐ mmapR f l'; lift (Done (y :: ys))
  end.
(** The weight behind a reference; the default is never used ([Stuck] is raised first). *)
Definition weight_at (M : memory) (a : node_ref) : f32 :=
  match m_nodes M !! a with Some nd => cn_weight nd | None => f32_one end.
(** src/ngram/indexer.rs:51, [sort_by(|a, b| a.cmp(b).reverse())] on references. *)
Definition sort_refs (l : list node_ref) : mem (list node_ref) := fun M =>
  (M, _ ← mapR (fun a => deref (m_nodes M !! a)) l;
      Done (sort_by (fun a b => reverse_ord (unwrap_or_equal (f32_cmp (weight_at M a) (weight_at M b)))) l)).
Fixpoint mimmutalize (o : addr -> order_of (N * addr)) (h : heap) (fuel : nat) (a : addr)
    (parent_occurances : N) : mem node_ref :=
  match fuel with
  | O => lift Stuck
  | S fuel' =>
    me ⇐ lift (unwrap (h_nodes h !! a));
    by_occurances ⇐ mmapR (fun '(_, v) => mimmutalize o h fuel' v (m_occ me))
                      (o a (map_to_list (m_items me)));
    by_occurances ⇐ sort_refs by_occurances;
    items ⇐ items_by_item by_occurances;
    alloc_node (CNode (m_item me) (occurances_to_weight parent_occurances (m_occ me)) by_occurances items)
  end.
