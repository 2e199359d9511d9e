(** src/js_interactable/*.rs: filters, handlers, iterators and result export.
    JavaScript callbacks ([js_sys::Function]) are identified by numbers; calling
    one is recorded as an event (what the callback does is not modelled, and an
    exception it throws is caught, src/js_interactable/category_handler.rs:41-43). *)
From Verif.model Require Import Base F32 Utf8 Prim Coll Data Gram Indexer Nodes Classic Lit Raw.

(** ** JavaScript values and feature filters *)

(** The part of [JsValue] that can be observed by the filters. An object has an
    identity and properties (own or inherited); a property read may throw ([None]). *)
Inductive jsval :=
| JUndef
| JNull
| JBool (b : bool)
| JNum (x : f64)
| JStr (s : rstr)
| JObj (identity : N) (props : list (rstr * option jsval)).

(** [JsValue::as_f64]. *)
Definition as_f64 (v : jsval) : option f64 := match v with JNum x => Some x | _ => None end.

(** [PartialEq for JsValue]: JavaScript [===]. *)
Definition js_eqb (a b : jsval) : bool :=
  match a, b with
  | JUndef, JUndef | JNull, JNull => true
  | JBool x, JBool y => Bool.eqb x y
  | JNum x, JNum y => f64_eq x y
  | JStr x, JStr y => str_eqb x y
  | JObj i _, JObj j _ => i =? j
  | _, _ => false
  end.

(** [js_sys::Reflect::get]: an error for non-objects and throwing getters,
    [undefined] for a missing property. [Some v] is [Ok(v)], [None] is [Err]. *)
Definition reflect_get (object : jsval) (key : rstr) : option jsval :=
  match object with
  | JObj _ props =>
    match find (fun p => str_eqb p.1 key) props with
    | Some (_, r) => r
    | None => Some JUndef
    end
  | _ => None
  end.

(** src/js_interactable/feature_filter.rs:10-14, [FilterData]. *)
Inductive filter_data :=
| Range (from to : jsval)
| Exact (v : jsval).
(** src/js_interactable/feature_filter.rs:5-8, [FeatureFilter]. *)
Record feature_filter := FeatureFilter { ff_data : filter_data; ff_feature : rstr }.

(** src/js_interactable/feature_filter.rs:37-56, one entry of [Object.entries(input)]. Entries are
    always two-element arrays with a string key, so [Array::try_from] and
    [as_string] (38-39) cannot fail. *)
Definition parse_entry (entry : rstr * jsval) : option feature_filter :=
  let '(feature, values) := entry in
  let exact := exact ← reflect_get values s_exact;
               Some (FeatureFilter (Exact exact) feature) in
  match reflect_get values s_from with
  | Some from =>
    match reflect_get values s_to with
    | Some to => Some (FeatureFilter (Range from to) feature)
    | None => exact
    end
  | None => exact
  end.
(** src/js_interactable/feature_filter.rs:31-58, [FeatureFilter::parse] on the object's entries. *)
Fixpoint parse_filters (entries : list (rstr * jsval)) : option (list feature_filter) :=
  match entries with
  | [] => Some []
  | e :: entries' => f ← parse_entry e; fs ← parse_filters entries'; Some (f :: fs)
  end.

(** src/data/features.rs:46-61, [FeatureSet::get_js]. *)
Definition fs_get_js (fs : feature_set) (p : product) (key : rstr) : option jsval :=
  f ← fs !! key;
  match f with
  | FString list => JStr <$> getN list (p_sid p)
  | FFloat list => (fun n => JNum (f64_of_f32 n)) <$> getN list (p_sid p)
  | FInteger list => (fun n => JNum (f64_of_u32 n)) <$> getN list (p_sid p)
  end.

(** src/js_interactable/feature_filter.rs:60-98, [FeatureFilter::filter], as the predicate applied to
    each product. *)
Definition filter_accepts (ff : feature_filter) (fs : feature_set) (p : product) : bool :=
  match ff_data ff with
  | Range from to =>
    let found := v ← fs_get_js fs p (ff_feature ff); as_f64 v in
    match as_f64 from, as_f64 to with
    | Some from, Some to =>
      match found with Some found => f64_le from found && f64_le found to | None => false end
    | Some from, None => match found with Some found => f64_le from found | None => false end
    | None, Some to => match found with Some found => f64_le found to | None => false end
    | None, None => true
    end
  | Exact exact =>
    match fs_get_js fs p (ff_feature ff) with Some data => js_eqb data exact | None => false end
  end.
(** src/js_interactable/feature_filter.rs:60-98, on the whole iterator. *)
Definition filter_apply (ff : feature_filter) (fs : feature_set) (l : list product) : list product :=
  filter (fun p => filter_accepts ff fs p = true) l.

(** ** Category handler *)

(** A callback call: observer and argument. *)
Definition call := (N * bool)%type.

(** src/js_interactable/category_handler.rs:162-167, [ExportCategoryOption]. *)
Record export_option := ExportOption { eo_name : rstr; eo_cat : N; eo_opt : N }.
(** src/js_interactable/category_handler.rs:177-182, [keys]. *)
Definition eo_keys (e : export_option) : N * N := (eo_cat e, eo_opt e).

(** src/js_interactable/category_handler.rs:7-13, [CategoryHandler]. *)
Record cat_handler := CatHandler {
  ch_handle : classic;
  ch_active : gset (N * N);
  ch_general : list N;
  ch_option : gmap (N * N) (list N)
}.
(** src/js_interactable/category_handler.rs:92-99, [CategoryHandler::new]. *)
Definition ch_new (handle : classic) : cat_handler := CatHandler handle ∅ [] ∅.

(** The toggled active set and the new state:
    src/js_interactable/category_handler.rs:19-28 and src/js_interactable/tag_handler.rs:27-36. *)
Definition toggle_key `{Countable K} (active : gset K) (k : K) : gset K * bool :=
  if decide (k ∈ active) then (active ∖ {[k]}, false) else ({[k]} ∪ active, true).

(** The observers called by a toggle, those of the key first:
    src/js_interactable/category_handler.rs:30-44 and src/js_interactable/tag_handler.rs:38-52. *)
Definition toggle_calls `{Countable K} (observers : gmap K (list N)) (general : list N) (k : K)
    (new_state : bool) : list call :=
  map (fun o => (o, new_state)) (default [] (observers !! k) ++ general).

(** src/js_interactable/category_handler.rs:17-45, [toggle]: the new handler and the calls made. *)
Definition ch_toggle (h : cat_handler) (item : export_option) : cat_handler * list call :=
  let '(active, new_state) := toggle_key (ch_active h) (eo_keys item) in
  (CatHandler (ch_handle h) active (ch_general h) (ch_option h),
   toggle_calls (ch_option h) (ch_general h) (eo_keys item) new_state).

(** src/js_interactable/category_handler.rs:47-49, [get_status]. *)
Definition ch_get_status (h : cat_handler) (item : export_option) : bool :=
  bool_decide (eo_keys item ∈ ch_active h).

(** src/js_interactable/category_handler.rs:59-61, [add_general_observer]. *)
Definition ch_add_general (h : cat_handler) (observer : N) : cat_handler :=
  CatHandler (ch_handle h) (ch_active h) (ch_general h ++ [observer]) (ch_option h).

(** [match map.entry(k) { Occupied => push, Vacant => insert(vec![o]) }]:
    src/js_interactable/category_handler.rs:65-70 and src/js_interactable/tag_handler.rs:65-70. *)
Definition add_observer `{Countable K} (observers : gmap K (list N)) (k : K) (o : N)
  : gmap K (list N) :=
  match observers !! k with
  | Some vec => <[k := vec ++ [o]]> observers
  | None => <[k := [o]]> observers
  end.

(** src/js_interactable/category_handler.rs:63-71, [add_option_lister]. *)
Definition ch_add_option (h : cat_handler) (option : export_option) (observer : N) : cat_handler :=
  CatHandler (ch_handle h) (ch_active h) (ch_general h)
    (add_observer (ch_option h) (eo_keys option) observer).

(** [Vec::swap_remove(i)] for [i] in range: the last element takes the place of
    the removed one. *)
Definition swap_remove {A} (l : list A) (i : nat) : list A :=
  match last l with
  | Some x => removelast (<[i := x]> l)
  | None => []
  end.

(** The position of the first equal observer:
    src/js_interactable/category_handler.rs:82-83 and src/js_interactable/tag_handler.rs:78-79. *)
Fixpoint position (o : N) (l : list N) : option nat :=
  match l with
  | [] => None
  | x :: l' => if o =? x then Some O else S <$> position o l'
  end.

(** src/js_interactable/category_handler.rs:78-87 and src/js_interactable/tag_handler.rs:74-83. *)
Definition remove_observer `{Countable K} (observers : gmap K (list N)) (k : K) (o : N)
  : gmap K (list N) :=
  match observers !! k with
  | None => observers
  | Some current =>
    match position o current with
    | Some i => <[k := swap_remove current i]> observers
    | None => observers
    end
  end.

(** src/js_interactable/category_handler.rs:73-88, [remove_option_listener]. *)
Definition ch_remove_option (h : cat_handler) (option : export_option) (observer : N) : cat_handler :=
  CatHandler (ch_handle h) (ch_active h) (ch_general h)
    (remove_observer (ch_option h) (eo_keys option) observer).

(** Scan the active keys in hash order, stopping at the first failing one:
    src/js_interactable/category_handler.rs:102-109 and src/js_interactable/tag_handler.rs:98-104. *)
Fixpoint all_contain {K} (test : K -> res bool) (keys : list K) : res bool :=
  match keys with
  | [] => Done true
  | k :: keys' => b ← test k; if b : bool then all_contain test keys' else Done false
  end.

(** src/js_interactable/category_handler.rs:101-110, [is_valid]; indexing
    ([handle.categories[..]], [options[..]]) panics out of range. *)
Definition ch_is_valid (o : order_of (N * N)) (h : cat_handler) (p : product) : res bool :=
  all_contain (fun '(category, option) =>
      category ← unwrap (getN (cl_categories (ch_handle h)) category);
      option ← unwrap (getN (cat_options category) option);
      Done (option_contains option p))
    (o (elements (ch_active h))).

(** ** Category iterators *)

(** src/js_interactable/category_handler.rs:113-117, [CategoryIter]. *)
Record cat_iter := CatIter { ci_handle : classic; ci_index : N }.
(** src/js_interactable/category_handler.rs:132-137, [CategoryOptionIter]. *)
Record opt_iter := OptIter { oi_handle : classic; oi_category : N; oi_index : N }.
(** src/js_interactable/category_handler.rs:52-57, [iter]. *)
Definition ch_iter (h : cat_handler) : cat_iter := CatIter (ch_handle h) 0.
(** src/js_interactable/category_handler.rs:121-129, [CategoryIter::next_item]. *)
Definition ci_next (it : cat_iter) : cat_iter * option opt_iter :=
  match getN (cl_categories (ci_handle it)) (ci_index it) with
  | None => (it, None)
  | Some _ =>
    let it' := CatIter (ci_handle it) (ci_index it + 1) in
    (it', Some (OptIter (ci_handle it) (ci_index it' - 1) 0))
  end.
(** src/js_interactable/category_handler.rs:141-155, [CategoryOptionIter::next_item]. *)
Definition oi_next (it : opt_iter) : opt_iter * option export_option :=
  match c ← getN (cl_categories (oi_handle it)) (oi_category it); getN (cat_options c) (oi_index it) with
  | None => (it, None)
  | Some out =>
    (OptIter (oi_handle it) (oi_category it) (oi_index it + 1),
     Some (ExportOption (o_name out) (oi_category it) (oi_index it)))
  end.
(** src/js_interactable/category_handler.rs:157-159, [CategoryOptionIter::name]. *)
Definition oi_name (it : opt_iter) : res rstr :=
  c ← unwrap (getN (cl_categories (oi_handle it)) (oi_category it)); Done (cat_name c).

(** ** Tag handler *)

(** src/js_interactable/tag_handler.rs:127-132, [JSTag]. *)
Record js_tag := JSTag { jt_handle : classic; jt_index : N }.
(** src/js_interactable/tag_handler.rs:136-138, [JSTag::get_name]. *)
Definition jt_get_name (t : js_tag) : res rstr :=
  t ← unwrap (getN (cl_tags (jt_handle t)) (jt_index t)); Done (t_name t).
(** src/js_interactable/tag_handler.rs:142-144, [JSTag::get_id]. *)
Definition jt_get_id (t : js_tag) : res N :=
  t ← unwrap (getN (cl_tags (jt_handle t)) (jt_index t)); Done (t_id t).

(** src/js_interactable/tag_handler.rs:8-14, [TagHandler]. *)
Record tag_handler := TagHandler {
  th_handle : classic;
  th_active : gset N;
  th_general : list N;
  th_tag : gmap N (list N)
}.
(** src/js_interactable/tag_handler.rs:88-95, [TagHandler::new]. *)
Definition th_new (handle : classic) : tag_handler := TagHandler handle ∅ [] ∅.

(** src/js_interactable/tag_handler.rs:25-53, [toggle]. *)
Definition th_toggle (h : tag_handler) (tag : js_tag) : res (tag_handler * list call) :=
  id ← jt_get_id tag;
  let '(active, new_state) := toggle_key (th_active h) id in
  Done (TagHandler (th_handle h) active (th_general h) (th_tag h),
        toggle_calls (th_tag h) (th_general h) id new_state).
(** src/js_interactable/tag_handler.rs:55-57, [get_status]: looks up [tag.index], not [tag.get_id()]. *)
Definition th_get_status (h : tag_handler) (tag : js_tag) : bool :=
  bool_decide (jt_index tag ∈ th_active h).
(** src/js_interactable/tag_handler.rs:59-61, [add_general_observer]. *)
Definition th_add_general (h : tag_handler) (observer : N) : tag_handler :=
  TagHandler (th_handle h) (th_active h) (th_general h ++ [observer]) (th_tag h).
(** src/js_interactable/tag_handler.rs:63-71, [add_tag_lister]. *)
Definition th_add_tag (h : tag_handler) (tag : js_tag) (observer : N) : res tag_handler :=
  id ← jt_get_id tag;
  Done (TagHandler (th_handle h) (th_active h) (th_general h) (add_observer (th_tag h) id observer)).
(** src/js_interactable/tag_handler.rs:73-84, [remove_tag_listener]. *)
Definition th_remove_tag (h : tag_handler) (tag : js_tag) (observer : N) : res tag_handler :=
  id ← jt_get_id tag;
  Done (TagHandler (th_handle h) (th_active h) (th_general h) (remove_observer (th_tag h) id observer)).
(** src/js_interactable/tag_handler.rs:97-105, [is_valid]. *)
Definition th_is_valid (o : order_of N) (h : tag_handler) (p : product) : res bool :=
  all_contain (fun id =>
      tag ← unwrap (getN (cl_tags (th_handle h)) id);
      Done (tag_contains tag p))
    (o (elements (th_active h))).

(** src/js_interactable/tag_handler.rs:108-112, [TagIter]. *)
Record tag_iter := TagIter { ti_handle : classic; ti_index : N }.
(** src/js_interactable/tag_handler.rs:18-23, [tags]. *)
Definition th_tags (h : tag_handler) : tag_iter := TagIter (th_handle h) 0.
(** src/js_interactable/tag_handler.rs:116-124, [next_tag]. *)
Definition ti_next (it : tag_iter) : tag_iter * option js_tag :=
  match getN (cl_tags (ti_handle it)) (ti_index it) with
  | None => (it, None)
  | Some _ => (TagIter (ti_handle it) (ti_index it + 1), Some (JSTag (ti_handle it) (ti_index it)))
  end.

(** ** Results *)

(** src/js_interactable/product_producer.rs:5-10, [ProductProducer]. *)
Record producer := Producer { pp_container : container; pp_export : list N; pp_index : N }.
(** src/js_interactable/product_producer.rs:38-42, [JsProduct]. *)
Record js_product := JsProduct { jp_container : container; jp_sid : N }.
(** src/js_interactable/product_producer.rs:13-19, [ProductProducer::new]. *)
Definition pp_new (c : container) (to_export : list N) : producer := Producer c to_export 0.
(** src/js_interactable/product_producer.rs:24-35, [next_product]. *)
Definition pp_next (pp : producer) : producer * option js_product :=
  match getN (pp_export pp) (pp_index pp) with
  | None => (pp, None)
  | Some next_id =>
    match getN (c_products (pp_container pp)) next_id with
    | None => (pp, None)
    | Some _ => (Producer (pp_container pp) (pp_export pp) (pp_index pp + 1),
                 Some (JsProduct (pp_container pp) next_id))
    end
  end.

(** src/js_interactable/product_producer.rs:46-48, [product]. *)
Definition jp_product (j : js_product) : res product :=
  unwrap (getN (c_products (jp_container j)) (jp_sid j)).
(** src/js_interactable/product_producer.rs:50-57, [numeric_feature]. *)
Definition jp_numeric (j : js_product) (key : rstr) : res f64 :=
  p ← jp_product j;
  v ← of_opt (fs_get (c_features (jp_container j)) p key);
  match v with
  | VFloat f => Done (f64_of_f32 f)
  | VInteger i => Done (f64_of_u32 i)
  | VString _ => Nope
  end.
(** src/js_interactable/product_producer.rs:59-66, [string_feature]. *)
Definition jp_string (j : js_product) (key : rstr) : res rstr :=
  p ← jp_product j;
  match fs_get (c_features (jp_container j)) p key with
  | Some (VString s) => Done s
  | _ => Nope
  end.
(** src/js_interactable/product_producer.rs:68-70, [get_title]. *)
Definition jp_title (j : js_product) : res rstr := p ← jp_product j; Done (p_title p).
(** src/js_interactable/product_producer.rs:72-74, [get_description]. *)
Definition jp_description (j : js_product) : res rstr := p ← jp_product j; Done (p_description p).
(** src/js_interactable/product_producer.rs:76-78, [get_id]. *)
Definition jp_id (j : js_product) : res rstr := p ← jp_product j; Done (p_id p).
