(** src/data/{vendor,features,product,container}.rs. *)
From Verif.model Require Import Base F32 Utf8 Prim Coll.

(** ** Vendors *)

(** src/data/vendor.rs:8-12, [Vendor]. *)
Record vendor := Vendor { v_name : rstr; v_id : N }.

Global Instance vendor_eq_dec : EqDecision vendor.
Proof. solve_decision. Defined.

(** src/data/vendor.rs:14-18, [VendorManager] (the arena is not modelled). *)
Record vendor_manager := VendorManager {
  vm_tags : gmap rstr vendor;
  vm_by_id : list vendor
}.

(** src/data/vendor.rs:61-68, [VendorManager::new]. *)
Definition vm_new : vendor_manager := VendorManager ∅ [].

(** src/data/vendor.rs:48-59, [VendorManager::insert]. *)
Definition vm_insert (vm : vendor_manager) (name : rstr) : vendor_manager :=
  match vm_tags vm !! name with
  | Some _ => vm
  | None =>
    let id := N.of_nat (size (vm_tags vm)) in
    let new_tag := Vendor name id in
    VendorManager (<[name := new_tag]> (vm_tags vm)) (vm_by_id vm ++ [new_tag])
  end.

(** src/data/vendor.rs:29-42, [VendorManager::get_or_insert]. *)
Definition vm_get_or_insert (vm : vendor_manager) (name : rstr) : vendor_manager * vendor :=
  match vm_tags vm !! name with
  | Some tag => (vm, tag)
  | None =>
    let id := N.of_nat (size (vm_tags vm)) in
    let new_tag := Vendor name id in
    (VendorManager (<[name := new_tag]> (vm_tags vm)) (vm_by_id vm ++ [new_tag]), new_tag)
  end.

(** src/data/vendor.rs:44-46, [VendorManager::get]. *)
Definition vm_get (vm : vendor_manager) (name : rstr) : option vendor := vm_tags vm !! name.

(** src/data/vendor.rs:71-76, [Vendor::serialize]. *)
Definition enc_vendor : encoder vendor := fun v => enc_str (v_name v).

(** src/data/vendor.rs:78-89, [VendorManager::serialize]: the map's values in hash order [o],
    sorted by id. *)
Definition enc_vendors (o : order_of (rstr * vendor)) : encoder vendor_manager := fun vm =>
  let all_tags := sort_by (fun a b => N.compare (v_id a) (v_id b))
                    (map snd (o (map_to_list (vm_tags vm)))) in
  enc_usize (lenN all_tags) ++ concat (map enc_vendor all_tags).

(** src/data/vendor.rs:91-119, [VendorManager::deserialize_arena]; [id] counts up from 0. *)
Definition dec_vendors (P : platform) : decoder vendor_manager := fun input =>
  '(input, len) ← dec_usize P input;
  _ ← with_capacity P KVendorMap len;
  _ ← with_capacity P KVendorVec len;
  '(input, vm, _) ← rep_N len (fun '(input, vm, id) =>
    '(new_input, name) ← dec_str P input;
    let tag := Vendor name id in
    Done (new_input,
          VendorManager (<[name := tag]> (vm_tags vm)) (vm_by_id vm ++ [tag]),
          id + 1)) (input, vm_new, 0);
  Done (input, vm).

(** ** Products *)

(** src/data/product.rs:10-17, [Product]. *)
Record product := Product {
  p_description : rstr;
  p_title : rstr;
  p_vendor : vendor;
  p_id : rstr;
  p_sid : N   (* serialization_id *)
}.

Global Instance product_eq_dec : EqDecision product.
Proof. solve_decision. Defined.

(** [char::to_digit(10)], used at src/data/product.rs:24. *)
Definition to_digit (c : N) : option N :=
  if (48 <=? c) && (c <=? 57) then Some (c - 48) else None.

(** src/data/product.rs:23-30: the loop of [get_id] over the reversed chars. *)
Fixpoint get_id_loop (P : platform) (rev_chars : rstr) (out multiplier : N) : res N :=
  match rev_chars with
  | [] => Done out
  | c :: rest =>
    match to_digit c with
    | None => Done out
    | Some n =>
      x ← mul_bits P 64 n multiplier;
      out ← add_bits P 64 out x;
      multiplier ← mul_bits P 64 multiplier 10;
      get_id_loop P rest out multiplier
    end
  end.
(** src/data/product.rs:20-32, [Product::get_id]. *)
Definition product_get_id (P : platform) (p : product) : res N :=
  get_id_loop P (rev (p_id p)) 0 1.

(** src/data/product.rs:37-64, [PartialEq for Product]. *)
Definition product_eqb (a b : product) : bool :=
  let my_len := str_len (p_description a) in
  let other_len := str_len (p_description b) in
  let desc_ok :=
    if ((my_len =? 0) && (1 <=? other_len)) || ((1 <=? my_len) && (other_len =? 0)) then false
    else if other_len <? my_len then starts_with (p_description a) (p_description b)
    else if my_len <? other_len then starts_with (p_description b) (p_description a)
    else str_eqb (p_description a) (p_description b) in
  desc_ok && str_eqb (p_title a) (p_title b) && bool_decide (p_vendor a = p_vendor b)
  && str_eqb (p_id a) (p_id b) && (p_sid a =? p_sid b).

(** src/data/product.rs:72-77, [Ord for Product]. *)
Definition product_cmp (a b : product) : comparison := N.compare (p_sid a) (p_sid b).

(** src/data/product.rs:97: the description limit. *)
Definition description_limit : N := 100.

(** src/data/product.rs:87-105, [Product::serialize]. *)
Definition enc_product : encoder product := fun p =>
  enc_str_with_limit description_limit (p_description p) ++
  enc_str (p_title p) ++ enc_str (p_id p) ++ enc_usize (v_id (p_vendor p)).

(** src/data/product.rs:107-130, [Product::deserialize]. *)
Definition dec_product (P : platform) (sid : N) (vendors : vendor_manager) : decoder product :=
  fun input =>
  '(input, description) ← dec_str P input;
  '(input, title) ← dec_str P input;
  '(input, id) ← dec_str P input;
  '(input, vendor_id) ← dec_usize P input;
  vendor ← of_opt (getN (vm_by_id vendors) vendor_id);
  Done (input, Product description title vendor id sid).

(** src/data/product.rs:132-134, [Product::serialize_to_sequential_array]. *)
Definition enc_product_refs : encoder (list product) := fun l => enc_seq (map p_sid l).

(** src/data/product.rs:136-149, [Product::deserialize_from_sequential_ids]; returns the
    products and the ids. *)
Definition dec_product_refs (P : platform) (existing : list product)
  : decoder (list product * list N) := fun input =>
  '(input, ids) ← dec_seq P input;
  _ ← with_capacity P KProductRefs (lenN ids);
  products ← mapR (fun id => of_opt (getN existing id)) ids;
  Done (input, (products, ids)).

(** ** Features *)

(** src/data/features.rs:11-16, [Feature]. *)
Inductive feature :=
| FString (l : list rstr)
| FFloat (l : list f32)
| FInteger (l : list N).

(** src/data/features.rs:8-9, [FeatureSet]. *)
Definition feature_set := gmap rstr feature.

(** src/data/features.rs:37-41, [FeatureValue]. *)
Inductive feature_value :=
| VString (s : rstr)
| VFloat (x : f32)
| VInteger (n : N).

(** src/data/features.rs:18-35, [Feature::get]. *)
Definition feature_get (f : feature) (index : N) : option feature_value :=
  match f with
  | FString list => VString <$> getN list index
  | FFloat list => VFloat <$> getN list index
  | FInteger list => VInteger <$> getN list index
  end.

(** src/data/features.rs:63-71, [FeatureSet::get]. *)
Definition fs_get (fs : feature_set) (p : product) (key : rstr) : option feature_value :=
  f ← fs !! key;
  match f with
  | FString list => VString <$> getN list (p_sid p)
  | FFloat list => VFloat <$> getN list (p_sid p)
  | FInteger list => VInteger <$> getN list (p_sid p)
  end.

(** src/data/features.rs:77-88, [FeatureSet::add_int]. *)
Definition fs_add_int (fs : feature_set) (key : rstr) (value : N) : res feature_set :=
  match fs !! key with
  | Some (FInteger i) => Done (<[key := FInteger (i ++ [value])]> fs)
  | Some _ => Panic
  | None => Done (<[key := FInteger [value]]> fs)
  end.
(** src/data/features.rs:90-100, [FeatureSet::add_float]. *)
Definition fs_add_float (fs : feature_set) (key : rstr) (value : f32) : res feature_set :=
  match fs !! key with
  | Some (FFloat i) => Done (<[key := FFloat (i ++ [value])]> fs)
  | Some _ => Panic
  | None => Done (<[key := FFloat [value]]> fs)
  end.
(** src/data/features.rs:102-112, [FeatureSet::add_string]. *)
Definition fs_add_string (fs : feature_set) (key : rstr) (value : rstr) : res feature_set :=
  match fs !! key with
  | Some (FString i) => Done (<[key := FString (i ++ [value])]> fs)
  | Some _ => Panic
  | None => Done (<[key := FString [value]]> fs)
  end.

(** src/data/features.rs:119-136, [Feature::serialize]. *)
Definition enc_feature : encoder feature := fun f =>
  match f with
  | FString list => enc_u8 0 ++ enc_vec enc_str list
  | FFloat list => enc_u8 1 ++ enc_vec enc_f32 list
  | FInteger list => enc_u8 2 ++ enc_vec enc_u32 list
  end.
(** src/data/features.rs:138-157, [Feature::deserialize]. *)
Definition dec_feature (P : platform) : decoder feature := fun input =>
  '(input, id) ← dec_u8 input;
  match id with
  | 0 => '(input, data) ← dec_vec P KStrings (dec_str P) input; Done (input, FString data)
  | 1 => '(input, data) ← dec_vec P KFloats dec_f32 input; Done (input, FFloat data)
  | 2 => '(input, data) ← dec_vec P KInts dec_u32 input; Done (input, FInteger data)
  | _ => Nope
  end.
(** src/data/features.rs:159-163, [FeatureSet::serialize]. *)
Definition enc_features (o : order_of (rstr * feature)) : encoder feature_set :=
  enc_map o enc_str enc_feature.
(** src/data/features.rs:165-170, [FeatureSet::deserialize]. *)
Definition dec_features (P : platform) : decoder feature_set :=
  dec_map P KFeatureMap (dec_str P) (dec_feature P).

(** ** The product container *)

(** src/data/container.rs:8-13, [ProductContainer]. *)
Record container := Container {
  c_products : list product;
  c_vendors : vendor_manager;
  c_features : feature_set
}.

(** src/data/container.rs:64-76, [ProductContainer::serialize]. *)
Definition enc_container (ov : order_of (rstr * vendor)) (of : order_of (rstr * feature))
  : encoder container := fun c =>
  enc_vendors ov (c_vendors c) ++ enc_vec enc_product (c_products c) ++
  enc_features of (c_features c).

(** src/data/container.rs:28-61, [ProductContainer::deserialize]; products are numbered from 0
    in file order, and pushed to a vector without pre-allocation. *)
Definition dec_container (P : platform) : decoder container := fun input =>
  '(input, vendors) ← dec_vendors P input;
  '(input, product_count) ← dec_usize P input;
  '(input, products, _) ← rep_N product_count (fun '(input, products, id) =>
    '(new_input, product) ← dec_product P id vendors input;
    Done (new_input, products ++ [product], id + 1)) (input, [], 0);
  '(input, extra_features) ← dec_features P input;
  Done (input, Container products vendors extra_features).
