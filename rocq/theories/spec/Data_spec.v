(** What it means for catalogues and indexes to be storable, and what they look
    like after being stored and loaded. *)
From Verif.model Require Import Base F32 Utf8 Prim Coll Data Gram Nodes Classic.
From Verif.spec Require Import Spec.

(** ** Vendors *)
(** The distinct elements of [l] in order of first appearance. *)
Fixpoint first_seen `{EqDecision A} (l : list A) : list A :=
  match l with
  | [] => []
  | x :: l' => x :: filter (fun y => y <> x) (first_seen l')
  end.
(** Vendors numbered 0, 1, 2, ... *)
Definition numbered (names : list rstr) : list vendor :=
  imap (fun i name => Vendor name (N.of_nat i)) names.
(** A vendor table listing exactly these names. *)
Definition vendors_are (names : list rstr) (vm : vendor_manager) : Prop :=
  NoDup names /\ vm_by_id vm = numbered names /\
  forall name v, vm_tags vm !! name = Some v <-> v ∈ numbered names /\ v_name v = name.
Definition vendors_ok (P : platform) (vm : vendor_manager) : Prop :=
  exists names, vendors_are names vm /\ Forall (str_ok P) names /\
    len_ok P KVendorMap (lenN names) /\ len_ok P KVendorVec (lenN names).

(** ** Features *)
Definition feature_ok (P : platform) (f : feature) : Prop :=
  match f with
  | FString l => len_ok P KStrings (lenN l) /\ Forall (str_ok P) l
  | FFloat l => len_ok P KFloats (lenN l) /\ Forall valid_f32 l
  | FInteger l => len_ok P KInts (lenN l) /\ Forall (fun n => n < 2 ^ 32) l
  end.
Definition features_ok (P : platform) (fs : feature_set) : Prop :=
  len_ok P KFeatureMap (N.of_nat (size fs)) /\
  forall key f, fs !! key = Some f -> str_ok P key /\ feature_ok P f.

(** ** Products *)
(** A product after storing and loading: only the description may be cut. *)
Definition stored (p : product) : product :=
  Product (limit_string_len (p_description p) 100) (p_title p) (p_vendor p) (p_id p) (p_sid p).
Definition product_ok (P : platform) (vm : vendor_manager) (p : product) : Prop :=
  valid_str (p_description p) /\ str_ok P (p_title p) /\ str_ok P (p_id p) /\
  vm_by_id vm !! N.to_nat (v_id (p_vendor p)) = Some (p_vendor p) /\ size_ok P (p_sid p).
(** Every product carries its position as serialization id. *)
Definition positions (ps : list product) : Prop :=
  forall i p, ps !! i = Some p -> p_sid p = N.of_nat i.

Definition container_ok (P : platform) (c : container) : Prop :=
  vendors_ok P (c_vendors c) /\ features_ok P (c_features c) /\
  size_ok P (lenN (c_products c)) /\ positions (c_products c) /\
  Forall (product_ok P (c_vendors c)) (c_products c) /\
  104 <= usize_max P.
Definition stored_container (c : container) : container :=
  Container (map stored (c_products c)) (c_vendors c) (c_features c).

(** ** Product lists by reference *)
Definition by_sid (a b : product) : comparison := N.compare (p_sid a) (p_sid b).
(** Loaded lists are sorted by position and refer to the stored products. *)
Definition stored_refs (l : list product) : list product := map stored (sort_by by_sid l).
Definition refs_ok (P : platform) (ps l : list product) : Prop :=
  Forall (fun p => p ∈ ps) l /\ len_ok P KIds (lenN l) /\ lenN l <= cap_max P KProductRefs.

(** ** The trie *)
Inductive node_ok (P : platform) : node -> Prop :=
| Node_ok item weight children :
    is_scalar item = true -> valid_f32 weight -> len_ok P KNodeRefs (lenN children) ->
    Forall (node_ok P) children -> node_ok P (Node item weight children).

Definition gram_index_ok (P : platform) (n : nat) (gi : gram_index) : Prop :=
  container_ok P (gi_container gi) /\
  len_ok P KRootMap (N.of_nat (size (gi_roots gi))) /\
  (forall c nd, gi_roots gi !! c = Some nd -> is_scalar c = true /\ node_ok P nd) /\
  len_ok P KDataMap (N.of_nat (size (gi_data gi))) /\ size_ok P (N.of_nat n) /\
  (forall g l, gi_data gi !! g = Some l ->
     length g = n /\ valid_str g /\ refs_ok P (c_products (gi_container gi)) l).
Definition stored_gram_index (gi : gram_index) : gram_index :=
  GramIndex (gi_roots gi) (stored_refs <$> gi_data gi) (stored_container (gi_container gi)).

(** ** Categories, tags, orders *)
Definition sids (l : list product) : gset N := list_to_set (map p_sid l).

Definition option_ok (P : platform) (ps : list product) (o : cat_option) : Prop :=
  str_ok P (o_name o) /\ refs_ok P ps (o_content o) /\ o_ids o = sids (o_content o).
Definition category_ok (P : platform) (ps : list product) (c : category) : Prop :=
  str_ok P (cat_name c) /\ len_ok P KOptions (lenN (cat_options c)) /\
  Forall (option_ok P ps) (cat_options c).
(** Options are renumbered consecutively over the whole file. *)
Fixpoint stored_options (next : N) (os : list cat_option) : list cat_option :=
  match os with
  | [] => []
  | o :: os' => CatOption (o_name o) next (stored_refs (o_content o)) (o_ids o)
                :: stored_options (next + 1) os'
  end.
Fixpoint stored_categories (next : N) (cs : list category) : list category :=
  match cs with
  | [] => []
  | c :: cs' => Category (cat_name c) (stored_options next (cat_options c)) (cat_exclusive c)
                :: stored_categories (next + lenN (cat_options c)) cs'
  end.

Definition tag_ok (P : platform) (ps : list product) (t : tag) : Prop :=
  str_ok P (t_name t) /\ refs_ok P ps (t_products t) /\ t_ids t = sids (t_products t).
Definition stored_tag (t : tag) : tag :=
  Tag (t_name t) (stored_refs (t_products t)) (t_ids t) (t_id t).
(** Every tag carries its position as id. *)
Definition tag_positions (ts : list tag) : Prop := forall i t, ts !! i = Some t -> t_id t = N.of_nat i.

Definition orders_ok (P : platform) (oi : order_index) : Prop :=
  len_ok P KOrderMap (N.of_nat (size oi)) /\
  forall key ranks, oi !! key = Some ranks ->
    str_ok P key /\ len_ok P KUsizes (lenN ranks) /\ Forall (size_ok P) ranks.

Definition classic_ok (P : platform) (ps : list product) (cl : classic) : Prop :=
  len_ok P KCategories (lenN (cl_categories cl)) /\ Forall (category_ok P ps) (cl_categories cl) /\
  len_ok P KTags (lenN (cl_tags cl)) /\ Forall (tag_ok P ps) (cl_tags cl) /\
  tag_positions (cl_tags cl) /\ orders_ok P (cl_order cl).
Definition stored_classic (cl : classic) : classic :=
  Classic (stored_categories 0 (cl_categories cl)) (map stored_tag (cl_tags cl)) (cl_order cl).

(** ** Consistency of anything that loads, whatever the bytes *)
Definition consistent_container (c : container) : Prop :=
  positions (c_products c) /\
  (exists names, vm_by_id (c_vendors c) = numbered names /\
     forall name v, vm_tags (c_vendors c) !! name = Some v -> v ∈ numbered names /\ v_name v = name) /\
  Forall (fun p => vm_by_id (c_vendors c) !! N.to_nat (v_id (p_vendor p)) = Some (p_vendor p))
    (c_products c).
Definition consistent_gram_index (n : nat) (gi : gram_index) : Prop :=
  consistent_container (gi_container gi) /\
  forall g l, gi_data gi !! g = Some l -> length g = n /\ valid_str g /\
    Forall (fun p => p ∈ c_products (gi_container gi)) l.
Definition consistent_option (ps : list product) (o : cat_option) : Prop :=
  Forall (fun p => p ∈ ps) (o_content o) /\ o_ids o = sids (o_content o).
Definition consistent_tag (ps : list product) (t : tag) : Prop :=
  Forall (fun p => p ∈ ps) (t_products t) /\ t_ids t = sids (t_products t).
Definition all_options (cs : list category) : list cat_option := concat (map cat_options cs).
(** Options are numbered 0, 1, 2, ... through all categories. *)
Definition option_positions (cs : list category) : Prop :=
  forall i o, all_options cs !! i = Some o -> o_sid o = N.of_nat i.
Definition consistent_classic (ps : list product) (cl : classic) : Prop :=
  Forall (consistent_option ps) (all_options (cl_categories cl)) /\
  option_positions (cl_categories cl) /\
  Forall (consistent_tag ps) (cl_tags cl) /\ tag_positions (cl_tags cl).

(** ** Numeric ids *)
Definition is_digit (c : N) : Prop := 48 <= c <= 57.
(** The number a run of decimal digits writes. *)
Definition digits_value (ds : rstr) : N := foldl (fun v d => 10 * v + (d - 48)) 0 ds.
(** [ds] is the maximal run of digits at the end of [s]. *)
Definition trailing_digits (s ds : rstr) : Prop :=
  Forall is_digit ds /\ exists pre, s = pre ++ ds /\ forall pre' c, pre = pre' ++ [c] -> ~ is_digit c.

(** ** Comparing a loaded index with the one written *)
(** No product description is cut down to nothing. *)
Definition description_survives (p : product) : Prop :=
  p_description p = [] \/ limit_string_len (p_description p) 100 <> [].
(** Ascending positions. *)
Definition in_order (l : list product) : Prop := ascending (map p_sid l).
