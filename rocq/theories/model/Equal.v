(** The equalities the compiler derives for the index, and the repository's own round-trip test
    (src/serialize/mod.rs) that uses them. *)
From Verif.model Require Import Base F32 Utf8 Prim Coll Data Gram Indexer Nodes Classic Lit Raw Js Lib.

(** [f32 == f32], used by the derived equalities below: NaN differs from itself, and the two
    zeros are equal. *)
Definition f32_eqb (a b : f32) : bool := SFeqb a b.
(** [AHashMap == AHashMap] (std's hash map, used by the derived equalities below): as many
    keys, and each key of [a] is in [b] with an equal value. *)
Definition map_eqb `{Countable K} {V} (eqb : V -> V -> bool) (a b : gmap K V) : bool :=
  Nat.eqb (size a) (size b) &&
  forallb (fun '(k, v) => match b !! k with Some w => eqb v w | None => false end) (map_to_list a).

(** src/data/vendor.rs:8-12, derived [PartialEq for Vendor]. *)
Definition vendor_eqb (a b : vendor) : bool :=
  str_eqb (v_name a) (v_name b) && (v_id a =? v_id b).
(** src/data/vendor.rs:20-24, [PartialEq for VendorManager]. *)
Definition vendors_eqb (a b : vendor_manager) : bool :=
  map_eqb vendor_eqb (vm_tags a) (vm_tags b) && list_eqb vendor_eqb (vm_by_id a) (vm_by_id b).
(** src/data/features.rs:11-16, derived [PartialEq for Feature]. *)
Definition feature_eqb (a b : feature) : bool :=
  match a, b with
  | FString a, FString b => list_eqb str_eqb a b
  | FFloat a, FFloat b => list_eqb f32_eqb a b
  | FInteger a, FInteger b => list_eqb N.eqb a b
  | _, _ => false
  end.
(** src/data/container.rs:8-13, derived [PartialEq for ProductContainer], with the derived one
    of src/data/features.rs:8-9. Simplification: the shortcut of [Arc] for one and the same
    allocation is left out; the test compares two. *)
Definition container_eqb (a b : container) : bool :=
  list_eqb product_eqb (c_products a) (c_products b) && vendors_eqb (c_vendors a) (c_vendors b) &&
  map_eqb feature_eqb (c_features a) (c_features b).

(** src/ngram/index.rs:37-43, derived [PartialEq for GramNode]: item, weight, the list of
    children, and the map of children. The map is not stored in the model (see [node] in
    Gram.v), so its entries are read off the list: a child that is overwritten by a later one
    is not in it. That this is [map_eqb] on the maps is proved in Equal_facts.v
    ([node_eqb_unfold]). *)
Fixpoint node_eqb (a b : node) {struct a} : bool :=
  match a, b with
  | Node i w cs, Node j v ds =>
    (i =? j) && f32_eqb w v &&
    (fix children (cs ds : list node) : bool :=
       match cs, ds with
       | [], [] => true
       | c :: cs', d :: ds' => node_eqb c d && children cs' ds'
       | _, _ => false
       end) cs ds &&
    (Nat.eqb (size (items_of cs)) (size (items_of ds)) &&
     (fix entries (cs : list node) : bool :=
        match cs with
        | [] => true
        | c :: cs' =>
          (bool_decide (n_item c ∈ map n_item cs') ||
           match items_of ds !! n_item c with Some d => node_eqb c d | None => false end) &&
          entries cs'
        end) cs)
  end.
(** src/ngram/index.rs:61-67, derived [PartialEq for GramIndex]. *)
Definition gram_index_eqb (a b : gram_index) : bool :=
  map_eqb node_eqb (gi_roots a) (gi_roots b) &&
  map_eqb (list_eqb product_eqb) (gi_data a) (gi_data b) &&
  container_eqb (gi_container a) (gi_container b).

(** src/serialize/mod.rs:64 and 75, the gram size of the test. *)
Definition round_trip_size : nat := 8.
(** src/serialize/mod.rs:43-81, [test_serialize_and_deserialize] from the catalogue on; a
    failed [assert!] and the [unwrap] of [None] panic. [input] is the list of lines 35-37, in
    whatever order the hash map yields it. *)
Definition round_trip_test (low : N -> list N) (parse : rstr -> option f32) (P : platform) (n : nat)
    (bo : build_order) (so : ser_order) (input : list raw_product) : res unit :=
  '(prods, classic) ← optimize parse bo input;
  index ← index_from P n bo (map (fun p => (p, product_grams low p)) (c_products prods)) prods;
  match deserialize_all P n (serialize_all so index classic) with
  | Done (deserialized_ngram, deserialized_classic) =>
    if gram_index_eqb index deserialized_ngram then
      if classic_eqb classic deserialized_classic then Done tt else Panic
    else Panic
  | Nope => Panic
  | Panic => Panic
  | Stuck => Stuck
  end.
