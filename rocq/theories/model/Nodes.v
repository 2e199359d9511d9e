(** src/serialize/nodes.rs: the codec of the n-gram index. *)
From Verif.model Require Import Base F32 Utf8 Prim Coll Data Gram.

(** src/serialize/nodes.rs:12-28, [serialize_node]. *)
Fixpoint enc_node (nd : node) : list N :=
  match nd with
  | Node item weight by_occurances =>
    enc_char item ++ enc_f32 weight ++
    (enc_usize (lenN by_occurances) ++ concat (map enc_node by_occurances))
  end.

(** src/serialize/nodes.rs:30-54, [GramNode::deserialize_arena]. [fuel] bounds the nesting
    depth; a nested node takes at least 6 bytes, so the length of the input is
    enough ([File_facts.dec_node_not_stuck]). *)
Fixpoint dec_node_fuel (P : platform) (fuel : nat) : decoder node := fun input =>
  match fuel with
  | O => Stuck
  | S fuel' =>
    '(input, item) ← dec_char input;
    '(input, weight) ← dec_f32 input;
    '(input, by_occurances) ← dec_vec P KNodeRefs (dec_node_fuel P fuel') input;
    Done (input, Node item weight by_occurances)
  end.
Definition dec_node (P : platform) : decoder node := fun input =>
  dec_node_fuel P (S (length input)) input.

(** Hash iteration orders used while serializing. *)
Record ser_order := SerOrder {
  so_vendors : order_of (rstr * vendor);
  so_features : order_of (rstr * feature);
  so_roots : order_of (N * node);
  so_data : order_of (list N * list product);
  so_orders : order_of (rstr * list N)
}.
Definition valid_ser_order (o : ser_order) : Prop :=
  valid_order (so_vendors o) /\ valid_order (so_features o) /\ valid_order (so_roots o) /\
  valid_order (so_data o) /\ valid_order (so_orders o).

(** src/serialize/nodes.rs:56-68, [GramIndex::serialize]. *)
Definition enc_gram_index (o : ser_order) : encoder gram_index := fun gi =>
  enc_container (so_vendors o) (so_features o) (gi_container gi) ++
  enc_map (so_roots o) enc_char enc_node (gi_roots gi) ++
  enc_map (so_data o) (enc_array enc_char) enc_product_refs (gi_data gi).

(** src/serialize/nodes.rs:70-103, [GramIndex::deserialize]. *)
Definition dec_gram_index (P : platform) (n : nat) : decoder gram_index := fun input =>
  '(input, container) ← dec_container P input;
  '(input, roots) ← dec_map P KRootMap dec_char (dec_node P) input;
  '(input, data) ← dec_map P KDataMap (dec_array P n dec_char)
      (fun input => '(input, (products, _)) ← dec_product_refs P (c_products container) input;
                    Done (input, products)) input;
  Done (input, GramIndex roots data container).
