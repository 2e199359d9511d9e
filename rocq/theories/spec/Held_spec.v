(** How much is loaded, counted in the fewest bytes it can take. *)
From Verif.model Require Import Base F32 Utf8 Data Gram Classic.
From Verif.spec Require Import Gram_spec.

(** A list: one for its length, and its elements. *)
Definition held_list {A} (w : A -> N) (l : list A) : N := 1 + sum_N (map w l).
Definition held_map `{Countable K} {V} (wk : K -> N) (wv : V -> N) (m : gmap K V) : N :=
  held_list (fun kv => wk kv.1 + wv kv.2) (map_to_list m).
Definition held_str (s : rstr) : N := 1 + str_len s.
Definition one {A} (_ : A) : N := 1.
Definition held_product (p : product) : N :=
  held_str (p_description p) + held_str (p_title p) + held_str (p_id p) + 1.
Definition held_feature (f : feature) : N :=
  1 + match f with
      | FString l => held_list held_str l
      | FFloat l => held_list (fun _ => 4) l
      | FInteger l => held_list one l
      end.
Definition held_container (c : container) : N :=
  held_list (fun v => held_str (v_name v)) (vm_by_id (c_vendors c)) + held_list held_product (c_products c) +
  held_map held_str held_feature (c_features c).
(** A char, a weight of four bytes, and the children. *)
Fixpoint held_node (nd : node) : N :=
  match nd with Node _ _ children => 1 + 4 + (1 + sum_N (map held_node children)) end.
Definition held_index (gi : gram_index) : N :=
  held_container (gi_container gi) + held_map one held_node (gi_roots gi) +
  held_map (held_list one) (held_list one) (gi_data gi).
Definition held_option (o : cat_option) : N := held_str (o_name o) + held_list one (o_content o).
Definition held_category (c : category) : N := 1 + held_str (cat_name c) + held_list held_option (cat_options c).
Definition held_tag (t : tag) : N := held_str (t_name t) + held_list one (t_products t).
Definition held_classic (cl : classic) : N :=
  held_list held_category (cl_categories cl) + held_list held_tag (cl_tags cl) +
  held_map held_str (held_list one) (cl_order cl).
