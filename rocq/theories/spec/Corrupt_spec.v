(** An index with other products in the same places. *)
From Verif.model Require Import Base F32 Utf8 Prim Coll Data Gram Indexer Nodes Classic.

(** The product at position [i] has the title [t]. *)
Definition retitled (i : N) (t : rstr) (p : product) : product :=
  if p_sid p =? i then Product (p_description p) t (p_vendor p) (p_id p) (p_sid p) else p.

Definition index_with (f : product -> product) (gi : gram_index) : gram_index :=
  let c := gi_container gi in
  GramIndex (gi_roots gi) (map f <$> gi_data gi) (Container (map f (c_products c)) (c_vendors c) (c_features c)).
Definition option_with (f : product -> product) (o : cat_option) : cat_option :=
  CatOption (o_name o) (o_sid o) (map f (o_content o)) (o_ids o).
Definition category_with (f : product -> product) (c : category) : category :=
  Category (cat_name c) (map (option_with f) (cat_options c)) (cat_exclusive c).
Definition tag_with (f : product -> product) (t : tag) : tag := Tag (t_name t) (map f (t_products t)) (t_ids t) (t_id t).
Definition classic_with (f : product -> product) (cl : classic) : classic :=
  Classic (map (category_with f) (cl_categories cl)) (map (tag_with f) (cl_tags cl)) (cl_order cl).
