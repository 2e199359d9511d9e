(** Spec for C126: the texts of a loaded file that the exported methods can show. *)
From Verif.model Require Import Base F32 Utf8 Prim Coll Data Gram Nodes Classic.

Inductive shown (gi : gram_index) (cl : classic) : rstr -> Prop :=
| shown_title p : p ∈ c_products (gi_container gi) -> shown gi cl (p_title p)
| shown_description p : p ∈ c_products (gi_container gi) -> shown gi cl (p_description p)
| shown_id p : p ∈ c_products (gi_container gi) -> shown gi cl (p_id p)
| shown_vendor p : p ∈ c_products (gi_container gi) -> shown gi cl (v_name (p_vendor p))
| shown_feature_name key f : c_features (gi_container gi) !! key = Some f -> shown gi cl key
| shown_feature key l s : c_features (gi_container gi) !! key = Some (FString l) -> s ∈ l -> shown gi cl s
| shown_category c : c ∈ (cl_categories cl : list category) -> shown gi cl (cat_name c)
| shown_option c o : c ∈ (cl_categories cl : list category) -> o ∈ cat_options c -> shown gi cl (o_name o)
| shown_tag t : t ∈ (cl_tags cl : list tag) -> shown gi cl (t_name t)
| shown_order key table : (cl_order cl : gmap rstr (list N)) !! key = Some table -> shown gi cl key.
