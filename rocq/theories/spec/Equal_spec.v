(** When an index read back from its file equals the one that was written. *)
From Verif.model Require Import Base F32 Utf8 Prim Coll Data Gram Indexer Nodes Classic Lit Raw.
From Verif.spec Require Import Spec Data_spec Classic_spec Raw_spec.

(** ** Any index *)
Inductive numeric_weights : node -> Prop :=
| Numeric_weights item weight children :
    is_nan weight = false -> Forall numeric_weights children -> numeric_weights (Node item weight children).
(** A list of products by reference comes back equal. *)
Definition refs_come_back (l : list product) : Prop := in_order l /\ Forall description_survives l.
Definition index_comes_back (gi : gram_index) : Prop :=
  (forall g nd, gi_roots gi !! g = Some nd -> numeric_weights nd) /\
  (forall g l, gi_data gi !! g = Some l -> refs_come_back l) /\
  Forall description_survives (c_products (gi_container gi)) /\
  (forall key l, c_features (gi_container gi) !! key = Some (FFloat l) -> Forall (fun x => is_nan x = false) l).
Definition classic_comes_back (cl : classic) : Prop :=
  option_positions (cl_categories cl) /\
  Forall (fun o => refs_come_back (o_content o)) (all_options (cl_categories cl)) /\
  Forall (fun t => refs_come_back (t_products t)) (cl_tags cl).

(** ** Catalogues *)
(** The description goes lost in the file: it is over 100 bytes long and starts with a space,
    the only one that starts within the first 100 bytes. *)
Definition lost_text (s : rstr) : Prop :=
  exists w c post, s = 32 :: w ++ c :: post /\ 32 ∉ w /\ 100 < str_len (32 :: w) /\
    (forall p d q, 32 :: w = p ++ d :: q -> str_len p <= 100).
(** Values first appear category by category: once a value of a category has appeared, no new
    value appears in a category that was mentioned before that one. *)
Definition categories_in_turn (raw : list (list raw_option)) : Prop :=
  let pairs := first_seen (pair_mentions raw) in
  pairs = concat (map (fun k => filter (fun kv => kv.1 = k) pairs) (first_seen (category_mentions raw))).
(** The raw product has a tag or a value of a category. *)
Definition classified (raw : raw_product) : Prop :=
  r_tags raw <> [] \/ exists o, o ∈ r_options raw /\ ro_values o <> [].
