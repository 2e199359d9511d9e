(** Concrete handlers of a loaded file. *)
From Verif.model Require Import Base F32 Utf8 Prim Coll Data Gram Indexer Nodes Classic Lit Raw Js Lib.
From Verif.spec Require Import Spec Js_spec Lib_spec Samples Raw_samples Gram_samples Lib_samples.

Definition tags_of (st : lib_state) : tag_handler := match get_tags st with Done h => h | _ => no_tags end.
(** The tag handler of the state with one tag switched on. *)
Definition with_tag (st : lib_state) (id : N) : tag_handler :=
  match th_toggle (tags_of st) (JSTag (th_handle (tags_of st)) id) with Done (h, _) => h | _ => no_tags end.
Definition cats_of (st : lib_state) : cat_handler := match get_categories st with Done h => h | _ => no_cats end.
(** The names of an option and its category; the name of a tag. *)
Definition option_names (cl : classic) (cat opt : N) : option (rstr * rstr) :=
  c ← (cl_categories cl : list category) !! N.to_nat cat; o ← cat_options c !! N.to_nat opt; Some (cat_name c, o_name o).
Definition tag_name_at (cl : classic) (id : N) : option rstr := t_name <$> (cl_tags cl : list tag) !! N.to_nat id.
From Coq Require Import String.
Local Open Scope string_scope.
Definition lit_colour : rstr := lit "Colour".
Definition lit_blue : rstr := lit "Blue".
Definition lit_new : rstr := lit "new".
Definition word_jumpy : rstr := lit "Jumpy".
