(** Concrete cases for C116 and C117. *)
From Verif.model Require Import Base F32 Utf8 Prim Coll Data Gram Indexer Nodes Classic Lit Raw Js Lib.
From Verif.spec Require Import Spec Samples Raw_samples.

(** [{price: {from: 1}}] *)
Definition from_one : list (rstr * jsval) := [(s_price, JObj 0 [(s_from, Some (JNum (f64_of_f32 one_f32)))])].
