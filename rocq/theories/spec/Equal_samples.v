(** Concrete catalogues for the round-trip test. *)
From Verif.model Require Import Base F32 Utf8 Prim Coll Data Gram Nodes Classic Lit Raw.
From Verif.spec Require Import Spec Samples Raw_samples.
From Coq Require Import String.
Local Open Scope string_scope.

(** The sample catalogue without its last product, which brings a new colour after the sizes. *)
Definition in_turn_raw : list raw_product := [raw_lamp; raw_chair].
(** A product whose description is a space and 101 letters. *)
Definition raw_spaced : raw_product :=
  RawProduct (32 :: replicate 101 97) [] (lit "Shelf") (lit "Acme") (lit "gid/3") [] str_one [].
Definition spaced_raw : list raw_product := [raw_chair; raw_spaced].
(** A product whose price is not a number. *)
Definition priceless_raw : list raw_product := [raw_chair; raw_plain str_nan []].
