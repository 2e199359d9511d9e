(** A catalogue in which the product that was typed comes second. *)
From Coq Require Import String.
From Verif.model Require Import Base F32 Utf8 Prim Coll Data Gram Lit.
From Verif.spec Require Import Spec Samples Gram_samples.
(** One text is the query, another only repeats the beginning of it. *)
Definition oranges : list (product * rstr) :=
  plain_source [lit "orange"; lit "orang orang orang"; lit "a"; lit "b"; lit "c"; lit "d"; lit "e"].
Definition typed_orange : rstr := lit "orange".
(** A text, a longer one with it, and others. *)
Definition longer_texts : list (product * rstr) :=
  plain_source [lit "orange"; lit "an orange lamp"; lit "a"; lit "b"; lit "c"].
