(** A catalogue that grows. *)
From Verif.model Require Import Base F32 Utf8 Prim Coll Data Gram Indexer.
From Verif.spec Require Import Spec Data_spec Gram_spec Choice_spec Reorder_spec Reading_spec.

(** The text has none of the grams with which windows of the query begin. *)
Definition strange (n : nat) (input t : list N) : Prop :=
  forall w g, w ∈ windows n input -> head w = Some g -> g ∉ t.
(** Each window of the query has one surest reading, or none at all. *)
Definition unequivocal (n : nat) (texts : list (list N)) (input : list N) : Prop :=
  forall w, w ∈ windows n input -> exists r, clearly_surest n texts w r.
