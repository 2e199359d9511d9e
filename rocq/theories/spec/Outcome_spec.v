(** When indexing runs out of numbers. *)
From Verif.model Require Import Base Prim Data.
From Verif.spec Require Import Gram_spec.

(** A build that checks for overflow counts more grams than a [u32] can hold. *)
Definition overflows (P : platform) (texts : list (list N)) : Prop :=
  overflow_checks P = true /\ 2 ^ 32 <= total_grams texts.
