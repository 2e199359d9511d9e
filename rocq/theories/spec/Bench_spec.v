(** What the benchmarks and size tables are about. *)
From Coq Require Import Reals ZArith.
From Flocq Require Import Core.Core IEEE754.BinarySingleNaN.
From Verif.model Require Import Base F32 Utf8 Raw.
Local Open Scope N_scope.

(** The number in the name of a benchmark. *)
Definition is_digit (c : N) : bool := (48 <=? c) && (c <=? 57).
Definition named (name : rstr) : N := fold_left (fun v c => if is_digit c then 10 * v + (c - 48) else v) name 0.
(** [chosen] are [k] products of the catalogue, in any order. *)
Definition chosen_from (input : list raw_product) (k : nat) (chosen : list raw_product) : Prop :=
  length chosen = k /\ exists rest, chosen ++ rest ≡ₚ input.
(** A number of thousands, up to one part in 16777216. *)
Definition thousands (x : f32) (v : N) : Prop :=
  (Rabs (SF2R radix2 x - IZR (Z.of_N v) / 1000) <= IZR (Z.of_N v) / 1000 / 16777216)%R.
