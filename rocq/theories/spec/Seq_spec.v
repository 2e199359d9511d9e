(** What the numbers of a stored list of ids add up to. *)
From Verif.model Require Import Base.
From Verif.spec Require Import Gram_spec.

(** The sums of the first one, two, … numbers. *)
Definition prefix_sums (ds : list N) : list N :=
  map (fun k => sum_N (take k ds)) (seq 1 (length ds)).
