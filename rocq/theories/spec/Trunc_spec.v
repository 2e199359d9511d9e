(** What a file that was cut short can still be read as. *)
From Verif.model Require Import Base F32 Utf8 Prim Coll Data Gram Nodes Classic Lib.
From Verif.spec Require Import Spec Data_spec.

(** [kept] and [lost] are the two parts of a number whose bytes were cut, and [read] is what its
    first bytes say: its low digits in base 128. *)
Definition number_cut (x : N) (kept lost : list N) (read : N) : Prop :=
  kept <> [] /\ lost <> [] /\ enc_usize x = kept ++ lost /\ read = x mod 128 ^ lenN kept.

(** The bytes [lost] are missing from the end of these orders, and yet they read as
    [read]. Either the cut is within the last rank of the last order, and only that rank
    changes; or it is within the length of the last order, what is left of the length is zero, and that
    order becomes empty. *)
Inductive orders_cut (written : list (rstr * list N)) (lost : list N) (read : list (rstr * list N)) : Prop :=
| Cut_in_rank before key ranks rank kept low :
    written = before ++ [(key, ranks ++ [rank])] -> number_cut rank kept lost low ->
    read = before ++ [(key, ranks ++ [low])] -> orders_cut written lost read
| Cut_in_length before key ranks kept gone :
    written = before ++ [(key, ranks)] -> number_cut (lenN ranks) kept gone 0 ->
    lost = gone ++ concat (map enc_usize ranks) ->
    read = before ++ [(key, [])] -> orders_cut written lost read.
