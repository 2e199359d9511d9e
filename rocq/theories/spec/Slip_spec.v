(** Slips of the finger. *)
From Verif.model Require Import Base F32.
From Verif.spec Require Import Gram_spec Choice_spec.

(** [q] was typed for [w] with one slip: a wrong char, one left out, one too many, or two in the
    wrong order; and enough chars are right: for windows of five chars 5, 5, 8 and 6. *)
Inductive slip (n : nat) : list N -> list N -> Prop :=
| slip_wrong a x y b : (n <= length (a ++ b))%nat -> slip n (a ++ x :: b) (a ++ y :: b)
| slip_left_out a x b : (n <= length (a ++ b))%nat -> slip n (a ++ x :: b) (a ++ b)
| slip_too_many a y b : (2 * n - 2 <= length (a ++ b))%nat -> slip n (a ++ b) (a ++ y :: b)
| slip_swapped a x y b : (2 * n - 4 <= length (a ++ b))%nat -> slip n (a ++ x :: y :: b) (a ++ y :: x :: b).

(** Whatever in the texts is similar to [n] chars in a row of [q] is in [t], and not common. *)
Definition unmistakable (n : nat) (texts : list (list N)) (limit : N) (t q : list N) : Prop :=
  forall v g, length v = n -> occurs v q -> candidate_for n texts v g -> occurs g t /\ uses n texts g < limit.
