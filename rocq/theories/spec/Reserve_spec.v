(** How much memory loading asks for: a platform that refuses every larger request. *)
From Verif.model Require Import Base.

(** [P], but every request to reserve room for more than [l] elements panics. *)
Definition capped (l : N) (P : platform) : platform :=
  {| usize_bits := usize_bits P; cap_max := fun k => N.min l (cap_max P k); overflow_checks := overflow_checks P |}.
