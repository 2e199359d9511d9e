(** Spec for C126: JavaScript strings and Rust strings. *)
From Verif.model Require Import Base Utf8.

Definition units (u : list N) : Prop := Forall (fun x => x < 2 ^ 16) u.
Definition high_at (u : list N) (i : nat) : Prop := exists x, u !! i = Some x /\ 55296 <= x < 56320.
Definition low_at (u : list N) (i : nat) : Prop := exists x, u !! i = Some x /\ 56320 <= x < 57344.
(** The code unit at this place is half of a pair whose other half is missing. *)
Definition lone_at (u : list N) (i : nat) : Prop :=
  high_at u i /\ ~ low_at u (S i) \/ low_at u i /\ match i with O => True | S j => ~ high_at u j end.
Definition well_formed (u : list N) : Prop := forall i, ~ lone_at u i.

(** [u] spells the chars [s]: a char below 2^16 is one code unit, any other is a pair. *)
Inductive spells : list N -> list N -> Prop :=
| spells_nil : spells [] []
| spells_one c u s : c < 2 ^ 16 -> is_scalar c = true -> spells u s -> spells (c :: u) (c :: s)
| spells_pair h l u s : 55296 <= h < 56320 -> 56320 <= l < 57344 -> spells u s ->
    spells (h :: l :: u) (2 ^ 16 + (h - 55296) * 2 ^ 10 + (l - 56320) :: s).
(** [v] is [u] with U+FFFD for every half of a pair. *)
Definition mended (u v : list N) : Prop := length v = length u /\
  forall i, (lone_at u i -> v !! i = Some 65533) /\ (~ lone_at u i -> v !! i = u !! i).
