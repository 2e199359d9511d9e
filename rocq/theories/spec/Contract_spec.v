(** What Rust's documentation asks of the traits [Eq] and [Ord], for the values in [among]. *)
From Verif.model Require Import Base.
Definition eq_contract {A} (among : A -> Prop) (eqb : A -> A -> bool) : Prop :=
  (forall a, among a -> eqb a a = true) /\
  (forall a b, among a -> among b -> eqb a b = true -> eqb b a = true) /\
  (forall a b c, among a -> among b -> among c -> eqb a b = true -> eqb b c = true -> eqb a c = true).
(** Swapping the arguments swaps the answer, and each of smaller, equal and greater is transitive. *)
Definition cmp_contract {A} (among : A -> Prop) (cmp : A -> A -> comparison) : Prop :=
  (forall a b, among a -> among b -> cmp b a = CompOpp (cmp a b)) /\
  (forall a b c r, among a -> among b -> among c -> cmp a b = r -> cmp b c = r -> cmp a c = r).
(** The two agree, and with [partial_cmp]. *)
Definition ord_contract {A} (among : A -> Prop) (eqb : A -> A -> bool) (cmp : A -> A -> comparison)
    (partial_cmp : A -> A -> option comparison) : Prop :=
  eq_contract among eqb /\ cmp_contract among cmp /\
  (forall a b, among a -> among b -> cmp a b = Eq <-> eqb a b = true) /\
  (forall a b, among a -> among b -> partial_cmp a b = Some (cmp a b)).
