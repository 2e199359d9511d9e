(** Concrete pages. *)
From Verif.model Require Import Base Page Objects.
From Verif.spec Require Import Objects_spec.

(** Loads a file, takes a category handler (0), walks to the first option (3) of the first category. *)
Definition first_option : list event :=
  [ELoad; EGet true; EEnter (KIter 0); ELeave true; EEnter (KNextCategory 1); ELeave true; EEnter (KNextOption 2); ELeave true].
(** Frees the option. *)
Definition forgets : list event := first_option ++ [EFree 3].
(** An observer is running: the handler is being toggled. *)
Definition toggling : list event := first_option ++ [EEnter (KToggle 0 3)].
