(** Queries as sets of pieces, and as words. *)
From Verif.model Require Import Base F32 Utf8 Data Gram.
From Verif.spec Require Import Spec Gram_spec.

(** [w] is a piece of [n] chars of [q]. *)
Definition piece (n : nat) (w q : list N) : Prop := occurs w q /\ length w = n.
(** A search for [q] finds a product with this id. *)
Definition finds (n : nat) (gi : gram_index) (q : list N) (id : rstr) : Prop :=
  exists o res p x, valid_order o /\ gram_search n o gi q = Done res /\ (p, x) ∈ res /\ p_id p = id.
(** Words with a space between each and the next. *)
Fixpoint joined (ws : list rstr) : rstr :=
  match ws with
  | [] => []
  | [w] => w
  | w :: ws' => w ++ 32 :: joined ws'
  end.
