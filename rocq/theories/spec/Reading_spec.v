(** How a typed window may be read as a window of the texts, for windows of any length. *)
From Verif.model Require Import Base F32 Utf8 Prim Coll Data Gram Indexer.
From Verif.spec Require Import Spec Data_spec Gram_spec Choice_spec.

(** [reading n texts w fresh q c x r]: having read [w], with [q] still to be read after [c]
    corrections, with sureness [x], one may end at the window and sureness [r]. At most
    [n / 3] corrections are begun, and what was read is always in the texts.
    [fresh] tells whether the last gram of [w] may still be given up. *)
Inductive reading (n : nat) (texts : list (list N)) :
    list N -> bool -> list N -> nat -> f32 -> list N * f32 -> Prop :=
(** [n] grams were read; the rest of what was typed is ignored. *)
| read_end w fresh q c x : length w = n -> reading n texts w fresh q c x (w, x)
(** The next gram is taken as typed. *)
| read_keep w fresh g q c x r : (length w < n)%nat -> in_texts texts (w ++ [g]) ->
    reading n texts (w ++ [g]) true q c (f32_mul x (share texts w g)) r ->
    reading n texts w fresh (g :: q) c x r
(** Another gram is taken instead of the next one, if any; one correction. *)
| read_replace w fresh y q c x r : (length w < n)%nat -> (c < n / 3)%nat ->
    in_texts texts (w ++ [y]) -> head q <> Some y ->
    reading n texts (w ++ [y]) true (tail q) (S c) (f32_mul x (share texts w y)) r ->
    reading n texts w fresh q c x r
(** Another gram is taken before the next one; two corrections. *)
| read_insert w fresh y q c x r : (length w < n)%nat -> (c < n / 3)%nat ->
    in_texts texts (w ++ [y]) -> head q <> Some y ->
    reading n texts (w ++ [y]) true q (S (S c)) (f32_mul x (share texts w y)) r ->
    reading n texts w fresh q c x r
(** The last gram read is given up for the next one typed; one correction, and the sureness stays. *)
| read_skip w z g q c x r : (length (w ++ [z]) < n)%nat -> (c < n / 3)%nat ->
    in_texts texts (w ++ [g]) ->
    reading n texts (w ++ [g]) false q (S c) x r ->
    reading n texts (w ++ [z]) true (g :: q) c x r.

(** The first gram has to be as typed. *)
Definition reading_of (n : nat) (texts : list (list N)) (q : list N) (r : list N * f32) : Prop :=
  exists q0 q', q = q0 :: q' /\ in_texts texts [q0] /\ reading n texts [q0] false q' 0 f32_one r.
(** [r] is a reading of [q] that is as sure as any, or nothing if there is none. *)
Definition surest (n : nat) (texts : list (list N)) (q : list N) (r : option (list N * f32)) : Prop :=
  match r with
  | None => forall r', ~ reading_of n texts q r'
  | Some r => reading_of n texts q r /\ forall r', reading_of n texts q r' -> f32_le r'.2 r.2
  end.
(** The same, and there is no tie. *)
Definition clearly_surest (n : nat) (texts : list (list N)) (q : list N) (r : option (list N * f32)) : Prop :=
  surest n texts q r /\
  forall r0 r', r = Some r0 -> reading_of n texts q r' -> r' <> r0 -> f32_lt r'.2 r0.2.

Global Instance f32_eq_dec : EqDecision f32.
Proof. unfold f32. solve_decision. Defined.
