(** What the repository's tests and statistics are about. *)
From Coq Require Import String Sorting.Sorted.
From Verif.model Require Import Base Utf8 Lit Data.
From Verif.spec Require Import Gram_spec Gram_samples Serde_array_spec.
Local Open Scope N_scope.

(** [c] of the grams (with the length of their list) are as [Q] says. *)
Definition number_of (Q : list N -> N -> Prop) (data : gmap (list N) (list product)) (c : N) : Prop :=
  exists G : list (list N), NoDup G /\ lenN G = c /\ forall g, g ∈ G <-> exists l, data !! g = Some l /\ Q g (lenN l).
(** The decimal digits of a number, without superfluous zeros. *)
Definition decimal (s : rstr) (v : N) : Prop := stands_for s v /\ s <> [] /\ (head s = Some 48 -> s = [48]).
(** A line of the table. *)
Definition table_line (row : N * N) (line : rstr) : Prop := exists a b,
  line = (a ++ lit ";" ++ b ++ [10])%list /\ decimal a row.1 /\ decimal b row.2.
(** Keys go up, each once. *)
Definition rising (rows : list (N * N)) : Prop := StronglySorted (fun a b => a.1 < b.1) rows.
(** [c] grams occur [k] times in the texts. *)
Definition occur_times (n : nat) (source : list (product * list N)) (k c : N) : Prop := exists G : list (list N),
  NoDup G /\ lenN G = c /\ forall g, g ∈ G <-> lenN (owners n source g) = k.

(** One product repeats a gram. *)
Definition stutter : list (product * rstr) := plain_source [lit "aaa"; lit "xy"; lit "xz"; lit "xw"; lit "xv"].
