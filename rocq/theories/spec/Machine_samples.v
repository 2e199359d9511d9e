(** A text of one char, repeated. *)
From Verif.model Require Import Base F32 Utf8 Prim Coll Data Gram Indexer.
From Verif.spec Require Import Spec Samples Gram_samples.

Definition monotone_text (n : nat) : list (product * list N) := [(sample_p0, replicate n 97)].
(** What a search for the char followed by others comes to. *)
Definition panics {A} (r : res A) : bool := match r with Panic => true | _ => false end.
