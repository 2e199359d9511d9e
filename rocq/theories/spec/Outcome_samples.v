(** A product whose title has 2^32 characters, which are never computed. *)
From Verif.model Require Import Base Data Raw.
From Verif.spec Require Import Raw_samples.
Definition endless_text : list N := replicate (N.to_nat (2 ^ 32)) 97.
Definition endless_raw : raw_product := RawProduct [] [] endless_text [] [] [] str_two [].
