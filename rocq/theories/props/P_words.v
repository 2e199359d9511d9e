(** C140: the integer codec and the shortening of descriptions with machine words and checked slices. *)
From Verif.model Require Import Base F32 Utf8 Prim Coll Words.
From Verif.spec Require Import Spec Samples.
From Verif.proofs Require Import Words_facts.

(** C140. Writing a 64-bit number takes at most ten rounds; no shift is out of range ... *)
Theorem C140_write : forall P v, v < 2 ^ 64 -> enc_u64_words P 10 v [] = Done (enc_u64 v).
Proof. exact enc_words. Qed.
Print Assumptions C140_write.
(** ... reading one from any bytes never shifts by 64 or more, never overflows its counter and never
    slices past the end, in all builds ... *)
Theorem C140_read : forall P input, dec_u64_words P input = dec_u64 input.
Proof. exact dec_words. Qed.
Print Assumptions C140_read.
(** ... and a description is never cut inside a char. *)
Theorem C140_cut : forall s max, limit_string_len_words s max = Done (utf8 (limit_string_len s max)).
Proof. exact limit_words. Qed.
Print Assumptions C140_cut.
Example C140_hyps : 2 ^ 64 - 1 < 2 ^ 64 /\ enc_u64_words checked32 10 (2 ^ 64 - 1) [] = Done (replicate 9 255 ++ [1]).
Proof. split; [done|reflexivity]. Qed.
(** The operations do panic when misused. *)
Example C140_panics : shr64 checked32 1 64 = Panic /\ shr64 checked32 1 (-1) = Panic /\
  int32 checked32 (2 ^ 31) = Panic /\ @from_one N [] = Panic /\ str_slice_to (utf8 [230]) 1 = Panic.
Proof. repeat split. Qed.
