(** C147: what is loaded, and the shortest files. *)
From Verif.model Require Import Base F32 Utf8 Prim Coll Data Gram Nodes Classic Lib.
From Verif.spec Require Import Spec Gram_spec Samples Raw_samples Lib_samples Held_spec.
From Verif.proofs Require Import Held_facts.

(** Whatever the bytes: all that is loaded from them, names, products, features, trie nodes, posting lists, categories,
    tags and orders, is together no larger than they are. *)
Theorem C147_held : forall P n bytes gi cl, deserialize_all P n bytes = Done (gi, cl) ->
  held_index gi + held_classic cl <= lenN bytes.
Proof. exact loaded_fits. Qed.
Print Assumptions C147_held.
Theorem C147_shortest : forall P n bytes r, deserialize_all P n bytes = Done r -> 8 <= lenN bytes.
Proof. exact no_shorter. Qed.
Print Assumptions C147_shortest.
(** Two files of 8 bytes load, on every platform and for every gram size, and no other. *)
Theorem C147_two : forall P n bytes, Forall is_byte bytes -> lenN bytes <= 8 ->
  (exists r, deserialize_all P n bytes = Done r) <-> exists b, (b = 0 \/ b = 128) /\ bytes = replicate 7 0 ++ [b].
Proof. exact shortest. Qed.
Print Assumptions C147_two.
(** They hold no products. *)
Theorem C147_empty : forall P n b, b = 0 \/ b = 128 ->
  deserialize_all P n (replicate 7 0 ++ [b]) =
    Done (GramIndex ∅ ∅ (Container [] (VendorManager ∅ []) ∅), Classic [] [] ∅).
Proof. exact shortest_accepts. Qed.
Print Assumptions C147_empty.
(** The bound is reached by a file with products. *)
Example C147_hyps : exists gi cl, deserialize_all wasm32 5 sample_file = Done (gi, cl) /\
  lenN sample_file = 1570 /\ held_index gi + held_classic cl = 1570.
Proof. exact sample_held. Qed.
