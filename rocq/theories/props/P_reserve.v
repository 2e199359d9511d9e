(** C146: room reserved while loading. *)
From Verif.model Require Import Base F32 Utf8 Prim Coll Data Gram Nodes Classic Lib.
From Verif.spec Require Import Spec Samples Raw_samples Lib_samples Reserve_spec.
From Verif.proofs Require Import Reserve_facts.

(** Refusing large requests changes nothing but that loading may panic. *)
Theorem C146_capped : forall P n bytes l,
  deserialize_all (capped l P) n bytes = deserialize_all P n bytes \/ deserialize_all (capped l P) n bytes = Panic.
Proof. exact capped_meaning. Qed.
Print Assumptions C146_capped.
(** A file that loads, whatever its bytes, is loaded without ever reserving room for more elements than it has bytes. *)
Theorem C146_reserved_partial : forall P n bytes r, deserialize_all P n bytes = Done r ->
  forall l, lenN bytes <= l -> deserialize_all (capped l P) n bytes = Done r.
Proof. exact accepted_reserves. Qed.
Print Assumptions C146_reserved_partial.
(** One would expect that of every file. But at most 8 bytes make a machine reserve any room it can before it
    finds the file too short. *)
Theorem C146_reserved_refuted : forall l, l < 2 ^ 55 -> exists bytes, lenN bytes <= 8 /\
  deserialize_all host64 5 bytes = Nope /\ deserialize_all (capped l host64) 5 bytes = Panic.
Proof. exact big_request. Qed.
Print Assumptions C146_reserved_refuted.
(** On every platform: the file that is a number and nothing else. *)
Theorem C146_number : forall P n m l, m < 2 ^ 56 -> m <= usize_max P -> m <= cap_max P KVendorMap -> m <= cap_max P KVendorVec -> l < m ->
  let bytes := enc_usize m in
  lenN bytes <= 8 /\ deserialize_all P n bytes = Nope /\ deserialize_all (capped l P) n bytes = Panic.
Proof. exact rejected_reserves. Qed.
Print Assumptions C146_number.
Example C146_hyps : (exists r, deserialize_all wasm32 5 sample_file = Done r) /\
  deserialize_all (capped 1 wasm32) 5 sample_file = Panic /\
  70000 < 2 ^ 56 /\ 70000 <= usize_max wasm32 /\ 70000 <= cap_max wasm32 KVendorMap /\ enc_usize 70000 = [240; 162; 4].
Proof. exact sample_reserves. Qed.
