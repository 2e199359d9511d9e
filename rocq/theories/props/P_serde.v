(** C118: arrays of a fixed size, src/serde_array.rs. *)
From Coq Require Import String.
From Verif.model Require Import Base Utf8 Lit Json Serde_array.
From Verif.spec Require Import Json_spec Serde_array_spec.
From Verif.proofs Require Import Serde_array_facts.
Local Open Scope N_scope.

(** Exactly the texts that describe an array of [n] bytes are read, as that array. *)
Theorem C118_reads : forall n t data,
  read_arr n t = Done data <-> describes_array t data /\ List.length data = n.
Proof. exact read_arr_iff. Qed.
Print Assumptions C118_reads.
(** Other texts are refused, and [unreachable!] is never reached. *)
Theorem C118_no_panic : forall n t, (exists data, read_arr n t = Done data) \/ read_arr n t = Nope.
Proof. exact read_arr_total. Qed.
Print Assumptions C118_no_panic.
Theorem C118_determined : forall t data data', describes_array t data -> describes_array t data' -> data = data'.
Proof. exact describes_unique. Qed.
Print Assumptions C118_determined.
Theorem C118_writes : forall data, Forall (fun b => b <= 255) data ->
  describes_array (write_arr (List.length data) data) data.
Proof. exact write_arr_describes. Qed.
Print Assumptions C118_writes.
Theorem C118_roundtrip : forall data, Forall (fun b => b <= 255) data ->
  read_arr (List.length data) (write_arr (List.length data) data) = Done data.
Proof. exact arr_roundtrip. Qed.
Print Assumptions C118_roundtrip.
(** An array of another size is refused. *)
Theorem C118_other_size : forall data n, Forall (fun b => b <= 255) data -> n <> List.length data ->
  read_arr n (write_arr (List.length data) data) = Nope.
Proof. exact arr_other_size. Qed.
Print Assumptions C118_other_size.
Example C118_hyps : Forall (fun b => b <= 255) some_bytes /\ List.length some_bytes = 5%nat /\
  describes_array spaced_text some_bytes.
Proof. exact some_bytes_fit. Qed.
Example C118_sample : read_arr 5 spaced_text = Done some_bytes /\
  write_arr 5 some_bytes = lit "{""arr"":[0,7,42,100,255]}" /\
  read_arr 2 (lit "{""arr"":[1,256]}") = Nope /\ read_arr 2 (lit "{""arr"":[1,2.0]}") = Nope.
Proof. exact spaced_sample. Qed.
