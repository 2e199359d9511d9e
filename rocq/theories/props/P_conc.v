(** C65 and C78: concurrent calls of the entry points (native builds). *)
From Verif.model Require Import Base Conc.
From Verif.spec Require Import Conc_spec.
From Verif.proofs Require Import Conc_facts.

(** C65. A search by an order between the two stores of [initialize]. *)
Theorem C65_between_stores_refuted :
  exists c s, run_schedule (start [[Initialize 1; Initialize 2]; [SearchBy]]) [0; 0; 0; 1; 1]%nat = Some c /\
    seen_in c s /\ ~ same_file s.
Proof. exact mixed_read. Qed.
Print Assumptions C65_between_stores_refuted.
(** Two concurrent loads leave the indexes of different files behind, for every later search. *)
Theorem C65_for_good_refuted : forall n : nat,
  exists c, run_schedule (start [[Initialize 1]; [Initialize 2]; repeat SearchBy n]) [0; 1; 1; 0]%nat = Some c /\
    forall schedule c' s, run_schedule c schedule = Some c' -> seen_in c' s -> s = SawBoth 2 (Some 1).
Proof. exact mixed_for_good. Qed.
Print Assumptions C65_for_good_refuted.
(** What holds: if one thread does all the loading, no search is more than one file behind. *)
Theorem C65_one_loader_partial : forall threads k calls schedule c,
  threads !! k = Some calls ->
  (forall j calls', threads !! j = Some calls' -> j <> k -> versions calls' = []) ->
  run_schedule (start threads) schedule = Some c ->
  forall s, seen_in c s -> at_most_one_behind (versions calls) s.
Proof. exact one_initializer. Qed.
Print Assumptions C65_one_loader_partial.
Example C65_hyps : exists c, run_schedule (start [[Initialize 1; Initialize 2]; [SearchBy; Getter]]) [0; 0; 0; 1; 1; 0; 1]%nat = Some c /\
  th_seen <$> cf_threads c !! 1%nat = Some [SawBoth 2 (Some 1); SawClassic (Some 2)].
Proof. eexists. split; vm_compute; reflexivity. Qed.

(** C78 *)
Theorem C78_no_deadlock : forall threads schedule c,
  run_schedule (start threads) schedule = Some c ->
  all_finished c \/ exists i c', run_thread c i = Some c'.
Proof. exact no_deadlock. Qed.
Print Assumptions C78_no_deadlock.
Theorem C78_ends : forall threads schedule c,
  run_schedule (start threads) schedule = Some c ->
  (length schedule <= 2 * foldr Nat.add 0 (map length threads))%nat.
Proof. exact schedule_bounded. Qed.
Print Assumptions C78_ends.
Example C78_hyps : exists c, run_schedule (start [[Initialize 1; SearchBy]; [SearchBy]]) [0; 1; 0]%nat = Some c /\
  cf_guard c = Some 1%nat /\ run_thread c 0 = None /\ ~ all_finished c.
Proof.
  eexists. split; [vm_compute; reflexivity|]. split; [done|]. split; [done|].
  intros H%Forall_inv. discriminate H.
Qed.
