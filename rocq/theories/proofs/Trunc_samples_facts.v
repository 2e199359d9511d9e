(** The concrete cases of P_trunc.v. *)
From Verif.model Require Import Base F32 Utf8 Prim Coll Data Gram Indexer Nodes Classic Lit Raw Js Lib.
From Verif.spec Require Import Spec Data_spec Gram_spec Classic_spec Raw_spec Js_spec Lib_spec End_spec Trunc_spec Samples Raw_samples Gram_samples
  Lib_samples End_samples Trunc_samples.
From Verif.proofs Require Import Base_facts Data_facts File_facts Lib_facts End_samples_facts.
From Coq Require Import Lia.

Lemma crowd_counts : Forall (fun n => size_ok host64 n /\ forall k, n <= cap_max host64 k) (raw_counts ascii_low crowd).
Proof.
  assert (C : raw_counts ascii_low crowd = [128; 45; 4; 7; 5; 104]) by (vm_compute; reflexivity). rewrite C. clear C.
  assert (S : forall n, n <= 128 -> n < 2 ^ 56 /\ n <= usize_max host64 /\ n <= 2 ^ 59 - 1).
  { intros n Hn. repeat split; [eapply N.le_lt_trans; [exact Hn|vm_compute; reflexivity]|..];
      (eapply N.le_trans; [exact Hn|]; vm_compute; discriminate). }
  apply Forall_forall. intros n Hn.
  assert (n <= 128) as (S1 & S2 & S3)%S.
  { revert n Hn. apply Forall_forall. apply (bool_decide_unpack _). vm_compute. done. }
  split; [by split|]. intros k. done.
Qed.
Lemma crowd_fits : raw_fits host64 ascii_low crowd.
Proof.
  split; [|exact crowd_counts]. unfold raw_strings_ok, str_ok, size_ok, valid_str. apply (bool_decide_unpack _). vm_compute. done.
Qed.
Lemma crowd_hyps : raw_fits host64 ascii_low crowd /\ total_grams (map (raw_text ascii_low) crowd) < 2 ^ 32 /\
  length crowd = (128 * 1)%nat /\
  index_and_serialize ascii_low sample_parse host64 hash_order no_order sample_order crowd = Done crowd_file.
Proof. split; [exact crowd_fits|]. split; [vm_compute; reflexivity|]. split; [vm_compute; reflexivity|]. vm_compute. reflexivity. Qed.
Lemma crowd_cut_accepted :
  index_and_serialize ascii_low sample_parse host64 hash_order no_order sample_order crowd = Done crowd_file /\
  (exists lost, lost <> [] /\ crowd_file = crowd_cut ++ lost) /\
  (initialize host64 lib_init crowd_cut).2 = Done true /\
  answer (after [InitOp crowd_cut]) three_words no_cats no_tags None [] = Done [1; 2; 0] /\
  answer (after [InitOp crowd_cut]) three_words no_cats no_tags (Some s_price_up) [] = Panic.
Proof.
  split; [vm_compute; reflexivity|]. split.
  { exists (drop (length crowd_file - 129) crowd_file). split; [vm_compute; discriminate|]. unfold crowd_cut. by rewrite take_drop. }
  split; [vm_compute; reflexivity|]. split; vm_compute; reflexivity.
Qed.
(** The two ways of cutting. *)
Lemma cuts_exist : (exists kept lost low, number_cut 300 kept lost low /\ low = 44) /\
  orders_cut [(s_price, [3; 300])] [2] [(s_price, [3; 44])] /\
  orders_cut [(s_price, replicate 128 0)] (1 :: replicate 128 0) [(s_price, [])].
Proof.
  split; [exists [172], [2], 44; by repeat split|]. split.
  - apply (Cut_in_rank _ _ _ [] s_price [3] 300 [172] 44); by repeat split.
  - apply (Cut_in_length _ _ _ [] s_price (replicate 128 0) [128] [1]); by repeat split.
Qed.
