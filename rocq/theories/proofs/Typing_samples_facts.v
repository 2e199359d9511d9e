From Verif.model Require Import Base F32 Utf8 Prim Coll Data Gram Indexer Nodes Classic Lit Raw Js Lib.
From Verif.spec Require Import Spec Lib_spec Samples Raw_samples Gram_samples Lib_samples End_samples Typing_samples.
From Verif.proofs Require Import Base_facts.

Lemma typing_hyps : exists gi,
  index_from wasm32 5 hash_order strangers (plain_container strangers) = Done gi /\
  Forall (fun '(_, t) => 0 ∉ t) strangers /\
  found gi abcde = Done [0] /\ found gi (abcde ++ words) = Done [1; 0] /\ found gi (words ++ abcde) = Done [1; 0].
Proof.
  eexists. split; [vm_compute; reflexivity|]. split.
  - repeat constructor; apply (bool_decide_unpack _); vm_compute; exact I.
  - split; [vm_compute; reflexivity|]. split; vm_compute; reflexivity.
Qed.
Lemma typing_library : let st := after [InitOp sample_file] in
  answer st word_chair (cats_of st) (tags_of st) None [] = Done [1] /\
  answer st (word_chair ++ three_words) (cats_of st) (tags_of st) None [] = Done [1; 2; 0].
Proof. split; vm_compute; reflexivity. Qed.
Lemma typing_nul : exists gi,
  index_from wasm32 5 hash_order with_nul (plain_container with_nul) = Done gi /\
  found gi [97; 98] = Done [0] /\ found gi [99; 99; 97; 98] = Done [].
Proof. eexists. split; [vm_compute; reflexivity|]. split; vm_compute; reflexivity. Qed.
