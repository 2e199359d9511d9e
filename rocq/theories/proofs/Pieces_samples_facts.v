(** The sample words. *)
From Verif.model Require Import Base F32 Utf8 Prim Coll Data Gram Indexer Nodes Classic Lit Raw Js Lib.
From Verif.spec Require Import Spec Gram_spec Lib_spec Samples Raw_samples Gram_samples Lib_samples End_samples Typing_samples Pieces_spec Pieces_samples.
From Verif.proofs Require Import Base_facts Search_props Lib_facts Pieces_facts.

Lemma old_cats : exists gi,
  index_from wasm32 5 hash_order cats (plain_container cats) = Done gi /\ gi_roots gi !! 0 = None /\ found gi (joined [word_old; word_cat]) = Done [0] /\ found gi (joined [word_cat; word_old]) = Done [].
Proof. eexists. split; [vm_compute; reflexivity|]. split; [vm_compute; reflexivity|]. split; vm_compute; reflexivity. Qed.
Lemma two_words : let st := after [InitOp sample_file] in let gi := index_of st in
  s_index st = Some gi /\ NoDup (map p_id (c_products (gi_container gi))) /\ gi_roots gi !! 0 = None /\ ascii_low 32 = [32] /\
  (forall w id, piece 5 w (lower ascii_low (joined [a_chair; a_table])) -> 32 ∈ w -> ~ finds 5 gi w id) /\
  answer st (joined [a_chair; a_table]) (cats_of st) (tags_of st) None [] = Done [1; 2] /\
  answer st (joined [a_table; a_chair; a_table]) (cats_of st) (tags_of st) None [] = Done [2; 1].
Proof.
  intros st gi. split; [vm_compute; reflexivity|]. split; [apply (bool_decide_unpack _); vm_compute; exact I|].
  split; [vm_compute; reflexivity|]. split; [reflexivity|]. split.
  - intros w id Hp H32 Hf. apply piece_listed in Hp as Hw; [|lia]. destruct Hp as [_ Hl]. apply finds_hits in Hf as (p & x & H & _); [|lia].
    assert (E : forallb (fun w => negb (bool_decide (32 ∈ w)) || negb (Nat.eqb (length w) 5) || match query_hits 5 gi w with [] => true | _ => false end)
       (map (fun i => take 5 (drop i (lower ascii_low (joined [a_chair; a_table])))) (seq 0 (length (lower ascii_low (joined [a_chair; a_table]))))) = true)
      by (vm_compute; reflexivity).
    apply elem_of_list_In in Hw. pose proof (proj1 (forallb_forall _ _) E w Hw) as B. cbv beta in B.
    rewrite bool_decide_true, Hl in B by done. cbn in B. destruct (query_hits 5 gi w); [by apply elem_of_nil in H|done].
  - split; vm_compute; reflexivity.
Qed.
