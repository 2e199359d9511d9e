(** The concrete cases of P_growth.v. *)
From Verif.model Require Import Base F32 Utf8 Prim Coll Data Gram Indexer Nodes Classic Lit Raw Js Lib.
From Verif.spec Require Import Spec Data_spec Gram_spec Classic_spec Raw_spec Js_spec Lib_spec End_spec Samples Raw_samples Gram_samples
  Lib_samples End_samples Choice_spec Reorder_spec Reorder_samples Reading_spec Reading_samples Growth_spec Growth_samples.
From Verif.proofs Require Import Base_facts Data_facts File_facts Sample_facts Reorder_samples_facts Reading_samples_facts.
From Coq Require Import Lia.

Lemma crowded : exists gi1 gi2 x y z,
  index_from wasm32 5 hash_order hammers (plain_container hammers) = Done gi1 /\
  index_from wasm32 5 hash_order more_hammers (plain_container more_hammers) = Done gi2 /\
  gram_search 5 no_order gi1 hammer = Done [(plain_product 0, x); (plain_product 1, y); (plain_product 2, z)] /\
  gram_search 5 no_order gi2 hammer = Done [].
Proof. do 5 eexists. split; [vm_compute; reflexivity|]. split; [vm_compute; reflexivity|]. split; vm_compute; reflexivity. Qed.
Lemma outdone : exists gi1 gi2 x y,
  index_from wasm32 5 hash_order one_word (plain_container one_word) = Done gi1 /\
  index_from wasm32 5 hash_order likelier_word (plain_container likelier_word) = Done gi2 /\
  gram_search 5 no_order gi1 abcde = Done [(plain_product 0, x)] /\
  gram_search 5 no_order gi2 abcde = Done [(plain_product 3, y)].
Proof. do 4 eexists. split; [vm_compute; reflexivity|]. split; [vm_compute; reflexivity|]. split; vm_compute; reflexivity. Qed.

Lemma woods_unequivocal : unequivocal ngram_index_size (map (raw_text ascii_low) woods) (lower ascii_low query_woods).
Proof.
  intros w Hw. exists (surest_of (map (raw_text ascii_low) woods) w). apply clearly_surest_sound; [unfold ngram_index_size; lia|].
  assert (F : forallb (fun w => clearly_surest_b ngram_index_size (map (raw_text ascii_low) woods) w
    (surest_of (map (raw_text ascii_low) woods) w)) (windows ngram_index_size (lower ascii_low query_woods)) = true) by (vm_compute; reflexivity).
  rewrite forallb_forall in F. apply F. by apply elem_of_list_In.
Qed.
Lemma ochre_strange : strange ngram_index_size (lower ascii_low query_woods) (raw_text ascii_low ochre).
Proof.
  intros w g Hw Hg Hin.
  assert (F : forallb (fun w => match head w with Some g => negb (bool_decide (g ∈ raw_text ascii_low ochre)) | None => true end)
    (windows ngram_index_size (lower ascii_low query_woods)) = true) by (vm_compute; reflexivity).
  rewrite forallb_forall in F. apply elem_of_list_In in Hw. specialize (F w Hw). rewrite Hg in F.
  by rewrite bool_decide_eq_true_2 in F.
Qed.
Lemma ochre_fits : raw_fits wasm32 ascii_low woods_and_ochre.
Proof.
  apply small_fits; [by right| |].
  - unfold raw_strings_ok, str_ok, size_ok, valid_str. apply (bool_decide_unpack _). vm_compute. done.
  - vm_compute. reflexivity.
Qed.
Lemma grown_hyps : raw_fits host64 ascii_low woods /\ raw_fits wasm32 ascii_low woods_and_ochre /\
  total_grams (map (raw_text ascii_low) woods_and_ochre) < 2 ^ 32 /\ NoDup (map r_id woods_and_ochre) /\
  woods_and_ochre ≡ₚ woods ++ [ochre] /\ (forall raw, raw ∈ woods -> 0 ∉ raw_text ascii_low raw) /\
  (forall raw, raw ∈ [ochre] -> strange ngram_index_size (lower ascii_low query_woods) (raw_text ascii_low raw)) /\
  unequivocal ngram_index_size (map (raw_text ascii_low) woods) (lower ascii_low query_woods).
Proof.
  split; [apply woods_fit; by left|]. split; [apply ochre_fits|]. split; [vm_compute; reflexivity|].
  split; [apply (bool_decide_unpack _); vm_compute; done|]. split; [apply Permutation_cons_append|].
  split; [|split; [|apply woods_unequivocal]].
  - intros raw Hr Hin. assert (F : forallb (fun raw => negb (bool_decide (0 ∈ raw_text ascii_low raw))) woods = true) by (vm_compute; reflexivity).
    rewrite forallb_forall in F. apply elem_of_list_In in Hr. specialize (F raw Hr). by rewrite bool_decide_eq_true_2 in F.
  - intros raw ->%elem_of_list_singleton. apply ochre_strange.
Qed.
Lemma grown_files : index_and_serialize ascii_low sample_parse host64 hash_order no_order sample_order woods_and_ochre = Done ochre_file /\
  loads host64 lib_init (InitOp ochre_file).
Proof. split; vm_compute; reflexivity. Qed.
Lemma grown_found : delivered_ids true plain_search woods_state (cats_of woods_state) = Done [str_one; lit_id2] /\
  delivered_ids true plain_search ochre_state (cats_of ochre_state) = Done [str_one; lit_id2].
Proof. split; vm_compute; reflexivity. Qed.
