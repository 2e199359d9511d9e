(** Concrete cases for C125. *)
From Verif.model Require Import Base F32 Utf8 Prim Coll Data Gram Indexer Nodes Classic Lit Raw Js Lib.
From Verif.spec Require Import Spec Data_spec Gram_spec Classic_spec Raw_spec Js_spec Lib_spec Panics_spec Samples
  Raw_samples Gram_samples Lib_samples Trunc_samples.
From Verif.proofs Require Import Panics_facts Lib_samples_facts Trunc_samples_facts.

Definition half_broken : cat_handler := (ch_toggle (with_first_option (after [InitOp sample_file])) (ExportOption [] 7 7)).1.
Lemma half_broken_gone : bool_decide ((7, 7) ∈ ch_active half_broken) &&
  match (cl_categories (ch_handle half_broken) : list category) !! 7%nat with Some _ => false | None => true end = true.
Proof. vm_compute. reflexivity. Qed.
Definition panicked (o : search_order) (word : rstr) : bool :=
  match (search ascii_low true o (after [InitOp sample_file]) word half_broken no_tags None []).2 with Panic => true | _ => false end.
Lemma panicked_yes o w : panicked o w = true ->
  (search ascii_low true o (after [InitOp sample_file]) w half_broken no_tags None []).2 = Panic.
Proof. unfold panicked. destruct (_.2); try discriminate. reflexivity. Qed.
Lemma panicked_no o w : panicked o w = false ->
  (search ascii_low true o (after [InitOp sample_file]) w half_broken no_tags None []).2 <> Panic.
Proof. unfold panicked. destruct (_.2); discriminate. Qed.
Lemma panicked_1 : panicked plain_search three_words = true. Proof. vm_compute. reflexivity. Qed.
Lemma panicked_2 : panicked other_search three_words = true. Proof. vm_compute. reflexivity. Qed.
Lemma panicked_3 : panicked other_search word_chair = true. Proof. vm_compute. reflexivity. Qed.
Lemma panicked_4 : panicked plain_search word_chair = false. Proof. vm_compute. reflexivity. Qed.
Lemma half_broken_facts : option_missing half_broken /\
  (forall o, valid_search_order o -> exists gi cl ids, after [InitOp sample_file] = loaded gi cl /\
     finds (search ascii_low true o (loaded gi cl) word_chair (ch_new cl) (th_new cl) None []) gi ids) /\
  (search ascii_low true plain_search (after [InitOp sample_file]) three_words half_broken no_tags None []).2 = Panic /\
  (search ascii_low true other_search (after [InitOp sample_file]) three_words half_broken no_tags None []).2 = Panic /\
  exists o1 o2, o1 ∈ [plain_search; other_search] /\ o2 ∈ [plain_search; other_search] /\
    (search ascii_low true o1 (after [InitOp sample_file]) word_chair half_broken no_tags None []).2 = Panic /\
    (search ascii_low true o2 (after [InitOp sample_file]) word_chair half_broken no_tags None []).2 <> Panic.
Proof.
  split.
  { pose proof half_broken_gone as G. apply andb_true_iff in G as [G1 G2]. apply bool_decide_eq_true in G1.
    exists (7, 7). split; [exact G1|]. intros cat opt [H _]. change (N.to_nat (7, 7).1) with 7%nat in H.
    rewrite H in G2. discriminate G2. }
  split.
  { intros o Hv. destruct sample_loads as (gi & cl & _ & _ & _ & L).
    destruct (fresh_finds ascii_low true o gi cl word_chair Hv) as (res & _ & F). exists gi, cl, (map p_sid (map fst res)).
    split; [exact L|exact F]. }
  split; [apply panicked_yes, panicked_1|]. split; [apply panicked_yes, panicked_2|].
  exists other_search, plain_search. split; [right; left|]. split; [left|]. split; [apply panicked_yes, panicked_3|apply panicked_no, panicked_4].
Qed.

Lemma cut_summary : match deserialize_all host64 ngram_index_size crowd_cut with
  | Done (gi, cl) => (get_orders (cl_order cl) s_price_up, answer (loaded gi cl) three_words no_cats no_tags None [])
  | _ => (None, Nope)
  end = (Some [], Done [1; 2; 0]).
Proof. vm_compute. reflexivity. Qed.
Lemma empty_ok : handlers_ok no_cats no_tags.
Proof. exact (fresh_ok (Classic [] [] ∅)). Qed.
Lemma cut_facts : exists gi cl, after [InitOp crowd_cut] = loaded gi cl /\ get_orders (cl_order cl) s_price_up = Some [] /\
  not_ranked [] [1; 2; 0] /\
  finds (search ascii_low true plain_search (loaded gi cl) three_words no_cats no_tags None []) gi [1; 2; 0].
Proof.
  pose proof cut_summary as S. destruct (deserialize_all host64 ngram_index_size crowd_cut) as [[gi cl]| | |] eqn:E; [|discriminate S..].
  exists gi, cl. split; [by apply loads_to|]. apply pair_equal_spec in S as [S1 S2]. split; [exact S1|].
  split; [split; [simpl; lia|]; exists 1; split; [left|simpl; lia]|].
  assert (Hv : valid_search_order plain_search) by (destruct sample_ordered as (? & ? & ? & _ & _ & _ & _ & _ & H & _); exact H).
  destruct (Lib_facts.search_unordered ascii_low true plain_search gi cl three_words no_cats no_tags [] [] eq_refl Hv empty_ok) as (l & _ & F).
  unfold answer in S2. rewrite F in S2. cbn [snd] in S2. unfold finds. rewrite F. cbn [snd].
  assert (l = [1; 2; 0]) as ->; [|reflexivity]. injection S2 as S2. exact S2.
Qed.
