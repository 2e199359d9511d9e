(** The concrete cases of P_choice.v. *)
From Verif.model Require Import Base F32 Utf8 Prim Coll Data Gram Indexer Nodes Classic Lit Raw Js Lib.
From Verif.spec Require Import Spec Data_spec Gram_spec Classic_spec Raw_spec Js_spec Lib_spec End_spec Reorder_spec Choice_spec
  Samples Raw_samples Gram_samples Lib_samples End_samples Reorder_samples Choice_samples.
From Verif.proofs Require Import Base_facts.
From Coq Require Import Lia.

Lemma occurs_pieces g t : occurs g t <-> g ∈ pieces (length g) t.
Proof.
  unfold pieces. rewrite elem_of_list_fmap. split.
  - intros (u & v & ->). exists (length u). split.
    + rewrite drop_app, take_app. done.
    + apply elem_of_seq. rewrite !app_length. lia.
  - intros (i & E & _). rewrite E at 1. exists (take i t), (drop (length g) (drop i t)). by rewrite take_drop, take_drop.
Qed.
Lemma inserted_iff m q : length m = length q ->
  (exists a y b z, m = a ++ y :: b /\ q = a ++ b ++ [z]) <-> existsb (inserted_at m q) (seq 0 (length m)) = true.
Proof.
  intros Hl. rewrite existsb_exists. split.
  - intros (a & y & b & z & -> & ->). exists (length a). split.
    { apply elem_of_list_In, elem_of_seq. rewrite app_length. simpl. lia. }
    unfold inserted_at. rewrite !andb_true_iff, !bool_decide_eq_true. split; [split|].
    + rewrite app_length. simpl. lia.
    + by rewrite !take_app.
    + change (drop (S (length a)) (a ++ y :: b) = drop (length a) (removelast (a ++ b ++ [z]))).
      rewrite app_assoc, removelast_last, drop_app.
      change (a ++ y :: b) with (a ++ [y] ++ b). rewrite app_assoc.
      replace (S (length a)) with (length (a ++ [y])) by (rewrite app_length; simpl; lia). by rewrite drop_app.
  - intros (i & _ & H). unfold inserted_at in H. rewrite !andb_true_iff, !bool_decide_eq_true in H. destruct H as [[Hi Ht] Hd].
    destruct (lookup_lt_is_Some_2 _ _ Hi) as [y Hy].
    destruct (exists_last (l := q)) as (q' & z & Eq).
    { intros ->. simpl in Hl. lia. }
    assert (Hlq : length q = S (length q')) by (rewrite Eq, app_length; simpl; lia).
    exists (take i m), y, (drop (S i) m), z. split; [symmetry; by apply take_drop_middle|].
    rewrite Hd, Ht, Eq, removelast_last. rewrite take_app_le by lia. rewrite app_assoc, take_drop. done.
Qed.
Lemma similar_iff n q g : similar n q g <-> similar_b n q g = true.
Proof.
  split.
  - intros (x & q' & m & -> & -> & Hm & H). unfold similar_b.
    rewrite !andb_true_iff, orb_true_iff, andb_true_iff, !bool_decide_eq_true. split; [done|].
    destruct H as [H|[H3 H]]; [by left|]. right. split; [done|]. by apply inserted_iff.
  - unfold similar_b. destruct q as [|x q']; [done|]. destruct g as [|y m]; [done|].
    rewrite !andb_true_iff, orb_true_iff, andb_true_iff, !bool_decide_eq_true. intros [[-> Hm] H].
    exists y, q', m. do 3 (split; [done|]). destruct H as [H|[H3 H]]; [by left|]. right. split; [done|].
    by apply inserted_iff.
Qed.
Lemma similar_length n q g : similar n q g -> length g = length q.
Proof. intros (x & q' & m & -> & -> & Hm & _). simpl. by rewrite Hm. Qed.
Lemma candidates_iff n texts q g : candidate_for n texts q g <-> g ∈ candidates n texts q.
Proof.
  unfold candidate_for, candidates, in_texts. rewrite elem_of_list_In, filter_In, <- elem_of_list_In, elem_of_list_In, in_concat.
  split.
  - intros [Hs (t & Ht & Ho)]. split; [|by apply similar_iff]. exists (pieces (length q) t). split.
    + apply in_map. by apply elem_of_list_In.
    + apply elem_of_list_In. rewrite <- (similar_length _ _ _ Hs). by apply occurs_pieces.
  - intros [(l & Hl & Hg) Hs%similar_iff]. split; [done|]. apply in_map_iff in Hl as (t & <- & Ht). exists t.
    split; [by apply elem_of_list_In|]. apply occurs_pieces. rewrite (similar_length _ _ _ Hs). by apply elem_of_list_In.
Qed.
Lemma clearly_sound n texts q r : clearly_b n texts q r = true -> clearly_likeliest n texts q (with_likelihood texts r).
Proof.
  unfold clearly_b. destruct r as [g|]; cbn [with_likelihood mbind option_bind].
  - cbv zeta. rewrite !andb_true_iff, forallb_forall, existsb_exists.
    intros [[(g1 & Hg1 & Hg) H1] Hall]. apply bool_decide_eq_true in Hg as ->. apply elem_of_list_In in Hg1.
    split; [split; [|split]|].
    + by apply candidates_iff.
    + done.
    + intros g' Hg'%candidates_iff. specialize (Hall g' (proj1 (elem_of_list_In _ _) Hg')).
      apply orb_true_iff in Hall as [->%bool_decide_eq_true|Hlt]; [done|].
      unfold f32_le. unfold SFltb in Hlt. unfold SFleb. by destruct (SFcompare _ _) as [[]|].
    + intros g0 c0 g' [= <- <-] Hg'%candidates_iff Hne. specialize (Hall g' (proj1 (elem_of_list_In _ _) Hg')).
      apply orb_true_iff in Hall as [->%bool_decide_eq_true|Hlt]; done.
  - destruct (candidates n texts q) as [|g l] eqn:E; [|done]. intros _. split; [|done].
    intros g Hg%candidates_iff. rewrite E in Hg. by apply elem_of_nil in Hg.
Qed.

(** *** lookalikes *)
Definition abcdf : list N := [97; 98; 99; 100; 102].
Lemma lookalikes_choice : clearly_likeliest 5 lookalike_texts abcde (with_likelihood lookalike_texts (Some abcdf)) /\
  candidate_for 5 lookalike_texts abcde abcde /\
  clearly_likeliest 5 lookalike_texts [98; 98; 99; 100; 101] (with_likelihood lookalike_texts None).
Proof.
  split; [apply clearly_sound; vm_compute; reflexivity|]. split.
  - apply candidates_iff. vm_compute. left.
  - apply clearly_sound. vm_compute. reflexivity.
Qed.
(** *** woods *)
Lemma wood_choices : forall w, w ∈ windows ngram_index_size (lower ascii_low query_typo) ->
  clearly_likeliest ngram_index_size wood_texts w (with_likelihood wood_texts (wood_choice w)).
Proof.
  assert (H : forallb (fun w => clearly_b ngram_index_size wood_texts w (wood_choice w))
    (windows ngram_index_size (lower ascii_low query_typo)) = true) by (vm_compute; reflexivity).
  rewrite forallb_forall in H. intros w Hw. apply clearly_sound, H. by apply elem_of_list_In.
Qed.
Lemma wood_points :
  (forall w, w ∈ windows ngram_index_size (lower ascii_low query_typo) ->
     clearly_likeliest ngram_index_size wood_texts w (with_likelihood wood_texts (wood_choice w))) /\
  map (points ngram_index_size wood_texts (4 * lenN woods / 5) (fun w => with_likelihood wood_texts (wood_choice w))
         (lower ascii_low query_typo)) wood_texts = [[f32_one; f32_one]; [f32_one]; []].
Proof. split; [exact wood_choices|]. vm_compute. reflexivity. Qed.
Lemma wood_found : match search ascii_low true plain_search woods_state query_typo (cats_of woods_state) (tags_of woods_state) None [] with
  | (_, Done p) => pp_export p = [0; 1]
  | _ => False
  end.
Proof. vm_compute. reflexivity. Qed.
