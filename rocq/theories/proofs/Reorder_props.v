(** C107: the order of the catalogue does not matter to a search. *)
From Verif.model Require Import Base F32 Utf8 Prim Coll Data Gram Indexer.
From Verif.spec Require Import Spec Data_spec Gram_spec Reorder_spec.
From Verif.proofs Require Import Base_facts Sort_facts Float_facts File_facts Indexer_facts Trie_facts Search_facts Trie_props
  Search_props Ties_props.
From Coq Require Import Lia Sorted.

(** ** Counting does not see the order *)
Lemma sum_N_perm l k : l ≡ₚ k -> sum_N l = sum_N k.
Proof. unfold sum_N. induction 1; simpl; lia. Qed.
Lemma total_occurrences_perm w a b : a ≡ₚ b -> total_occurrences w a = total_occurrences w b.
Proof. intros H. apply sum_N_perm. by apply Permutation_map. Qed.
Lemma total_grams_perm a b : a ≡ₚ b -> total_grams a = total_grams b.
Proof. intros H. apply sum_N_perm. by apply Permutation_map. Qed.
Lemma counts_perm n a b w : a ≡ₚ b -> counts n a w = counts n b w.
Proof. intros H. unfold counts. by rewrite (total_occurrences_perm w a b H). Qed.
Lemma tied_perm n a b : a ≡ₚ b -> tied n a -> tied n b.
Proof.
  intros H (w & x & y & t1 & t2 & H1 & H2 & H3 & H4 & H5 & H6 & H7 & H8).
  exists w, x, y, t1, t2. unfold share in *. rewrite <- !(total_occurrences_perm _ a b H). rewrite H in H4, H6. done.
Qed.
Lemma labelled_texts source : map snd (labelled source) = map snd source.
Proof. unfold labelled. rewrite map_map. apply map_ext. by intros []. Qed.
Lemma built_ext c c' : (forall w, c w = c' w) -> forall nd w parent, built c w parent nd -> built c' w parent nd.
Proof.
  intros E nd. induction nd as [item weight children IH] using node_ind'. intros w parent B.
  inversion B as [w' p' i' ch L G ND D F E1 E2 E3]; subst. rewrite (E w). constructor; [done| |done|done|].
  - intros g. by rewrite <- E.
  - rewrite Forall_forall in *. intros x Hx. rewrite <- E. apply IH; [done|]. by apply F.
Qed.

(** ** Posting lists *)
Lemma owners_ids n source key : map p_id (owners n source key) =
  concat (map (fun '(i, t) => replicate (length (filter (fun w => w = key) (windows n t))) i) (labelled source)).
Proof.
  unfold owners, labelled. rewrite concat_map, !map_map. f_equal. apply map_ext. intros [p t]. apply fmap_replicate.
Qed.
Lemma concat_perm {A} (l k : list (list A)) : l ≡ₚ k -> concat l ≡ₚ concat k.
Proof.
  induction 1 as [|x l k _ IH|x y l|l k m _ IH1 _ IH2]; simpl; [done|by rewrite IH| |by etrans].
  by rewrite !app_assoc, (Permutation_app_comm y x).
Qed.
Lemma owners_perm n s1 s2 key : labelled s1 ≡ₚ labelled s2 -> map p_id (owners n s1 key) ≡ₚ map p_id (owners n s2 key).
Proof. intros H. rewrite !owners_ids. apply concat_perm. by apply Permutation_map. Qed.

(** ** Hits *)
Lemma hits_of_app id a b : hits_of id (a ++ b) = hits_of id a ++ hits_of id b.
Proof. apply filter_app. Qed.
Lemma hits_of_posting id c l : map snd (hits_of id (map (fun p => (p, c)) l)) =
  replicate (length (filter (fun i => i = id) (map p_id l))) c.
Proof.
  unfold hits_of. induction l as [|p l IH]; [done|]. cbn [map]. rewrite !filter_cons. simpl.
  destruct (decide (p_id p = id)); simpl; by rewrite IH.
Qed.
Section reordered.
Context (P1 P2 : platform) (n : nat) (o1 o2 : build_order) (s1 s2 : list (product * list N)) (pc1 pc2 : container)
  (gi1 gi2 : gram_index).
Context (Hn : (1 <= n)%nat) (Ho1 : valid_build_order o1) (Ho2 : valid_build_order o2)
  (Hlim : total_grams (map snd s1) < 2 ^ 32) (H1 : index_from P1 n o1 s1 pc1 = Done gi1)
  (H2 : index_from P2 n o2 s2 pc2 = Done gi2)
  (Hs : labelled s1 ≡ₚ labelled s2)
  (Hm : maximum_product_amount P1 (lenN (c_products pc1)) = maximum_product_amount P2 (lenN (c_products pc2)))
  (HT : ~ tied n (map snd s1)).
Lemma same_texts : map snd s1 ≡ₚ map snd s2.
Proof. rewrite <- (labelled_texts s1), <- (labelled_texts s2). by apply Permutation_map. Qed.
Lemma same_limit : total_grams (map snd s2) < 2 ^ 32.
Proof. by rewrite <- (total_grams_perm _ _ same_texts). Qed.
Lemma same_roots : gi_roots gi1 = gi_roots gi2.
Proof.
  pose proof (index_from_built _ _ _ _ _ _ Hn Ho1 Hlim H1) as IB1.
  pose proof (index_from_built _ _ _ _ _ _ Hn Ho2 same_limit H2) as IB2.
  pose proof same_texts as Ht.
  apply map_eq. intros g. pose proof (ib_roots _ _ _ _ _ IB1 g) as R1. pose proof (ib_roots _ _ _ _ _ IB2 g) as R2.
  rewrite <- (counts_perm n _ _ [g] Ht) in R2.
  destruct (gi_roots gi1 !! g) as [nd1|] eqn:E1, (gi_roots gi2 !! g) as [nd2|] eqn:E2; [| | |done].
  - f_equal. eapply built_unique; [by apply (ib_root _ _ _ _ _ IB1)| |].
    + rewrite (total_grams_perm _ _ Ht).
      eapply built_ext; [|by apply (ib_root _ _ _ _ _ IB2)]. intros w. symmetry. by apply counts_perm.
    + intros u nd Hr a b. apply (proj2 (ties_tied P1 n o1 s1 pc1 gi1 Hn Ho1 Hlim H1) HT (g :: u)). exists g, u, nd1. done.
  - destruct (proj2 R2) as [? ?]; [|done]. apply R1. eauto.
  - destruct (proj2 R1) as [? ?]; [|done]. apply R2. eauto.
Qed.
Lemma same_ids g : map p_id <$> gi_data gi1 !! g = None /\ map p_id <$> gi_data gi2 !! g = None \/
  exists l1 l2, gi_data gi1 !! g = Some l1 /\ gi_data gi2 !! g = Some l2 /\ map p_id l1 ≡ₚ map p_id l2.
Proof.
  pose proof (index_from_built _ _ _ _ _ _ Hn Ho1 Hlim H1) as IB1.
  pose proof (index_from_built _ _ _ _ _ _ Hn Ho2 same_limit H2) as IB2.
  rewrite (ib_data _ _ _ _ _ IB1 g), (ib_data _ _ _ _ _ IB2 g). cbn zeta.
  pose proof (owners_perm n s1 s2 g Hs) as Hp. rewrite <- Hm.
  pose proof (Permutation_length Hp) as Hl. rewrite !map_length in Hl. unfold lenN. rewrite <- Hl.
  assert (Hnil : owners n s1 g = [] <-> owners n s2 g = []) by (rewrite <- !length_zero_iff_nil; lia).
  case_bool_decide as C1; case_bool_decide as C2; [|tauto..|].
  - right. eexists _, _. split; [done|]. split; [done|].
    rewrite (Permutation_map p_id (sort_by_perm product_cmp _)), Hp. symmetry. apply Permutation_map, sort_by_perm.
  - by left.
Qed.
Lemma same_hits id q : map snd (hits_of id (query_hits n gi1 q)) = map snd (hits_of id (query_hits n gi2 q)).
Proof.
  unfold query_hits. induction (windows n q) as [|w ws IH]; [done|]. cbn [map concat]. rewrite !hits_of_app, !map_app, IH. f_equal.
  unfold window_hits. assert (E : search_gram n gi1 w = search_gram n gi2 w).
  { unfold search_gram. rewrite same_roots. done. }
  rewrite <- E. destruct (search_gram n gi1 w) as [[[g c]|]| | |]; try done.
  destruct (same_ids g) as [[E1 E2]|(l1 & l2 & -> & -> & Hp)].
  - apply fmap_None in E1, E2. by rewrite E1, E2.
  - rewrite !hits_of_posting. f_equal. by rewrite Hp.
Qed.
End reordered.

(** ** Results *)
Lemma totals_scores h1 h2 r1 r2 : totals h1 r1 -> totals h2 r2 ->
  (forall id, map snd (hits_of id h1) = map snd (hits_of id h2)) -> scores r1 ≡ₚ scores r2.
Proof.
  assert (G : forall h1 h2 r1 r2, totals h1 r1 -> totals h2 r2 ->
    (forall id, map snd (hits_of id h1) = map snd (hits_of id h2)) -> forall x, x ∈ scores r1 -> x ∈ scores r2).
  { clear. intros h1 h2 r1 r2 [_ T1] [_ T2] E [id x] Hx. unfold scores in *.
    apply elem_of_list_fmap in Hx as ([p y] & [= -> ->] & Hp). apply T1 in Hp as (c & rest & Eh & ->).
    specialize (E (p_id p)). rewrite Eh in E. destruct (hits_of (p_id p) h2) as [|[p2 c2] rest2] eqn:E2; [done|].
    cbn [map snd] in E. injection E as <- E. assert (Hid : p_id p2 = p_id p).
    { assert (Hin : (p2, c) ∈ hits_of (p_id p) h2) by (rewrite E2; left). by apply elem_of_list_filter in Hin as [? _]. }
    apply elem_of_list_fmap. exists (p2, foldl f32_add c (map snd rest)). split; [simpl; by rewrite Hid|].
    apply T2. exists c, rest2. rewrite Hid. split; [done|]. by rewrite E. }
  assert (ND : forall h r, totals h r -> NoDup (scores r)).
  { intros h r [N _]. apply (NoDup_fmap_1 fst). unfold scores. by rewrite map_map. }
  intros T1 T2 E. apply NoDup_Permutation; [by eapply ND..|]. intros x. split; [by eapply G|]. eapply G; [done..|]. by intros id.
Qed.
Lemma ranked_places (r1 r2 : list (product * f32)) : scores r1 ≡ₚ scores r2 -> ranked r1 -> ranked r2 ->
  (forall r, r ∈ r1 -> f32_number r.2) -> (forall r, r ∈ r2 -> f32_number r.2) ->
  Forall2 (fun a b => f32_cmp a.2 b.2 = Some Eq) r1 r2.
Proof.
  intros Hp R1 R2 N1 N2.
  assert (Hs : forall res : list (product * f32), ranked res -> (forall r, r ∈ res -> f32_number r.2) ->
    StronglySorted Rdefinitions.Rge (map (fun r => key32 r.2) res)).
  { induction res as [|r res IH]; intros Hr Hnum; simpl; constructor.
    - apply IH; [apply Hr|]. intros. apply Hnum. by right.
    - apply Forall_fmap. destruct Hr as [Hr _]. rewrite Forall_forall in *. intros r' Hr'.
      cbv [compose]. apply RIneq.Rle_ge, f32_le_key; [apply Hnum; by right|apply Hnum; left|by apply Hr]. }
  assert (E : map (fun r => key32 r.2) r1 = map (fun r => key32 r.2) r2).
  { apply (sorted_perm_eq Rdefinitions.Rge); [apply RIneq.Rge_antisym|by apply Hs..|].
    apply (Permutation_map (fun r => key32 r.2)) in Hp. unfold scores in Hp. rewrite !map_map in Hp. exact Hp. }
  apply map_eq_Forall2 in E. clear R1 R2 Hs Hp.
  induction E as [|a b l1 l2 E _ IH]; constructor.
  - rewrite f32_cmp_key; [|apply N1; left|apply N2; left]. f_equal. by apply Raux.Rcompare_Eq.
  - apply IH; intros r Hr; [apply N1|apply N2]; by right.
Qed.
Lemma reordered_search P1 P2 n o1 o2 s1 s2 pc1 pc2 gi1 gi2 : (1 <= n <= 764)%nat ->
  valid_build_order o1 -> valid_build_order o2 -> total_grams (map snd s1) < 2 ^ 32 ->
  index_from P1 n o1 s1 pc1 = Done gi1 -> index_from P2 n o2 s2 pc2 = Done gi2 ->
  labelled s1 ≡ₚ labelled s2 ->
  maximum_product_amount P1 (lenN (c_products pc1)) = maximum_product_amount P2 (lenN (c_products pc2)) ->
  ~ tied n (map snd s1) ->
  forall os1 os2 input res1 res2, valid_order os1 -> valid_order os2 ->
  gram_search n os1 gi1 input = Done res1 -> gram_search n os2 gi2 input = Done res2 ->
  scores res1 ≡ₚ scores res2 /\ Forall2 (fun r1 r2 => f32_cmp r1.2 r2.2 = Some Eq) res1 res2.
Proof.
  intros Hn Ho1 Ho2 Hlim H1 H2 Hs Hm HT os1 os2 input res1 res2 V1 V2 E1 E2.
  assert (Hlim2 : total_grams (map snd s2) < 2 ^ 32) by (by eapply same_limit).
  assert (Hp : scores res1 ≡ₚ scores res2).
  { eapply totals_scores; [exact (search_totals n os1 gi1 input res1 Hn V1 E1)|exact (search_totals n os2 gi2 input res2 Hn V2 E2)|]. intros id.
    by apply (same_hits P1 P2 n o1 o2 s1 s2 pc1 pc2 gi1 gi2 (proj1 Hn) Ho1 Ho2 Hlim H1 H2 Hs Hm HT). }
  split; [done|]. apply ranked_places; [done| | | |].
  - by eapply (results_ranked P1 n o1 s1 pc1 gi1 (proj1 Hn) Ho1 Hlim H1 os1 input); [lia|..].
  - by eapply (results_ranked P2 n o2 s2 pc2 gi2 (proj1 Hn) Ho2 Hlim2 H2 os2 input); [lia|..].
  - intros [p x] Hr. by apply (results_nonneg P1 n o1 s1 pc1 gi1 (proj1 Hn) Ho1 Hlim H1 os1 input res1 p x (proj2 Hn)).
  - intros [p x] Hr. by apply (results_nonneg P2 n o2 s2 pc2 gi2 (proj1 Hn) Ho2 Hlim2 H2 os2 input res2 p x (proj2 Hn)).
Qed.
