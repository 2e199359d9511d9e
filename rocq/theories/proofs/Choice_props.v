(** C110, C111: what a search answers, in terms of the texts. *)
From Verif.model Require Import Base F32 Utf8 Prim Coll Data Gram Indexer.
From Verif.spec Require Import Spec Data_spec Gram_spec Choice_spec Reorder_spec.
From Verif.proofs Require Import Base_facts Sort_facts Float_facts Cutoff_facts File_facts Indexer_facts Trie_facts Search_facts
  Search_more Trie_props Search_props Ties_props Reorder_props End_props.
From Coq Require Import Lia.

Lemma filter_none {A} (Q : A -> Prop) `{forall x, Decision (Q x)} (l : list A) :
  (forall x, x ∈ l -> ~ Q x) -> filter Q l = [].
Proof.
  induction l as [|x l IH]; intros F; [done|]. rewrite filter_cons_False by (apply F; left).
  apply IH. intros y Hy. apply F. by right.
Qed.
Section built.
Context (P : platform) (n : nat) (o : build_order) (source : list (product * list N)) (pc : container)
  (gi : gram_index).
Context (Hn : (1 <= n)%nat) (Ho : valid_build_order o)
  (Hlim : total_grams (map snd source) < 2 ^ 32) (H : index_from P n o source pc = Done gi).
Notation roots := (gi_roots gi).
Notation texts := (map snd source).

Lemma in_texts_source g : in_texts texts g <-> exists p t, (p, t) ∈ source /\ occurs g t.
Proof.
  split.
  - intros (t & Ht & Hoc). apply elem_of_list_fmap in Ht as ([p t'] & -> & Ht). by exists p, t'.
  - intros (p & t & Ht & Hoc). exists t. split; [|done]. apply elem_of_list_fmap. by exists (p, t).
Qed.
Lemma exact_sureness nd m x e : exact_confidence nd m x e -> forall w, at_path roots w nd -> e = sureness texts w m x.
Proof.
  induction 1 as [nd x|nd child m x y Hc _ IH]; intros w Hw; [done|].
  pose proof (at_path_child _ _ _ _ Hw Hc) as Hc'. cbn [sureness].
  pose proof (trie_weights P n o source pc gi Hn Ho Hlim H _ _ Hc') as (_ & Hwt & _).
  rewrite (IH _ Hc'). f_equal. f_equal. rewrite Hwt. unfold share. f_equal. f_equal. unfold parent_occurrences.
  destruct Hw as (g & w' & root & -> & _).
  rewrite removelast_last. destruct w'; done.
Qed.
Lemma candidate_path q g : length q = n -> candidate_for n texts q g ->
  exists q0 q' root m, q = q0 :: q' /\ g = q0 :: m /\ length m = length q' /\ roots !! q0 = Some root /\
    exact_confidence root m f32_one (likelihood texts g) /\
    ((differences m q' <= n / 3)%nat \/ (3 <= n)%nat /\ exists a y b z, m = a ++ y :: b /\ q' = a ++ b ++ [z]).
Proof.
  intros Hl [(q0 & q' & m & -> & -> & Hm & Hc) Hin]. simpl in Hl.
  apply in_texts_source in Hin.
  destruct (proj2 (proj1 (trie_paths P n o source pc gi Hn Ho Hlim H) (q0 :: m))) as (nd & g & w & root & E & Hr & Hreach).
  { split; [done|]. split; [simpl; lia|done]. }
  injection E as <- <-. destruct (exact_exists _ _ _ Hreach f32_one) as (e & He).
  exists q0, q', root, m. do 4 (split; [done|]). split; [|done].
  pose proof (exact_sureness _ _ _ _ He [q0] (root_at gi _ _ Hr)) as ->.
  exact He.
Qed.
Lemma chosen_candidate q g c : (n <= 5)%nat -> length q = n -> search_gram n gi q = Done (Some (g, c)) ->
  candidate_for n texts q g /\ c = likelihood texts g.
Proof.
  intros Hn' Hl Hs. destruct q as [|q0 q']; [done|].
  destruct (chosen_exact n gi q0 q' g c) as (root & m & Hr & -> & Hm & Hc & Hcand); [done..|].
  split; [split|].
  - exists q0, q', m. done.
  - apply in_texts_source. by apply (chosen_occurs P n o source pc gi Hn Ho Hlim H _ _ _ Hl) in Hs as [_ Hs].
  - apply (exact_sureness _ _ _ _ Hc [q0]). by apply root_at.
Qed.
Lemma candidate_beaten q g : (n <= 5)%nat -> length q = n -> candidate_for n texts q g ->
  exists g' c, search_gram n gi q = Done (Some (g', c)) /\ f32_le (likelihood texts g) c.
Proof.
  intros Hn' Hl Hc. destruct (candidate_path q g Hl Hc) as (q0 & q' & root & m & -> & -> & Hm & Hr & He & Hd).
  destruct Hd as [Hd|(H3 & a & y & b & z & -> & ->)].
  - eapply (chosen_ge_replaced P n o source pc gi Hn Ho Hlim H); try done. lia.
  - eapply (chosen_ge_inserted P n o source pc gi Hn Ho Hlim H); try done. lia.
Qed.
Lemma chosen_likeliest q : (n <= 5)%nat -> length q = n ->
  exists r, search_gram n gi q = Done r /\ likeliest n texts q r.
Proof.
  intros Hn' Hl. destruct (search_gram_total n gi q ltac:(lia)) as (r & Hr). exists r. split; [done|].
  destruct r as [[g c]|]; simpl.
  - destruct (chosen_candidate q g c Hn' Hl Hr) as [Hc Hlk]. split; [done|]. split; [done|].
    intros g' Hg'. destruct (candidate_beaten q g' Hn' Hl Hg') as (g'' & c'' & Hs & Hle). congruence.
  - intros g Hg. destruct (candidate_beaten q g Hn' Hl Hg) as (g' & c & Hs & _). congruence.
Qed.
Lemma candidate_unit q g : (n <= 5)%nat -> length q = n -> candidate_for n texts q g -> f32_unit (likelihood texts g).
Proof.
  intros Hn' Hl Hc. destruct (candidate_path q g Hl Hc) as (q0 & q' & root & m & -> & -> & Hm & Hr & He & Hd).
  eapply (exact_valid roots (weights_unit P n o source pc gi Hn Ho Hlim H)); [exact He|by eapply root_in_trie|apply one_unit].
Qed.
Lemma clearly_chosen q r : (n <= 5)%nat -> length q = n -> clearly_likeliest n texts q r -> search_gram n gi q = Done r.
Proof.
  intros Hn' Hl [Hr Hclear]. destruct (chosen_likeliest q Hn' Hl) as (r' & Hs & Hr'). rewrite Hs. f_equal.
  destruct r' as [[g' c']|], r as [[g c]|]; simpl in Hr, Hr'; try done.
  - destruct Hr as (Hg & -> & Hbest), Hr' as (Hg' & -> & Hbest').
    destruct (decide (g' = g)) as [->|Hne]; [done|]. exfalso.
    specialize (Hclear g (likelihood texts g) g' eq_refl Hg' Hne). specialize (Hbest' g Hg).
    pose proof (candidate_unit _ _ Hn' Hl Hg) as U%f32_unit_number.
    pose proof (candidate_unit _ _ Hn' Hl Hg') as U'%f32_unit_number.
    apply f32_gt_iff in Hclear. apply f32_gt_false in Hbest'; [|done..]. by rewrite Hclear in Hbest'.
  - destruct Hr' as (Hg' & _). by apply Hr in Hg'.
  - destruct Hr as (Hg & _). by apply Hr' in Hg.
Qed.

(** ** The whole search *)
Definition found_for (q : list N) : option (list N * f32) :=
  match search_gram n gi q with Done r => r | _ => None end.
Lemma uses_owners g : uses n texts g = lenN (owners n source g).
Proof.
  unfold uses, owners. clear H Hlim. induction source as [|[p t] s IH]; [done|]. cbn [map concat].
  rewrite filter_app. unfold lenN in *. rewrite !app_length, replicate_length. 
  rewrite !Nat2N.inj_add. f_equal. exact IH.
Qed.
Lemma owned_count g p t : NoDup (map (fun s => p_id s.1) source) -> (p, t) ∈ source ->
  length (filter (fun i => i = p_id p) (map p_id (owners n source g))) =
  length (filter (fun w => w = g) (windows n t)).
Proof.
  intros ND Hp. unfold owners. clear H Hlim. induction source as [|[p' t'] s IH]; [by apply elem_of_nil in Hp|].
  cbn [map concat]. rewrite map_app, filter_app, app_length. rewrite fmap_replicate.
  cbn [map] in ND. apply NoDup_cons in ND as [Hni ND].
  apply elem_of_cons in Hp as [[= <- <-]|Hp].
  - assert (E : filter (fun i => i = p_id p) (map p_id (concat (map (fun '(p, t) => replicate (length (filter (fun w => w = g) (windows n t))) p) s))) = []).
    { apply filter_none. intros i Hi Ei'. apply Hni.
      apply elem_of_list_fmap in Hi as (p' & -> & Hi). apply (owners_elem n s g) in Hi as (t' & Ht' & _).
      apply elem_of_list_fmap. by exists (p', t'). }
    rewrite E. simpl. rewrite Nat.add_0_r. rewrite <- (replicate_length (length (filter (fun w => w = g) (windows n t))) (p_id p)) at 2.
    f_equal. clear IH E. induction (length (filter (fun w => w = g) (windows n t))) as [|k IHk]; [done|]. simpl.
    rewrite filter_cons_True by done. by rewrite IHk.
  - rewrite (IH ND Hp).
    assert (E : filter (fun i => i = p_id p) (replicate (length (filter (fun w => w = g) (windows n t'))) (p_id p')) = []).
    { apply filter_none. intros i Hi Ei. apply elem_of_replicate in Hi as [-> _].
      apply Hni. apply elem_of_list_fmap. by exists (p, t). }
    by rewrite E.
Qed.
Notation limit := (maximum_product_amount P (lenN (c_products pc))).
Lemma hits_points input p t : (n <= 764)%nat -> NoDup (map (fun s => p_id s.1) source) -> (p, t) ∈ source ->
  map snd (hits_of (p_id p) (query_hits n gi input)) = points n texts limit found_for input t.
Proof.
  intros Hn' ND Hp. unfold query_hits, points. induction (windows n input) as [|w ws IH]; [done|].
  cbn [map concat]. rewrite hits_of_app, map_app, IH. f_equal. clear IH.
  unfold window_hits, found_for. destruct (search_gram n gi w) as [[[g c]|]| | |]; try done.
  pose proof (index_from_built _ _ _ _ _ _ Hn Ho Hlim H) as IB. rewrite uses_owners.
  destruct (gi_data gi !! g) as [l|] eqn:E.
  - apply (postings P n source pc gi IB) in E as (-> & _ & Hlt). rewrite bool_decide_eq_true_2 by done.
    rewrite hits_of_posting. f_equal. rewrite <- (owned_count g p t) by done.
    assert (Hpm : map p_id (sort_by product_cmp (owners n source g)) ≡ₚ map p_id (owners n source g))
      by (apply Permutation_map, sort_by_perm).
    by rewrite Hpm.
  - case_bool_decide as Hlt; [|done]. simpl.
    destruct (owners n source g) as [|x l] eqn:Eo.
    + rewrite <- (owned_count g p t) by done. by rewrite Eo.
    + assert (Hs : is_Some (gi_data gi !! g)).
      { apply (postings_exist P n source pc gi IB). rewrite Eo. done. }
      rewrite E in Hs. by destruct Hs.
Qed.
Lemma search_points os input res : (n <= 764)%nat -> valid_order os -> NoDup (map (fun s => p_id s.1) source) ->
  gram_search n os gi input = Done res ->
  NoDup (map fst res) /\ ranked res /\
  forall p x, (p, x) ∈ res <->
    exists t c rest, (p, t) ∈ source /\ points n texts limit found_for input t = c :: rest /\ x = foldl f32_add c rest.
Proof.
  intros Hn' Hos ND Hs.
  pose proof (search_totals n os gi input res ltac:(lia) Hos Hs) as [NDr T].
  split; [|split].
  - apply (NoDup_fmap_1 p_id). by rewrite <- list_fmap_compose.
  - by apply (results_ranked P n o source pc gi Hn Ho Hlim H os input res ltac:(lia) Hos Hs).
  - intros p x. rewrite T. split.
    + intros (c & rest & E & ->).
      assert (Hin : (p, c) ∈ query_hits n gi input).
      { assert (Hin : (p, c) ∈ hits_of (p_id p) (query_hits n gi input)) by (rewrite E; left).
        by apply hits_of_elem in Hin as [_ Hin]. }
      apply query_hit in Hin as (w & g & l & _ & _ & El & Hl).
      destruct (posting_source P n o source pc gi Hn Ho Hlim H g l p El Hl) as (t & Ht & _).
      exists t, c, (map snd rest). split; [done|]. split; [|done].
      rewrite <- (hits_points input p t) by (done || lia). by rewrite E.
    + intros (t & c & rest & Ht & Ep & ->). rewrite <- (hits_points input p t) in Ep by (done || lia).
      destruct (hits_of (p_id p) (query_hits n gi input)) as [|[p' c'] rest'] eqn:E; [done|].
      injection Ep as <- <-.
      assert (Hin : (p', c') ∈ hits_of (p_id p) (query_hits n gi input)) by (rewrite E; left).
      apply hits_of_elem in Hin as [Hid Hin]. simpl in Hid.
      apply query_hit in Hin as (w & g & l & _ & _ & El & Hl).
      destruct (posting_source P n o source pc gi Hn Ho Hlim H g l p' El Hl) as (t' & Ht' & _).
      assert (E' : (p', t') = (p, t)).
      { apply elem_of_list_lookup_1 in Ht' as (i & Hi), Ht as (j & Hj).
        assert (i = j) as ->.
        { eapply (NoDup_lookup _ i j (p_id p) ND); rewrite list_lookup_fmap.
          - by rewrite Hi; simpl; rewrite Hid.
          - by rewrite Hj. }
        congruence. }
      injection E' as -> ->. by exists c', rest'.
Qed.
Lemma search_from_texts os input res : (n <= 5)%nat -> valid_order os -> NoDup (map (fun s => p_id s.1) source) ->
  gram_search n os gi input = Done res ->
  exists choice, (forall w, length w = n -> likeliest n texts w (choice w)) /\
  (forall w r, length w = n -> clearly_likeliest n texts w r -> choice w = r) /\
  NoDup (map fst res) /\ ranked res /\
  forall p x, (p, x) ∈ res <->
    exists t c rest, (p, t) ∈ source /\ points n texts limit choice input t = c :: rest /\ x = foldl f32_add c rest.
Proof.
  intros Hn' Hos ND Hs. exists found_for. split; [|split].
  - intros w Hw. destruct (chosen_likeliest w Hn' Hw) as (r & Hr & Hl). unfold found_for. by rewrite Hr.
  - intros w r Hw Hc. unfold found_for. by rewrite (clearly_chosen w r Hn' Hw Hc).
  - eapply search_points; try done. lia.
Qed.
End built.
Lemma search_from_texts_any P n o source pc gi : (1 <= n <= 5)%nat -> valid_build_order o ->
  total_grams (map snd source) < 2 ^ 32 -> index_from P n o source pc = Done gi ->
  lenN (c_products pc) < 2 ^ 64 -> lenN (c_products pc) <= usize_max P ->
  NoDup (map (fun s => p_id s.1) source) ->
  forall os input res, valid_order os -> gram_search n os gi input = Done res ->
  exists limit choice, cutoff_for (lenN (c_products pc)) limit /\
  (forall w, length w = n -> likeliest n (map snd source) w (choice w)) /\
  (forall w r, length w = n -> clearly_likeliest n (map snd source) w r -> choice w = r) /\
  NoDup (map fst res) /\ ranked res /\
  forall p x, (p, x) ∈ res <->
    exists t c rest, (p, t) ∈ source /\
      points n (map snd source) limit choice input t = c :: rest /\ x = foldl f32_add c rest.
Proof.
  intros Hn Ho Hlim H Hs HP ND os input res Hos Hr.
  exists (maximum_product_amount P (lenN (c_products pc))).
  destruct (search_from_texts P n o source pc gi (proj1 Hn) Ho Hlim H os input res (proj2 Hn) Hos ND Hr) as (choice & Hc).
  exists choice. split; [by apply cutoff_spec|done].
Qed.
Lemma chosen_from_texts P n o source pc gi : (1 <= n <= 5)%nat -> valid_build_order o ->
  total_grams (map snd source) < 2 ^ 32 -> index_from P n o source pc = Done gi ->
  forall q, length q = n ->
  (exists r, search_gram n gi q = Done r /\ likeliest n (map snd source) q r) /\
  (forall r, clearly_likeliest n (map snd source) q r -> search_gram n gi q = Done r).
Proof.
  intros Hn Ho Hlim H q Hl. split.
  - apply (chosen_likeliest P n o source pc gi (proj1 Hn) Ho Hlim H q (proj2 Hn) Hl).
  - intros r. apply (clearly_chosen P n o source pc gi (proj1 Hn) Ho Hlim H q r (proj2 Hn) Hl).
Qed.
