(** C31-C42 in the shape of the properties. *)
From Verif.model Require Import Base F32 Utf8 Prim Coll Data Gram Indexer Lit.
From Verif.spec Require Import Spec Data_spec Gram_spec Samples Gram_samples.
From Verif.proofs Require Import Base_facts Sort_facts Float_facts Data_facts Data_more File_facts Sample_facts
  Indexer_facts Trie_facts Search_facts Search_more Trie_props.
From Coq Require Import ZifyBool ZifyNat ZifyN Sorting.Sorted.
Ltac Zify.zify_post_hook ::= Z.div_mod_to_equations.

(** ** The chosen gram *)
Lemma chosen_good n gi q g c : length q = n -> search_gram n gi q = Done (Some (g, c)) ->
  length g = n /\ (exists nd, at_path (gi_roots gi) g nd) /\
  exists q0 q' m s k, q = q0 :: q' /\ g = q0 :: m /\ edit q' m s k /\ (s <= n / 3)%nat /\ (k <= S (n / 3))%nat.
Proof.
  intros Hl H. unfold search_gram in H. destruct q as [|q0 q']; [done|].
  destruct (gi_roots gi !! q0) as [root|] eqn:E; [|done]. destruct (Nat.leb (n / 3) 255); [|done].
  injection H as H. simpl in Hl.
  apply (search_good (gi_roots gi) n (n / 3) q' q0 _ _ _ _ _ _ _ [] 0) in H as (H1 & H2 & m & s & k & H3 & H4 & H5 & H6).
  - simpl in H1. split; [done|]. split; [done|]. exists q0, q', m, s, k. done.
  - simpl. lia.
  - simpl. rewrite replicate_length. lia.
  - done.
  - exists q0, [], root. split; [done|]. split; [done|constructor].
  - done.
  - intros m s' c' He. exists s', c'. split; [done|]. lia.
  - lia.
  - lia.
  - lia.
Qed.
Lemma window_length n t w : w ∈ windows n t -> length w = n.
Proof.
  unfold windows. intros (j & -> & Hj)%elem_of_list_fmap. apply elem_of_seq in Hj. unfold window.
  rewrite take_length, drop_length, app_length, replicate_length. lia.
Qed.
Lemma query_hit n gi input p c : (p, c) ∈ query_hits n gi input ->
  exists w g l, w ∈ windows n input /\ search_gram n gi w = Done (Some (g, c)) /\
    gi_data gi !! g = Some l /\ p ∈ l.
Proof.
  unfold query_hits. rewrite elem_of_list_In, in_concat. intros (l & Hl & Hp).
  apply in_map_iff in Hl as (w & <- & Hw). apply elem_of_list_In in Hw, Hp.
  unfold window_hits in Hp. destruct (search_gram n gi w) as [[[g x]|]| | |] eqn:E;
    try (by apply elem_of_nil in Hp).
  destruct (gi_data gi !! g) as [l|] eqn:El; [|by apply elem_of_nil in Hp].
  apply elem_of_list_fmap in Hp as (p' & [= -> ->] & Hp). eauto 10.
Qed.
Lemma query_hit_intro n gi input w g c l p : w ∈ windows n input ->
  search_gram n gi w = Done (Some (g, c)) -> gi_data gi !! g = Some l -> p ∈ l ->
  (p, c) ∈ query_hits n gi input.
Proof.
  intros Hw Hg Hl Hp. unfold query_hits. rewrite elem_of_list_In, in_concat.
  exists (window_hits n gi w). split; [by apply in_map, elem_of_list_In|]. apply elem_of_list_In.
  unfold window_hits. rewrite Hg, Hl. apply elem_of_list_fmap. eauto.
Qed.

(** ** Results *)
Lemma search_totals n o gi input res : (1 <= n <= 764)%nat -> valid_order o ->
  gram_search n o gi input = Done res -> totals (query_hits n gi input) res.
Proof.
  intros Hn Ho H. rewrite gram_search_hits in H by done. injection H as <-. by apply export_totals.
Qed.
Lemma search_total n o gi input : (1 <= n <= 764)%nat -> exists res, gram_search n o gi input = Done res.
Proof. intros Hn. rewrite gram_search_hits by done. eauto. Qed.
Lemma hits_of_elem id hits h : h ∈ hits_of id hits <-> p_id h.1 = id /\ h ∈ hits.
Proof. unfold hits_of. by rewrite elem_of_list_filter. Qed.
Lemma totals_hit hits res p x : totals hits res -> (p, x) ∈ res -> exists c, (p, c) ∈ hits.
Proof.
  intros [_ H] Hp. apply H in Hp as (c & rest & E & _). exists c.
  assert (Hin : (p, c) ∈ hits_of (p_id p) hits) by (rewrite E; left).
  by apply hits_of_elem in Hin as [_ Hin].
Qed.
Lemma totals_id hits res p c : totals hits res -> (p, c) ∈ hits ->
  exists p' x, (p', x) ∈ res /\ p_id p' = p_id p.
Proof.
  intros [_ H] Hp. assert (Hin : (p, c) ∈ hits_of (p_id p) hits) by by apply hits_of_elem.
  destruct (hits_of (p_id p) hits) as [|[p' c'] rest] eqn:E; [by apply elem_of_nil in Hin|].
  assert (Hid : p_id p' = p_id p).
  { assert (Hin' : (p', c') ∈ hits_of (p_id p) hits) by (rewrite E; left).
    by apply hits_of_elem in Hin' as [Hid _]. }
  exists p', (foldl f32_add c' (map snd rest)). split; [|done]. apply H. rewrite Hid. eauto.
Qed.
Lemma totals_perm hits res1 res2 : totals hits res1 -> totals hits res2 -> res1 ≡ₚ res2.
Proof.
  intros [N1 H1] [N2 H2].
  assert (Hnd : forall r : list (product * f32), NoDup (map (fun x => p_id x.1) r) -> NoDup r).
  { intros r. apply NoDup_fmap_1. }
  apply NoDup_Permutation; [by apply Hnd|by apply Hnd|].
  intros [p x]. by rewrite H1, H2.
Qed.
Lemma order_irrelevant n o1 o2 gi input res1 res2 : (1 <= n <= 764)%nat -> valid_order o1 -> valid_order o2 ->
  gram_search n o1 gi input = Done res1 -> gram_search n o2 gi input = Done res2 -> res1 ≡ₚ res2.
Proof.
  intros Hn H1 H2 E1 E2. eapply totals_perm.
  - by apply (search_totals n o1 gi input).
  - by apply (search_totals n o2 gi input).
Qed.

(** *** Ranking *)
Definition nonneg (x : f32) : Prop := f32_number x /\ f32_le f32_zero x.
Lemma unit_nonneg x : f32_unit x -> nonneg x.
Proof. intros H. split; [by apply f32_unit_number|apply H]. Qed.
Lemma sum_nonneg l : forall x, nonneg x -> Forall nonneg l -> nonneg (foldl f32_add x l).
Proof.
  induction l as [|y l IH]; intros x Hx Hl; [done|]. apply Forall_cons in Hl as [Hy Hl]. simpl.
  apply IH; [|done]. destruct Hx, Hy. destruct (f32_add_nonneg x y) as (? & _ & _ & ?); done.
Qed.
Lemma totals_nonneg hits res p x : totals hits res -> (forall q c, (q, c) ∈ hits -> f32_unit c) ->
  (p, x) ∈ res -> nonneg x.
Proof.
  intros [_ H] Hu Hp. apply H in Hp as (c & rest & E & ->).
  assert (Hall : forall h, h ∈ (p, c) :: rest -> f32_unit h.2).
  { intros [q d] Hh. rewrite <- E in Hh. apply hits_of_elem in Hh as [_ Hh]. by eapply Hu. }
  apply sum_nonneg; [apply unit_nonneg, (Hall (p, c)); left|].
  apply Forall_forall. intros d Hd. apply elem_of_list_fmap in Hd as (h & -> & Hh).
  apply unit_nonneg, Hall. by right.
Qed.
Definition rank_total (a b : product * f32) : comparison := reverse_ord (f32_total_cmp a.2 b.2).
Lemma reverse_total {A} (cmp : A -> A -> comparison) : total_cmp cmp ->
  total_cmp (fun a b => reverse_ord (cmp a b)).
Proof.
  intros H. split.
  - intros x. by rewrite (tc_refl _ H).
  - intros x y. rewrite (tc_sym _ H x y). by destruct (cmp x y).
  - intros x y z H1 H2 E. apply (tc_trans _ H z y x).
    + rewrite (tc_sym _ H y z). by destruct (cmp y z).
    + rewrite (tc_sym _ H x y). by destruct (cmp x y).
    + rewrite (tc_sym _ H x z). by destruct (cmp x z).
Qed.
Lemma rank_total_total : total_cmp rank_total.
Proof. apply (reverse_total (fun a b : product * f32 => f32_total_cmp a.2 b.2)), total_cmp_on, f32_total. Qed.
Lemma export_ranked o r : valid_order o -> (forall p x, (p, x) ∈ rank_export o r -> f32_number x) ->
  ranked (rank_export o r).
Proof.
  intros Ho Hnum. unfold rank_export in *. set (l := map snd (o (map_to_list r))) in *.
  assert (Hl : forall h, h ∈ l -> f32_number h.2).
  { intros [p x] Hh. apply (Hnum p x). by rewrite sort_by_perm. }
  rewrite (sort_by_ext _ rank_total) in *.
  2, 3: intros x y Hx Hy; unfold rank_total, rank_cmp; by rewrite f32_total_cmp_agrees by auto.
  pose proof (sort_by_total_sorted rank_total l rank_total_total) as Hs. clearbody l.
  revert Hnum Hs. generalize (sort_by rank_total l). clear Hl. intros l' Hnum Hs.
  induction Hs as [|h l' Hs IH Hh]; [done|]. simpl. split.
  - rewrite Forall_forall in *. intros h' Hh'. specialize (Hh h' Hh').
    assert (N1 : f32_number h.2) by (destruct h; eapply Hnum; left).
    assert (N2 : f32_number h'.2) by (destruct h'; eapply Hnum; right; done).
    apply f32_cmp_le; [done|done|]. rewrite <- f32_total_cmp_agrees by done.
    rewrite (tc_sym _ f32_total h.2 h'.2). unfold le_cmp, rank_total in Hh.
    by destruct (f32_total_cmp h.2 h'.2).
  - apply IH. intros p x Hp. eapply Hnum. by right.
Qed.

(** ** One correction *)
Lemma edit_zero : forall q m s c, edit q m s c -> s = 0%nat -> (length m <= length q)%nat /\ m = take (length m) q.
Proof.
  induction 1 as [q|x q m s c He IH|x y q m s c He IH|y m s c He IH|x q m s c He IH|y q m s c He IH];
    intros E; try done.
  - split; [simpl; lia|done].
  - destruct (IH E) as [H1 H2]. simpl. split; [lia|]. by f_equal.
Qed.
Lemma edit_one : forall q m s c, edit q m s c -> (s <= 1)%nat -> length m = length q ->
  (differences m q <= s)%nat \/
  (exists a y b z, m = a ++ y :: b /\ q = a ++ b ++ [z]).
Proof.
  induction 1 as [q|x q m s c He IH|x y q m s c He IH|y m s c He IH|x q m s c He IH|y q m s c He IH];
    intros Hs Hl; simpl in Hl.
  - left. simpl. lia.
  - destruct (IH Hs ltac:(lia)) as [H|(a & y & b & z & -> & ->)].
    + left. simpl. rewrite decide_True by done. done.
    + right. exists (x :: a), y, b, z. done.
  - left. destruct (edit_zero _ _ _ _ He) as [H1 H2]; [lia|].
    assert (m = q) as -> by (rewrite H2, take_ge; [done|lia]).
    pose proof (differences_refl q []) as E. rewrite app_nil_r in E. simpl. destruct (decide (y = x)); lia.
  - done.
  - destruct (edit_zero _ _ _ _ He) as [H1 H2]; [lia|]. lia.
  - right. destruct (edit_zero _ _ _ _ He) as [H1 H2]; [lia|].
    destruct q as [|z q _] using rev_ind; [done|]. rewrite app_length in *. simpl in *.
    assert (m = q) as ->.
    { rewrite H2. rewrite take_app_alt by lia. done. }
    exists [], y, q, z. done.
Qed.

(** For sizes up to five: the chosen gram's confidence is its own product of weights, and it
    is one of the candidates with one correction. *)
Lemma chosen_exact n gi q0 q' g c : (n <= 5)%nat -> length (q0 :: q') = n ->
  search_gram n gi (q0 :: q') = Done (Some (g, c)) ->
  exists root m, gi_roots gi !! q0 = Some root /\ g = q0 :: m /\ length m = length q' /\
    exact_confidence root m f32_one c /\
    ((differences m q' <= n / 3)%nat \/
     (3 <= n)%nat /\ exists a y b z, m = a ++ y :: b /\ q' = a ++ b ++ [z]).
Proof.
  intros Hn' Hl Hs. pose proof (chosen_good n gi _ _ _ Hl Hs) as (Hg & _ & q0' & q'' & m & s & k & Eq & Em & He & Hs1 & Hk).
  injection Eq as <- <-. subst g. simpl in Hg, Hl.
  apply (search_gram_without n gi (q0 :: q')) in Hs; [|done|done]. unfold search_gram_without_skip in Hs.
  destruct (gi_roots gi !! q0) as [root|] eqn:E; [|done].
  apply (without_skip_confidence n (n / 3) root q0 _ _ _ _ _ _ []) in Hs as (m' & Em & Hc).
  - simpl in Em, Hc. injection Em as <-. exists root, m. split; [done|]. split; [done|]. split; [lia|].
    split; [done|]. destruct (edit_one _ _ _ _ He) as [Hd|Hd]; [lia|lia|left; lia|].
    destruct (decide (3 <= n)%nat); [right; done|]. left.
    assert (s = 0)%nat by lia. destruct (edit_zero _ _ _ _ He) as [_ E']; [done|].
    rewrite E', take_ge by lia. pose proof (differences_refl q' []) as E2. rewrite app_nil_r in E2. lia.
  - simpl. lia.
  - simpl. rewrite replicate_length. lia.
  - done.
  - intros m' e' He'. done.
Qed.

Section built.
Context (P : platform) (n : nat) (o : build_order) (source : list (product * list N)) (pc : container)
  (gi : gram_index).
Context (Hn : (1 <= n)%nat) (Ho : valid_build_order o)
  (Hlim : total_grams (map snd source) < 2 ^ 32) (H : index_from P n o source pc = Done gi).
Notation roots := (gi_roots gi).

Lemma weights_unit w nd : at_path roots w nd -> f32_unit (n_weight nd).
Proof.
  intros Hw. apply f32_ratio_unit. apply (trie_weights P n o source pc gi Hn Ho Hlim H) in Hw. apply Hw.
Qed.
Lemma children_nodup w nd : at_path roots w nd -> NoDup (map n_item (n_children nd)).
Proof. intros Hw. apply (trie_children P n o source pc gi Hn Ho Hlim H) in Hw. apply Hw. Qed.
Lemma root_at g root : roots !! g = Some root -> at_path roots [g] root.
Proof. intros E. exists g, [], root. split; [done|]. split; [done|constructor]. Qed.
Lemma root_in_trie g root : roots !! g = Some root -> in_trie roots root.
Proof. intros E. exists [g]. by apply root_at. Qed.
Lemma one_unit : f32_unit f32_one.
Proof. split; [done|]. split; done. Qed.

(** *** C31 *)
Lemma chosen_occurs q g c : length q = n -> search_gram n gi q = Done (Some (g, c)) ->
  length g = n /\ exists p t, (p, t) ∈ source /\ occurs g t.
Proof.
  intros Hl Hs. apply chosen_good in Hs as (Hg & Hat & _); [|done]. split; [done|].
  by apply (trie_paths P n o source pc gi Hn Ho Hlim H) in Hat as (_ & _ & Hat).
Qed.
Lemma posting_source key l p : gi_data gi !! key = Some l -> p ∈ l ->
  exists t, (p, t) ∈ source /\ key ∈ windows n t.
Proof.
  intros E Hp. pose proof (index_from_built _ _ _ _ _ _ Hn Ho Hlim H) as IB.
  apply (postings P n source pc gi IB) in E as (-> & _). rewrite sort_by_perm in Hp.
  by apply owners_elem in Hp.
Qed.
Lemma result_has_gram os input res p x : (n <= 764)%nat -> valid_order os ->
  gram_search n os gi input = Done res -> (p, x) ∈ res ->
  exists t w g c, (p, t) ∈ source /\ w ∈ windows n input /\ search_gram n gi w = Done (Some (g, c)) /\
    g ∈ windows n t /\ (Forall (fun '(_, t) => 0 ∉ t) source -> occurs g t).
Proof.
  intros Hn' Hos Hs Hp. apply search_totals in Hs; [|lia|done].
  apply (totals_hit _ _ _ _ Hs) in Hp as (c & Hc). apply query_hit in Hc as (w & g & l & Hw & Hg & El & Hp).
  destruct (posting_source g l p El Hp) as (t & Ht & Hk).
  exists t, w, g, c. split; [done|]. split; [done|]. split; [done|]. split; [done|].
  intros Hz. destruct (chosen_occurs w g c) as (Hl & p' & t' & Ht' & Hoc); [by eapply window_length|done|].
  apply (windows_occurs n); [done|done| |done].
  rewrite Forall_forall in Hz. specialize (Hz _ Ht'). simpl in Hz. intros H0. apply Hz.
  destruct Hoc as (u & v & ->). rewrite !elem_of_app. auto.
Qed.

(** *** C33 *)
Lemma exact_exists : forall nd m leaf, reaches nd m leaf -> forall x, exists e, exact_confidence nd m x e.
Proof.
  induction 1 as [nd|nd child w nd' Hc Hr IH]; intros x; [exists x; constructor|].
  destruct (IH (f32_mul x (n_weight child))) as (e & He). exists e. by constructor.
Qed.
Lemma search_offers q0 q' root a : roots !! q0 = Some root -> (n <= 764)%nat ->
  (forall pi, offers a (recursive_search n (n / 3) (n - 1) q' root None 0 f32_one pi)) ->
  exists g c, search_gram n gi (q0 :: q') = Done (Some (g, c)) /\ f32_le a c.
Proof.
  intros E Hn' Ha. unfold search_gram. rewrite E.
  assert (E' : Nat.leb (n / 3) 255 = true) by (apply Nat.leb_le; lia). rewrite E'.
  destruct (Ha (q0 :: replicate (n - 1) gram_default)) as ([g c] & -> & Hc). by exists g, c.
Qed.
Lemma no_prev (p : node) : @None node = Some p -> in_trie roots p.
Proof. done. Qed.
Lemma chosen_ge_replaced q0 q' m root e : (n <= 764)%nat -> length (q0 :: q') = n -> length m = length q' ->
  (differences m q' <= n / 3)%nat -> roots !! q0 = Some root -> exact_confidence root m f32_one e ->
  exists g c, search_gram n gi (q0 :: q') = Done (Some (g, c)) /\ f32_le e c.
Proof.
  intros Hn' Hl Hm Hd Hr He. simpl in Hl. eapply search_offers; [done|done|]. intros pi.
  apply (offers_replaced roots n weights_unit children_nodup (n / 3) (n - 1) m); try lia;
    [by eapply root_in_trie|apply no_prev|apply one_unit|done].
Qed.
Lemma chosen_ge_inserted q0 a b z y root e : (3 <= n <= 764)%nat -> length (q0 :: a ++ b ++ [z]) = n ->
  roots !! q0 = Some root -> exact_confidence root (a ++ y :: b) f32_one e ->
  exists g c, search_gram n gi (q0 :: a ++ b ++ [z]) = Done (Some (g, c)) /\ f32_le e c.
Proof.
  intros Hn' Hl Hr He. simpl in Hl. rewrite !app_length in Hl. simpl in Hl.
  eapply search_offers; [done|lia|]. intros pi.
  replace (n - 1)%nat with (length (a ++ y :: b)) by (rewrite app_length; simpl; lia).
  apply (offers_inserted roots n weights_unit children_nodup (n / 3) a b z y); try lia;
    [by eapply root_in_trie|apply no_prev|apply one_unit|done].
Qed.
Lemma chosen_for_occurring q p t : (n <= 764)%nat -> length q = n -> (p, t) ∈ source -> occurs q t ->
  exists q0 q' root e g c, q = q0 :: q' /\ roots !! q0 = Some root /\ exact_confidence root q' f32_one e /\
    search_gram n gi q = Done (Some (g, c)) /\ f32_le e c.
Proof.
  intros Hn' Hl Ht Hoc. destruct (trie_paths P n o source pc gi Hn Ho Hlim H) as [HP _].
  destruct (proj2 (HP q)) as (nd & q0 & q' & root & -> & Hr & Hreach).
  { split; [by destruct q; simpl in *; [lia|]|]. split; [lia|]. eauto. }
  destruct (exact_exists _ _ _ Hreach f32_one) as (e & He).
  destruct (chosen_ge_replaced q0 q' q' root e) as (g & c & Hs & Hle); try done.
  { pose proof (differences_refl q' []) as E. rewrite app_nil_r in E. lia. }
  exists q0, q', root, e, g, c. done.
Qed.
(** *** C34 *)
Lemma exact_wins q0 q' root e p t os input res l : (n <= 5)%nat -> length (q0 :: q') = n -> 
  valid_order os -> gram_search n os gi input = Done res -> q0 :: q' ∈ windows n input ->
  roots !! q0 = Some root -> exact_confidence root q' f32_one e ->
  (forall m c, m <> q' -> length m = length q' -> exact_confidence root m f32_one c ->
     ((differences m q' <= n / 3)%nat \/ exists a y b z, m = a ++ y :: b /\ q' = a ++ b ++ [z]) -> f32_lt c e) ->
  gi_data gi !! (q0 :: q') = Some l -> (p, t) ∈ source -> q0 :: q' ∈ windows n t ->
  exists p' x, (p', x) ∈ res /\ p_id p' = p_id p.
Proof.
  intros Hn' Hl Hos Hs Hw Hr He Hbest El Ht Hk.
  assert (Hin : p ∈ l).
  { pose proof (index_from_built _ _ _ _ _ _ Hn Ho Hlim H) as IB.
    apply (postings P n source pc gi IB) in El as (-> & _). rewrite sort_by_perm.
    apply owners_elem. eauto. }
  apply search_totals in Hs; [|lia|done].
  destruct (chosen_ge_replaced q0 q' q' root e) as (g & c & Hg & Hle); try done; [lia| |].
  { pose proof (differences_refl q' []) as E. rewrite app_nil_r in E. lia. }
  destruct (chosen_exact n gi q0 q' g c) as (root' & m & Hr' & -> & Hm & Hc & Hcand); [done..|].
  rewrite Hr in Hr'. injection Hr' as <-.
  destruct (decide (m = q')) as [->|Hne].
  - eapply totals_id; [done|]. by eapply (query_hit_intro n gi input).
  - exfalso. assert (Hlt : f32_lt c e).
    { apply (Hbest m); try done. destruct Hcand as [?|[_ ?]]; auto. }
    assert (Ue : f32_unit e).
    { eapply (exact_valid roots weights_unit); [exact He|by eapply root_in_trie|apply one_unit]. }
    assert (Uc : f32_unit c).
    { eapply (exact_valid roots weights_unit); [exact Hc|by eapply root_in_trie|apply one_unit]. }
    apply f32_unit_number in Ue, Uc. apply f32_gt_iff in Hlt.
    apply f32_gt_false in Hle; [|done..]. by rewrite Hlt in Hle.
Qed.
(** *** C39 *)
Lemma chosen_unit q g c : length q = n -> search_gram n gi q = Done (Some (g, c)) -> f32_unit c.
Proof.
  intros Hl Hs. unfold search_gram in Hs. destruct q as [|q0 q']; [done|].
  destruct (roots !! q0) as [root|] eqn:E; [|done]. destruct (Nat.leb (n / 3) 255); [|done].
  injection Hs as Hs. 
  apply (search_unit roots n weights_unit children_nodup _ _ _ _ _ _ _ _ _ (root_in_trie _ _ E) no_prev one_unit Hs).
Qed.
Lemma hits_unit input p c : (p, c) ∈ query_hits n gi input -> f32_unit c.
Proof.
  intros (w & g & l & Hw & Hg & _)%query_hit. eapply chosen_unit; [|exact Hg]. by eapply window_length.
Qed.
Lemma results_nonneg os input res p x : (n <= 764)%nat -> valid_order os ->
  gram_search n os gi input = Done res -> (p, x) ∈ res -> f32_number x /\ f32_le f32_zero x.
Proof.
  intros Hn' Hos Hs Hp. apply search_totals in Hs; [|lia|done].
  eapply totals_nonneg; [done|apply hits_unit|done].
Qed.
(** *** C37 *)
Lemma results_ranked os input res : (n <= 764)%nat -> valid_order os ->
  gram_search n os gi input = Done res ->
  NoDup (map (fun r => p_id r.1) res) /\ ranked res /\
  forall p c, (p, c) ∈ query_hits n gi input -> exists p' x, (p', x) ∈ res /\ p_id p' = p_id p.
Proof.
  intros Hn' Hos Hs. pose proof (search_totals n os gi input res ltac:(lia) Hos Hs) as Ht.
  split; [apply Ht|]. split.
  - assert (Hnum : forall p x, (p, x) ∈ res -> f32_number x) by (intros; by eapply results_nonneg).
    rewrite gram_search_hits in Hs by lia. injection Hs as <-. by apply export_ranked.
  - intros p c Hp. by eapply totals_id.
Qed.
(** *** C40 *)
Lemma map_eq_Forall2 {A B} (f : A -> B) : forall l1 l2, map f l1 = map f l2 ->
  Forall2 (fun a b => f a = f b) l1 l2.
Proof. induction l1 as [|x l1 IH]; intros [|y l2] E; try done. simpl in E. injection E as E1 E2. constructor; auto. Qed.
Lemma same_places os1 os2 input res1 res2 : (n <= 764)%nat -> valid_order os1 -> valid_order os2 ->
  gram_search n os1 gi input = Done res1 -> gram_search n os2 gi input = Done res2 ->
  res1 ≡ₚ res2 /\ Forall2 (fun r1 r2 => f32_cmp r1.2 r2.2 = Some Eq) res1 res2.
Proof.
  intros Hn' H1 H2 E1 E2.
  assert (Hp : res1 ≡ₚ res2) by (eapply (order_irrelevant n os1 os2); [lia|done..]).
  split; [done|].
  pose proof (results_ranked os1 input res1 Hn' H1 E1) as (_ & R1 & _).
  pose proof (results_ranked os2 input res2 Hn' H2 E2) as (_ & R2 & _).
  assert (N1 : forall r, r ∈ res1 -> f32_number r.2) by (intros [p x] Hr; by apply (results_nonneg os1 input res1 p x)).
  assert (N2 : forall r, r ∈ res2 -> f32_number r.2) by (intros [p x] Hr; by apply (results_nonneg os2 input res2 p x)).
  assert (Hs : forall res : list (product * f32), ranked res -> (forall r, r ∈ res -> f32_number r.2) ->
    StronglySorted Rdefinitions.Rge (map (fun r => key32 r.2) res)).
  { induction res as [|r res IH]; intros Hr Hnum; simpl; constructor.
    - apply IH; [apply Hr|]. intros. apply Hnum. by right.
    - apply Forall_fmap. destruct Hr as [Hr _]. rewrite Forall_forall in *. intros r' Hr'.
      cbv [compose]. apply RIneq.Rle_ge, f32_le_key; [apply Hnum; by right|apply Hnum; left|by apply Hr]. }
  assert (E : map (fun r => key32 r.2) res1 = map (fun r => key32 r.2) res2).
  { apply (sorted_perm_eq Rdefinitions.Rge); [apply RIneq.Rge_antisym|by apply Hs..|by apply Permutation_map]. }
  apply map_eq_Forall2 in E. clear R1 R2 Hs Hp E1 E2.
  induction E as [|r1 r2 l1 l2 E _ IH]; constructor.
  - rewrite f32_cmp_key; [|apply N1; left|apply N2; left]. f_equal. by apply Raux.Rcompare_Eq.
  - apply IH; intros r Hr; [apply N1|apply N2]; by right.
Qed.
(** *** C35 *)
Lemma short_window t w : (length t < n)%nat -> w ∈ windows n t -> head w = Some 0.
Proof.
  intros Hl Hw. unfold windows in Hw. apply elem_of_list_fmap in Hw as (j & -> & Hj).
  apply elem_of_seq in Hj. unfold window.
  replace (replicate n 0 ++ t) with (replicate (S j) 0 ++ 0 :: replicate (n - S (S j)) 0 ++ t).
  - rewrite drop_app_alt by by rewrite replicate_length. destruct n; [lia|done].
  - change (0 :: replicate (n - S (S j)) 0 ++ t) with (replicate (S (n - S (S j))) 0 ++ t).
    rewrite app_assoc, <- replicate_add. f_equal. f_equal. lia.
Qed.
Lemma short_query_nothing os input : (n <= 764)%nat -> valid_order os ->
  Forall (fun '(_, t) => 0 ∉ t) source -> (length input < n)%nat -> gram_search n os gi input = Done [].
Proof.
  intros Hn' Hos Hz Hl.
  assert (E0 : roots !! 0 = None).
  { destruct (roots !! 0) as [root|] eqn:E; [|done].
    destruct (proj1 (proj1 (trie_paths P n o source pc gi Hn Ho Hlim H) [0])) as (_ & _ & p & t & Ht & u & v & ->).
    { eexists. by apply root_at. }
    rewrite Forall_forall in Hz. specialize (Hz _ Ht). simpl in Hz. destruct Hz.
    apply elem_of_app. right. left. }
  assert (E : query_hits n gi input = []).
  { unfold query_hits. assert (Hall : forall w, w ∈ windows n input -> window_hits n gi w = []).
    { intros w Hw. pose proof (short_window _ _ Hl Hw) as Hh. destruct w as [|q0 w]; [done|].
      injection Hh as ->. unfold window_hits, search_gram. by rewrite E0. }
    induction (windows n input) as [|w l IH]; simpl; [done|].
    rewrite Hall, IH; [done| |left]. intros. apply Hall. by right. }
  rewrite gram_search_hits by lia. rewrite E. unfold rank_export. cbn [foldl].
  change (map_to_list (∅ : ranker)) with (@nil (rstr * (product * f32))).
  assert (En : os [] = []). { apply Permutation_nil. symmetry. apply Hos. }
  by rewrite En.
Qed.
(** *** C42 *)
Lemma not_merged os input res p c : (n <= 764)%nat -> valid_order os ->
  (forall q1 t1 q2 t2, (q1, t1) ∈ source -> (q2, t2) ∈ source -> p_id q1 = p_id q2 -> q1 = q2) ->
  gram_search n os gi input = Done res -> (p, c) ∈ query_hits n gi input -> exists x, (p, x) ∈ res.
Proof.
  intros Hn' Hos Hid Hs Hp. pose proof (search_totals n os gi input res ltac:(lia) Hos Hs) as Ht.
  destruct (totals_id _ _ _ _ Ht Hp) as (p' & x & Hr & E). exists x.
  destruct (totals_hit _ _ _ _ Ht Hr) as (c' & Hp').
  apply query_hit in Hp as (w1 & g1 & l1 & _ & _ & E1 & Hp1).
  apply query_hit in Hp' as (w2 & g2 & l2 & _ & _ & E2 & Hp2).
  destruct (posting_source _ _ _ E1 Hp1) as (t1 & Ht1 & _).
  destruct (posting_source _ _ _ E2 Hp2) as (t2 & Ht2 & _).
  by rewrite (Hid _ _ _ _ Ht1 Ht2 (eq_sym E)).
Qed.
End built.

(** ** C41: two builds *)
Section two.
Context (P : platform) (n : nat) (o1 o2 : build_order) (source : list (product * list N)) (pc : container)
  (gi1 gi2 : gram_index).
Context (Hn : (1 <= n)%nat) (Ho1 : valid_build_order o1) (Ho2 : valid_build_order o2)
  (Hlim : total_grams (map snd source) < 2 ^ 32)
  (H1 : index_from P n o1 source pc = Done gi1) (H2 : index_from P n o2 source pc = Done gi2).
Lemma same_postings : gi_data gi1 = gi_data gi2.
Proof.
  pose proof (index_from_built _ _ _ _ _ _ Hn Ho1 Hlim H1) as IB1.
  pose proof (index_from_built _ _ _ _ _ _ Hn Ho2 Hlim H2) as IB2.
  apply map_eq. intros key. by rewrite (ib_data _ _ _ _ _ IB1), (ib_data _ _ _ _ _ IB2).
Qed.
Lemma same_paths w nd1 : at_path (gi_roots gi1) w nd1 ->
  exists nd2, at_path (gi_roots gi2) w nd2 /\ n_weight nd2 = n_weight nd1.
Proof.
  intros Hw. pose proof (proj1 (proj1 (trie_paths P n o1 source pc gi1 Hn Ho1 Hlim H1) w) (ex_intro _ _ Hw)) as Hoc.
  apply (proj1 (trie_paths P n o2 source pc gi2 Hn Ho2 Hlim H2)) in Hoc as (nd2 & Hw2).
  exists nd2. split; [done|].
  apply (trie_weights P n o1 source pc gi1 Hn Ho1 Hlim H1) in Hw as (_ & -> & _).
  by apply (trie_weights P n o2 source pc gi2 Hn Ho2 Hlim H2) in Hw2 as (_ & -> & _).
Qed.
Lemma exact_transfer : forall nd1 m x e, exact_confidence nd1 m x e -> forall w nd2,
  at_path (gi_roots gi1) w nd1 -> at_path (gi_roots gi2) w nd2 -> exact_confidence nd2 m x e.
Proof.
  induction 1 as [nd x|nd child m x y Hc He IH]; intros w nd2 Hw1 Hw2; [constructor|].
  pose proof (at_path_child _ _ _ _ Hw1 Hc) as Hc1.
  destruct (same_paths _ _ Hc1) as (nd' & Hc2 & Hwt).
  pose proof (index_from_built _ _ _ _ _ _ Hn Ho2 Hlim H2) as IB2.
  destruct (at_path_children P n source pc gi2 Hn Hlim IB2 w nd2 Hw2) as (_ & _ & Hch).
  destruct (proj2 (Hch (n_item child))) as (child2 & Hin2 & Ei); [eauto|].
  pose proof (at_path_child _ _ _ _ Hw2 Hin2) as Hc2'. rewrite Ei in Hc2'.
  assert (child2 = nd') as -> by by eapply (at_path_unique P n source pc gi2 IB2).
  rewrite <- Ei. constructor; [done|]. rewrite Hwt. by eapply IH.
Qed.
Lemma same_confidence_le q g1 c1 : (n <= 5)%nat -> length q = n ->
  search_gram n gi1 q = Done (Some (g1, c1)) ->
  exists g2 c2, search_gram n gi2 q = Done (Some (g2, c2)) /\ f32_le c1 c2.
Proof.
  intros Hn' Hl Hs. destruct q as [|q0 q']; [simpl in Hl; lia|].
  destruct (chosen_exact n gi1 q0 q' g1 c1)
    as (root & m & Hr & -> & Hm & He & Hcand); [done..|].
  destruct (same_paths [q0] root) as (root2 & Hr2 & _); [by apply root_at|].
  assert (Hroot2 : gi_roots gi2 !! q0 = Some root2).
  { destruct Hr2 as (g & w' & r & Ew & Hg & Hreach). injection Ew as <- <-. by inversion Hreach; subst. }
  assert (He2 : exact_confidence root2 m f32_one c1).
  { eapply exact_transfer; [exact He|by apply root_at|by apply root_at]. }
  destruct Hcand as [Hd|[Hn3 (a & y & b & z & -> & ->)]].
  - eapply (chosen_ge_replaced P n o2 source pc gi2 Hn Ho2 Hlim H2 q0 q' m root2); try done. lia.
  - eapply (chosen_ge_inserted P n o2 source pc gi2 Hn Ho2 Hlim H2 q0 a b z y root2); try done. lia.
Qed.
End two.
Lemma same_confidence P n o1 o2 source pc gi1 gi2 q : (1 <= n <= 5)%nat -> valid_build_order o1 -> valid_build_order o2 ->
  total_grams (map snd source) < 2 ^ 32 ->
  index_from P n o1 source pc = Done gi1 -> index_from P n o2 source pc = Done gi2 -> length q = n ->
  (search_gram n gi1 q = Done None /\ search_gram n gi2 q = Done None) \/
  exists g1 c1 g2 c2, search_gram n gi1 q = Done (Some (g1, c1)) /\ search_gram n gi2 q = Done (Some (g2, c2)) /\
    f32_cmp c1 c2 = Some Eq.
Proof.
  intros Hn Ho1 Ho2 Hlim H1 H2 Hl.
  destruct (search_gram_total n gi1 q) as ([[g1 c1]|] & E1); [lia| |];
  destruct (search_gram_total n gi2 q) as ([[g2 c2]|] & E2); try lia.
  - right. exists g1, c1, g2, c2. split; [done|]. split; [done|].
    destruct (same_confidence_le P n o1 o2 source pc gi1 gi2 ltac:(lia) Ho1 Ho2 Hlim H1 H2 q g1 c1)
      as (g2' & c2' & E2' & L1); [lia|done|done|]. rewrite E2 in E2'. injection E2' as <- <-.
    destruct (same_confidence_le P n o2 o1 source pc gi2 gi1 ltac:(lia) Ho2 Ho1 Hlim H2 H1 q g2 c2)
      as (g1' & c1' & E1' & L2); [lia|done|done|]. rewrite E1 in E1'. injection E1' as <- <-.
    assert (N1 : f32_number c1).
    { apply f32_unit_number. by apply (chosen_unit P n o1 source pc gi1 ltac:(lia) Ho1 Hlim H1 q g1). }
    assert (N2 : f32_number c2).
    { apply f32_unit_number. by apply (chosen_unit P n o2 source pc gi2 ltac:(lia) Ho2 Hlim H2 q g2). }
    apply f32_le_key in L1; [|done..]. apply f32_le_key in L2; [|done..].
    rewrite f32_cmp_key by done. f_equal. apply Raux.Rcompare_Eq. by apply RIneq.Rle_antisym.
  - destruct (same_confidence_le P n o1 o2 source pc gi1 gi2 ltac:(lia) Ho1 Ho2 Hlim H1 H2 q g1 c1)
      as (g2' & c2' & E2' & L1); [lia|done|done|]. rewrite E2 in E2'. done.
  - destruct (same_confidence_le P n o2 o1 source pc gi2 gi1 ltac:(lia) Ho2 Ho1 Hlim H2 H1 q g2 c2)
      as (g1' & c1' & E1' & L2); [lia|done|done|]. rewrite E1 in E1'. done.
  - left. done.
Qed.

(** ** Counterexamples *)
Lemma exact_not_found : exists gi res,
  index_from wasm32 5 hash_order lookalikes (plain_container lookalikes) = Done gi /\
  gi_data gi !! abcde = Some [plain_product 0] /\
  gram_search 5 no_order gi abcde = Done res /\ map fst res = [plain_product 1; plain_product 2].
Proof.
  eexists _, _. split; [vm_compute; reflexivity|]. split; [vm_compute; reflexivity|].
  split; vm_compute; reflexivity.
Qed.
Lemma builds_differ : exists gi1 gi2 x,
  index_from wasm32 5 hash_order twins (plain_container twins) = Done gi1 /\
  index_from wasm32 5 other_order twins (plain_container twins) = Done gi2 /\
  gram_search 5 no_order gi1 abcdx = Done [(plain_product 0, x)] /\
  gram_search 5 no_order gi2 abcdx = Done [(plain_product 1, x)].
Proof.
  eexists _, _, _. split; [vm_compute; reflexivity|]. split; [vm_compute; reflexivity|].
  split; vm_compute; reflexivity.
Qed.
Lemma merged : exists gi p q x,
  index_from wasm32 5 hash_order same_ids (plain_container same_ids) = Done gi /\
  p <> q /\ (exists c, (p, c) ∈ query_hits 5 gi abcde) /\ (exists c, (q, c) ∈ query_hits 5 gi abcde) /\
  gram_search 5 no_order gi abcde = Done [(p, x)].
Proof.
  destruct same_ids as [|[p tp] [|[q tq] rest]] eqn:E; try (vm_compute in E; discriminate E).
  exists (match index_from wasm32 5 hash_order same_ids (plain_container same_ids) with
     | Done gi => gi | _ => sample_index end), p, q.
  vm_compute in E. injection E as <- <- <- <- <-.
  eexists. split; [vm_compute; reflexivity|]. split; [vm_compute; discriminate|].
  split; [|split].
  - eexists. vm_compute. left.
  - eexists. vm_compute. right. left.
  - vm_compute. reflexivity.
Qed.

(** The conditions of [exact_wins] hold of words with nothing in common. *)
Definition strangers_chain : node :=
  Node 98 f32_one [Node 99 f32_one [Node 100 f32_one [Node 101 f32_one []]]].
Lemma strangers_found : exists gi root e l,
  index_from wasm32 5 hash_order strangers (plain_container strangers) = Done gi /\
  gi_roots gi !! 97 = Some root /\ exact_confidence root [98; 99; 100; 101] f32_one e /\
  (forall m c, m <> [98; 99; 100; 101] -> length m = 4%nat -> exact_confidence root m f32_one c -> f32_lt c e) /\
  gi_data gi !! abcde = Some l.
Proof.
  assert (E : match index_from wasm32 5 hash_order strangers (plain_container strangers) with
    | Done gi => (n_children <$> gi_roots gi !! 97, bool_decide (is_Some (gi_data gi !! abcde)))
    | _ => (None, false) end = (Some [strangers_chain], true)) by (vm_compute; reflexivity).
  destruct (index_from _ _ _ _ _) as [gi| | |]; try discriminate E. injection E as E B.
  apply bool_decide_eq_true in B as [l B]. apply fmap_Some in E as (root & R & E).
  assert (D : forall nd child c w x y, n_children nd = [child] -> n_item child = c ->
    exact_confidence child w (f32_mul x (n_weight child)) y -> exact_confidence nd (c :: w) x y).
  { intros nd child ch w x y E' <-. apply exact_down. rewrite E'. by left. }
  assert (U : forall nd child m x y, n_children nd = [child] -> exact_confidence nd m x y ->
    m = [] \/ exists w, m = n_item child :: w /\ exact_confidence child w (f32_mul x (n_weight child)) y).
  { intros nd child m x y E' C. destruct C as [|nd ch w x y I C]; [by left|]. right.
    rewrite E' in I. apply elem_of_list_singleton in I as ->. eauto. }
  eexists gi, root, _, l. split; [done|]. split; [done|]. split; [|split; [|done]].
  - eapply D; [symmetry; exact E|reflexivity|]. do 3 (eapply D; [reflexivity|reflexivity|]). constructor.
  - intros m c Hm L C. apply U with (1 := eq_sym E) in C as [->|(? & -> & C)]; [discriminate L|].
    do 3 (apply U with (1 := eq_refl) in C as [->|(? & -> & C)]; [discriminate L|]).
    exfalso. clear C. revert Hm L. generalize x0. intros w. destruct w; [done|discriminate].
Qed.
