(** C24-C30 in the shape of the properties. *)
From Verif.model Require Import Base F32 Utf8 Prim Coll Data Gram Indexer Lit.
From Verif.spec Require Import Spec Data_spec Gram_spec Samples Gram_samples.
From Verif.proofs Require Import Base_facts Sort_facts Float_facts Cutoff_facts Data_facts Data_more File_facts Sample_facts Indexer_facts Trie_facts Search_facts.
From Coq Require Import ZifyBool ZifyNat ZifyN Sorting.Sorted.
Ltac Zify.zify_post_hook ::= Z.div_mod_to_equations.

Lemma index_from_built P n o source pc gi : (1 <= n)%nat -> valid_build_order o ->
  total_grams (map snd source) < 2 ^ 32 -> index_from P n o source pc = Done gi ->
  index_built P n source pc gi.
Proof.
  intros Hn Ho Hlim H. destruct (index_from_spec P n o source pc Hn Ho Hlim) as (gi' & E & IB).
  rewrite E in H. by injection H as <-.
Qed.
Lemma index_total P n o source pc : (1 <= n)%nat -> valid_build_order o ->
  total_grams (map snd source) < 2 ^ 32 -> exists gi, index_from P n o source pc = Done gi.
Proof. intros Hn Ho Hlim. destruct (index_from_spec P n o source pc Hn Ho Hlim) as (gi & E & _). eauto. Qed.

Section built.
Context (P : platform) (n : nat) (o : build_order) (source : list (product * list N)) (pc : container)
  (gi : gram_index).
Context (Hn : (1 <= n)%nat) (Ho : valid_build_order o)
  (Hlim : total_grams (map snd source) < 2 ^ 32) (H : index_from P n o source pc = Done gi).
Lemma trie_paths : (forall w, (exists nd, at_path (gi_roots gi) w nd) <->
      w <> [] /\ (length w <= n)%nat /\ exists p t, (p, t) ∈ source /\ occurs w t) /\
  (forall w nd1 nd2, at_path (gi_roots gi) w nd1 -> at_path (gi_roots gi) w nd2 -> nd1 = nd2).
Proof.
  pose proof (index_from_built _ _ _ _ _ _ Hn Ho Hlim H) as IB. split.
  - intros w. rewrite (at_path_iff P n source pc gi Hn Hlim IB).
    split; intros (H1 & H2 & H3); (split; [done|]; split; [done|]).
    + destruct H3 as (t & Ht & Hw). apply elem_of_list_fmap in Ht as ([p t'] & -> & Ht). eauto.
    + destruct H3 as (p & t & Ht & Hw). exists t. split; [|done]. apply elem_of_list_fmap. by exists (p, t).
  - intros w nd1 nd2. by apply (at_path_unique P n source pc gi IB).
Qed.
Lemma trie_weights w nd : at_path (gi_roots gi) w nd ->
  last w = Some (n_item nd) /\
  n_weight nd = f32_div (f32_of_N (total_occurrences w (map snd source)))
                        (f32_of_N (parent_occurrences w (map snd source))) /\
  f32_ratio (n_weight nd).
Proof.
  pose proof (index_from_built _ _ _ _ _ _ Hn Ho Hlim H) as IB.
  apply (at_path_weight P n source pc gi Hn Hlim IB).
Qed.
Lemma trie_children w nd : at_path (gi_roots gi) w nd ->
  NoDup (map n_item (n_children nd)) /\ descending (n_children nd).
Proof.
  pose proof (index_from_built _ _ _ _ _ _ Hn Ho Hlim H) as IB.
  intros Hw. destruct (at_path_children P n source pc gi Hn Hlim IB w nd Hw) as (? & ? & _). done.
Qed.
Lemma popular_chain g :
  (most_popular_chain gi g = [] <-> ~ exists p t, (p, t) ∈ source /\ g ∈ t) /\
  (length (most_popular_chain gi g) <= n)%nat /\
  (forall u x u', most_popular_chain gi g = u ++ x :: u' -> u <> [] ->
     exists nd, at_path (gi_roots gi) u nd /\ heaviest_child nd x) /\
  (forall w, w <> [] -> most_popular_chain gi g = w ->
     head w = Some g /\ exists leaf, at_path (gi_roots gi) w leaf /\ n_children leaf = []).
Proof.
  pose proof (index_from_built _ _ _ _ _ _ Hn Ho Hlim H) as IB.
  destruct trie_paths as [HP _]. unfold most_popular_chain.
  destruct (gi_roots gi !! g) as [root|] eqn:E.
  - assert (Hr : at_path (gi_roots gi) [g] root).
    { exists g, [], root. split; [done|]. split; [done|constructor]. }
    assert (Hg : n_item root = g).
    { destruct (trie_weights _ _ Hr) as (Hl & _). by injection Hl. }
    destruct (chain_spec P n source pc gi Hn Hlim IB root [g] Hr) as (v & leaf & Ev & Hl & Hlc & Hh).
    rewrite Ev, Hg. split; [|split; [|split]].
    + split; [done|]. intros Hno. destruct Hno.
      destruct (proj1 (HP [g]) (ex_intro _ _ Hr)) as (_ & _ & p & t & Ht & u & u' & ->).
      exists p, (u ++ [g] ++ u'). split; [done|]. apply elem_of_app. right. left.
    + destruct (proj1 (HP ([g] ++ v)) (ex_intro _ _ Hl)) as (_ & Hlen & _). done.
    + intros u x u' Eu Hu. destruct u as [|g' u]; [done|]. injection Eu as <- ->.
      apply (Hh u x u' eq_refl).
    + intros w _ <-. split; [done|]. exists leaf. done.
  - split; [|split; [|split]]; [|simpl; lia| |].
    + split; [|done]. intros _ (p & t & Ht & Hg).
      apply elem_of_list_split in Hg as (u & u' & ->).
      destruct (proj2 (HP [g])) as (nd & g' & w' & root & Ew & Hr & _).
      { split; [done|]. split; [simpl; lia|]. exists p, (u ++ g :: u'). split; [done|]. by exists u, u'. }
      injection Ew as <- _. by rewrite E in Hr.
    + intros u x u' Eu. by destruct u.
    + intros w Hw <-. done.
Qed.
Lemma posting_lists (Hsize : lenN (c_products pc) < 2 ^ 64) (HP : lenN (c_products pc) <= usize_max P) :
  exists limit, cutoff_for (lenN (c_products pc)) limit /\ forall key,
  (forall l, gi_data gi !! key = Some l -> l ≡ₚ owners n source key /\ in_order l) /\
  (is_Some (gi_data gi !! key) <->
     owners n source key <> [] /\ lenN (owners n source key) < limit).
Proof.
  pose proof (index_from_built _ _ _ _ _ _ Hn Ho Hlim H) as IB.
  exists (maximum_product_amount P (lenN (c_products pc))). split; [by apply cutoff_spec|].
  intros key. split.
  - intros l Hl. apply (postings P n source pc gi IB) in Hl as (-> & _). split; [apply sort_by_perm|].
    apply sorted_in_order, (sort_by_total_sorted product_cmp), by_sid_total.
  - apply (postings_exist P n source pc gi IB).
Qed.
End built.

(** ** Owners *)
Lemma owners_occurrences n source key : (1 <= n)%nat -> length key = n -> 0 ∉ key ->
  owners n source key = concat (map (fun '(p, t) => replicate (N.to_nat (occurrences key t)) p) source).
Proof.
  intros Hn Hl Hz. unfold owners. f_equal. apply map_ext. intros [p t]. f_equal.
  rewrite <- (windows_occurrences n) by done. unfold lenN. lia.
Qed.
Lemma hash_order_valid : valid_build_order hash_order.
Proof. split; [by intros a l|]. split; [apply rev_order_valid|by intros l]. Qed.
Lemma other_order_valid : valid_build_order other_order.
Proof. split; [intros a; apply rev_order_valid|]. split; by intros l. Qed.

(** ** C28 *)
Lemma cutoff_above : maximum_product_amount wasm32 5242881 = 4194305 /\ 4 * 5242881 / 5 = 4194304.
Proof. split; vm_compute; reflexivity. Qed.

(** ** C29 *)
Lemma owners_once n source key :
  Forall (fun '(p, t) => (length (filter (fun w => w = key) (windows n t)) <= 1)%nat) source ->
  owners n source key = map fst (filter (fun '(p, t) => key ∈ windows n t) source).
Proof.
  unfold owners. induction source as [|[p t] source IH]; simpl; [done|].
  intros [H1 H2]%Forall_cons. rewrite IH by done. rewrite filter_cons.
  destruct (decide (key ∈ windows n t)) as [Hk|Hk].
  - assert (E : length (filter (fun w => w = key) (windows n t)) = 1%nat).
    { assert (Hx : key ∈ filter (fun w => w = key) (windows n t)) by by apply elem_of_list_filter.
      destruct (filter (fun w => w = key) (windows n t)); [by apply elem_of_nil in Hx|]. simpl in *. lia. }
    rewrite E. done.
  - assert (E : filter (fun w => w = key) (windows n t) = []).
    { destruct (filter (fun w => w = key) (windows n t)) as [|x l] eqn:E; [done|].
      assert (Hx : x ∈ filter (fun w => w = key) (windows n t)) by (rewrite E; left).
      apply elem_of_list_filter in Hx as [-> Hx]. done. }
    by rewrite E.
Qed.
Lemma repeated_window_lost : forall o, valid_build_order o ->
  exists gi, index_from wasm32 2 o repeating (plain_container repeating) = Done gi /\
    gi_data gi !! [97; 97] = None /\
    length (filter (fun '(p, t) => [97; 97] ∈ windows 2 t) repeating) = 1%nat.
Proof.
  intros o Ho. destruct (index_from_spec wasm32 2 o repeating (plain_container repeating)) as (gi & E & IB).
  - lia.
  - done.
  - vm_compute; reflexivity.
  - exists gi. split; [done|]. split; [|vm_compute; reflexivity].
    apply eq_None_not_Some. intros Hs. apply (postings_exist _ _ _ _ _ IB) in Hs as [_ Hs].
    vm_compute in Hs. done.
Qed.
Lemma window_kept P n o source pc gi : (1 <= n)%nat -> valid_build_order o ->
  total_grams (map snd source) < 2 ^ 32 -> index_from P n o source pc = Done gi ->
  lenN (c_products pc) < 2 ^ 64 -> lenN (c_products pc) <= usize_max P ->
  exists limit, cutoff_for (lenN (c_products pc)) limit /\ forall key,
  Forall (fun '(p, t) => (length (filter (fun w => w = key) (windows n t)) <= 1)%nat) source ->
  let having := filter (fun '(p, t) => key ∈ windows n t) source in
  having <> [] -> lenN having < limit ->
  exists l, gi_data gi !! key = Some l /\ forall p, p ∈ l <-> exists t, (p, t) ∈ having.
Proof.
  intros Hn Ho Hlim H Hs HP.
  destruct (posting_lists P n o source pc gi Hn Ho Hlim H Hs HP) as (limit & Hcut & HPL).
  exists limit. split; [done|]. intros key Hone having Hne Hlt.
  pose proof (owners_once n source key Hone) as E. fold having in E.
  destruct (HPL key) as [H1 H2].
  destruct (proj2 H2) as (l & El).
  - rewrite E. split; [by destruct having|]. unfold lenN in *. by rewrite map_length.
  - exists l. split; [done|]. intros p. apply H1 in El as [El _]. rewrite El, E.
    rewrite elem_of_list_fmap. split.
    + intros ([p' t] & -> & Hp). by exists t.
    + intros (t & Hp). by exists (p, t).
Qed.

(** ** C30 *)
Lemma no_postings P n source pc gi : index_built P n source pc gi -> lenN (c_products pc) <= 2 ->
  2 <= usize_max P -> gi_data gi = ∅.
Proof.
  intros IB Hl HP. apply map_eq. intros key. rewrite lookup_empty.
  apply eq_None_not_Some. intros Hs. apply (postings_exist _ _ _ _ _ IB) in Hs as [Hne Hs].
  unfold maximum_product_amount in Hs. rewrite cutoff_small in Hs by lia.
  destruct (owners n source key); [done|]. unfold lenN in *. simpl in Hs. lia.
Qed.
Lemma search_no_postings n o gi input : (1 <= n <= 764)%nat -> valid_order o -> gi_data gi = ∅ ->
  gram_search n o gi input = Done [].
Proof.
  intros Hn Ho Hd. rewrite gram_search_hits by done.
  assert (E : query_hits n gi input = []).
  { unfold query_hits. induction (windows n input) as [|w l IH]; simpl; [done|]. rewrite IH, app_nil_r.
    unfold window_hits. destruct (search_gram n gi w) as [[[m x]|]| | |]; try done. by rewrite Hd, lookup_empty. }
  rewrite E. unfold rank_export. cbn [foldl].
  change (map_to_list (∅ : ranker)) with (@nil (rstr * (product * f32))).
  assert (En : o [] = []). { apply Permutation_nil. symmetry. apply Ho. }
  by rewrite En.
Qed.
Lemma small_catalogue_finds_nothing P n o os source pc : (1 <= n <= 764)%nat ->
  valid_build_order o -> valid_order os -> total_grams (map snd source) < 2 ^ 32 ->
  2 <= usize_max P -> (length (c_products pc) <= 2)%nat ->
  exists gi, index_from P n o source pc = Done gi /\
    forall input, gram_search n os gi input = Done [].
Proof.
  intros Hn Ho Hos Hlim HP Hl.
  destruct (index_from_spec P n o source pc) as (gi & E & IB); [lia|done|done|].
  exists gi. split; [done|]. intros input. apply search_no_postings; [done|done|].
  eapply no_postings; [done|unfold lenN; lia|done].
Qed.

(** ** The hypotheses are met *)
Lemma repeating_index : exists gi,
  index_from wasm32 2 hash_order repeating (plain_container repeating) = Done gi /\
  exists nd, at_path (gi_roots gi) [120; 121] nd.
Proof.
  assert (Hl : total_grams (map snd repeating) < 2 ^ 32) by (vm_compute; reflexivity).
  destruct (index_total wasm32 2 hash_order repeating (plain_container repeating)) as (gi & E);
    [lia|exact hash_order_valid|done|].
  exists gi. split; [done|].
  apply (proj1 (trie_paths wasm32 2 hash_order repeating _ gi ltac:(lia) hash_order_valid Hl E)).
  split; [done|]. split; [simpl; lia|]. exists (plain_product 1), [120; 121].
  split; [|by exists [], []]. vm_compute. right. left.
Qed.
