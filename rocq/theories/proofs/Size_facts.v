(** The size of a trie and of its posting lists. *)
From Verif.model Require Import Base F32 Utf8 Prim Coll Data Gram Indexer.
From Verif.spec Require Import Spec Gram_spec Cost_spec.
From Verif.proofs Require Import Base_facts Sort_facts File_facts Indexer_facts Trie_facts Trie_props Search_facts Cost_facts.
From Coq Require Import ZifyBool ZifyNat ZifyN.
Ltac Zify.zify_post_hook ::= Z.div_mod_to_equations.

Lemma list_sum_perm l1 l2 : l1 ≡ₚ l2 -> list_sum l1 = list_sum l2.
Proof. induction 1; cbn [list_sum foldr] in *; unfold list_sum in *; lia. Qed.
Lemma list_sum_app' l1 l2 : list_sum (l1 ++ l2) = (list_sum l1 + list_sum l2)%nat.
Proof. apply list_sum_app. Qed.
Lemma list_sum_plus {A} (f g : A -> nat) l :
  list_sum (map (fun x => f x + g x)%nat l) = (list_sum (map f l) + list_sum (map g l))%nat.
Proof. unfold list_sum. induction l as [|x l IH]; cbn [map foldr]; lia. Qed.
Lemma list_sum_le {A} (f g : A -> nat) l : (forall x, x ∈ l -> (f x <= g x)%nat) ->
  (list_sum (map f l) <= list_sum (map g l))%nat.
Proof.
  unfold list_sum. induction l as [|x l IH]; intros H; cbn [map foldr]; [done|].
  pose proof (H x ltac:(left)). assert (forall y, y ∈ l -> (f y <= g y)%nat) by (intros; apply H; by right).
  specialize (IH ltac:(done)). lia.
Qed.
Lemma concat_length {A} (ls : list (list A)) : length (concat ls) = list_sum (map length ls).
Proof. unfold list_sum. induction ls as [|l ls IH]; cbn [concat map foldr]; [done|]. rewrite app_length. lia. Qed.

(** ** The paths below a node *)
Fixpoint paths (nd : node) : list (list N) :=
  match nd with
  | Node _ _ children => [] :: concat (map (fun child => map (cons (n_item child)) (paths child)) children)
  end.
Lemma paths_length nd : length (paths nd) = node_count nd.
Proof.
  induction nd as [item weight children IH] using node_ind'. cbn [paths node_count length]. f_equal.
  rewrite concat_length, map_map. f_equal. apply map_ext_Forall. eapply Forall_impl; [exact IH|].
  intros nd H. cbv beta. by rewrite map_length.
Qed.
Lemma paths_reaches nd : forall w, w ∈ paths nd <-> exists nd', reaches nd w nd'.
Proof.
  induction nd as [item weight children IH] using node_ind'. intros w. cbn [paths].
  rewrite elem_of_cons. split.
  - intros [->|H]; [eexists; constructor|].
    apply elem_of_list_In, in_concat in H as (l & Hl & Hw).
    apply in_map_iff in Hl as (child & <- & Hc). apply in_map_iff in Hw as (v & <- & Hv).
    rewrite Forall_forall in IH. apply elem_of_list_In in Hc, Hv.
    apply (IH child Hc) in Hv as (nd' & Hr). exists nd'. by constructor.
  - intros (nd' & Hr). inversion Hr as [|? child v ? Hc Hv]; subst; [by left|]. right.
    cbn [n_children] in Hc. apply elem_of_list_In, in_concat.
    exists (map (cons (n_item child)) (paths child)). split.
    + apply in_map_iff. exists child. split; [done|]. by apply elem_of_list_In.
    + apply in_map. apply elem_of_list_In. rewrite Forall_forall in IH. apply (IH child Hc). eauto.
Qed.
Lemma labelled_NoDup (l : list (N * list (list N))) : NoDup (map fst l) -> Forall (fun x => NoDup x.2) l ->
  NoDup (concat (map (fun '(g, ws) => map (cons g) ws) l)).
Proof.
  induction l as [|[g ws] l IH]; cbn [map concat fst]; [intros; constructor|].
  intros [Hg Hl]%NoDup_cons [Hws HF]%Forall_cons. apply NoDup_app. split; [|split].
  - apply NoDup_fmap_2; [|done]. by intros x y [= ->].
  - intros w Hw Hin. apply elem_of_list_fmap in Hw as (v & -> & _).
    apply elem_of_list_In, in_concat in Hin as (k & Hk & Hv). apply in_map_iff in Hk as ([g' ws'] & <- & Hk).
    apply in_map_iff in Hv as (v' & [= -> ->] & _). apply Hg. apply elem_of_list_fmap.
    exists (g, ws'). split; [done|]. by apply elem_of_list_In.
  - by apply IH.
Qed.
Lemma paths_NoDup nd : (forall w nd', reaches nd w nd' -> NoDup (map n_item (n_children nd'))) -> NoDup (paths nd).
Proof.
  induction nd as [item weight children IH] using node_ind'. intros H. cbn [paths].
  apply NoDup_cons. split.
  - intros Hin. apply elem_of_list_In, in_concat in Hin as (l & Hl & Hw).
    apply in_map_iff in Hl as (child & <- & _). by apply in_map_iff in Hw as (v & ? & _).
  - replace (map (fun child => map (cons (n_item child)) (paths child)) children)
      with (map (fun '(g, ws) => map (cons g) ws) (map (fun child => (n_item child, paths child)) children))
      by (rewrite map_map; by apply map_ext).
    apply labelled_NoDup.
    + rewrite map_map. apply (H [] (Node item weight children)). constructor.
    + apply Forall_forall. intros x Hx. apply elem_of_list_fmap in Hx as (child & -> & Hc). cbn [snd].
      rewrite Forall_forall in IH. apply (IH child Hc). intros w nd' Hr. eapply H. by econstructor.
Qed.

(** ** All paths of a trie *)
Definition trie_path_list (roots : gmap N node) : list (list N) :=
  concat (map (fun '(g, ws) => map (cons g) ws) (map (fun '(g, nd) => (g, paths nd)) (map_to_list roots))).
Lemma trie_path_length roots : length (trie_path_list roots) = trie_nodes roots.
Proof.
  unfold trie_path_list, trie_nodes. rewrite concat_length, !map_map. f_equal. apply map_ext.
  intros [g nd]. by rewrite map_length, paths_length.
Qed.
Lemma trie_path_elem roots w : w ∈ trie_path_list roots <-> exists nd, at_path roots w nd.
Proof.
  unfold trie_path_list, at_path. split.
  - intros H. apply elem_of_list_In, in_concat in H as (l & Hl & Hw). rewrite map_map in Hl.
    apply in_map_iff in Hl as ([g nd] & <- & Hg). apply in_map_iff in Hw as (v & <- & Hv).
    apply elem_of_list_In in Hv, Hg. apply paths_reaches in Hv as (nd' & Hr). apply elem_of_map_to_list in Hg.
    exists nd', g, v, nd. done.
  - intros (nd & g & v & root & -> & Hg & Hr). apply elem_of_list_In, in_concat.
    exists (map (cons g) (paths root)). split.
    + rewrite map_map. apply in_map_iff. exists (g, root). split; [done|].
      apply elem_of_list_In. by apply elem_of_map_to_list.
    + apply in_map. apply elem_of_list_In. apply paths_reaches. eauto.
Qed.
Lemma trie_path_NoDup roots : (forall w nd, at_path roots w nd -> NoDup (map n_item (n_children nd))) ->
  NoDup (trie_path_list roots).
Proof.
  intros H. apply labelled_NoDup.
  - rewrite map_map. replace (map _ (map_to_list roots)) with (map fst (map_to_list roots))
      by (apply map_ext; by intros []). apply NoDup_fst_map_to_list.
  - apply Forall_forall. intros x Hx. apply elem_of_list_fmap in Hx as ([g nd] & -> & Hg). cbn [snd].
    apply elem_of_map_to_list in Hg. apply paths_NoDup. intros w nd' Hr. eapply (H (g :: w)).
    by exists g, w, nd.
Qed.

(** ** The factors of the texts *)
Definition text_factors (n : nat) (t : list N) : list (list N) :=
  concat (map (fun i => map (fun l => take l (drop i t)) (seq 1 n)) (seq 0 (length t))).
Lemma text_factors_length n t : length (text_factors n t) = (n * length t)%nat.
Proof.
  unfold text_factors. rewrite concat_length, map_map.
  rewrite (map_ext _ (fun _ => n)) by (intros; by rewrite map_length, seq_length).
  generalize 0%nat. unfold list_sum. induction (length t) as [|k IH]; intros i; cbn [seq map foldr]; [lia|]. rewrite IH. lia.
Qed.
Lemma text_factors_elem n t w : w <> [] -> (length w <= n)%nat -> occurs w t -> w ∈ text_factors n t.
Proof.
  intros Hw Hl (u & v & ->). unfold text_factors. apply elem_of_list_In, in_concat.
  exists (map (fun l => take l (drop (length u) (u ++ w ++ v))) (seq 1 n)). split.
  - apply in_map_iff. exists (length u). split; [done|]. apply in_seq.
    rewrite !app_length. destruct w; [done|]. cbn. lia.
  - apply in_map_iff. exists (length w). split.
    + by rewrite drop_app, take_app.
    + apply in_seq. destruct w; [done|]. cbn in *. lia.
Qed.

(** ** Posting lists *)
Lemma count_keys (keys ws : list (list N)) : NoDup keys ->
  (list_sum (map (fun key => length (filter (fun w => w = key) ws)) keys) <= length ws)%nat.
Proof.
  intros Hk. induction ws as [|w ws IH].
  - rewrite (map_ext _ (fun _ => 0%nat)) by done. cbn [length]. clear. unfold list_sum.
    induction keys as [|k keys IH]; cbn [map foldr]; lia.
  - assert (E : forall key, length (filter (fun w => w = key) (w :: ws)) =
       ((if decide (w = key) then 1 else 0) + length (filter (fun w => w = key) ws))%nat).
    { intros key. rewrite filter_cons. by destruct (decide (w = key)). }
    rewrite (map_ext _ _ E), list_sum_plus. cbn [length].
    assert (list_sum (map (fun key => if decide (w = key) then 1 else 0)%nat keys) <= 1)%nat; [|lia].
    clear -Hk. unfold list_sum. induction Hk as [|k keys Hk Hnd IH]; cbn [map foldr]; [lia|].
    destruct (decide (w = k)) as [->|]; [|lia].
    assert (foldr Nat.add 0 (map (fun key => if decide (k = key) then 1 else 0) keys) = 0)%nat; [|lia].
    clear -Hk. induction keys as [|k' keys IH]; cbn [map foldr]; [done|].
    rewrite elem_of_cons in Hk. destruct (decide (k = k')); [tauto|]. apply IH. tauto.
Qed.
Lemma owners_total n source (keys : list (list N)) : NoDup keys ->
  (N.of_nat (list_sum (map (fun key => length (owners n source key)) keys)) <= total_grams (map snd source)).
Proof.
  intros Hk. induction source as [|[p t] source IH].
  - cbn. assert (list_sum (map (fun _ : list N => 0%nat) keys) = 0%nat) as E; [|unfold owners; cbn; by rewrite E].
    clear. unfold list_sum. induction keys; cbn [map foldr]; lia.
  - assert (E : forall key, length (owners n ((p, t) :: source) key) =
      (length (filter (fun w => w = key) (windows n t)) + length (owners n source key))%nat).
    { intros key. unfold owners. cbn [map concat]. by rewrite app_length, replicate_length. }
    rewrite (map_ext _ _ E), list_sum_plus. unfold total_grams in *. cbn [map sum_N foldr snd].
    pose proof (count_keys keys (windows n t) Hk) as C. unfold windows in C at 2. rewrite map_length, seq_length in C.
    unfold sum_N, lenN in *. lia.
Qed.

Section built.
Context (P : platform) (n : nat) (o : build_order) (source : list (product * list N)) (pc : container)
  (gi : gram_index).
Context (Hn : (1 <= n)%nat) (Ho : valid_build_order o)
  (Hlim : total_grams (map snd source) < 2 ^ 32) (H : index_from P n o source pc = Done gi).

Lemma node_total : exists ws, NoDup ws /\ trie_nodes (gi_roots gi) = length ws /\
  forall w, w ∈ ws <-> w <> [] /\ (length w <= n)%nat /\ exists p t, (p, t) ∈ source /\ occurs w t.
Proof.
  exists (trie_path_list (gi_roots gi)). split; [|split].
  - apply trie_path_NoDup. intros w nd Hw. by apply (trie_children P n o source pc gi Hn Ho Hlim H w nd).
  - symmetry. apply trie_path_length.
  - intros w. rewrite trie_path_elem. apply (trie_paths P n o source pc gi Hn Ho Hlim H).
Qed.
Lemma node_bound : N.of_nat (trie_nodes (gi_roots gi)) <= N.of_nat n * total_grams (map snd source).
Proof.
  destruct node_total as (ws & Hnd & -> & Hws).
  assert (Hle : (length ws <= length (concat (map (text_factors n) (map snd source))))%nat).
  { apply submseteq_length, NoDup_submseteq; [done|]. intros w (Hw & Hl & p & t & Hpt & Hocc)%Hws.
    apply elem_of_list_In, in_concat. exists (text_factors n t). split.
    - apply in_map. apply in_map_iff. exists (p, t). split; [done|]. by apply elem_of_list_In.
    - apply elem_of_list_In. by apply text_factors_elem. }
  rewrite concat_length, map_map in Hle.
  assert (E : forall texts, N.of_nat (list_sum (map (fun t => length (text_factors n t)) texts)) =
            N.of_nat n * total_grams texts).
  { induction texts as [|t texts IH]; unfold total_grams, list_sum, sum_N in *; cbn [map foldr]; [lia|].
    rewrite Nat2N.inj_add, IH, text_factors_length. unfold lenN. lia. }
  rewrite <- E. lia.
Qed.
Lemma posting_bound : N.of_nat (size (gi_data gi)) <= N.of_nat (posting_entries (gi_data gi)) /\
  N.of_nat (posting_entries (gi_data gi)) <= total_grams (map snd source).
Proof.
  pose proof (index_from_built _ _ _ _ _ _ Hn Ho Hlim H) as IB.
  assert (Hp : forall key l, (key, l) ∈ map_to_list (gi_data gi) ->
    length l = length (owners n source key) /\ (1 <= length l)%nat).
  { intros key l Hkl. apply elem_of_map_to_list in Hkl.
    apply (postings P n source pc gi IB) in Hkl as (-> & Hne & _). rewrite sort_by_length.
    split; [done|]. destruct (owners n source key); [done|]. cbn. lia. }
  unfold posting_entries. replace (size (gi_data gi)) with (length (map_to_list (gi_data gi))) by reflexivity. split.
  - assert (G : forall l : list (list N * list product), (forall key v, (key, v) ∈ l -> (1 <= length v)%nat) ->
      (length l <= list_sum (map (fun '(_, v) => length v) l))%nat).
    { unfold list_sum. induction l as [|[key v] l IH]; intros Hl; cbn [length map foldr]; [lia|].
      pose proof (Hl key v ltac:(left)). assert (length l <= foldr Nat.add 0 (map (fun '(_, v) => length v) l))%nat
        by (apply IH; intros k v' Hin; eapply Hl; by right). lia. }
    pose proof (G (map_to_list (gi_data gi)) ltac:(intros key v Hin; by apply (Hp key v))). lia.
  - etrans; [|apply (owners_total n source (map fst (map_to_list (gi_data gi)))); apply NoDup_fst_map_to_list].
    rewrite map_map.
    assert (list_sum (map (fun '(_, l) => length l) (map_to_list (gi_data gi))) =
      list_sum (map (fun x => length (owners n source x.1)) (map_to_list (gi_data gi)))) as ->; [|done].
    f_equal. apply map_ext_in. intros [key l] Hin%elem_of_list_In. by apply Hp.
Qed.

(** No node has more children than there are different grams. *)
Lemma children_alphabet w nd : at_path (gi_roots gi) w nd ->
  (length (n_children nd) <= length (alphabet (map snd source)))%nat.
Proof.
  intros Hw. destruct (trie_children P n o source pc gi Hn Ho Hlim H w nd Hw) as [Hnd _].
  pose proof (index_from_built _ _ _ _ _ _ Hn Ho Hlim H) as IB.
  rewrite <- (map_length n_item). apply submseteq_length, NoDup_submseteq; [done|].
  intros g Hg. apply elem_of_list_fmap in Hg as (child & -> & Hc).
  pose proof (at_path_down gi w nd child Hw Hc) as Hd.
  destruct (trie_paths P n o source pc gi Hn Ho Hlim H) as [HP _].
  destruct (proj1 (HP (w ++ [n_item child]))) as (_ & _ & p & t & Hpt & u & v & ->); [eauto|].
  unfold alphabet. apply elem_of_remove_dups. apply elem_of_list_In, in_concat. exists (u ++ (w ++ [n_item child]) ++ v). split.
  - apply in_map_iff. exists (p, u ++ (w ++ [n_item child]) ++ v). split; [done|]. by apply elem_of_list_In.
  - apply elem_of_list_In. rewrite !elem_of_app. right. left. right. left.
Qed.
Lemma root_wide g root : gi_roots gi !! g = Some root -> wide (length (alphabet (map snd source))) root.
Proof. intros Hg w nd Hr. apply (children_alphabet (g :: w)). by exists g, w, root. Qed.

Lemma depth_bound : forall w nd, at_path (gi_roots gi) w nd -> (length w + node_depth nd <= S n)%nat.
Proof.
  pose proof (index_from_built _ _ _ _ _ _ Hn Ho Hlim H) as IB.
  destruct (trie_paths P n o source pc gi Hn Ho Hlim H) as [HP _].
  intros w nd. revert w. induction nd as [item weight children IH] using node_ind'. intros w Hw. cbn [node_depth].
  assert (Hl : (length w <= n)%nat) by (apply (HP w); eauto).
  assert (list_max (map node_depth children) <= n - length w)%nat; [|lia].
  apply list_max_le. apply Forall_fmap, Forall_forall. intros child Hc. cbn [compose].
  rewrite Forall_forall in IH. pose proof (IH child Hc (w ++ [n_item child]) (at_path_down gi w _ child Hw Hc)) as G.
  rewrite app_length in G. cbn in G. lia.
Qed.
End built.
