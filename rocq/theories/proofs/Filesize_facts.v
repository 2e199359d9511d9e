(** C132: the size of the trie and of the posting lists in a file. *)
From Verif.model Require Import Base F32 Utf8 Prim Coll Data Gram Indexer Nodes.
From Verif.spec Require Import Spec Data_spec Gram_spec Cost_spec Samples Filesize_spec.
From Verif.proofs Require Import Base_facts Sort_facts Prim_facts File_facts Data_facts Indexer_facts Trie_facts Trie_props Size_facts Length_facts.
From Coq Require Import ZifyBool ZifyNat ZifyN Sorting.Sorted.
Ltac Zify.zify_post_hook ::= Z.div_mod_to_equations.

Lemma enc_number v : lenN (enc_u64 v) = number_bytes v.
Proof.
  rewrite enc_u64_length. unfold groups, number_bytes. destruct (N.eq_dec v 0) as [->|H]; [done|].
  rewrite N.size_log2 by done. lia.
Qed.
Lemma number_mono a b : a <= b -> number_bytes a <= number_bytes b.
Proof. intros H. unfold number_bytes. apply N.log2_le_mono in H. lia. Qed.
Lemma number_pos a : 1 <= number_bytes a.
Proof. unfold number_bytes. lia. Qed.
Lemma number_plus a b : number_bytes (a + b) <= number_bytes a + number_bytes b.
Proof.
  unfold number_bytes.
  assert (H : N.log2 (a + b) <= N.max (N.log2 a) (N.log2 b) + 1).
  { etrans; [apply (N.log2_le_mono _ (2 * N.max a b)); lia|].
    destruct (N.eq_dec (N.max a b) 0) as [E|E]; [rewrite E; simpl; lia|].
    rewrite N.log2_double by lia. destruct (N.max_spec a b) as [[? ->]|[? ->]]; lia. }
  lia.
Qed.

(** ** Sums *)
Lemma sum_app l k : sum_N (l ++ k) = sum_N l + sum_N k.
Proof. induction l as [|x l IH]; [done|]. cbn [app]. unfold sum_N in *. cbn [foldr]. lia. Qed.
Lemma sum_cons x l : sum_N (x :: l) = x + sum_N l.
Proof. done. Qed.
Lemma sum_perm_N l k : l ≡ₚ k -> sum_N l = sum_N k.
Proof. induction 1; rewrite ?sum_cons; lia. Qed.
Lemma sum_le {A} (f g : A -> N) l : (forall x, x ∈ l -> f x <= g x) -> sum_N (map f l) <= sum_N (map g l).
Proof.
  induction l as [|x l IH]; intros H; [done|]. cbn [map]. rewrite !sum_cons.
  pose proof (H x ltac:(left)). assert (sum_N (map f l) <= sum_N (map g l)) by (apply IH; intros; apply H; by right). lia.
Qed.
Lemma sum_ext {A} (f g : A -> N) l : (forall x, x ∈ l -> f x = g x) -> sum_N (map f l) = sum_N (map g l).
Proof. intros H. apply N.le_antisymm; apply sum_le; intros x Hx; rewrite (H x Hx); lia. Qed.
Lemma sum_concat (ls : list (list N)) : sum_N (concat ls) = sum_N (map sum_N ls).
Proof. induction ls as [|l ls IH]; [done|]. cbn [concat map]. by rewrite sum_app, IH, sum_cons. Qed.
Lemma sum_plus {A} (f g : A -> N) l : sum_N (map (fun x => f x + g x) l) = sum_N (map f l) + sum_N (map g l).
Proof. induction l as [|x l IH]; [done|]. cbn [map]. rewrite !sum_cons. lia. Qed.
Lemma sum_submseteq {A} (f : A -> N) l k : l ⊆+ k -> sum_N (map f l) <= sum_N (map f k).
Proof.
  intros H. apply submseteq_Permutation in H as [r E]. rewrite (sum_perm_N _ _ (Permutation_map f E)), map_app, sum_app. lia.
Qed.
Lemma lenN_concat {A} (ls : list (list A)) : lenN (concat ls) = sum_N (map lenN ls).
Proof. induction ls as [|l ls IH]; [done|]. cbn [concat map]. rewrite lenN_app, IH, sum_cons. done. Qed.
Lemma lenN_le_sub {A} (l k : list A) : l ⊆+ k -> lenN l <= lenN k.
Proof. intros H. apply submseteq_length in H. unfold lenN. lia. Qed.

(** ** The trie *)
Fixpoint spots (nd : node) : list (list N * node) :=
  match nd with
  | Node item weight children =>
    ([], nd) :: concat (map (fun child => map (fun x => (n_item child :: x.1, x.2)) (spots child)) children)
  end.
Definition spot_bytes (x : list N * node) : N :=
  number_bytes (n_item x.2) + 4 + number_bytes (lenN (n_children x.2)).
Lemma spots_paths nd : map fst (spots nd) = paths nd.
Proof.
  induction nd as [item weight children IH] using node_ind'. cbn [spots paths map fst]. f_equal.
  rewrite concat_map, map_map. f_equal. apply map_ext_in. intros child Hc%elem_of_list_In.
  rewrite Forall_forall in IH. rewrite <- (IH child Hc), !map_map. done.
Qed.
Lemma spots_reach nd : forall w nd', (w, nd') ∈ spots nd -> reaches nd w nd'.
Proof.
  induction nd as [item weight children IH] using node_ind'. intros w nd' H. cbn [spots] in H.
  apply elem_of_cons in H as [[= -> ->]|H]; [constructor|].
  apply elem_of_list_In, in_concat in H as (l & Hl & Hw). apply in_map_iff in Hl as (child & <- & Hc).
  apply in_map_iff in Hw as ([v nd''] & [= <- <-] & Hv). apply elem_of_list_In in Hv, Hc.
  rewrite Forall_forall in IH. econstructor; [done|]. by apply (IH child Hc).
Qed.
Lemma spots_bytes nd : lenN (enc_node nd) = sum_N (map spot_bytes (spots nd)).
Proof.
  induction nd as [item weight children IH] using node_ind'. unfold lenN. rewrite enc_node_length. cbn [spots map].
  rewrite sum_cons. unfold spot_bytes at 1. cbn [fst snd n_item n_children].
  rewrite concat_map, sum_concat, map_map, map_map.
  rewrite <- !enc_number. unfold enc_char, enc_u32, enc_usize.
  assert (E : N.of_nat (list_sum (map (fun nd => length (enc_node nd)) children)) =
    sum_N (map (fun x => sum_N (map spot_bytes (map (fun y => (n_item x :: y.1, y.2)) (spots x)))) children)).
  { clear -IH. induction IH as [|child children Hc _ IHl]; [done|]. cbn [map]. rewrite sum_cons, <- IHl.
    unfold list_sum in *. cbn [foldr]. unfold lenN in Hc. rewrite Nat2N.inj_add, Hc. f_equal. rewrite map_map. done. }
  rewrite <- E. unfold lenN. lia.
Qed.
Definition all_spots (roots : gmap N node) : list (list N * node) :=
  concat (map (fun '(g, nd) => map (fun x => (g :: x.1, x.2)) (spots nd)) (map_to_list roots)).
Lemma all_spots_paths roots : map fst (all_spots roots) = trie_path_list roots.
Proof.
  unfold all_spots, trie_path_list. rewrite concat_map, !map_map. f_equal. apply map_ext. intros [g nd].
  rewrite <- spots_paths, !map_map. done.
Qed.
Lemma all_spots_at roots w nd : (w, nd) ∈ all_spots roots -> at_path roots w nd.
Proof.
  intros H. apply elem_of_list_In, in_concat in H as (l & Hl & Hw). apply in_map_iff in Hl as ([g root] & <- & Hg).
  apply in_map_iff in Hw as ([v nd'] & [= <- <-] & Hv). apply elem_of_list_In in Hv, Hg.
  apply elem_of_map_to_list in Hg. exists g, v, root. split; [done|]. split; [done|]. by apply spots_reach.
Qed.
Lemma root_bytes_spots roots : N.of_nat (root_bytes (map_to_list roots)) =
  sum_N (map (fun x => number_bytes x.1) (map_to_list roots)) + sum_N (map spot_bytes (all_spots roots)).
Proof.
  unfold root_bytes, all_spots. rewrite concat_map, sum_concat, !map_map.
  induction (map_to_list roots) as [|[g nd] l IH]; [done|]. cbn [map]. rewrite !sum_cons.
  unfold list_sum in *. cbn [foldr]. rewrite !Nat2N.inj_add, IH. cbn [fst].
  pose proof (spots_bytes nd) as E. unfold lenN in E. rewrite E.
  pose proof (enc_number g) as F. unfold lenN in F. unfold enc_char, enc_u32. rewrite F.
  rewrite map_map. cbn. unfold spot_bytes. cbn. lia.
Qed.

(** ** Pieces *)
Lemma pieces_elem n texts w : w ∈ pieces n texts <-> w <> [] /\ (length w <= n)%nat /\ exists t, t ∈ texts /\ occurs w t.
Proof.
  unfold pieces. rewrite elem_of_remove_dups. split.
  - intros H. apply elem_of_list_In, in_concat in H as (l & Hl & Hw). apply in_map_iff in Hl as (t & <- & Ht).
    apply in_concat in Hw as (l & Hl & Hw). apply in_map_iff in Hl as (i & <- & Hi). apply in_map_iff in Hw as (k & <- & Hk).
    apply in_seq in Hi, Hk. split.
    { destruct (drop i t) as [|x r] eqn:E; [|by destruct k; [lia|]].
      apply (f_equal length) in E. rewrite drop_length in E. cbn in E. lia. }
    split; [rewrite take_length; lia|]. exists t. split; [by apply elem_of_list_In|].
    exists (take i t), (drop k (drop i t)). by rewrite !take_drop.
  - intros (Hw & Hl & t & Ht & Ho). apply elem_of_list_In, in_concat. exists (pieces_of n t).
    split; [apply in_map; by apply elem_of_list_In|]. apply elem_of_list_In. by apply text_factors_elem.
Qed.
Lemma pieces_NoDup n texts : NoDup (pieces n texts).
Proof. apply NoDup_remove_dups. Qed.
Lemma last_char_snoc w g : last_char (w ++ [g]) = g.
Proof. apply List.last_last. Qed.
Lemma last_last_char w g : last w = Some g -> last_char w = g.
Proof.
  destruct w as [|x w] using rev_ind; [done|]. rewrite last_snoc. intros [= ->]. apply last_char_snoc.
Qed.

Section built.
Context (P : platform) (n : nat) (o : build_order) (source : list (product * list N)) (pc : container)
  (gi : gram_index).
Context (Hn : (1 <= n)%nat) (Ho : valid_build_order o)
  (Hlim : total_grams (map snd source) < 2 ^ 32) (H : index_from P n o source pc = Done gi).
Let texts := map snd source.
Let IB := index_from_built P n o source pc gi Hn Ho Hlim H.

Lemma pieces_paths : pieces n texts ≡ₚ trie_path_list (gi_roots gi).
Proof.
  apply NoDup_Permutation; [apply pieces_NoDup| |].
  - apply trie_path_NoDup. intros w nd Hw. by apply (trie_children P n o source pc gi Hn Ho Hlim H w nd).
  - intros w. rewrite trie_path_elem, (proj1 (trie_paths P n o source pc gi Hn Ho Hlim H)), pieces_elem.
    split; intros (? & ? & Hx); (split; [done|]; split; [done|]).
    + destruct Hx as (t & Ht & ?). apply elem_of_list_fmap in Ht as ([p t'] & -> & ?). eauto.
    + destruct Hx as (p & t & ? & ?). exists t. split; [|done]. apply elem_of_list_fmap. by exists (p, t).
Qed.
Lemma spot_piece w nd : at_path (gi_roots gi) w nd -> spot_bytes (w, nd) = piece_bytes (pieces n texts) w.
Proof.
  intros Hw. unfold spot_bytes, piece_bytes. cbn [snd].
  destruct (trie_weights P n o source pc gi Hn Ho Hlim H w nd Hw) as (Hl & _ & _).
  rewrite (last_last_char _ _ Hl). do 2 f_equal.
  destruct (at_path_children P n source pc gi Hn Hlim IB w nd Hw) as (Nd & _ & Hc).
  assert (E : map (fun c => w ++ [n_item c]) (n_children nd) ≡ₚ filter (fun v => removelast v = w) (pieces n texts)).
  { apply NoDup_Permutation.
    - rewrite <- (map_map n_item (fun g => w ++ [g])). apply (NoDup_fmap_2_strong (fun g => w ++ [g])); [|done].
      intros x y _ _ E. apply app_inj_tail in E as [_ ->]. done.
    - apply NoDup_filter, pieces_NoDup.
    - intros v. rewrite elem_of_list_filter, pieces_paths, trie_path_elem. split.
      + intros (c & -> & Hcc)%elem_of_list_fmap. split; [apply removelast_last|]. apply Hc. eauto.
      + intros [E (nd' & Hv)].
        destruct v as [|g v _] using rev_ind. { destruct Hv as (? & ? & ? & ? & _). done. }
        rewrite removelast_last in E. subst v.
        destruct (proj2 (Hc g) (ex_intro _ _ Hv)) as (c & Hcc & <-). apply elem_of_list_fmap. eauto. }
  apply Permutation_length in E. rewrite map_length in E. unfold lenN. by rewrite E.
Qed.
Lemma trie_part : N.of_nat (length (enc_usize (N.of_nat (size (gi_roots gi)))) + root_bytes (map_to_list (gi_roots gi))) =
  trie_bytes n texts.
Proof.
  rewrite Nat2N.inj_add, root_bytes_spots. unfold trie_bytes, enc_usize.
  pose proof (enc_number (N.of_nat (size (gi_roots gi)))) as E0. unfold lenN in E0. rewrite E0. clear E0.
  assert (E : map (fun g => [g]) (map fst (map_to_list (gi_roots gi))) ≡ₚ filter single (pieces n texts)).
  { apply NoDup_Permutation.
    - apply (NoDup_fmap_2_strong (fun g => [g])); [by intros x y _ _ [= ->]|]. apply NoDup_fst_map_to_list.
    - apply NoDup_filter, pieces_NoDup.
    - intros v. rewrite elem_of_list_filter, pieces_paths, trie_path_elem. split.
      + intros (g & -> & Hg)%elem_of_list_fmap. split; [done|]. apply elem_of_list_fmap in Hg as ([g' nd] & -> & Hg).
        apply elem_of_map_to_list in Hg. exists nd, g', [], nd. split; [done|]. split; [done|constructor].
      + intros [S (nd & g & w & root & -> & Hg & _)]. destruct w; [|done]. apply elem_of_list_fmap. exists g. split; [done|].
        apply elem_of_list_fmap. exists (g, root). split; [done|]. by apply elem_of_map_to_list. }
  rewrite <- (sum_perm_N _ _ (Permutation_map (fun w => number_bytes (last_char w)) E)).
  apply Permutation_length in E. rewrite !map_length in E. unfold lenN. rewrite <- E. rewrite !map_map.
  assert (Sp : sum_N (map spot_bytes (all_spots (gi_roots gi))) = sum_N (map (piece_bytes (pieces n texts)) (pieces n texts))).
  { rewrite (sum_perm_N _ _ (Permutation_map _ pieces_paths)), <- all_spots_paths, map_map. apply sum_ext.
    intros [w nd] Hw. apply spot_piece. by apply all_spots_at. }
  rewrite Sp. unfold size, map_size. cbn [last_char List.last]. lia.
Qed.
End built.

(** ** Places *)
Definition events (n : nat) (texts : list (list N)) : list (list N * N) :=
  concat (imap (fun i t => map (fun w => (w, N.of_nat i)) (windows n t)) texts).
Lemma filter_fst_pair {A} `{EqDecision A} (ws : list A) (x : N) key :
  map snd (filter (fun e : A * N => e.1 = key) (map (fun w => (w, x)) ws)) = replicate (length (filter (fun w => w = key) ws)) x.
Proof.
  induction ws as [|w ws IH]; [done|]. cbn [map]. rewrite !filter_cons. cbn [fst].
  destruct (decide (w = key)); [|done]. cbn [map length replicate snd]. by rewrite IH.
Qed.
Lemma places_events n texts key : places n texts key = map snd (filter (fun e : list N * N => e.1 = key) (events n texts)).
Proof.
  unfold places, events.
  assert (G : forall (f : nat -> list N -> list N) (g : nat -> list N -> list (list N * N)) texts,
    (forall i t, f i t = map snd (filter (fun e : list N * N => e.1 = key) (g i t))) ->
    concat (imap f texts) = map snd (filter (fun e : list N * N => e.1 = key) (concat (imap g texts)))).
  { clear. intros f g texts. revert f g. induction texts as [|t texts IH]; intros f g E; [done|]. cbn [imap concat].
    rewrite filter_app, map_app, <- E. f_equal. apply (IH (f ∘ S) (g ∘ S)). intros i t'. apply E. }
  apply G. intros i t. symmetry. apply filter_fst_pair.
Qed.
Lemma events_sorted n texts : StronglySorted N.le (map snd (events n texts)).
Proof.
  unfold events.
  assert (G : forall k texts, StronglySorted N.le (map snd (concat (imap (fun i t => map (fun w => (w, N.of_nat (k + i))) (windows n t)) texts))) /\
    Forall (fun x => N.of_nat k <= x) (map snd (concat (imap (fun i t => map (fun w => (w, N.of_nat (k + i))) (windows n t)) texts)))).
  { clear. intros k texts. revert k. induction texts as [|t texts IH]; intros k; [split; constructor|]. cbn [imap concat].
    assert (E : imap ((fun i t => map (fun w => (w, N.of_nat (k + i))) (windows n t)) ∘ S) texts =
      imap (fun i t => map (fun w => (w, N.of_nat (S k + i))) (windows n t)) texts).
    { apply imap_ext. intros i t' _. cbn. apply map_ext. intros w. do 2 f_equal. lia. }
    rewrite E. destruct (IH (S k)) as [S1 F1]. rewrite map_app, map_map. cbn [snd].
    assert (R : map (fun _ : list N => N.of_nat (k + 0)) (windows n t) = replicate (length (windows n t)) (N.of_nat k)).
    { rewrite Nat.add_0_r. induction (windows n t) as [|w ws IHw]; [done|]. cbn [map length replicate]. by rewrite IHw. }
    rewrite R. generalize (length (windows n t)) as m. intros m. split.
    - induction m as [|m IHm]; [done|]. cbn [replicate app]. constructor; [done|]. apply Forall_app. split.
      + apply Forall_replicate. lia.
      + eapply Forall_impl; [exact F1|]. intros x Hx. cbn in Hx. lia.
    - apply Forall_app. split; [apply Forall_replicate; lia|]. eapply Forall_impl; [exact F1|]. intros x Hx. cbn in Hx. lia. }
  apply (G 0%nat texts).
Qed.
Lemma sorted_filter {A} `{forall x : A, Decision (Q x)} (l : list A) (f : A -> N) (Q' := Q) :
  StronglySorted N.le (map f l) -> StronglySorted N.le (map f (filter Q l)).
Proof.
  induction l as [|x l IH]; intros S; [constructor|]. cbn [map] in S. apply StronglySorted_inv in S as [S F].
  rewrite filter_cons. destruct (decide (Q x)); [|auto]. cbn [map]. constructor; [auto|].
  apply Forall_forall. intros y (a & -> & Ha)%elem_of_list_fmap. apply elem_of_list_filter in Ha as [_ Ha].
  rewrite Forall_forall in F. apply F. apply elem_of_list_fmap. eauto.
Qed.
Lemma places_sorted n texts key : StronglySorted N.le (places n texts key).
Proof. rewrite places_events. apply sorted_filter, events_sorted. Qed.
Lemma deltas_bytes l : forall p, lenN (concat (map enc_usize (deltas (Some p) l))) = gaps_bytes p l.
Proof.
  induction l as [|x l IH]; intros p; [done|]. cbn [deltas map concat gaps_bytes]. rewrite lenN_app, IH.
  unfold enc_usize at 1. by rewrite enc_number.
Qed.
Lemma enc_seq_bytes l k : l ≡ₚ k -> StronglySorted N.le k -> lenN (enc_seq l) = list_bytes k.
Proof.
  intros E S. unfold enc_seq.
  assert (Q : sort_by N.compare l = k).
  { apply (sorted_perm_eq N.le).
    - intros x y ? ?. lia.
    - pose proof (sort_by_total_sorted N.compare l N_compare_total) as T.
      clear -T. induction T as [|x l' T IH F]; constructor; [done|]. eapply Forall_impl; [exact F|].
      intros y Hy. unfold le_cmp in Hy. by apply N.compare_le_iff in Hy.
    - done.
    - by rewrite sort_by_perm. }
  rewrite Q. unfold list_bytes. rewrite lenN_app. unfold enc_usize at 1. rewrite enc_number. f_equal.
  destruct k as [|x k]; [done|]. cbn [deltas map concat gaps_bytes]. rewrite lenN_app, deltas_bytes.
  unfold enc_usize. rewrite enc_number. by rewrite N.sub_0_r.
Qed.
Lemma enc_key_bytes key : lenN (enc_array enc_char key) = key_bytes key.
Proof.
  unfold enc_array, key_bytes. rewrite lenN_app, enc_number. f_equal. rewrite lenN_concat, map_map. f_equal.
  apply map_ext. intros c. apply enc_number.
Qed.
Lemma owners_places n ps (text : product -> list N) key : positions ps ->
  map p_sid (owners n (map (fun p => (p, text p)) ps) key) = places n (map text ps) key.
Proof.
  intros Hp. unfold owners, places. rewrite concat_map, map_map.
  assert (G : forall k ps, (forall i p, ps !! i = Some p -> p_sid p = N.of_nat (k + i)) ->
    concat (map (fun x => map p_sid (let '(p, t) := x in replicate (length (filter (fun w => w = key) (windows n t))) p)) (map (fun p => (p, text p)) ps)) =
    concat (imap (fun i t => replicate (length (filter (fun w => w = key) (windows n t))) (N.of_nat (k + i))) (map text ps))).
  { clear. intros k ps. revert k. induction ps as [|p ps IH]; intros k Hk; [done|]. cbn [map imap concat]. f_equal.
    - rewrite <- (Hk 0%nat p eq_refl) at 1. generalize (length (filter (fun w => w = key) (windows n (text p)))). clear. rewrite ?Nat.add_0_r.
      intros m. induction m as [|m IH]; [done|]. cbn [replicate map]. by rewrite IH.
    - rewrite (IH (S k)); [|intros i q Hq; rewrite (Hk (S i) q Hq); lia]. f_equal. apply imap_ext. intros i t _. cbn. do 2 f_equal. lia. }
  rewrite map_map. specialize (G 0%nat ps Hp). rewrite map_map in G. exact G.
Qed.

Section posted.
Context (P : platform) (n : nat) (o : build_order) (ps : list product) (text : product -> list N) (pc : container)
  (gi : gram_index).
Let source := map (fun p => (p, text p)) ps.
Let texts := map text ps.
Context (Hn : (1 <= n)%nat) (Ho : valid_build_order o) (Hps : positions ps)
  (Hlim : total_grams (map snd source) < 2 ^ 32) (H : index_from P n o source pc = Done gi).
Let IB := index_from_built P n o source pc gi Hn Ho Hlim H.
Let limit := maximum_product_amount P (lenN (c_products pc)).

Lemma places_nil key : places n texts key = [] <-> key ∉ concat (map (windows n) texts).
Proof.
  rewrite places_events. split.
  - intros E Hk. apply elem_of_list_In, in_concat in Hk as (l & Hl & Hw). apply in_map_iff in Hl as (t & <- & Ht).
    apply elem_of_list_In, elem_of_list_lookup in Ht as [i Ht]. apply elem_of_list_In in Hw.
    assert (X : (key, N.of_nat i) ∈ filter (fun e : list N * N => e.1 = key) (events n texts)).
    { apply elem_of_list_filter. split; [done|]. unfold events. apply elem_of_list_In, in_concat.
      exists (map (fun w => (w, N.of_nat i)) (windows n t)). split.
      - apply elem_of_list_In, elem_of_list_lookup. exists i. by rewrite list_lookup_imap, Ht.
      - apply in_map_iff. exists key. split; [done|]. by apply elem_of_list_In. }
    destruct (filter _ (events n texts)); [by apply elem_of_nil in X|done].
  - intros Hk. destruct (filter _ (events n texts)) as [|[w x] l] eqn:E; [done|]. exfalso. apply Hk.
    assert (X : (w, x) ∈ filter (fun e : list N * N => e.1 = key) (events n texts)) by (rewrite E; left).
    apply elem_of_list_filter in X as [<- X]. cbn [fst]. unfold events in X. apply elem_of_list_In, in_concat in X as (l' & Hl & Hw).
    apply elem_of_list_In, elem_of_list_lookup in Hl as [i Hl]. rewrite list_lookup_imap in Hl.
    destruct (texts !! i) as [t|] eqn:Et; [|done]. injection Hl as <-. apply in_map_iff in Hw as (w' & [= <- _] & Hw).
    apply elem_of_list_In, in_concat. exists (windows n t). split; [|done]. apply in_map, elem_of_list_In. by eapply elem_of_list_lookup_2.
Qed.
Lemma owners_of key : map p_sid (owners n source key) = places n texts key.
Proof. by apply owners_places. Qed.
Lemma data_windows : map_to_list (gi_data gi) ≡ₚ
  map (fun key => (key, sort_by product_cmp (owners n source key))) (kept_windows n limit texts).
Proof.
  apply NoDup_Permutation.
  - apply NoDup_map_to_list.
  - apply (NoDup_fmap_2_strong (fun key => (key, sort_by product_cmp (owners n source key)))); [by intros x y _ _ [= ->]|].
    apply NoDup_filter, NoDup_remove_dups.
  - intros [key l]. rewrite elem_of_map_to_list, (ib_data _ _ _ _ _ IB). cbv zeta. fold limit.
    assert (L : lenN (owners n source key) = lenN (places n texts key)) by (rewrite <- owners_of; unfold lenN; by rewrite map_length).
    assert (E : owners n source key = [] <-> places n texts key = []).
    { rewrite <- owners_of. split; [by intros ->|]. intros E. by apply map_eq_nil in E. }
    rewrite elem_of_list_fmap. split.
    + case_bool_decide as B; [|done]. destruct B as [B1 B2]. intros [= <-]. exists key. split; [done|].
      apply elem_of_list_filter. rewrite L in B2. split; [done|]. apply elem_of_remove_dups.
      destruct (decide (key ∈ concat (map (windows n) texts))) as [?|N']; [done|]. exfalso. apply B1, E. by apply places_nil.
    + intros (key' & [= <- ->] & Hk). apply elem_of_list_filter in Hk as [Hl Hk]. rewrite elem_of_remove_dups in Hk.
      rewrite bool_decide_eq_true_2; [done|]. rewrite L. split; [|done]. intros X. apply E in X. by apply places_nil in X.
Qed.
Lemma posting_part : lenN (enc_map no_order (enc_array enc_char) enc_product_refs (gi_data gi)) = posting_bytes n limit texts.
Proof.
  unfold lenN. rewrite enc_map_length by (by intros l). rewrite Nat2N.inj_add. unfold posting_bytes.
  pose proof data_windows as D. f_equal.
  - pose proof (enc_number (N.of_nat (size (gi_data gi)))) as E. unfold lenN, enc_usize in *. rewrite E. f_equal.
    unfold size, map_size. rewrite (Permutation_length D), map_length. done.
  - rewrite (sum_map_perm _ _ _ D), map_map.
    assert (G : forall ks : list (list N), N.of_nat (list_sum (map (fun x => length (enc_array enc_char x) + length (enc_product_refs (sort_by product_cmp (owners n source x))))%nat ks)) =
      sum_N (map (fun key => key_bytes key + list_bytes (places n texts key)) ks)).
    { induction ks as [|k ks IH]; [done|]. cbn [map]. rewrite sum_cons, <- IH. unfold list_sum. cbn [foldr].
      pose proof (enc_key_bytes k) as E1. unfold lenN in E1.
      assert (E2 : lenN (enc_product_refs (sort_by product_cmp (owners n source k))) = list_bytes (places n texts k)).
      { unfold enc_product_refs. apply enc_seq_bytes; [|apply places_sorted]. rewrite <- owners_of. apply Permutation_map, sort_by_perm. }
      unfold lenN in E2. lia. }
    exact (G _).
Qed.
End posted.
