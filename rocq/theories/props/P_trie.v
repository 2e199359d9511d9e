(** C24-C30: what the indexer builds. [source] is the list of products with their texts. *)
From Verif.model Require Import Base F32 Utf8 Prim Coll Data Gram Indexer.
From Verif.spec Require Import Spec Data_spec Gram_spec Samples Gram_samples.
From Verif.proofs Require Import Float_facts Cutoff_facts Trie_props Example_facts Window_exact.

(** Indexing always succeeds, so the theorems below are about an index that exists. *)
Theorem C24_index_total : forall P n o source pc, (1 <= n)%nat -> valid_build_order o ->
  total_grams (map snd source) < 2 ^ 32 -> exists gi, index_from P n o source pc = Done gi.
Proof. exact index_total. Qed.
Print Assumptions C24_index_total.
(** C24: a path exists exactly when its grams occur in some text, and it leads to one node. *)
Theorem C24_trie_factors : forall P n o source pc gi, (1 <= n)%nat -> valid_build_order o ->
  total_grams (map snd source) < 2 ^ 32 -> index_from P n o source pc = Done gi ->
  (forall w, (exists nd, at_path (gi_roots gi) w nd) <->
      w <> [] /\ (length w <= n)%nat /\ exists p t, (p, t) ∈ source /\ occurs w t) /\
  (forall w nd1 nd2, at_path (gi_roots gi) w nd1 -> at_path (gi_roots gi) w nd2 -> nd1 = nd2).
Proof. exact trie_paths. Qed.
Print Assumptions C24_trie_factors.
Example C24_hyps : valid_build_order hash_order /\ total_grams (map snd repeating) = 14 /\
  exists gi, index_from wasm32 2 hash_order repeating (plain_container repeating) = Done gi /\
    size (gi_roots gi) = 6%nat.
Proof.
  split; [exact hash_order_valid|]. split; [vm_compute; reflexivity|].
  eexists. split; vm_compute; reflexivity.
Qed.

(** C25 *)
Theorem C25_weights : forall P n o source pc gi, (1 <= n)%nat -> valid_build_order o ->
  total_grams (map snd source) < 2 ^ 32 -> index_from P n o source pc = Done gi ->
  forall w nd, at_path (gi_roots gi) w nd ->
  last w = Some (n_item nd) /\
  n_weight nd = f32_div (f32_of_N (total_occurrences w (map snd source)))
                        (f32_of_N (parent_occurrences w (map snd source))) /\
  f32_ratio (n_weight nd).
Proof. exact trie_weights. Qed.
Print Assumptions C25_weights.
Example C25_hyps : exists gi,
  index_from wasm32 2 hash_order repeating (plain_container repeating) = Done gi /\
  exists nd, at_path (gi_roots gi) [120; 121] nd.
Proof. exact repeating_index. Qed.

(** C26 *)
Theorem C26_children : forall P n o source pc gi, (1 <= n)%nat -> valid_build_order o ->
  total_grams (map snd source) < 2 ^ 32 -> index_from P n o source pc = Done gi ->
  forall w nd, at_path (gi_roots gi) w nd ->
  NoDup (map n_item (n_children nd)) /\ descending (n_children nd).
Proof. exact trie_children. Qed.
Print Assumptions C26_children.
Theorem C26_most_popular_chain : forall P n o source pc gi, (1 <= n)%nat -> valid_build_order o ->
  total_grams (map snd source) < 2 ^ 32 -> index_from P n o source pc = Done gi ->
  forall g,
  (most_popular_chain gi g = [] <-> ~ exists p t, (p, t) ∈ source /\ g ∈ t) /\
  (length (most_popular_chain gi g) <= n)%nat /\
  (forall u x u', most_popular_chain gi g = u ++ x :: u' -> u <> [] ->
     exists nd, at_path (gi_roots gi) u nd /\ heaviest_child nd x) /\
  (forall w, w <> [] -> most_popular_chain gi g = w ->
     head w = Some g /\ exists leaf, at_path (gi_roots gi) w leaf /\ n_children leaf = []).
Proof. exact popular_chain. Qed.
Print Assumptions C26_most_popular_chain.
Example C26_hyps : exists gi,
  index_from wasm32 2 hash_order repeating (plain_container repeating) = Done gi /\
  (exists nd, at_path (gi_roots gi) [120] nd /\ length (n_children nd) = 4%nat) /\
  map (most_popular_chain gi) [97; 120; 121; 98] = [[97; 97]; [120; 119]; [121]; []].
Proof. exact repeating_chains. Qed.

(** C27 *)
Theorem C27_posting_lists : forall P n o source pc gi, (1 <= n)%nat -> valid_build_order o ->
  total_grams (map snd source) < 2 ^ 32 -> index_from P n o source pc = Done gi ->
  lenN (c_products pc) < 2 ^ 64 -> lenN (c_products pc) <= usize_max P ->
  exists limit, cutoff_for (lenN (c_products pc)) limit /\ forall key,
  (forall l, gi_data gi !! key = Some l -> l ≡ₚ owners n source key /\ in_order l) /\
  (is_Some (gi_data gi !! key) <->
     owners n source key <> [] /\ lenN (owners n source key) < limit).
Proof. exact posting_lists. Qed.
Print Assumptions C27_posting_lists.
(** For a key without padding the owners are counted by plain occurrences in the texts. *)
Theorem C27_owners : forall n source key, (1 <= n)%nat -> length key = n -> 0 ∉ key ->
  owners n source key = concat (map (fun '(p, t) => replicate (N.to_nat (occurrences key t)) p) source).
Proof. exact owners_occurrences. Qed.
Print Assumptions C27_owners.
Example C27_hyps : owners 2 repeating [97; 97] = replicate 5 (plain_product 0) /\
  owners 2 repeating [120; 121] = [plain_product 1] /\ owners 2 repeating [0; 120] <> [].
Proof. split; [vm_compute; done|]. split; vm_compute; done. Qed.

(** C28: up to 5,242,880 products; one more and f32 rounds the other way. *)
Theorem C28_cutoff : forall P n, n <= 5242880 -> n <= usize_max P ->
  maximum_product_amount P n = 4 * n / 5.
Proof. exact cutoff_small. Qed.
Print Assumptions C28_cutoff.
Theorem C28_cutoff_near : forall P n, n < 2 ^ 64 -> n <= usize_max P ->
  cutoff_for n (maximum_product_amount P n).
Proof. exact cutoff_spec. Qed.
Print Assumptions C28_cutoff_near.
Theorem C28_cutoff_above :
  maximum_product_amount wasm32 5242881 = 4194305 /\ 4 * 5242881 / 5 = 4194304.
Proof. exact cutoff_above. Qed.
Print Assumptions C28_cutoff_above.
Example C28_hyps : maximum_product_amount wasm32 5 = 4 /\ maximum_product_amount wasm32 1234567 = 987653.
Proof. split; vm_compute; reflexivity. Qed.

(** C29: the cut-off counts occurrences, not products. *)
Theorem C29_window_kept_refuted : forall o, valid_build_order o ->
  exists gi, index_from wasm32 2 o repeating (plain_container repeating) = Done gi /\
    gi_data gi !! [97; 97] = None /\
    length (filter (fun '(p, t) => [97; 97] ∈ windows 2 t) repeating) = 1%nat.
Proof. exact repeated_window_lost. Qed.
Print Assumptions C29_window_kept_refuted.
(** What holds: kept when no product repeats the window. *)
Theorem C29_window_kept_partial : forall P n o source pc gi, (1 <= n)%nat -> valid_build_order o ->
  total_grams (map snd source) < 2 ^ 32 -> index_from P n o source pc = Done gi ->
  lenN (c_products pc) < 2 ^ 64 -> lenN (c_products pc) <= usize_max P ->
  exists limit, cutoff_for (lenN (c_products pc)) limit /\ forall key,
  Forall (fun '(p, t) => (length (filter (fun w => w = key) (windows n t)) <= 1)%nat) source ->
  let having := filter (fun '(p, t) => key ∈ windows n t) source in
  having <> [] -> lenN having < limit ->
  exists l, gi_data gi !! key = Some l /\ forall p, p ∈ l <-> exists t, (p, t) ∈ having.
Proof. exact window_kept. Qed.
Print Assumptions C29_window_kept_partial.
(** Exactly: a window is kept if it occurs, but less often than the limit, all its occurrences counted. *)
Theorem C29_exactly : forall P n o source pc gi, (1 <= n)%nat -> valid_build_order o ->
  total_grams (map snd source) < 2 ^ 32 -> index_from P n o source pc = Done gi ->
  lenN (c_products pc) < 2 ^ 64 -> lenN (c_products pc) <= usize_max P ->
  exists limit, cutoff_for (lenN (c_products pc)) limit /\ forall key,
  let count := sum_N (map (fun s => lenN (filter (fun w => w = key) (windows n s.2))) source) in
  if decide (0 < count < limit)
  then exists l, gi_data gi !! key = Some l /\ forall p, p ∈ l <-> exists t, (p, t) ∈ source /\ key ∈ windows n t
  else gi_data gi !! key = None.
Proof. exact window_exact. Qed.
Print Assumptions C29_exactly.
Example C29_hyps :
  forallb (fun '(p, t) => Nat.leb (length (filter (fun w => w = [0; 120]) (windows 2 t))) 1)
    (take 4 repeating) = true /\
  lenN (filter (fun '(p, t) => [0; 120] ∈ windows 2 t) (take 4 repeating)) = 3 /\
  4 * lenN (c_products (plain_container repeating)) / 5 = 4.
Proof. split; [vm_compute; reflexivity|]. split; vm_compute; reflexivity. Qed.

(** C30: no query finds anything in any catalogue of up to two products. *)
Theorem C30_small_catalogue_refuted : forall P n o os source pc, (1 <= n <= 764)%nat ->
  valid_build_order o -> valid_order os -> total_grams (map snd source) < 2 ^ 32 ->
  2 <= usize_max P -> (length (c_products pc) <= 2)%nat ->
  exists gi, index_from P n o source pc = Done gi /\
    forall input, gram_search n os gi input = Done [].
Proof. exact small_catalogue_finds_nothing. Qed.
Print Assumptions C30_small_catalogue_refuted.
Example C30_hyps : length (c_products (plain_container (take 2 repeating))) = 2%nat /\
  total_grams (map snd (take 2 repeating)) = 8.
Proof. split; vm_compute; reflexivity. Qed.
