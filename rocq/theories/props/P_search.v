(** C31-C42: searching an index built from [source], the products with their texts. *)
From Verif.model Require Import Base F32 Utf8 Prim Coll Data Gram Indexer.
From Verif.spec Require Import Spec Data_spec Gram_spec Samples Gram_samples.
From Verif.proofs Require Import Search_facts Search_more Trie_props Search_props Ties_props Ties_samples_facts Example_facts Window_exact.

(** C31 *)
Theorem C31_chosen_gram_occurs : forall P n o source pc gi, (1 <= n)%nat -> valid_build_order o ->
  total_grams (map snd source) < 2 ^ 32 -> index_from P n o source pc = Done gi ->
  forall q g c, length q = n -> search_gram n gi q = Done (Some (g, c)) ->
  length g = n /\ exists p t, (p, t) ∈ source /\ occurs g t.
Proof. exact chosen_occurs. Qed.
Print Assumptions C31_chosen_gram_occurs.
Theorem C31_result_has_gram : forall P n o source pc gi, (1 <= n)%nat -> valid_build_order o ->
  total_grams (map snd source) < 2 ^ 32 -> index_from P n o source pc = Done gi ->
  forall os input res p x, (n <= 764)%nat -> valid_order os ->
  gram_search n os gi input = Done res -> (p, x) ∈ res ->
  exists t w g c, (p, t) ∈ source /\ w ∈ windows n input /\ search_gram n gi w = Done (Some (g, c)) /\
    g ∈ windows n t /\ (Forall (fun '(_, t) => 0 ∉ t) source -> occurs g t).
Proof. exact result_has_gram. Qed.
Print Assumptions C31_result_has_gram.
(** A search never panics. *)
Theorem C31_search_total : forall n o gi input, (1 <= n <= 764)%nat ->
  exists res, gram_search n o gi input = Done res.
Proof. exact search_total. Qed.
Print Assumptions C31_search_total.
Example C31_hyps : exists gi g c res,
  index_from wasm32 5 hash_order lookalikes (plain_container lookalikes) = Done gi /\
  search_gram 5 gi abcdx = Done (Some (g, c)) /\
  gram_search 5 no_order gi abcdx = Done res /\ length res = 2%nat.
Proof. do 4 eexists. do 3 (split; [vm_compute; reflexivity|]). vm_compute; reflexivity. Qed.

(** C32: for any index whatsoever. *)
Theorem C32_bounded_edits : forall n gi q g c, length q = n -> search_gram n gi q = Done (Some (g, c)) ->
  length g = n /\ (exists nd, at_path (gi_roots gi) g nd) /\
  exists q0 q' m s k, q = q0 :: q' /\ g = q0 :: m /\ edit q' m s k /\ (s <= n / 3)%nat /\ (k <= S (n / 3))%nat.
Proof. exact chosen_good. Qed.
Print Assumptions C32_bounded_edits.
(** For gram sizes up to five this is: at most one place differs, or one gram was inserted and
    the last one ignored. *)
Theorem C32_one_correction : forall n gi q0 q' g c, (n <= 5)%nat -> length (q0 :: q') = n ->
  search_gram n gi (q0 :: q') = Done (Some (g, c)) ->
  exists root m, gi_roots gi !! q0 = Some root /\ g = q0 :: m /\ length m = length q' /\
    exact_confidence root m f32_one c /\
    ((differences m q' <= n / 3)%nat \/
     (3 <= n)%nat /\ exists a y b z, m = a ++ y :: b /\ q' = a ++ b ++ [z]).
Proof. exact chosen_exact. Qed.
Print Assumptions C32_one_correction.
Example C32_hyps : exists gi c,
  index_from wasm32 5 hash_order lookalikes (plain_container lookalikes) = Done gi /\
  search_gram 5 gi [97; 98; 120; 99; 100] = Done None /\
  search_gram 5 gi [97; 99; 100; 102; 120] = Done (Some ([97; 98; 99; 100; 102], c)).
Proof. do 2 eexists. do 2 (split; [vm_compute; reflexivity|]). vm_compute; reflexivity. Qed.

(** C33 *)
Theorem C33_occurring_window : forall P n o source pc gi, (1 <= n)%nat -> valid_build_order o ->
  total_grams (map snd source) < 2 ^ 32 -> index_from P n o source pc = Done gi ->
  forall q p t, (n <= 764)%nat -> length q = n -> (p, t) ∈ source -> occurs q t ->
  exists q0 q' root e g c, q = q0 :: q' /\ gi_roots gi !! q0 = Some root /\
    exact_confidence root q' f32_one e /\ search_gram n gi q = Done (Some (g, c)) /\ f32_le e c.
Proof. exact chosen_for_occurring. Qed.
Print Assumptions C33_occurring_window.
(** More generally, nothing that differs in at most n/3 places, or by one inserted gram, is
    more confident than what is chosen. *)
Theorem C33_best_of_replaced : forall P n o source pc gi, (1 <= n)%nat -> valid_build_order o ->
  total_grams (map snd source) < 2 ^ 32 -> index_from P n o source pc = Done gi ->
  forall q0 q' m root e, (n <= 764)%nat -> length (q0 :: q') = n -> length m = length q' ->
  (differences m q' <= n / 3)%nat -> gi_roots gi !! q0 = Some root -> exact_confidence root m f32_one e ->
  exists g c, search_gram n gi (q0 :: q') = Done (Some (g, c)) /\ f32_le e c.
Proof. exact chosen_ge_replaced. Qed.
Print Assumptions C33_best_of_replaced.
Theorem C33_best_of_inserted : forall P n o source pc gi, (1 <= n)%nat -> valid_build_order o ->
  total_grams (map snd source) < 2 ^ 32 -> index_from P n o source pc = Done gi ->
  forall q0 a b z y root e, (3 <= n <= 764)%nat -> length (q0 :: a ++ b ++ [z]) = n ->
  gi_roots gi !! q0 = Some root -> exact_confidence root (a ++ y :: b) f32_one e ->
  exists g c, search_gram n gi (q0 :: a ++ b ++ [z]) = Done (Some (g, c)) /\ f32_le e c.
Proof. exact chosen_ge_inserted. Qed.
Print Assumptions C33_best_of_inserted.
Example C33_hyps : exists gi root e g c c',
  index_from wasm32 5 hash_order lookalikes (plain_container lookalikes) = Done gi /\
  (exists p t, (p, t) ∈ lookalikes /\ occurs abcde t) /\
  gi_roots gi !! 97 = Some root /\ exact_confidence root [98; 99; 100; 102] f32_one e /\
  search_gram 5 gi abcde = Done (Some (g, c)) /\ search_gram 5 gi [97; 99; 100; 102; 120] = Done (Some (g, c')).
Proof. exact lookalikes_confidence. Qed.

(** C34: a likelier similar word hides the exact one. *)
Theorem C34_exact_found_refuted : exists gi res,
  index_from wasm32 5 hash_order lookalikes (plain_container lookalikes) = Done gi /\
  gi_data gi !! abcde = Some [plain_product 0] /\
  gram_search 5 no_order gi abcde = Done res /\ map fst res = [plain_product 1; plain_product 2].
Proof. exact exact_not_found. Qed.
Print Assumptions C34_exact_found_refuted.
(** What holds: found when every correction of the window is less confident. *)
Theorem C34_exact_found_partial : forall P n o source pc gi, (1 <= n)%nat -> valid_build_order o ->
  total_grams (map snd source) < 2 ^ 32 -> index_from P n o source pc = Done gi ->
  forall q0 q' root e p t os input res l, (n <= 5)%nat -> length (q0 :: q') = n ->
  valid_order os -> gram_search n os gi input = Done res -> q0 :: q' ∈ windows n input ->
  gi_roots gi !! q0 = Some root -> exact_confidence root q' f32_one e ->
  (forall m c, m <> q' -> length m = length q' -> exact_confidence root m f32_one c ->
     ((differences m q' <= n / 3)%nat \/ exists a y b z, m = a ++ y :: b /\ q' = a ++ b ++ [z]) -> f32_lt c e) ->
  gi_data gi !! (q0 :: q') = Some l -> (p, t) ∈ source -> q0 :: q' ∈ windows n t ->
  exists p' x, (p', x) ∈ res /\ p_id p' = p_id p.
Proof. exact exact_wins. Qed.
Print Assumptions C34_exact_found_partial.
Example C34_hyps : exists gi root e l,
  index_from wasm32 5 hash_order strangers (plain_container strangers) = Done gi /\
  gi_roots gi !! 97 = Some root /\ exact_confidence root [98; 99; 100; 101] f32_one e /\
  (forall m c, m <> [98; 99; 100; 101] -> length m = 4%nat -> exact_confidence root m f32_one c -> f32_lt c e) /\
  gi_data gi !! abcde = Some l.
Proof. exact strangers_found. Qed.

(** C35 *)
Theorem C35_short_query : forall P n o source pc gi, (1 <= n)%nat -> valid_build_order o ->
  total_grams (map snd source) < 2 ^ 32 -> index_from P n o source pc = Done gi ->
  forall os input, (n <= 764)%nat -> valid_order os ->
  Forall (fun '(_, t) => 0 ∉ t) source -> (length input < n)%nat -> gram_search n os gi input = Done [].
Proof. exact short_query_nothing. Qed.
Print Assumptions C35_short_query.
Example C35_hyps : forallb (fun '(_, t) => forallb (fun g => negb (N.eqb 0 g)) t) lookalikes = true /\
  length (take 4 abcde) = 4%nat.
Proof. split; vm_compute; reflexivity. Qed.

(** C36: for any index whatsoever. *)
Theorem C36_skip_branch_dead : forall n gi query r, (n <= 5)%nat -> length query = n ->
  search_gram n gi query = Done r <-> search_gram_without_skip n gi query = r.
Proof. exact search_gram_without. Qed.
Print Assumptions C36_skip_branch_dead.
Example C36_hyps : exists gi r,
  index_from wasm32 5 hash_order lookalikes (plain_container lookalikes) = Done gi /\
  search_gram_without_skip 5 gi abcdx = Some r.
Proof.
  assert (E : match index_from wasm32 5 hash_order lookalikes (plain_container lookalikes) with
    | Done gi => bool_decide (is_Some (search_gram_without_skip 5 gi abcdx))
    | _ => false end = true) by (vm_compute; reflexivity).
  destruct (index_from _ _ _ _ _) as [gi| | |]; try discriminate E.
  apply bool_decide_eq_true in E as [r E]. eauto.
Qed.

(** C37 *)
Theorem C37_results_ranked : forall P n o source pc gi, (1 <= n)%nat -> valid_build_order o ->
  total_grams (map snd source) < 2 ^ 32 -> index_from P n o source pc = Done gi ->
  forall os input res, (n <= 764)%nat -> valid_order os -> gram_search n os gi input = Done res ->
  NoDup (map (fun r => p_id r.1) res) /\ ranked res /\
  forall p c, (p, c) ∈ query_hits n gi input -> exists p' x, (p', x) ∈ res /\ p_id p' = p_id p.
Proof. exact results_ranked. Qed.
Print Assumptions C37_results_ranked.
Example C37_hyps : exists gi res,
  index_from wasm32 2 hash_order lookalikes (plain_container lookalikes) = Done gi /\
  gram_search 2 no_order gi abcde = Done res /\ map (fun r => p_id r.1) res = [[48]; [49]; [50]].
Proof. do 2 eexists. do 2 (split; [vm_compute; reflexivity|]). vm_compute; reflexivity. Qed.

(** C38: for any index whatsoever. *)
Theorem C38_confidence_is_sum : forall n o gi input res, (1 <= n <= 764)%nat -> valid_order o ->
  gram_search n o gi input = Done res -> totals (query_hits n gi input) res.
Proof. exact search_totals. Qed.
Print Assumptions C38_confidence_is_sum.
Example C38_hyps : exists gi,
  index_from wasm32 2 hash_order lookalikes (plain_container lookalikes) = Done gi /\
  length (query_hits 2 gi abcde) = 10%nat.
Proof. eexists. split; vm_compute; reflexivity. Qed.

(** C39 *)
Theorem C39_chosen_confidence : forall P n o source pc gi, (1 <= n)%nat -> valid_build_order o ->
  total_grams (map snd source) < 2 ^ 32 -> index_from P n o source pc = Done gi ->
  forall q g c, length q = n -> search_gram n gi q = Done (Some (g, c)) -> f32_unit c.
Proof. exact chosen_unit. Qed.
Print Assumptions C39_chosen_confidence.
Theorem C39_total_confidence : forall P n o source pc gi, (1 <= n)%nat -> valid_build_order o ->
  total_grams (map snd source) < 2 ^ 32 -> index_from P n o source pc = Done gi ->
  forall os input res p x, (n <= 764)%nat -> valid_order os ->
  gram_search n os gi input = Done res -> (p, x) ∈ res -> f32_number x /\ f32_le f32_zero x.
Proof. exact results_nonneg. Qed.
Print Assumptions C39_total_confidence.
Example C39_hyps : exists gi g c res,
  index_from wasm32 5 hash_order lookalikes (plain_container lookalikes) = Done gi /\
  search_gram 5 gi abcdx = Done (Some (g, c)) /\ f32_lt f32_zero c /\ f32_lt c f32_one /\
  gram_search 5 no_order gi abcdx = Done res /\ map snd res = [c; c].
Proof. do 4 eexists. do 5 (split; [vm_compute; reflexivity|]). vm_compute; reflexivity. Qed.

(** C40: the same results for any index whatsoever; equal places for built ones. *)
Theorem C40_same_results : forall n o1 o2 gi input res1 res2, (1 <= n <= 764)%nat ->
  valid_order o1 -> valid_order o2 ->
  gram_search n o1 gi input = Done res1 -> gram_search n o2 gi input = Done res2 -> res1 ≡ₚ res2.
Proof. exact order_irrelevant. Qed.
Print Assumptions C40_same_results.
Theorem C40_same_places : forall P n o source pc gi, (1 <= n)%nat -> valid_build_order o ->
  total_grams (map snd source) < 2 ^ 32 -> index_from P n o source pc = Done gi ->
  forall os1 os2 input res1 res2, (n <= 764)%nat -> valid_order os1 -> valid_order os2 ->
  gram_search n os1 gi input = Done res1 -> gram_search n os2 gi input = Done res2 ->
  res1 ≡ₚ res2 /\ Forall2 (fun r1 r2 => f32_cmp r1.2 r2.2 = Some Eq) res1 res2.
Proof. exact same_places. Qed.
Print Assumptions C40_same_places.

(** C41: children of equal weight are listed in hash order, and the first is preferred. *)
Theorem C41_builds_agree_refuted : exists gi1 gi2 x,
  index_from wasm32 5 hash_order twins (plain_container twins) = Done gi1 /\
  index_from wasm32 5 other_order twins (plain_container twins) = Done gi2 /\
  gram_search 5 no_order gi1 abcdx = Done [(plain_product 0, x)] /\
  gram_search 5 no_order gi2 abcdx = Done [(plain_product 1, x)].
Proof. exact builds_differ. Qed.
Print Assumptions C41_builds_agree_refuted.
(** What holds: posting lists, paths and weights agree, and for gram sizes up to five so do
    the confidences of the grams chosen. *)
Theorem C41_postings_agree_partial : forall P n o1 o2 source pc gi1 gi2, (1 <= n)%nat ->
  valid_build_order o1 -> valid_build_order o2 -> total_grams (map snd source) < 2 ^ 32 ->
  index_from P n o1 source pc = Done gi1 -> index_from P n o2 source pc = Done gi2 ->
  gi_data gi1 = gi_data gi2.
Proof. exact same_postings. Qed.
Print Assumptions C41_postings_agree_partial.
Theorem C41_paths_agree_partial : forall P n o1 o2 source pc gi1 gi2, (1 <= n)%nat ->
  valid_build_order o1 -> valid_build_order o2 -> total_grams (map snd source) < 2 ^ 32 ->
  index_from P n o1 source pc = Done gi1 -> index_from P n o2 source pc = Done gi2 ->
  forall w nd1, at_path (gi_roots gi1) w nd1 ->
  exists nd2, at_path (gi_roots gi2) w nd2 /\ n_weight nd2 = n_weight nd1.
Proof. exact same_paths. Qed.
Print Assumptions C41_paths_agree_partial.
Theorem C41_confidences_agree_partial : forall P n o1 o2 source pc gi1 gi2 q, (1 <= n <= 5)%nat ->
  valid_build_order o1 -> valid_build_order o2 -> total_grams (map snd source) < 2 ^ 32 ->
  index_from P n o1 source pc = Done gi1 -> index_from P n o2 source pc = Done gi2 -> length q = n ->
  (search_gram n gi1 q = Done None /\ search_gram n gi2 q = Done None) \/
  exists g1 c1 g2 c2, search_gram n gi1 q = Done (Some (g1, c1)) /\
    search_gram n gi2 q = Done (Some (g2, c2)) /\ f32_cmp c1 c2 = Some Eq.
Proof. exact same_confidence. Qed.
Print Assumptions C41_confidences_agree_partial.
(** Exactly when the index does not depend on hash orders. *)
Theorem C41_exactly_partial : forall P n source pc, (1 <= n)%nat -> total_grams (map snd source) < 2 ^ 32 ->
  (forall o1 o2, valid_build_order o1 -> valid_build_order o2 ->
     index_from P n o1 source pc = index_from P n o2 source pc) <->
  ~ tied n (map snd source).
Proof. exact builds_agree. Qed.
Print Assumptions C41_exactly_partial.
Example C41_exactly_hyps : tied 5 (map snd twins) /\ ~ tied 5 (map snd lookalikes) /\
  total_grams (map snd twins) < 2 ^ 32 /\ total_grams (map snd lookalikes) < 2 ^ 32.
Proof. exact tied_samples. Qed.
Example C41_hyps : valid_build_order hash_order /\ valid_build_order other_order.
Proof. split; [exact hash_order_valid|exact other_order_valid]. Qed.

(** C42: two products with the same id become one result. *)
Theorem C42_not_merged_refuted : exists gi p q x,
  index_from wasm32 5 hash_order same_ids (plain_container same_ids) = Done gi /\
  p <> q /\ (exists c, (p, c) ∈ query_hits 5 gi abcde) /\ (exists c, (q, c) ∈ query_hits 5 gi abcde) /\
  gram_search 5 no_order gi abcde = Done [(p, x)].
Proof. exact merged. Qed.
Print Assumptions C42_not_merged_refuted.
(** What holds: nothing is merged when ids are distinct. *)
Theorem C42_not_merged_partial : forall P n o source pc gi, (1 <= n)%nat -> valid_build_order o ->
  total_grams (map snd source) < 2 ^ 32 -> index_from P n o source pc = Done gi ->
  forall os input res p c, (n <= 764)%nat -> valid_order os ->
  (forall q1 t1 q2 t2, (q1, t1) ∈ source -> (q2, t2) ∈ source -> p_id q1 = p_id q2 -> q1 = q2) ->
  gram_search n os gi input = Done res -> (p, c) ∈ query_hits n gi input -> exists x, (p, x) ∈ res.
Proof. exact not_merged. Qed.
Print Assumptions C42_not_merged_partial.
(** Exactly: every product that is hit is in the answer if and only if no two of them share an id. *)
Theorem C42_exactly : forall n os gi input res, (1 <= n <= 764)%nat -> valid_order os ->
  gram_search n os gi input = Done res ->
  ((forall p c, (p, c) ∈ query_hits n gi input -> exists x, (p, x) ∈ res) <->
   (forall p c q d, (p, c) ∈ query_hits n gi input -> (q, d) ∈ query_hits n gi input -> p_id p = p_id q -> p = q)).
Proof. exact merged_exact. Qed.
Print Assumptions C42_exactly.
Example C42_hyps : NoDup (map (fun '(p, _) => p_id p) lookalikes).
Proof. vm_compute. repeat constructor; rewrite ?elem_of_cons, elem_of_nil; intuition discriminate. Qed.
