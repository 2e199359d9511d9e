(** C119, C120: what is matched, for windows of any length. *)
From Verif.model Require Import Base F32 Utf8 Prim Coll Data Gram Indexer Lit.
From Verif.spec Require Import Spec Data_spec Gram_spec Choice_spec Reading_spec Samples Gram_samples Reading_samples.
From Verif.proofs Require Import Trie_props Reading_props Reading_samples_facts.

(** C119. The index matches a typed window with its surest reading as a window of the texts, and
    with nothing if it has no reading ... *)
Theorem C119_choice : forall P n o source pc gi, (1 <= n <= 764)%nat -> valid_build_order o ->
  total_grams (map snd source) < 2 ^ 32 -> index_from P n o source pc = Done gi ->
  forall q, length q = n ->
  (exists r, search_gram n gi q = Done r /\ surest n (map snd source) q r) /\
  (forall r, clearly_surest n (map snd source) q r -> search_gram n gi q = Done r).
Proof. exact chosen_from_readings. Qed.
Print Assumptions C119_choice.
(** ... and finds each text that scores points by these matches. *)
Theorem C119_search : forall P n o source pc gi, (1 <= n <= 764)%nat -> valid_build_order o ->
  total_grams (map snd source) < 2 ^ 32 -> index_from P n o source pc = Done gi ->
  lenN (c_products pc) < 2 ^ 64 -> lenN (c_products pc) <= usize_max P ->
  NoDup (map (fun s => p_id s.1) source) ->
  forall os input res, valid_order os -> gram_search n os gi input = Done res ->
  exists limit choice, cutoff_for (lenN (c_products pc)) limit /\
  (forall w, length w = n -> surest n (map snd source) w (choice w)) /\
  (forall w r, length w = n -> clearly_surest n (map snd source) w r -> choice w = r) /\
  NoDup (map fst res) /\ ranked res /\
  forall p x, (p, x) ∈ res <->
    exists t c rest, (p, t) ∈ source /\
      points n (map snd source) limit choice input t = c :: rest /\ x = foldl f32_add c rest.
Proof. exact search_from_readings. Qed.
Print Assumptions C119_search.
(** "axbcde" is read as "abcdef", giving up the x and adding the f; read backwards, there is nothing. *)
Example C119_hyps :
  clearly_surest 6 (map snd mostly_x) axbcde (Some (abcdef, three_quarters)) /\
  clearly_surest 6 (map snd mostly_x) (rev axbcde) None.
Proof. exact mostly_x_readings. Qed.

(** C120, refuted. The confidence in a match need not be the likelihood of the window matched:
    with windows of six, "abcdef" is matched with the confidence of the x that was given up. *)
Theorem C120_likelihood_refuted : exists gi,
  index_from wasm32 6 hash_order mostly_x (plain_container mostly_x) = Done gi /\
  search_gram 6 gi axbcde = Done (Some (abcdef, three_quarters)) /\
  f32_lt (likelihood (map snd mostly_x) abcdef) three_quarters.
Proof. exact unlikely_match. Qed.
Print Assumptions C120_likelihood_refuted.
(** What holds: up to windows of five it is. *)
Theorem C120_likelihood_partial : forall P n o source pc gi, (1 <= n <= 5)%nat -> valid_build_order o ->
  total_grams (map snd source) < 2 ^ 32 -> index_from P n o source pc = Done gi ->
  forall q g c, length q = n -> search_gram n gi q = Done (Some (g, c)) -> c = likelihood (map snd source) g.
Proof. exact matched_likelihood. Qed.
Print Assumptions C120_likelihood_partial.
Example C120_hyps : exists gi c,
  index_from wasm32 5 hash_order lookalikes (plain_container lookalikes) = Done gi /\
  search_gram 5 gi [97; 99; 100; 102; 120] = Done (Some ([97; 98; 99; 100; 102], c)) /\
  c = likelihood (map snd lookalikes) [97; 98; 99; 100; 102].
Proof. do 2 eexists. do 2 (split; [vm_compute; reflexivity|]). vm_compute; reflexivity. Qed.
(** C110_hyps shows such matches. *)
