(** Indexes of the small sample texts: that the theorems about built indexes speak of something. *)
From Verif.model Require Import Base F32 Utf8 Prim Coll Data Gram Indexer.
From Verif.spec Require Import Spec Data_spec Gram_spec Samples Gram_samples.
From Verif.proofs Require Import Trie_facts Trie_props Search_facts Search_more Search_props.

Lemma repeating_chains : exists gi,
  index_from wasm32 2 hash_order repeating (plain_container repeating) = Done gi /\
  (exists nd, at_path (gi_roots gi) [120] nd /\ length (n_children nd) = 4%nat) /\
  map (most_popular_chain gi) [97; 120; 121; 98] = [[97; 97]; [120; 119]; [121]; []].
Proof.
  assert (E : match index_from wasm32 2 hash_order repeating (plain_container repeating) with
    | Done gi => (length ∘ n_children <$> gi_roots gi !! 120, map (most_popular_chain gi) [97; 120; 121; 98])
    | _ => (None, []) end = (Some 4%nat, [[97; 97]; [120; 119]; [121]; []])) by (vm_compute; reflexivity).
  destruct (index_from _ _ _ _ _) as [gi| | |]; try discriminate E. injection E as E C.
  apply fmap_Some in E as (root & R & E). exists gi. split; [done|]. split; [|cbn [map]; by rewrite C, H, H0, H1].
  exists root. split; [|done]. exists 120, [], root. split; [done|]. split; [done|constructor].
Qed.
Lemma lookalikes_confidence : exists gi root e g c c',
  index_from wasm32 5 hash_order lookalikes (plain_container lookalikes) = Done gi /\
  (exists p t, (p, t) ∈ lookalikes /\ occurs abcde t) /\
  gi_roots gi !! 97 = Some root /\ exact_confidence root [98; 99; 100; 102] f32_one e /\
  search_gram 5 gi abcde = Done (Some (g, c)) /\ search_gram 5 gi [97; 99; 100; 102; 120] = Done (Some (g, c')).
Proof.
  assert (Hl : total_grams (map snd lookalikes) < 2 ^ 32) by (vm_compute; reflexivity).
  assert (E : match index_from wasm32 5 hash_order lookalikes (plain_container lookalikes) with
    | Done gi => match search_gram 5 gi abcde, search_gram 5 gi [97; 99; 100; 102; 120] with
                 | Done (Some x), Done (Some y) => bool_decide (x.1 = y.1)
                 | _, _ => false end
    | _ => false end = true) by (vm_compute; reflexivity).
  destruct (index_from wasm32 5 hash_order lookalikes (plain_container lookalikes)) as [gi| | |] eqn:B; try discriminate E.
  destruct (search_gram 5 gi abcde) as [[[g c]|]| | |] eqn:S1; try discriminate E.
  destruct (search_gram 5 gi [97; 99; 100; 102; 120]) as [[[g' c']|]| | |] eqn:S2; try discriminate E.
  apply bool_decide_eq_true in E. cbn [fst] in E. subst g'.
  destruct (chosen_for_occurring wasm32 5 hash_order lookalikes _ gi ltac:(lia) hash_order_valid Hl B
    [97; 98; 99; 100; 102] (plain_product 1) [97; 98; 99; 100; 102]) as (q0 & q' & root & e & g'' & c'' & [= <- <-] & R & X & _).
  { lia. } { reflexivity. } { vm_compute. right. left. } { exists [], []. reflexivity. }
  exists gi, root, e, g, c, c'. split; [reflexivity|]. split; [|split; [exact R|split; [exact X|split; [exact S1|exact S2]]]].
  exists (plain_product 0), abcde. split; [vm_compute; left|exists [], []; reflexivity].
Qed.
Lemma lookalikes_distinct : NoDup (map (fun s => p_id s.1) lookalikes) /\
  lenN (c_products (plain_container lookalikes)) = 5 /\
  exists gi res, index_from wasm32 5 hash_order lookalikes (plain_container lookalikes) = Done gi /\
    gram_search 5 no_order gi abcdx = Done res /\ map (fun r => p_id r.1) res = [[49]; [50]].
Proof.
  split; [apply (bool_decide_unpack _); vm_compute; exact I|]. split; [vm_compute; reflexivity|].
  do 2 eexists. do 2 (split; [vm_compute; reflexivity|]). vm_compute; reflexivity.
Qed.
