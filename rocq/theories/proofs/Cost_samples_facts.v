(** The concrete cases of P_cost.v. *)
From Verif.model Require Import Base F32 Utf8 Prim Coll Data Gram Indexer Nodes Classic Lit Raw Js Lib.
From Verif.spec Require Import Spec Data_spec Gram_spec Classic_spec Raw_spec Js_spec Lib_spec End_spec Samples Raw_samples Gram_samples
  Lib_samples End_samples Cost_samples.
From Verif.proofs Require Import Base_facts Raw_facts Raw_props Sample_facts Raw_samples_facts Lib_samples_facts End_facts End_samples_facts Size_facts
  Cost_facts Cost_props.
From Verif.spec Require Import Cost_spec.

(** ** Files written by the indexer *)
Section file.
Context (low : N -> list N) (parse : rstr -> option f32) (P Q : platform) (bo : build_order)
  (ro : order_of (rstr * (product * f32))) (so : ser_order) (input : list raw_product) (bytes rest : list N)
  (gi : gram_index) (cl : classic).
Context (Hbo : valid_build_order bo) (Hso : valid_ser_order so) (Hlow : low_ok low) (Hparse : parse_ok parse)
  (Hfit : raw_fits Q low input) (Hlim : total_grams (map (raw_text low) input) < 2 ^ 32).
Context (H : index_and_serialize low parse P bo ro so input = Done bytes)
  (Hd : deserialize_all Q ngram_index_size (bytes ++ rest) = Done (gi, cl)).
Lemma loaded_built : exists c gi0, gi = stored_gram_index gi0 /\
  index_from P ngram_index_size bo (sources low c) c = Done gi0 /\ map snd (sources low c) = map (raw_text low) input.
Proof.
  destruct (indexed_inv _ _ _ _ _ _ _ _ _ H) as (c & cl0 & gi0 & O & I & E).
  rewrite E in Hd. rewrite (file_loads low parse P Q bo so input Hbo Hso Hlow Hparse Hfit Hlim c cl0 gi0 rest O I) in Hd.
  exists c, gi0. destruct (optimize_products parse bo input c cl0 O) as [D W]. split; [congruence|]. split; [done|]. by apply raw_grams.
Qed.
Lemma file_depth g nd : gi_roots gi !! g = Some nd -> (node_depth nd <= ngram_index_size)%nat.
Proof.
  destruct loaded_built as (c & gi0 & -> & I & T). cbn [stored_gram_index gi_roots]. intros Hg.
  assert (at_path (gi_roots gi0) [g] nd) as Hp by (exists g, [], nd; repeat split; [done|constructor]).
  eapply (depth_bound P ngram_index_size bo (sources low c) c gi0) in Hp; [cbn [length] in Hp; lia|unfold ngram_index_size; lia|done| |done].
  by rewrite T.
Qed.
Lemma file_calls query : (list_sum (map (fun w => calls (counted_search_gram ngram_index_size gi w)) (windows ngram_index_size query)) <=
  50 * length query * S (length (alphabet (map (raw_text low) input))))%nat.
Proof.
  destruct loaded_built as (c & gi0 & -> & I & T).
  change (counted_search_gram ngram_index_size (stored_gram_index gi0)) with (counted_search_gram ngram_index_size gi0).
  rewrite <- T. etrans.
  { eapply (query_calls P ngram_index_size bo (sources low c) c gi0); [unfold ngram_index_size; lia|done|by rewrite T|done]. }
  change (ngram_index_size / 3)%nat with 1%nat. rewrite Nat.pow_1_r. unfold ngram_index_size.
  generalize (length query) (length (alphabet (map snd (sources low c)))). intros a b. nia.
Qed.
End file.

(** ** C94 *)
Lemma sixth_facts : match index_from wasm32 5 hash_order unpopular (plain_container unpopular) with
  | Done gi => match search_gram 5 gi (97 :: 63 :: [120; 121; 122]) with
               | Done x => Some ((fun root => map n_item (take 5 (n_children root))) <$> gi_roots gi !! 97, fst <$> x)
               | _ => None
               end
  | _ => None
  end = Some (Some [99; 101; 100; 98; 102], Some (97 :: 103 :: [120; 121; 122])).
Proof. vm_compute. reflexivity. Qed.
Lemma sixth_chosen : exists o source gi root c,
  valid_build_order o /\ total_grams (map snd source) < 2 ^ 32 /\
  index_from wasm32 5 o source (plain_container source) = Done gi /\ gi_roots gi !! 97 = Some root /\
  search_gram 5 gi (97 :: 63 :: [120; 121; 122]) = Done (Some (97 :: 103 :: [120; 121; 122], c)) /\
  63 <> 103 /\ 103 ∉ map n_item (take 5 (n_children root)).
Proof.
  pose proof sixth_facts as F.
  destruct (index_from wasm32 5 hash_order unpopular (plain_container unpopular)) as [gi| | |] eqn:E; [|discriminate F..].
  destruct (search_gram 5 gi (97 :: 63 :: [120; 121; 122])) as [x| | |] eqn:S; [|discriminate F..].
  injection F as F1 F2. destruct (gi_roots gi !! 97) as [root|] eqn:R; [|discriminate F1].
  destruct x as [[g c]|]; [|discriminate F2]. cbn in F1, F2. injection F1 as F1. injection F2 as ->.
  exists hash_order, unpopular, gi, root, c. split; [apply sample_prices|]. split; [vm_compute; reflexivity|].
  split; [exact E|]. split; [exact R|]. split; [exact S|]. split; [discriminate|].
  rewrite F1. apply (bool_decide_unpack _). vm_compute. exact Logic.I.
Qed.

(** ** C97 *)
Lemma together_apart : together ≡ₚ apart.
Proof.
  unfold together, apart. apply perm_skip. rewrite (Permutation_app_comm _ [tagged]). reflexivity.
Qed.
Definition different_lengths (r1 r2 : res (list N)) : bool :=
  match r1, r2 with Done b1, Done b2 => negb (Nat.eqb (length b1) (length b2)) | _, _ => false end.
Lemma different r1 r2 : different_lengths r1 r2 = true -> exists b1 b2, r1 = Done b1 /\ r2 = Done b2 /\ length b1 <> length b2.
Proof.
  intros F. destruct r1 as [b1| | |]; [|discriminate F..]. destruct r2 as [b2| | |]; [|discriminate F..].
  exists b1, b2. split; [done|]. split; [done|]. by apply negb_true_iff, Nat.eqb_neq in F.
Qed.
Lemma lengths_facts : different_lengths
  (index_and_serialize ascii_low sample_parse wasm32 hash_order no_order sample_order together)
  (index_and_serialize ascii_low sample_parse wasm32 hash_order no_order sample_order apart) = true.
Proof. vm_compute. reflexivity. Qed.
Lemma order_matters : exists input1 input2 bytes1 bytes2, input1 ≡ₚ input2 /\
  index_and_serialize ascii_low sample_parse wasm32 hash_order no_order sample_order input1 = Done bytes1 /\
  index_and_serialize ascii_low sample_parse wasm32 hash_order no_order sample_order input2 = Done bytes2 /\
  length bytes1 <> length bytes2.
Proof.
  destruct (different _ _ lengths_facts) as (b1 & b2 & E1 & E2 & F).
  exists together, apart, b1, b2. split; [exact together_apart|]. split; [exact E1|]. split; [exact E2|exact F].
Qed.

(** ** C98 *)
Lemma sample_modest : raw_fits modest ascii_low sample_raw.
Proof.
  split.
  - unfold raw_strings_ok, str_ok, size_ok, valid_str. apply (bool_decide_unpack _). vm_compute. exact Logic.I.
  - assert (C : raw_counts ascii_low sample_raw = [3; 45; 4; 7; 5; 104]) by (vm_compute; reflexivity). rewrite C. clear C.
    apply Forall_forall. intros n Hn. assert (n <= 104).
    { revert n Hn. apply Forall_forall. apply (bool_decide_unpack _). vm_compute. done. }
    unfold size_ok. change (usize_max modest) with (2 ^ 28 - 1).
    split; [split|intros k; change (cap_max modest k) with (2 ^ 28 - 1)]; eapply N.le_lt_trans || eapply N.le_trans; try eassumption; vm_compute; done.
Qed.
Lemma sample_sizes : exists bytes, index_and_serialize_with_n ascii_low sample_parse wasm32 5 hash_order no_order sample_order sample_raw = Done bytes /\
  lenN bytes = 1570 /\ lenN (catalogue_strings sample_raw) = 32 /\ total_bytes (catalogue_strings sample_raw) = 163 /\
  total_grams (map (raw_text ascii_low) sample_raw) = 45.
Proof. eexists. split; [vm_compute; reflexivity|]. split; [|split; [|split]]; vm_compute; reflexivity. Qed.

(** ** Counting on the sample *)
Definition counts_of (r : res gram_index) : bool :=
  match r with
  | Done gi => bool_decide (calls (counted_search_gram 5 gi misspelt) = 16%nat /\ depth (counted_search_gram 5 gi misspelt) = 5%nat /\
      length (alphabet (map snd unpopular)) = 10%nat /\ trie_nodes (gi_roots gi) = 25%nat /\
      posting_entries (gi_data gi) = 14%nat /\ size (gi_data gi) = 9%nat /\ total_grams (map snd unpopular) = 25)
  | _ => false
  end.
Lemma counts_facts : counts_of (index_from wasm32 5 hash_order unpopular (plain_container unpopular)) = true.
Proof. vm_compute. reflexivity. Qed.
Lemma sample_counts : exists gi, index_from wasm32 5 hash_order unpopular (plain_container unpopular) = Done gi /\
  calls (counted_search_gram 5 gi misspelt) = 16%nat /\ depth (counted_search_gram 5 gi misspelt) = 5%nat /\
  length (alphabet (map snd unpopular)) = 10%nat /\ trie_nodes (gi_roots gi) = 25%nat /\
  posting_entries (gi_data gi) = 14%nat /\ size (gi_data gi) = 9%nat /\ total_grams (map snd unpopular) = 25.
Proof.
  pose proof counts_facts as F.
  destruct (index_from wasm32 5 hash_order unpopular (plain_container unpopular)) as [gi| | |]; [|discriminate F..].
  exists gi. split; [reflexivity|]. unfold counts_of in F. apply bool_decide_eq_true in F. exact F.
Qed.
Lemma sample_file_size : valid_build_order hash_order /\ valid_ser_order sample_order /\ low_ok ascii_low /\ parse_ok sample_parse /\
  raw_fits modest ascii_low sample_raw /\
  exists bytes, index_and_serialize_with_n ascii_low sample_parse wasm32 5 hash_order no_order sample_order sample_raw = Done bytes /\
  lenN bytes = 1570 /\ lenN (catalogue_strings sample_raw) = 32 /\ total_bytes (catalogue_strings sample_raw) = 163 /\
  total_grams (map (raw_text ascii_low) sample_raw) = 45.
Proof.
  split; [apply sample_prices|]. split; [exact sample_order_valid|]. split; [exact ascii_low_ok|]. split; [exact sample_parse_ok|].
  split; [exact sample_modest|exact sample_sizes].
Qed.
Lemma depth_facts : match deserialize_all host64 ngram_index_size (sample_file ++ []) with
  | Done (gi, cl) => node_depth <$> gi_roots gi !! 97
  | _ => None
  end = Some 5%nat.
Proof. vm_compute. reflexivity. Qed.
Lemma sample_file_depth : index_and_serialize ascii_low sample_parse host64 hash_order no_order sample_order sample_raw = Done sample_file /\
  exists gi cl nd, deserialize_all host64 ngram_index_size (sample_file ++ []) = Done (gi, cl) /\ gi_roots gi !! 97 = Some nd /\ node_depth nd = 5%nat.
Proof.
  pose proof depth_facts as F. split; [exact sample_indexed|].
  destruct (deserialize_all host64 ngram_index_size (sample_file ++ [])) as [[gi cl]| | |]; [|discriminate F..].
  destruct (gi_roots gi !! 97) as [nd|] eqn:R; [|discriminate F]. cbn in F. injection F as F. exists gi, cl, nd. by split.
Qed.
