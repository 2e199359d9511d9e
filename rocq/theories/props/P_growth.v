(** C127: what adding products to a catalogue does to the searches. *)
From Verif.model Require Import Base F32 Utf8 Prim Coll Data Gram Indexer Nodes Classic Lit Raw Js Lib.
From Verif.spec Require Import Spec Data_spec Gram_spec Classic_spec Raw_spec Js_spec Lib_spec End_spec Samples Raw_samples Gram_samples
  Lib_samples End_samples Choice_spec Reorder_spec Reorder_samples Reading_spec Growth_spec Growth_samples.
From Verif.proofs Require Import Growth_facts Growth_end Growth_samples_facts.

(** C127, as expected, would say that a product found by a query is still found by it when the
    catalogue has more products. It is not: once a fourth of six products is a hammer, none is found. *)
Theorem C127_crowded_refuted : exists gi1 gi2 x y z,
  index_from wasm32 5 hash_order hammers (plain_container hammers) = Done gi1 /\
  index_from wasm32 5 hash_order more_hammers (plain_container more_hammers) = Done gi2 /\
  gram_search 5 no_order gi1 hammer = Done [(plain_product 0, x); (plain_product 1, y); (plain_product 2, z)] /\
  gram_search 5 no_order gi2 hammer = Done [].
Proof. exact crowded. Qed.
Print Assumptions C127_crowded_refuted.
(** Nor if the new product is other than the old ones: "abcde" finds the product of that name until
    there is one where "abcdf" stands twice, and then finds only that. *)
Theorem C127_likelier_refuted : exists gi1 gi2 x y,
  index_from wasm32 5 hash_order one_word (plain_container one_word) = Done gi1 /\
  index_from wasm32 5 hash_order likelier_word (plain_container likelier_word) = Done gi2 /\
  gram_search 5 no_order gi1 abcde = Done [(plain_product 0, x)] /\
  gram_search 5 no_order gi2 abcde = Done [(plain_product 3, y)].
Proof. exact outdone. Qed.
Print Assumptions C127_likelier_refuted.
(** What is missing for the expectation is that the new texts have none of the chars that the query's
    windows begin with, and that each of its windows has one surest reading. Then all that was found is
    found, with no less a score, and none of the new products is. *)
Theorem C127_strangers_partial : forall P1 P2 n o1 o2 s1 s2 extra pc1 pc2 gi1 gi2,
  (1 <= n <= 764)%nat -> valid_build_order o1 -> valid_build_order o2 ->
  total_grams (map snd s2) < 2 ^ 32 ->
  index_from P1 n o1 s1 pc1 = Done gi1 -> index_from P2 n o2 s2 pc2 = Done gi2 ->
  lenN (c_products pc1) <= lenN (c_products pc2) -> lenN (c_products pc2) <= 5242880 ->
  lenN (c_products pc1) <= usize_max P1 -> lenN (c_products pc2) <= usize_max P2 ->
  NoDup (map (fun s => p_id s.1) s2) -> labelled s2 ≡ₚ labelled s1 ++ labelled extra ->
  (forall t, t ∈ map snd s1 -> 0 ∉ t) ->
  forall os1 os2 input res1 res2, valid_order os1 -> valid_order os2 ->
  (forall t, t ∈ map snd extra -> strange n input t) -> unequivocal n (map snd s1) input ->
  gram_search n os1 gi1 input = Done res1 -> gram_search n os2 gi2 input = Done res2 ->
  (forall id x, (id, x) ∈ scores res1 -> exists y, (id, y) ∈ scores res2 /\ f32_le x y) /\
  (forall id y, (id, y) ∈ scores res2 -> id ∈ map fst (labelled s1)).
Proof. exact grown_search. Qed.
Print Assumptions C127_strangers_partial.
(** The same from the catalogues to what the iterators of two programs deliver. *)
Theorem C127_delivered_partial : forall low parse P1 P2 Q1 Q2 bo1 bo2 ro1 ro2 so1 so2 input1 input2 more,
  valid_build_order bo1 -> valid_build_order bo2 -> valid_ser_order so1 -> valid_ser_order so2 ->
  low_ok low -> parse_ok parse -> raw_fits Q1 low input1 -> raw_fits Q2 low input2 ->
  total_grams (map (raw_text low) input2) < 2 ^ 32 ->
  NoDup (map r_id input2) -> input2 ≡ₚ input1 ++ more ->
  lenN input2 <= 5242880 -> lenN input1 <= usize_max P1 -> lenN input2 <= usize_max P2 ->
  (forall raw, raw ∈ input1 -> 0 ∉ raw_text low raw) ->
  forall u1 u2 opsa1 opsa2 bytes1 bytes2 opsb1 opsb2,
  index_and_serialize low parse P1 bo1 ro1 so1 input1 = Done bytes1 ->
  index_and_serialize low parse P2 bo2 ro2 so2 input2 = Done bytes2 ->
  let before1 := lib_run low u1 Q1 lib_init opsa1 in
  let before2 := lib_run low u2 Q2 lib_init opsa2 in
  loads Q1 before1 (InitOp bytes1) -> no_loads low u1 Q1 (lib_step low u1 Q1 before1 (InitOp bytes1)) opsb1 ->
  loads Q2 before2 (InitOp bytes2) -> no_loads low u2 Q2 (lib_step low u2 Q2 before2 (InitOp bytes2)) opsb2 ->
  let st1 := lib_run low u1 Q1 lib_init (opsa1 ++ InitOp bytes1 :: opsb1) in
  let st2 := lib_run low u2 Q2 lib_init (opsa2 ++ InitOp bytes2 :: opsb2) in
  forall o1 o2 query cats1 cats2 tags1 tags2 order1 order2 st1' st2' p1 p2,
  valid_search_order o1 -> valid_search_order o2 -> handlers_ok cats1 tags1 -> handlers_ok cats2 tags2 ->
  s_classic st1 = Some (ch_handle cats1) -> s_classic st1 = Some (th_handle tags1) ->
  s_classic st2 = Some (ch_handle cats2) -> s_classic st2 = Some (th_handle tags2) ->
  same_choice cats1 cats2 tags1 tags2 ->
  (forall raw, raw ∈ more -> strange ngram_index_size (lower low query) (raw_text low raw)) ->
  unequivocal ngram_index_size (map (raw_text low) input1) (lower low query) ->
  search low u1 o1 st1 query cats1 tags1 order1 [] = (st1', Done p1) ->
  search low u2 o2 st2 query cats2 tags2 order2 [] = (st2', Done p2) ->
  forall id, (delivered p1 id -> delivered p2 id) /\ (delivered p2 id -> id ∈ map r_id input1).
Proof. exact grown_raw. Qed.
Print Assumptions C127_delivered_partial.
(** Ochre is put before the three woods: two planks are found by "plank mitre" before and after. *)
Example C127_hyps : raw_fits host64 ascii_low woods /\ raw_fits wasm32 ascii_low woods_and_ochre /\
  total_grams (map (raw_text ascii_low) woods_and_ochre) < 2 ^ 32 /\ NoDup (map r_id woods_and_ochre) /\
  woods_and_ochre ≡ₚ woods ++ [ochre] /\ (forall raw, raw ∈ woods -> 0 ∉ raw_text ascii_low raw) /\
  (forall raw, raw ∈ [ochre] -> strange ngram_index_size (lower ascii_low query_woods) (raw_text ascii_low raw)) /\
  unequivocal ngram_index_size (map (raw_text ascii_low) woods) (lower ascii_low query_woods).
Proof. exact grown_hyps. Qed.
Example C127_files : index_and_serialize ascii_low sample_parse host64 hash_order no_order sample_order woods_and_ochre = Done ochre_file /\
  loads host64 lib_init (InitOp ochre_file).
Proof. exact grown_files. Qed.
Example C127_found : delivered_ids true plain_search woods_state (cats_of woods_state) = Done [str_one; lit_id2] /\
  delivered_ids true plain_search ochre_state (cats_of ochre_state) = Done [str_one; lit_id2].
Proof. exact grown_found. Qed.
