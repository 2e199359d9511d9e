(** C107, C108, C109: the order in which the catalogue lists its products does not matter to a
    search, nor do case and fields. *)
From Verif.model Require Import Base F32 Utf8 Prim Coll Data Gram Indexer Nodes Classic Lit Raw Js Lib.
From Verif.spec Require Import Spec Data_spec Gram_spec Classic_spec Raw_spec Js_spec Lib_spec End_spec Samples Raw_samples Gram_samples
  Lib_samples End_samples Reorder_spec Reorder_samples.
From Verif.proofs Require Import Reorder_props Reorder_end Reorder_samples_facts.

(** C107. Two indexes of the same products in different orders, built and searched with different
    hash orders: a query finds the same ids with the same confidences, and place by place the
    confidences agree. It takes that no two words compete for a last place (C41 says why). *)
Theorem C107_search : forall P1 P2 n o1 o2 s1 s2 pc1 pc2 gi1 gi2, (1 <= n <= 764)%nat ->
  valid_build_order o1 -> valid_build_order o2 -> total_grams (map snd s1) < 2 ^ 32 ->
  index_from P1 n o1 s1 pc1 = Done gi1 -> index_from P2 n o2 s2 pc2 = Done gi2 ->
  labelled s1 ≡ₚ labelled s2 ->
  maximum_product_amount P1 (lenN (c_products pc1)) = maximum_product_amount P2 (lenN (c_products pc2)) ->
  ~ tied n (map snd s1) ->
  forall os1 os2 input res1 res2, valid_order os1 -> valid_order os2 ->
  gram_search n os1 gi1 input = Done res1 -> gram_search n os2 gi2 input = Done res2 ->
  scores res1 ≡ₚ scores res2 /\ Forall2 (fun r1 r2 => f32_cmp r1.2 r2.2 = Some Eq) res1 res2.
Proof. exact reordered_search. Qed.
Print Assumptions C107_search.
(** From the JSON catalogue to what the browser is handed, options and tags chosen by name:
    every product is delivered for the one file if and only if it is for the other. *)
Theorem C107_delivered : forall low parse P Q1 Q2 bo1 bo2 ro1 ro2 so1 so2 input1 input2,
  valid_build_order bo1 -> valid_build_order bo2 -> valid_ser_order so1 -> valid_ser_order so2 ->
  low_ok low -> parse_ok parse -> raw_fits Q1 low input1 -> raw_fits Q2 low input2 ->
  total_grams (map (raw_text low) input1) < 2 ^ 32 ->
  NoDup (map r_id input1) -> input1 ≡ₚ input2 -> ~ tied ngram_index_size (map (raw_text low) input1) ->
  forall u1 u2 opsa1 opsa2 bytes1 bytes2 opsb1 opsb2,
  index_and_serialize low parse P bo1 ro1 so1 input1 = Done bytes1 ->
  index_and_serialize low parse P bo2 ro2 so2 input2 = Done bytes2 ->
  let before1 := lib_run low u1 Q1 lib_init opsa1 in
  let before2 := lib_run low u2 Q2 lib_init opsa2 in
  loads Q1 before1 (InitOp bytes1) -> no_loads low u1 Q1 (lib_step low u1 Q1 before1 (InitOp bytes1)) opsb1 ->
  loads Q2 before2 (InitOp bytes2) -> no_loads low u2 Q2 (lib_step low u2 Q2 before2 (InitOp bytes2)) opsb2 ->
  let st1 := lib_run low u1 Q1 lib_init (opsa1 ++ InitOp bytes1 :: opsb1) in
  let st2 := lib_run low u2 Q2 lib_init (opsa2 ++ InitOp bytes2 :: opsb2) in
  forall o1 o2 query cats1 cats2 tags1 tags2 order1 order2 st1' st2' p1 p2,
  valid_search_order o1 -> valid_search_order o2 -> handlers_ok cats1 tags1 -> handlers_ok cats2 tags2 ->
  s_classic st1 = Some (ch_handle cats1) -> s_classic st1 = Some (th_handle tags1) ->
  s_classic st2 = Some (ch_handle cats2) -> s_classic st2 = Some (th_handle tags2) ->
  same_choice cats1 cats2 tags1 tags2 ->
  search low u1 o1 st1 query cats1 tags1 order1 [] = (st1', Done p1) ->
  search low u2 o2 st2 query cats2 tags2 order2 [] = (st2', Done p2) ->
  forall id, delivered p1 id <-> delivered p2 id.
Proof. exact reordered_raw. Qed.
Print Assumptions C107_delivered.
(** A catalogue, its reverse, and the files of both, loaded on different machines. *)
Example C107_hyps : raw_fits host64 ascii_low woods /\ raw_fits wasm32 ascii_low woods_reversed /\
  total_grams (map (raw_text ascii_low) woods) < 2 ^ 32 /\ NoDup (map r_id woods) /\ woods ≡ₚ woods_reversed /\
  ~ tied ngram_index_size (map (raw_text ascii_low) woods).
Proof. exact woods_hyps. Qed.
Example C107_files : index_and_serialize ascii_low sample_parse host64 hash_order no_order sample_order woods = Done woods_file /\
  index_and_serialize ascii_low sample_parse host64 other_order rev_order sample_order woods_reversed = Done woods_other_file /\
  loads host64 lib_init (InitOp woods_file) /\ loads wasm32 lib_init (InitOp woods_other_file).
Proof. exact woods_files. Qed.
(** The option "Red" is the first of the one file and the third of the other. *)
Example C107_choice :
  same_choice (with_option woods_state 0 0) (with_option woods_other_state 0 2) (tags_of woods_state) (tags_of woods_other_state) /\
  handlers_ok (with_option woods_state 0 0) (tags_of woods_state) /\
  handlers_ok (with_option woods_other_state 0 2) (tags_of woods_other_state).
Proof. exact woods_choice. Qed.
Example C107_found : delivered_ids true plain_search woods_state (with_option woods_state 0 0) = Done [str_one] /\
  delivered_ids false other_search woods_other_state (with_option woods_other_state 0 2) = Done [str_one] /\
  delivered_ids true plain_search woods_state (cats_of woods_state) = Done [str_one; lit_id2] /\
  delivered_ids false other_search woods_other_state (cats_of woods_other_state) = Done [str_one; lit_id2].
Proof. exact woods_found. Qed.

(** C108. The case of letters matters neither in texts nor in queries. *)
Theorem C108_case : forall low parse P Q1 Q2 bo1 bo2 ro1 ro2 so1 so2 input1 input2,
  valid_build_order bo1 -> valid_build_order bo2 -> valid_ser_order so1 -> valid_ser_order so2 ->
  low_ok low -> parse_ok parse -> raw_fits Q1 low input1 -> raw_fits Q2 low input2 ->
  total_grams (map (raw_text low) input1) < 2 ^ 32 ->
  NoDup (map r_id input1) -> Forall2 (same_but_case low) input1 input2 ->
  ~ tied ngram_index_size (map (raw_text low) input1) ->
  forall u1 u2 opsa1 opsa2 bytes1 bytes2 opsb1 opsb2,
  index_and_serialize low parse P bo1 ro1 so1 input1 = Done bytes1 ->
  index_and_serialize low parse P bo2 ro2 so2 input2 = Done bytes2 ->
  let before1 := lib_run low u1 Q1 lib_init opsa1 in
  let before2 := lib_run low u2 Q2 lib_init opsa2 in
  loads Q1 before1 (InitOp bytes1) -> no_loads low u1 Q1 (lib_step low u1 Q1 before1 (InitOp bytes1)) opsb1 ->
  loads Q2 before2 (InitOp bytes2) -> no_loads low u2 Q2 (lib_step low u2 Q2 before2 (InitOp bytes2)) opsb2 ->
  let st1 := lib_run low u1 Q1 lib_init (opsa1 ++ InitOp bytes1 :: opsb1) in
  let st2 := lib_run low u2 Q2 lib_init (opsa2 ++ InitOp bytes2 :: opsb2) in
  forall o1 o2 query1 query2 cats1 cats2 tags1 tags2 order1 order2 st1' st2' p1 p2,
  valid_search_order o1 -> valid_search_order o2 -> handlers_ok cats1 tags1 -> handlers_ok cats2 tags2 ->
  s_classic st1 = Some (ch_handle cats1) -> s_classic st1 = Some (th_handle tags1) ->
  s_classic st2 = Some (ch_handle cats2) -> s_classic st2 = Some (th_handle tags2) ->
  same_choice cats1 cats2 tags1 tags2 -> same_letters low query1 query2 ->
  search low u1 o1 st1 query1 cats1 tags1 order1 [] = (st1', Done p1) ->
  search low u2 o2 st2 query2 cats2 tags2 order2 [] = (st2', Done p2) ->
  forall id, delivered p1 id <-> delivered p2 id.
Proof. exact case_raw. Qed.
Print Assumptions C108_case.
(** In any state at all, with lower-casing that is idempotent as Unicode's is, a query and the
    same in lower case have the same outcome, order and panics included. *)
Theorem C108_query : forall low u o st q cats tags order entries, (forall c, same_letters low (low c) [c]) ->
  search low u o st (lower low q) cats tags order entries = search low u o st q cats tags order entries.
Proof. exact lowered_search. Qed.
Print Assumptions C108_query.
Example C108_hyps : Forall2 (same_but_case ascii_low) woods woods_upper /\ same_letters ascii_low query_woods query_upper /\
  query_woods <> query_upper /\ Forall2 (fun raw1 raw2 => raw1 <> raw2) woods woods_upper /\
  (forall c, same_letters ascii_low (ascii_low c) [c]).
Proof. exact woods_alike. Qed.

(** C109: a product is found only if one of its fields has a piece of the query; it is not so,
    since the fields are indexed as one text. *)
Theorem C109_within_field_refuted : exists input bytes query st' p j raw,
  index_and_serialize ascii_low sample_parse host64 hash_order no_order sample_order input = Done bytes /\
  loads host64 lib_init (InitOp bytes) /\ NoDup (map r_id input) /\
  (let st := after [InitOp bytes] in
   search ascii_low true plain_search st query (cats_of st) (tags_of st) None [] = (st', Done p)) /\
  Some j ∈ calls pp_next 1 p /\ raw ∈ input /\ jp_id j = Done (r_id raw) /\ ~ field_relevant ascii_low query raw.
Proof. exact across_fields. Qed.
Print Assumptions C109_within_field_refuted.
(** Nothing but ids, options, tags and the fields run together decides what is delivered; which
    field has which part of the text cannot be told. *)
Theorem C109_joined_partial : forall low parse P Q1 Q2 bo1 bo2 ro1 ro2 so1 so2 input1 input2,
  valid_build_order bo1 -> valid_build_order bo2 -> valid_ser_order so1 -> valid_ser_order so2 ->
  low_ok low -> parse_ok parse -> raw_fits Q1 low input1 -> raw_fits Q2 low input2 ->
  total_grams (map (raw_text low) input1) < 2 ^ 32 ->
  NoDup (map r_id input1) -> map (view low) input1 ≡ₚ map (view low) input2 ->
  ~ tied ngram_index_size (map (raw_text low) input1) ->
  forall u1 u2 opsa1 opsa2 bytes1 bytes2 opsb1 opsb2,
  index_and_serialize low parse P bo1 ro1 so1 input1 = Done bytes1 ->
  index_and_serialize low parse P bo2 ro2 so2 input2 = Done bytes2 ->
  let before1 := lib_run low u1 Q1 lib_init opsa1 in
  let before2 := lib_run low u2 Q2 lib_init opsa2 in
  loads Q1 before1 (InitOp bytes1) -> no_loads low u1 Q1 (lib_step low u1 Q1 before1 (InitOp bytes1)) opsb1 ->
  loads Q2 before2 (InitOp bytes2) -> no_loads low u2 Q2 (lib_step low u2 Q2 before2 (InitOp bytes2)) opsb2 ->
  let st1 := lib_run low u1 Q1 lib_init (opsa1 ++ InitOp bytes1 :: opsb1) in
  let st2 := lib_run low u2 Q2 lib_init (opsa2 ++ InitOp bytes2 :: opsb2) in
  forall o1 o2 query1 query2 cats1 cats2 tags1 tags2 order1 order2 st1' st2' p1 p2,
  valid_search_order o1 -> valid_search_order o2 -> handlers_ok cats1 tags1 -> handlers_ok cats2 tags2 ->
  s_classic st1 = Some (ch_handle cats1) -> s_classic st1 = Some (th_handle tags1) ->
  s_classic st2 = Some (ch_handle cats2) -> s_classic st2 = Some (th_handle tags2) ->
  same_choice cats1 cats2 tags1 tags2 -> lower low query1 = lower low query2 ->
  search low u1 o1 st1 query1 cats1 tags1 order1 [] = (st1', Done p1) ->
  search low u2 o2 st2 query2 cats2 tags2 order2 [] = (st2', Done p2) ->
  forall id, delivered p1 id <-> delivered p2 id.
Proof. exact alike_raw. Qed.
Print Assumptions C109_joined_partial.
(** The same products with all text in the title. *)
Example C109_hyps : map (view ascii_low) woods = map (view ascii_low) woods_joined /\
  Forall2 (fun raw1 raw2 => raw1 <> raw2) woods woods_joined.
Proof. exact woods_views. Qed.
Example C109_files :
  index_and_serialize ascii_low sample_parse host64 hash_order no_order sample_order woods_upper = Done woods_upper_file /\
  index_and_serialize ascii_low sample_parse host64 hash_order no_order sample_order woods_joined = Done woods_joined_file /\
  loads host64 lib_init (InitOp woods_upper_file) /\ loads host64 lib_init (InitOp woods_joined_file).
Proof. exact woods_more_files. Qed.
Example C109_fits : forall P input, P = host64 \/ P = wasm32 -> input = woods_upper \/ input = woods_joined -> raw_fits P ascii_low input.
Proof. exact woods_fit_more. Qed.
