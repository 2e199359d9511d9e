(** C127: from the catalogues to what is delivered. *)
From Verif.model Require Import Base F32 Utf8 Prim Coll Data Gram Indexer Nodes Classic Lit Raw Js Lib.
From Verif.spec Require Import Spec Data_spec Gram_spec Classic_spec Raw_spec Js_spec Lib_spec End_spec Reorder_spec Choice_spec Reading_spec
  Growth_spec.
From Verif.proofs Require Import Base_facts Sort_facts Cutoff_facts Data_facts File_facts Data_more Sample_facts Indexer_facts Trie_facts Trie_props
  Classic_facts Order_facts Raw_facts Raw_props Search_facts Search_more Search_props Js_facts Lib_facts End_facts End_props
  Ties_props Reorder_props Reorder_end Choice_props Float_facts Growth_facts.
From Coq Require Import Lia.

Lemma grown_raw low parse P1 P2 Q1 Q2 bo1 bo2 ro1 ro2 so1 so2 input1 input2 more :
  valid_build_order bo1 -> valid_build_order bo2 -> valid_ser_order so1 -> valid_ser_order so2 ->
  low_ok low -> parse_ok parse -> raw_fits Q1 low input1 -> raw_fits Q2 low input2 ->
  total_grams (map (raw_text low) input2) < 2 ^ 32 ->
  NoDup (map r_id input2) -> input2 ≡ₚ input1 ++ more ->
  lenN input2 <= 5242880 -> lenN input1 <= usize_max P1 -> lenN input2 <= usize_max P2 ->
  (forall raw, raw ∈ input1 -> 0 ∉ raw_text low raw) ->
  forall u1 u2 opsa1 opsa2 bytes1 bytes2 opsb1 opsb2,
  index_and_serialize low parse P1 bo1 ro1 so1 input1 = Done bytes1 ->
  index_and_serialize low parse P2 bo2 ro2 so2 input2 = Done bytes2 ->
  let before1 := lib_run low u1 Q1 lib_init opsa1 in
  let before2 := lib_run low u2 Q2 lib_init opsa2 in
  loads Q1 before1 (InitOp bytes1) -> no_loads low u1 Q1 (lib_step low u1 Q1 before1 (InitOp bytes1)) opsb1 ->
  loads Q2 before2 (InitOp bytes2) -> no_loads low u2 Q2 (lib_step low u2 Q2 before2 (InitOp bytes2)) opsb2 ->
  let st1 := lib_run low u1 Q1 lib_init (opsa1 ++ InitOp bytes1 :: opsb1) in
  let st2 := lib_run low u2 Q2 lib_init (opsa2 ++ InitOp bytes2 :: opsb2) in
  forall o1 o2 query cats1 cats2 tags1 tags2 order1 order2 st1' st2' p1 p2,
  valid_search_order o1 -> valid_search_order o2 -> handlers_ok cats1 tags1 -> handlers_ok cats2 tags2 ->
  s_classic st1 = Some (ch_handle cats1) -> s_classic st1 = Some (th_handle tags1) ->
  s_classic st2 = Some (ch_handle cats2) -> s_classic st2 = Some (th_handle tags2) ->
  same_choice cats1 cats2 tags1 tags2 ->
  (forall raw, raw ∈ more -> strange ngram_index_size (lower low query) (raw_text low raw)) ->
  unequivocal ngram_index_size (map (raw_text low) input1) (lower low query) ->
  search low u1 o1 st1 query cats1 tags1 order1 [] = (st1', Done p1) ->
  search low u2 o2 st2 query cats2 tags2 order2 [] = (st2', Done p2) ->
  forall id, (delivered p1 id -> delivered p2 id) /\ (delivered p2 id -> id ∈ map r_id input1).
Proof.
  intros Hbo1 Hbo2 Hso1 Hso2 Hlow Hparse Hfit1 Hfit2 Hlim2 ND2 Hperm Hmax HP1 HP2 H0 u1 u2 opsa1 opsa2 bytes1 bytes2 opsb1 opsb2 E1 E2
    before1 before2 L1 NL1 L2 NL2 st1 st2 o1 o2 query cats1 cats2 tags1 tags2 order1 order2 st1' st2' p1 p2
    Ho1 Ho2 Hok1 Hok2 C1 C2 C3 C4 Hsame Hstr Hun S1 S2 id.
  assert (Hlim1 : total_grams (map (raw_text low) input1) < 2 ^ 32).
  { rewrite (total_grams_perm _ _ (Permutation_map (raw_text low) Hperm)), map_app in Hlim2. unfold total_grams in *. rewrite map_app in Hlim2.
    assert (A : forall a b, sum_N (a ++ b) = sum_N a + sum_N b).
    { intros a b. unfold sum_N. induction a as [|x a IH]; [done|]. cbn [app foldr]. rewrite IH. lia. }
    rewrite A in Hlim2. lia. }
  assert (ND1 : NoDup (map r_id input1)).
  { rewrite (Permutation_map r_id Hperm), map_app in ND2. by apply NoDup_app in ND2 as [? _]. }
  destruct (delivered_iff low parse P1 Q1 bo1 ro1 so1 input1 Hbo1 Hso1 Hlow Hparse Hfit1 Hlim1 ND1 u1 opsa1 bytes1 opsb1 E1 L1 NL1
    o1 query cats1 tags1 order1 st1' p1 Ho1 Hok1 C1 C2 S1) as (c1 & cl1 & gi1 & res1 & O1 & I1 & G1 & D1).
  destruct (delivered_iff low parse P2 Q2 bo2 ro2 so2 input2 Hbo2 Hso2 Hlow Hparse Hfit2 Hlim2 ND2 u2 opsa2 bytes2 opsb2 E2 L2 NL2
    o2 query cats2 tags2 order2 st2' p2 Ho2 Hok2 C3 C4 S2) as (c2 & cl2 & gi2 & res2 & O2 & I2 & G2 & D2).
  destruct (optimize_products parse bo1 input1 c1 cl1 O1) as [F1 _]. destruct (optimize_products parse bo2 input2 c2 cl2 O2) as [F2 _].
  assert (T1 : map snd (sources low c1) = map (raw_text low) input1) by by apply raw_grams.
  assert (T2 : map snd (sources low c2) = map (raw_text low) input2) by by apply raw_grams.
  assert (Hn5 : (1 <= ngram_index_size <= 764)%nat) by (unfold ngram_index_size; lia).
  assert (N1 : lenN (c_products c1) = lenN input1) by (unfold lenN; by rewrite <- (Forall2_length _ _ _ F1)).
  assert (N2 : lenN (c_products c2) = lenN input2) by (unfold lenN; by rewrite <- (Forall2_length _ _ _ F2)).
  assert (Lb1 : labelled (sources low c1) = map (fun raw => (r_id raw, raw_text low raw)) input1) by (unfold sources; by apply labelled_raw).
  assert (Lb2 : labelled (sources low c2) = map (fun raw => (r_id raw, raw_text low raw)) input2) by (unfold sources; by apply labelled_raw).
  pose (extra := map (fun raw => (Product [] [] (Vendor [] 0) (r_id raw) 0, raw_text low raw)) more).
  assert (LbE : labelled extra = map (fun raw => (r_id raw, raw_text low raw)) more).
  { unfold extra, labelled. rewrite map_map. by apply map_ext. }
  assert (TE : map snd extra = map (raw_text low) more).
  { unfold extra. rewrite map_map. by apply map_ext. }
  destruct (grown_search P1 P2 ngram_index_size bo1 bo2 (sources low c1) (sources low c2) extra c1 c2 gi1 gi2 Hn5 Hbo1 Hbo2) 
    with (os1 := se_rank o1) (os2 := se_rank o2) (input := lower low query) (res1 := res1) (res2 := res2) as [G L]; try done.
  - by rewrite T2.
  - rewrite N1, N2. unfold lenN. rewrite (Permutation_length Hperm), app_length. lia.
  - by rewrite N2.
  - by rewrite N1.
  - by rewrite N2.
  - rewrite <- labelled_ids, Lb2, map_map. done.
  - rewrite Lb1, Lb2, LbE, <- map_app. by apply Permutation_map.
  - intros t. rewrite T1. intros (raw & -> & Hr)%elem_of_list_fmap. by apply H0.
  - apply Ho1.
  - apply Ho2.
  - intros t. rewrite TE. intros (raw & -> & Hr)%elem_of_list_fmap. by apply Hstr.
  - by rewrite T1.
  - split.
    + rewrite D1, D2. intros (raw & x & Hr & Hi & Hx & Hs). destruct (G _ _ Hx) as (y & Hy & _).
      exists raw, y. split; [rewrite Hperm; apply elem_of_app; by left|]. split; [done|]. split; [done|].
      by apply (suits_same cats1 cats2 tags1 tags2 raw Hsame).
    + rewrite D2. intros (raw & x & Hr & Hi & Hx & Hs). apply L in Hx. rewrite Lb1, map_map in Hx. done.
Qed.
