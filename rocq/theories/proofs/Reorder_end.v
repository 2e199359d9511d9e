(** C107, from raw catalogues to delivered products. *)
From Verif.model Require Import Base F32 Utf8 Prim Coll Data Gram Indexer Nodes Classic Lit Raw Js Lib.
From Verif.spec Require Import Spec Data_spec Gram_spec Classic_spec Raw_spec Js_spec Lib_spec End_spec Reorder_spec.
From Verif.proofs Require Import Base_facts Sort_facts Data_facts File_facts Data_more Sample_facts Indexer_facts Trie_facts Trie_props
  Classic_facts Order_facts Raw_facts Raw_props Search_facts Search_more Search_props Js_facts Lib_facts End_facts End_props
  Ties_props Reorder_props.
From Coq Require Import Lia.

Lemma suits_raw input cats tags i raw : input !! i = Some raw ->
  raw_has_options input cats i /\ raw_has_tags input tags i <-> suits cats tags raw.
Proof.
  intros Hi. unfold raw_has_options, raw_has_tags, suits, lists_option, lists_tag, chosen_option, chosen_tag.
  rewrite !list_lookup_fmap, Hi. simpl. split.
  - intros [H1 H2]. split.
    + intros k v (key & cat & opt & Ha & Hat & <- & <-). destruct (H1 key cat opt Ha Hat) as (os & o & [= <-] & H). eauto.
    + intros t (id & tg & Ha & Hat & <-). destruct (H2 id tg Ha Hat) as (ts & [= <-] & H). done.
  - intros [H1 H2]. split.
    + intros key cat opt Ha Hat. destruct (H1 (cat_name cat) (o_name opt)) as (o & H); [eauto 10|]. eauto.
    + intros id tg Ha Hat. eexists. split; [done|]. apply H2. eauto.
Qed.

Section one.
Context (low : N -> list N) (parse : rstr -> option f32) (P Q : platform) (bo : build_order)
  (ro : order_of (rstr * (product * f32))) (so : ser_order) (input : list raw_product).
Context (Hbo : valid_build_order bo) (Hso : valid_ser_order so) (Hlow : low_ok low) (Hparse : parse_ok parse)
  (Hfit : raw_fits Q low input) (Hlim : total_grams (map (raw_text low) input) < 2 ^ 32) (ND : NoDup (map r_id input)).
Lemma delivered_iff u ops1 bytes ops2 : index_and_serialize low parse P bo ro so input = Done bytes ->
  let st := lib_run low u Q lib_init ops1 in
  loads Q st (InitOp bytes) -> no_loads low u Q (lib_step low u Q st (InitOp bytes)) ops2 ->
  forall o query categories tags order st' p,
  let st1 := lib_run low u Q lib_init (ops1 ++ InitOp bytes :: ops2) in
  valid_search_order o -> handlers_ok categories tags ->
  s_classic st1 = Some (ch_handle categories) -> s_classic st1 = Some (th_handle tags) ->
  search low u o st1 query categories tags order [] = (st', Done p) ->
  exists c cl gi res, optimize parse bo input = Done (c, cl) /\
    index_from P ngram_index_size bo (sources low c) c = Done gi /\
    gram_search ngram_index_size (se_rank o) gi (lower low query) = Done res /\
    forall id, delivered p id <->
      exists raw x, raw ∈ input /\ r_id raw = id /\ (id, x) ∈ scores res /\ suits categories tags raw.
Proof.
  intros E st L NL o query categories tags order st' p st1 Ho Hok C1 C2 S.
  destruct (indexed_inv _ _ _ _ _ _ _ _ _ E) as (c & cl & gi & O & I & ->).
  destruct (last_loaded low u Q ops1 _ ops2 L NL) as (gi' & cl' & E' & I1 & I2 & _).
  pose proof (file_loads low parse P Q bo so input Hbo Hso Hlow Hparse Hfit Hlim c cl gi [] O I) as F.
  rewrite app_nil_r, E' in F. apply done_inj in F. injection F as -> ->. clear E'.
  assert (SC : same_classic cl (stored_classic cl)) by by right.
  fold st1 in I1, I2. rewrite I2 in C1, C2. injection C1 as C1. injection C2 as C2.
  destruct (search_delivers _ _ _ _ _ _ _ _ _ _ _ _ I1 S) as (filters & l & ids & Sf & Pf & -> & Pl).
  injection Pf as <-.
  assert (Con : consistent_gram_index ngram_index_size (stored_gram_index gi)) by (by eapply reachable_consistent).
  assert (R : Forall (fun sid => N.to_nat sid < length (c_products (gi_container (stored_gram_index gi))))%nat ids).
  { rewrite Pl. by eapply results_in_range. }
  destruct (optimize_products parse bo input c cl O) as [D W].
  assert (T : map snd (sources low c) = map (raw_text low) input) by by apply raw_grams.
  assert (Hn5 : (1 <= ngram_index_size <= 764)%nat) by (unfold ngram_index_size; lia).
  assert (Hlim' : total_grams (map snd (sources low c)) < 2 ^ 32) by by rewrite T.
  destruct (search_total ngram_index_size (se_rank o) gi (lower low query) Hn5) as [res0 Er0].
  exists c, cl, gi, res0. split; [done|]. split; [done|]. split; [done|].
  assert (G : gi_container gi = c) by by eapply index_container.
  destruct (filtered_spec low o (stored_gram_index gi) query categories tags [] Ho Hok) as (res & ok & Er & Eok & Ef).
  rewrite Sf in Ef. injection Ef as ->.
  pose proof (search_stored P ngram_index_size bo (sources low c) c gi Hn5 Hbo Hlim' I _ _ _ _ _ (proj1 Ho) (proj1 Ho) Er0 Er) as Hres.
  (* the products found are those of the catalogue *)
  assert (Hfound : forall q x, (q, x) ∈ res0 -> exists i raw, c_products c !! i = Some q /\ input !! i = Some raw /\
    describes raw q /\ p_sid q = N.of_nat i).
  { intros q x Hq. destruct (result_has_gram P ngram_index_size bo (sources low c) c gi (proj1 Hn5) Hbo Hlim' I _ _ _ _ _ (proj2 Hn5) (proj1 Ho) Er0 Hq)
      as (t & _ & _ & _ & Ht & _).
    apply elem_of_list_fmap in Ht as (p1 & [= -> ->] & Hp1). apply elem_of_list_lookup in Hp1 as (i & Hi).
    destruct (Forall2_lookup_r _ _ _ _ _ D Hi) as (raw & Hraw & Dr). exists i, raw.
    split; [done|]. split; [done|]. split; [done|]. by apply W. }
  assert (Hsuits : forall q i raw, c_products c !! i = Some q -> input !! i = Some raw ->
    ok (stored q) = true <-> suits categories tags raw).
  { intros q i raw Hq Hraw. rewrite Eok, <- (suits_raw input categories tags i raw Hraw).
    assert (Lt : (i < length input)%nat) by by eapply lookup_lt_Some.
    unfold passes, has_options, has_tags. change (p_sid (stored q)) with (p_sid q). rewrite (W _ _ Hq). split.
    - intros (Hopt & Htag & _). split.
      + intros key cat opt Hk Hat. specialize (Hopt key cat opt Hk Hat). rewrite <- C1 in Hat.
        destruct (option_at_stored _ _ _ _ _ SC Hat) as (cat' & opt' & Hat' & E1 & E2 & E3). rewrite <- E1, <- E2.
        apply (option_lists parse bo input c cl O key cat' opt'); [done..|]. by rewrite E3.
      + intros id t Hk Hat. specialize (Htag id t Hk Hat). rewrite <- C2 in Hat.
        destruct (tag_at_stored _ _ _ _ SC Hat) as (t' & Hat' & E1 & E2). rewrite <- E1.
        apply (tag_lists parse bo input c cl O id t'); [apply Hbo|done..|]. by rewrite E2.
    - intros [Hopts Htags]. split; [|split].
      + intros key cat opt Hk Hat. pose proof (Hopts key cat opt Hk Hat) as HL. rewrite <- C1 in Hat.
        destruct (option_at_stored _ _ _ _ _ SC Hat) as (cat' & opt' & Hat' & E1 & E2 & E3). rewrite <- E3.
        apply (option_lists parse bo input c cl O key cat' opt'); [done..|]. by rewrite E1, E2.
      + intros id t Hk Hat. pose proof (Htags id t Hk Hat) as HL. rewrite <- C2 in Hat.
        destruct (tag_at_stored _ _ _ _ SC Hat) as (t' & Hat' & E1 & E2). rewrite <- E2.
        apply (tag_lists parse bo input c cl O id t'); [apply Hbo|done..|]. by rewrite E1.
      + intros f Hf. by apply elem_of_nil in Hf. }
  assert (Hid : forall i q, c_products c !! i = Some q ->
    jp_id (JsProduct (gi_container (stored_gram_index gi)) (N.of_nat i)) = Done (p_id q)).
  { intros i q Hq. unfold jp_id, jp_product. cbn [stored_gram_index gi_container jp_container jp_sid]. rewrite G, getN_lookup.
    cbn [stored_container c_products]. rewrite list_lookup_fmap, Nat2N.id, Hq. done. }
  intros id. split.
  - intros (n & j & Hj & Ej). destruct (delivered_sid _ _ _ _ Hj R) as [Jc Js].
    rewrite Pl in Js. apply elem_of_list_fmap in Js as (ps & Ep & Hp). apply elem_of_list_filter in Hp as [Hop Hp].
    apply elem_of_list_fmap in Hp as ([p' x] & -> & Hp). cbn [fst] in *. rewrite Hres in Hp.
    apply elem_of_list_fmap in Hp as ([q x0] & [= -> ->] & Hq). destruct (Hfound q x0 Hq) as (i & raw & Hi & Hraw & (_ & Dq & _) & Hsid).
    change (p_sid (stored q)) with (p_sid q) in Ep. rewrite Hsid in Ep.
    assert (J : j = JsProduct (gi_container (stored_gram_index gi)) (N.of_nat i)) by (destruct j; simpl in *; by subst).
    rewrite J, (Hid i q Hi) in Ej. injection Ej as <-.
    exists raw, x0. split; [by eapply elem_of_list_lookup_2|]. split; [done|]. split; [apply elem_of_list_fmap; by exists (q, x0)|].
    by apply (Hsuits q i raw Hi Hraw).
  - intros (raw & x & Hraw & <- & Hx & Hsu). apply elem_of_list_fmap in Hx as ([q y] & [= Eid <-] & Hq).
    destruct (Hfound q x Hq) as (i & raw' & Hi & Hraw' & (_ & Dq & _) & Hsid).
    apply elem_of_list_lookup in Hraw as (k & Hk).
    assert (k = i) as ->.
    { eapply (NoDup_lookup (map r_id input) k i (r_id raw) ND); rewrite list_lookup_fmap; [by rewrite Hk|].
      rewrite Hraw'. simpl. f_equal. congruence. }
    rewrite Hraw' in Hk. injection Hk as ->.
    assert (Hin : N.of_nat i ∈ ids).
    { rewrite Pl. apply elem_of_list_fmap. exists (stored q). split; [by rewrite <- Hsid|].
      apply elem_of_list_filter. split; [by apply (Hsuits q i raw Hi Hraw')|].
      apply elem_of_list_fmap. exists (stored q, x). split; [done|]. rewrite Hres. apply elem_of_list_fmap. by exists (q, x). }
    apply elem_of_list_lookup in Hin as (k & Hk).
    exists (Datatypes.S k), (JsProduct (gi_container (stored_gram_index gi)) (N.of_nat i)).
    split; [|by rewrite (Hid i q Hi), Dq].
    rewrite (proj1 (producer_answers _ ids (Datatypes.S k) R)). unfold then_none. apply elem_of_list_fmap. exists k. split.
    + rewrite list_lookup_fmap, Hk. done.
    + apply elem_of_seq. lia.
Qed.
End one.
Lemma labelled_raw low input ps : Forall2 describes input ps ->
  labelled (map (fun p => (p, product_grams low p)) ps) = map (fun raw => (r_id raw, raw_text low raw)) input.
Proof.
  unfold labelled. induction 1 as [|raw p input ps (E1 & E2 & E3 & E4) D IH]; [done|]. cbn [map]. f_equal; [|done].
  unfold product_grams, raw_text, lower. by rewrite E1, E2, E3, E4.
Qed.
Lemma suits_same cats1 cats2 tags1 tags2 raw : same_choice cats1 cats2 tags1 tags2 ->
  suits cats1 tags1 raw <-> suits cats2 tags2 raw.
Proof.
  intros [H1 H2]. unfold suits. split; intros [S1 S2].
  - split; [intros k v H; apply S1, H1, H|intros t H; apply S2, H2, H].
  - split; [intros k v H; apply S1, H1, H|intros t H; apply S2, H2, H].
Qed.
(** All of a raw product that decides whether it is delivered. *)
Lemma alike_texts low input1 input2 : map (view low) input1 ≡ₚ map (view low) input2 ->
  map (raw_text low) input1 ≡ₚ map (raw_text low) input2 /\ map r_id input1 ≡ₚ map r_id input2 /\
  map (fun raw => (r_id raw, raw_text low raw)) input1 ≡ₚ map (fun raw => (r_id raw, raw_text low raw)) input2.
Proof.
  intros H. split; [|split].
  - apply (Permutation_map (fun v => v.1.1.2)) in H. by rewrite !map_map in H.
  - apply (Permutation_map (fun v => v.1.1.1)) in H. by rewrite !map_map in H.
  - apply (Permutation_map (fun v => v.1.1)) in H. by rewrite !map_map in H.
Qed.
Lemma alike_suits low cats tags raw1 raw2 : view low raw1 = view low raw2 -> suits cats tags raw1 -> suits cats tags raw2.
Proof. intros [= _ _ E1 E2]. unfold suits. by rewrite E1, E2. Qed.
Lemma alike_raw low parse P Q1 Q2 bo1 bo2 ro1 ro2 so1 so2 input1 input2 :
  valid_build_order bo1 -> valid_build_order bo2 -> valid_ser_order so1 -> valid_ser_order so2 ->
  low_ok low -> parse_ok parse -> raw_fits Q1 low input1 -> raw_fits Q2 low input2 ->
  total_grams (map (raw_text low) input1) < 2 ^ 32 ->
  NoDup (map r_id input1) -> map (view low) input1 ≡ₚ map (view low) input2 ->
  ~ tied ngram_index_size (map (raw_text low) input1) ->
  forall u1 u2 opsa1 opsa2 bytes1 bytes2 opsb1 opsb2,
  index_and_serialize low parse P bo1 ro1 so1 input1 = Done bytes1 ->
  index_and_serialize low parse P bo2 ro2 so2 input2 = Done bytes2 ->
  let before1 := lib_run low u1 Q1 lib_init opsa1 in
  let before2 := lib_run low u2 Q2 lib_init opsa2 in
  loads Q1 before1 (InitOp bytes1) -> no_loads low u1 Q1 (lib_step low u1 Q1 before1 (InitOp bytes1)) opsb1 ->
  loads Q2 before2 (InitOp bytes2) -> no_loads low u2 Q2 (lib_step low u2 Q2 before2 (InitOp bytes2)) opsb2 ->
  let st1 := lib_run low u1 Q1 lib_init (opsa1 ++ InitOp bytes1 :: opsb1) in
  let st2 := lib_run low u2 Q2 lib_init (opsa2 ++ InitOp bytes2 :: opsb2) in
  forall o1 o2 query1 query2 cats1 cats2 tags1 tags2 order1 order2 st1' st2' p1 p2,
  valid_search_order o1 -> valid_search_order o2 -> handlers_ok cats1 tags1 -> handlers_ok cats2 tags2 ->
  s_classic st1 = Some (ch_handle cats1) -> s_classic st1 = Some (th_handle tags1) ->
  s_classic st2 = Some (ch_handle cats2) -> s_classic st2 = Some (th_handle tags2) ->
  same_choice cats1 cats2 tags1 tags2 -> lower low query1 = lower low query2 ->
  search low u1 o1 st1 query1 cats1 tags1 order1 [] = (st1', Done p1) ->
  search low u2 o2 st2 query2 cats2 tags2 order2 [] = (st2', Done p2) ->
  forall id, delivered p1 id <-> delivered p2 id.
Proof.
  intros Hbo1 Hbo2 Hso1 Hso2 Hlow Hparse Hfit1 Hfit2 Hlim ND Hperm HT u1 u2 opsa1 opsa2 bytes1 bytes2 opsb1 opsb2 E1 E2
    before1 before2 L1 NL1 L2 NL2 st1 st2 o1 o2 query1 query2 cats1 cats2 tags1 tags2 order1 order2 st1' st2' p1 p2
    Ho1 Ho2 Hok1 Hok2 C1 C2 C3 C4 Hsame Hq S1 S2 id.
  destruct (alike_texts low input1 input2 Hperm) as (Ht & Hids & Hlab).
  assert (Hlim2 : total_grams (map (raw_text low) input2) < 2 ^ 32).
  { by rewrite <- (total_grams_perm (map (raw_text low) input1)). }
  assert (ND2 : NoDup (map r_id input2)) by by rewrite <- Hids.
  destruct (delivered_iff low parse P Q1 bo1 ro1 so1 input1 Hbo1 Hso1 Hlow Hparse Hfit1 Hlim ND u1 opsa1 bytes1 opsb1 E1 L1 NL1
    o1 query1 cats1 tags1 order1 st1' p1 Ho1 Hok1 C1 C2 S1) as (c1 & cl1 & gi1 & res1 & O1 & I1 & G1 & D1).
  destruct (delivered_iff low parse P Q2 bo2 ro2 so2 input2 Hbo2 Hso2 Hlow Hparse Hfit2 Hlim2 ND2 u2 opsa2 bytes2 opsb2 E2 L2 NL2
    o2 query2 cats2 tags2 order2 st2' p2 Ho2 Hok2 C3 C4 S2) as (c2 & cl2 & gi2 & res2 & O2 & I2 & G2 & D2).
  rewrite <- Hq in G2.
  destruct (optimize_products parse bo1 input1 c1 cl1 O1) as [F1 _]. destruct (optimize_products parse bo2 input2 c2 cl2 O2) as [F2 _].
  assert (T1 : map snd (sources low c1) = map (raw_text low) input1) by by apply raw_grams.
  assert (Hn5 : (1 <= ngram_index_size <= 764)%nat) by (unfold ngram_index_size; lia).
  destruct (reordered_search P P ngram_index_size bo1 bo2 (sources low c1) (sources low c2) c1 c2 gi1 gi2 Hn5 Hbo1 Hbo2
    ltac:(by rewrite T1) I1 I2) with (os1 := se_rank o1) (os2 := se_rank o2) (input := lower low query1) (res1 := res1) (res2 := res2)
    as [Hsc _]; [| |by rewrite T1|apply Ho1|apply Ho2|done|done|].
  - unfold sources. by rewrite (labelled_raw low input1), (labelled_raw low input2) by done.
  - f_equal. unfold lenN. f_equal. rewrite <- (Forall2_length _ _ _ F1), <- (Forall2_length _ _ _ F2).
    apply Permutation_length in Hids. by rewrite !map_length in Hids.
  - rewrite D1, D2. split; intros (raw & x & Hr & Hi & Hx & Hs).
    + assert (Hv : view low raw ∈ map (view low) input2) by (rewrite <- Hperm; by apply elem_of_list_fmap_1).
      apply elem_of_list_fmap in Hv as (raw2 & Hv & Hr2). exists raw2, x. rewrite <- Hsc. split; [done|].
      split; [by injection Hv as <- _ _ _|]. split; [done|].
      apply (suits_same cats1 cats2 tags1 tags2 raw2 Hsame). by eapply alike_suits.
    + assert (Hv : view low raw ∈ map (view low) input1) by (rewrite Hperm; by apply elem_of_list_fmap_1).
      apply elem_of_list_fmap in Hv as (raw2 & Hv & Hr2). exists raw2, x. rewrite Hsc. split; [done|].
      split; [by injection Hv as <- _ _ _|]. split; [done|].
      apply (suits_same cats1 cats2 tags1 tags2 raw2 Hsame). by eapply alike_suits.
Qed.
Lemma reordered_raw low parse P Q1 Q2 bo1 bo2 ro1 ro2 so1 so2 input1 input2 :
  valid_build_order bo1 -> valid_build_order bo2 -> valid_ser_order so1 -> valid_ser_order so2 ->
  low_ok low -> parse_ok parse -> raw_fits Q1 low input1 -> raw_fits Q2 low input2 ->
  total_grams (map (raw_text low) input1) < 2 ^ 32 ->
  NoDup (map r_id input1) -> input1 ≡ₚ input2 -> ~ tied ngram_index_size (map (raw_text low) input1) ->
  forall u1 u2 opsa1 opsa2 bytes1 bytes2 opsb1 opsb2,
  index_and_serialize low parse P bo1 ro1 so1 input1 = Done bytes1 ->
  index_and_serialize low parse P bo2 ro2 so2 input2 = Done bytes2 ->
  let before1 := lib_run low u1 Q1 lib_init opsa1 in
  let before2 := lib_run low u2 Q2 lib_init opsa2 in
  loads Q1 before1 (InitOp bytes1) -> no_loads low u1 Q1 (lib_step low u1 Q1 before1 (InitOp bytes1)) opsb1 ->
  loads Q2 before2 (InitOp bytes2) -> no_loads low u2 Q2 (lib_step low u2 Q2 before2 (InitOp bytes2)) opsb2 ->
  let st1 := lib_run low u1 Q1 lib_init (opsa1 ++ InitOp bytes1 :: opsb1) in
  let st2 := lib_run low u2 Q2 lib_init (opsa2 ++ InitOp bytes2 :: opsb2) in
  forall o1 o2 query cats1 cats2 tags1 tags2 order1 order2 st1' st2' p1 p2,
  valid_search_order o1 -> valid_search_order o2 -> handlers_ok cats1 tags1 -> handlers_ok cats2 tags2 ->
  s_classic st1 = Some (ch_handle cats1) -> s_classic st1 = Some (th_handle tags1) ->
  s_classic st2 = Some (ch_handle cats2) -> s_classic st2 = Some (th_handle tags2) ->
  same_choice cats1 cats2 tags1 tags2 ->
  search low u1 o1 st1 query cats1 tags1 order1 [] = (st1', Done p1) ->
  search low u2 o2 st2 query cats2 tags2 order2 [] = (st2', Done p2) ->
  forall id, delivered p1 id <-> delivered p2 id.
Proof.
  intros Hbo1 Hbo2 Hso1 Hso2 Hlow Hparse Hfit1 Hfit2 Hlim ND Hperm HT u1 u2 opsa1 opsa2 bytes1 bytes2 opsb1 opsb2 E1 E2
    before1 before2 L1 NL1 L2 NL2 st1 st2 o1 o2 query cats1 cats2 tags1 tags2 order1 order2 st1' st2' p1 p2
    Ho1 Ho2 Hok1 Hok2 C1 C2 C3 C4 Hsame S1 S2.
  apply (alike_raw low parse P Q1 Q2 bo1 bo2 ro1 ro2 so1 so2 input1 input2 Hbo1 Hbo2 Hso1 Hso2 Hlow Hparse Hfit1 Hfit2 Hlim ND
    (Permutation_map (view low) Hperm) HT u1 u2 opsa1 opsa2 bytes1 bytes2 opsb1 opsb2 E1 E2 L1 NL1 L2 NL2
    o1 o2 query query cats1 cats2 tags1 tags2 order1 order2 st1' st2' p1 p2 Ho1 Ho2 Hok1 Hok2 C1 C2 C3 C4 Hsame eq_refl S1 S2).
Qed.
(** ** Case and fields (C108, C109) *)
Lemma case_view low raw1 raw2 : same_but_case low raw1 raw2 -> view low raw1 = view low raw2.
Proof.
  intros (E1 & E2 & E3 & E4 & E5 & E6). unfold view, raw_text. unfold same_letters in *.
  by rewrite E1, E2, E3, !map_app, !concat_app, E4, E5, E6.
Qed.
Lemma case_views low input1 input2 : Forall2 (same_but_case low) input1 input2 -> map (view low) input1 = map (view low) input2.
Proof. induction 1 as [|raw1 raw2 l1 l2 E _ IH]; [done|]. cbn [map]. by rewrite IH, (case_view low raw1 raw2 E). Qed.
Lemma lower_idempotent low q : (forall c, same_letters low (low c) [c]) -> lower low (lower low q) = lower low q.
Proof.
  intros H. unfold lower. induction q as [|c q IH]; [done|]. cbn [map concat]. rewrite map_app, concat_app, IH. f_equal.
  specialize (H c). unfold same_letters in H. cbn [map concat] in H. by rewrite app_nil_r in H.
Qed.
(** Nothing else of the product matters: fields run together. *)
Lemma joined_view low raw1 raw2 : r_id raw1 = r_id raw2 -> r_options raw1 = r_options raw2 -> r_tags raw1 = r_tags raw2 ->
  r_description raw1 ++ r_title raw1 ++ r_vendor raw1 = r_description raw2 ++ r_title raw2 ++ r_vendor raw2 ->
  view low raw1 = view low raw2.
Proof. intros E1 E2 E3 E4. unfold view, raw_text. by rewrite E1, E2, E3, E4. Qed.
Lemma case_raw low parse P Q1 Q2 bo1 bo2 ro1 ro2 so1 so2 input1 input2 :
  valid_build_order bo1 -> valid_build_order bo2 -> valid_ser_order so1 -> valid_ser_order so2 ->
  low_ok low -> parse_ok parse -> raw_fits Q1 low input1 -> raw_fits Q2 low input2 ->
  total_grams (map (raw_text low) input1) < 2 ^ 32 ->
  NoDup (map r_id input1) -> Forall2 (same_but_case low) input1 input2 ->
  ~ tied ngram_index_size (map (raw_text low) input1) ->
  forall u1 u2 opsa1 opsa2 bytes1 bytes2 opsb1 opsb2,
  index_and_serialize low parse P bo1 ro1 so1 input1 = Done bytes1 ->
  index_and_serialize low parse P bo2 ro2 so2 input2 = Done bytes2 ->
  let before1 := lib_run low u1 Q1 lib_init opsa1 in
  let before2 := lib_run low u2 Q2 lib_init opsa2 in
  loads Q1 before1 (InitOp bytes1) -> no_loads low u1 Q1 (lib_step low u1 Q1 before1 (InitOp bytes1)) opsb1 ->
  loads Q2 before2 (InitOp bytes2) -> no_loads low u2 Q2 (lib_step low u2 Q2 before2 (InitOp bytes2)) opsb2 ->
  let st1 := lib_run low u1 Q1 lib_init (opsa1 ++ InitOp bytes1 :: opsb1) in
  let st2 := lib_run low u2 Q2 lib_init (opsa2 ++ InitOp bytes2 :: opsb2) in
  forall o1 o2 query1 query2 cats1 cats2 tags1 tags2 order1 order2 st1' st2' p1 p2,
  valid_search_order o1 -> valid_search_order o2 -> handlers_ok cats1 tags1 -> handlers_ok cats2 tags2 ->
  s_classic st1 = Some (ch_handle cats1) -> s_classic st1 = Some (th_handle tags1) ->
  s_classic st2 = Some (ch_handle cats2) -> s_classic st2 = Some (th_handle tags2) ->
  same_choice cats1 cats2 tags1 tags2 -> same_letters low query1 query2 ->
  search low u1 o1 st1 query1 cats1 tags1 order1 [] = (st1', Done p1) ->
  search low u2 o2 st2 query2 cats2 tags2 order2 [] = (st2', Done p2) ->
  forall id, delivered p1 id <-> delivered p2 id.
Proof.
  intros Hbo1 Hbo2 Hso1 Hso2 Hlow Hparse Hfit1 Hfit2 Hlim ND Hcase HT u1 u2 opsa1 opsa2 bytes1 bytes2 opsb1 opsb2 E1 E2
    before1 before2 L1 NL1 L2 NL2 st1 st2 o1 o2 query1 query2 cats1 cats2 tags1 tags2 order1 order2 st1' st2' p1 p2
    Ho1 Ho2 Hok1 Hok2 C1 C2 C3 C4 Hsame Hq S1 S2.
  apply (alike_raw low parse P Q1 Q2 bo1 bo2 ro1 ro2 so1 so2 input1 input2 Hbo1 Hbo2 Hso1 Hso2 Hlow Hparse Hfit1 Hfit2 Hlim ND
    ltac:(by rewrite (case_views low input1 input2 Hcase)) HT u1 u2 opsa1 opsa2 bytes1 bytes2 opsb1 opsb2 E1 E2 L1 NL1 L2 NL2
    o1 o2 query1 query2 cats1 cats2 tags1 tags2 order1 order2 st1' st2' p1 p2 Ho1 Ho2 Hok1 Hok2 C1 C2 C3 C4 Hsame Hq S1 S2).
Qed.
Lemma lowered_search low u o st q cats tags order entries : (forall c, same_letters low (low c) [c]) ->
  search low u o st (lower low q) cats tags order entries = search low u o st q cats tags order entries.
Proof. intros H. unfold search, search_filtered. by rewrite lower_idempotent. Qed.
