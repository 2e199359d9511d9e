(** C73, C79: from raw catalogues to delivered products. *)
From Verif.model Require Import Base F32 Utf8 Prim Coll Data Gram Indexer Nodes Classic Lit Raw Js Lib.
From Verif.spec Require Import Spec Data_spec Gram_spec Classic_spec Raw_spec Js_spec Lib_spec End_spec.
From Verif.proofs Require Import Base_facts Sort_facts Data_facts File_facts Data_more Sample_facts Indexer_facts Trie_facts Trie_props
  Classic_facts Order_facts Raw_facts Raw_props Search_facts Search_more Search_props Js_facts Lib_facts End_facts.

(** ** The loaded index searches like the built one *)
Definition store_hit (h : product * f32) : product * f32 := (stored h.1, h.2).
Lemma stored_refs_sorted l : stored_refs (sort_by product_cmp l) = map stored (sort_by product_cmp l).
Proof.
  unfold stored_refs. f_equal. change product_cmp with by_sid. apply sort_by_sorted_id, sort_by_total_sorted, by_sid_total.
Qed.
Lemma hits_of_stored id hits : hits_of id (map store_hit hits) = map store_hit (hits_of id hits).
Proof.
  unfold hits_of. induction hits as [|h hits IH]; [done|]. cbn [map]. rewrite !filter_cons. simpl.
  destruct (decide (p_id h.1 = id)); cbn [map]; by rewrite IH.
Qed.
Lemma store_hit_snd l : map snd (map store_hit l) = map snd l.
Proof. rewrite map_map. done. Qed.
Lemma totals_stored hits res : totals hits res -> totals (map store_hit hits) (map store_hit res).
Proof.
  intros [ND H]. split; [by rewrite map_map|]. intros q x. split.
  - intros ([p y] & [= -> ->] & Hp)%elem_of_list_fmap. apply H in Hp as (c & rest & E & ->).
    exists c, (map store_hit rest). cbn [stored p_id]. rewrite hits_of_stored, E, store_hit_snd. done.
  - intros (c & rest & E & ->). rewrite hits_of_stored in E. destruct (hits_of (p_id q) hits) as [|[p c'] rest'] eqn:E'; [done|].
    injection E as <- <- <-. rewrite store_hit_snd. apply elem_of_list_fmap.
    exists (p, foldl f32_add c' (map snd rest')). split; [done|]. apply H. exists c', rest'. done.
Qed.
(** A window that is not filled up is a piece of the text. *)
Lemma padded_occurs n t w : w ∈ windows n t -> head w <> Some 0 -> occurs w t.
Proof.
  intros (j & -> & Hj)%elem_of_list_fmap H0. apply elem_of_seq in Hj. unfold window in *.
  destruct (decide (S j < n)%nat) as [Hlt|Hge].
  - exfalso. apply H0. replace (replicate n 0 ++ t) with (replicate (S j) 0 ++ 0 :: replicate (n - S (S j)) 0 ++ t).
    + rewrite drop_app_alt by by rewrite replicate_length. destruct n; [lia|done].
    + change (0 :: replicate (n - S (S j)) 0 ++ t) with (replicate (S (n - S (S j))) 0 ++ t).
      rewrite app_assoc, <- replicate_add. f_equal. f_equal. lia.
  - rewrite drop_app_ge by (rewrite replicate_length; lia). rewrite replicate_length.
    exists (take (S j - n) t), (drop n (drop (S j - n) t)). by rewrite take_drop, take_drop.
Qed.

Section searched.
Context (P : platform) (n : nat) (o : build_order) (source : list (product * list N)) (pc : container)
  (gi : gram_index).
Context (Hn : (1 <= n <= 764)%nat) (Ho : valid_build_order o)
  (Hlim : total_grams (map snd source) < 2 ^ 32) (H : index_from P n o source pc = Done gi).
Lemma postings_stored g : gi_data (stored_gram_index gi) !! g = map stored <$> gi_data gi !! g.
Proof.
  cbn [stored_gram_index gi_data]. rewrite lookup_fmap. destruct (gi_data gi !! g) as [l|] eqn:E; [|done]. simpl. f_equal.
  apply (postings P n source pc gi (index_from_built P n o source pc gi (proj1 Hn) Ho Hlim H)) in E as (-> & _).
  apply stored_refs_sorted.
Qed.
Lemma query_hits_stored input : query_hits n (stored_gram_index gi) input = map store_hit (query_hits n gi input).
Proof.
  unfold query_hits. rewrite concat_map, map_map. f_equal. apply map_ext. intros w. unfold window_hits.
  change (search_gram n (stored_gram_index gi) w) with (search_gram n gi w).
  destruct (search_gram n gi w) as [[[g c]|]| | |]; try done. rewrite postings_stored.
  destruct (gi_data gi !! g); [|done]. simpl. by rewrite !map_map.
Qed.
Lemma search_stored o1 o2 input res res' : valid_order o1 -> valid_order o2 ->
  gram_search n o1 gi input = Done res -> gram_search n o2 (stored_gram_index gi) input = Done res' ->
  res' ≡ₚ map store_hit res.
Proof.
  intros H1 H2 E1%search_totals E2%search_totals; [|done..]. rewrite query_hits_stored in E2.
  eapply totals_perm; [exact E2|]. by apply totals_stored.
Qed.
End searched.

(** ** What a search delivers *)
Lemma search_delivers low u o st input categories tags order entries st' p gi :
  s_index st = Some gi -> search low u o st input categories tags order entries = (st', Done p) ->
  exists filters l ids, search_filtered low o gi input categories tags filters = Done l /\
    parse_filters entries = Some filters /\ p = pp_new (gi_container gi) ids /\ ids ≡ₚ l.
Proof.
  intros I. unfold search. destruct (parse_filters entries) as [filters|]; [|done].
  destruct (lock_ok u (s_index_dead st)) as [[]| | |]; try done. rewrite I.
  destruct (search_filtered low o gi input categories tags filters) as [l| | |] eqn:E; try done.
  destruct order as [key|].
  2: { intros [= <- <-]. by exists filters, l, l. }
  destruct (lock_ok u (s_classic_dead st)) as [[]| | |]; try done.
  destruct (cl ← s_classic st; get_orders (cl_order cl) key) as [table|]; [|done].
  destruct (sort_by_order table l) as [l'| | |] eqn:S; try done. intros [= <- <-].
  exists filters, l, l'. split; [done|]. split; [done|]. split; [done|].
  unfold sort_by_order in S. destruct l as [|a [|b l]]; [by injection S as <-|by injection S as <-|].
  destruct (mapR _ _) as [keyed| | |] eqn:M; try done. cbn [mbind res_bind] in S. injection S as <-.
  rewrite (sort_by_perm _ keyed). apply mapR_Done in M.
  assert (map snd keyed = a :: b :: l) as ->; [|done].
  clear -M. induction M as [|x y k k' H M IH]; [done|]. simpl. f_equal; [|done].
  destruct (getN table x); [|done]. simpl in H. by injection H as <-.
Qed.
Lemma delivered_sid c ids n j : Some j ∈ calls pp_next n (pp_new c ids) -> 
  Forall (fun sid => N.to_nat sid < length (c_products c))%nat ids -> jp_container j = c /\ jp_sid j ∈ ids.
Proof.
  intros Hj F. rewrite (proj1 (producer_answers c ids n F)) in Hj. unfold then_none in Hj.
  apply elem_of_list_fmap in Hj as (i & Hi & _). symmetry in Hi. rewrite list_lookup_fmap in Hi.
  apply fmap_Some in Hi as (sid & Hi & ->). split; [done|]. by eapply elem_of_list_lookup_2.
Qed.

Lemma exact_reaches nd m x e : exact_confidence nd m x e -> exists leaf, reaches nd m leaf.
Proof.
  induction 1 as [nd x|nd child w x y Hc _ [leaf IH]]; [exists nd; constructor|]. exists leaf. by econstructor.
Qed.

Section catalogue.
Context (low : N -> list N) (parse : rstr -> option f32) (P Q : platform) (bo : build_order)
  (ro : order_of (rstr * (product * f32))) (so : ser_order) (input : list raw_product).
Context (Hbo : valid_build_order bo) (Hso : valid_ser_order so) (Hlow : low_ok low) (Hparse : parse_ok parse)
  (Hfit : raw_fits Q low input) (Hlim : total_grams (map (raw_text low) input) < 2 ^ 32).

Lemma catalogue_loads : prices_parse parse input -> exists bytes gi cl,
  index_and_serialize low parse P bo ro so input = Done bytes /\
  forall st rest, s_index_dead st = false -> s_classic_dead st = false ->
    initialize Q st (bytes ++ rest) = (loaded gi cl, Done true).
Proof.
  intros Hp. destruct (index_done parse low P ngram_index_size bo ro so input) as [bytes E]; [unfold ngram_index_size; lia|done..|].
  destruct (indexed_inv _ _ _ _ _ _ _ _ _ E) as (c & cl & gi & O & I & ->).
  exists (serialize_all so gi cl), (stored_gram_index gi), (stored_classic cl). split; [exact E|].
  intros st rest D1 D2. unfold initialize. 
  rewrite (file_loads low parse P Q bo so input Hbo Hso Hlow Hparse Hfit Hlim c cl gi rest O I).
  unfold lock_unwrap. by rewrite D1, D2.
Qed.

Lemma catalogue_delivered u ops1 bytes ops2 : index_and_serialize low parse P bo ro so input = Done bytes ->
  let st := lib_run low u Q lib_init ops1 in
  loads Q st (InitOp bytes) -> no_loads low u Q (lib_step low u Q st (InitOp bytes)) ops2 ->
  forall o query categories tags order entries st' p n j,
  let st1 := lib_run low u Q lib_init (ops1 ++ InitOp bytes :: ops2) in
  valid_search_order o -> handlers_ok categories tags ->
  s_classic st1 = Some (ch_handle categories) -> s_classic st1 = Some (th_handle tags) ->
  search low u o st1 query categories tags order entries = (st', Done p) ->
  Some j ∈ calls pp_next n p ->
  exists raw, input !! N.to_nat (jp_sid j) = Some raw /\ delivers parse raw j /\ relevant low input query raw /\
    raw_has_options input categories (N.to_nat (jp_sid j)) /\ raw_has_tags input tags (N.to_nat (jp_sid j)).
Proof.
  intros E st L NL o query categories tags order entries st' p n j st1 Ho Hok C1 C2 S Hj.
  destruct (indexed_inv _ _ _ _ _ _ _ _ _ E) as (c & cl & gi & O & I & ->).
  destruct (last_loaded low u Q ops1 _ ops2 L NL) as (gi' & cl' & E' & I1 & I2 & _).
  pose proof (file_loads low parse P Q bo so input Hbo Hso Hlow Hparse Hfit Hlim c cl gi [] O I) as F.
  rewrite app_nil_r, E' in F. apply done_inj in F. injection F as -> ->. clear E'.
  assert (SC : same_classic cl (stored_classic cl)) by by right.
  fold st1 in I1, I2. rewrite I2 in C1, C2. injection C1 as C1. injection C2 as C2.
  destruct (search_delivers _ _ _ _ _ _ _ _ _ _ _ _ I1 S) as (filters & l & ids & Sf & Pf & -> & Pl).
  assert (Con : consistent_gram_index ngram_index_size (stored_gram_index gi)) by (by eapply reachable_consistent).
  assert (R : Forall (fun sid => N.to_nat sid < length (c_products (gi_container (stored_gram_index gi))))%nat ids).
  { rewrite Pl. by eapply results_in_range. }
  destruct (delivered_sid _ _ _ _ Hj R) as [Jc Js]. 
  assert (G : gi_container gi = c) by by eapply index_container.
  cbn [stored_gram_index gi_container] in Jc, R. rewrite G in Jc, R.
  destruct (optimize_products parse bo input c cl O) as [D W].
  assert (Lt : (N.to_nat (jp_sid j) < length input)%nat).
  { rewrite Forall_forall in R. specialize (R _ Js). cbn [stored_container c_products] in R. rewrite map_length in R.
    by rewrite (Forall2_length _ _ _ D). }
  destruct (lookup_lt_is_Some_2 input (N.to_nat (jp_sid j)) Lt) as [raw Hraw].
  destruct (Forall2_lookup_l _ _ _ _ _ D Hraw) as (q & Hq & Dq).
  exists raw. split; [done|].
  destruct (filtered_spec low o (stored_gram_index gi) query categories tags filters Ho Hok) as (res & ok & Er & Eok & Ef).
  rewrite Sf in Ef. injection Ef as ->.
  rewrite Pl in Js. apply elem_of_list_fmap in Js as (p & Ep & Hp). apply elem_of_list_filter in Hp as [Hop Hp].
  apply elem_of_list_fmap in Hp as ([p' x] & -> & Hp). cbn [fst] in *.
  apply Eok in Hop as (Hopt & Htag & _). rewrite <- Ep in Hopt, Htag.
  assert (J : j = JsProduct (stored_container c) (jp_sid j)) by (destruct j; simpl in *; by subst).
  assert (T : map snd (sources low c) = map (raw_text low) input) by by apply raw_grams.
  assert (Hn5 : (1 <= ngram_index_size <= 764)%nat) by (unfold ngram_index_size; lia).
  split; [|split; [|split]].
  - assert (Jp : jp_product j = Done (stored q)).
    { unfold jp_product. rewrite Jc, getN_lookup. cbn [stored_container c_products]. rewrite list_lookup_fmap.
      by rewrite Hq. }
    destruct Dq as (D1 & D2 & D3 & D4). unfold delivers, jp_title, jp_id, jp_description. rewrite Jp. cbn [mbind res_bind stored p_title p_id p_description].
    rewrite D1, D2, D3. split; [done|]. split; [done|]. split; [done|]. split; [by exists (stored q)|].
    intros y Hy. rewrite J. rewrite <- (N2Nat.id (jp_sid j)). by eapply optimize_price.
  - destruct (search_total ngram_index_size (se_rank o) gi (lower low query) Hn5) as [res0 Er0].
    rewrite (search_stored P ngram_index_size bo (sources low c) c gi Hn5 Hbo ltac:(by rewrite T) I _ _ _ _ _ (proj1 Ho) (proj1 Ho) Er0 Er) in Hp.
    apply elem_of_list_fmap in Hp as ([p0 x0] & [= -> ->] & Hp0).
    destruct (result_has_gram P ngram_index_size bo (sources low c) c gi (proj1 Hn5) Hbo ltac:(by rewrite T) I _ _ _ _ _ (proj2 Hn5) (proj1 Ho) Er0 Hp0)
      as (t & w & g & cf & Ht & Hw & Hs & Hg & Hz).
    exists w, g. split; [done|]. cbn [stored p_sid] in Ep.
    assert (Et : t = raw_text low raw).
    { apply elem_of_list_fmap in Ht as (p1 & [= -> ->] & Hp1). apply elem_of_list_lookup in Hp1 as (i & Hi).
      pose proof (W _ _ Hi) as Wi. rewrite <- Ep in Wi. rewrite Wi, Nat2N.id in Hq. rewrite Hi in Hq. injection Hq as ->.
      destruct Dq as (D1 & D2 & D3 & D4). unfold product_grams, raw_text, lower. by rewrite D1, D3, D4. }
    subst t. assert (Hl : length w = ngram_index_size) by by eapply window_length.
    assert (Hocc : exists raw', raw' ∈ input /\ occurs g (raw_text low raw')).
    { destruct (chosen_occurs P ngram_index_size bo (sources low c) c gi (proj1 Hn5) Hbo ltac:(by rewrite T) I w g cf Hl Hs) as (_ & p' & t' & Ht' & Hoc).
      assert (Hin : t' ∈ map (raw_text low) input) by (rewrite <- T; apply elem_of_list_fmap; by exists (p', t')).
      apply elem_of_list_fmap in Hin as (raw' & -> & Hin). by exists raw'. }
    assert (Hone : one_correction w g); [|split; [done|]; split; [done|]; split; [done|]].
    2:{ intros Hno. split.
      - apply (padded_occurs ngram_index_size); [done|]. intros H0. destruct Hone as (q0 & qq & m & -> & -> & _).
        injection H0 as ->. destruct Hocc as (raw' & Hin & Hoc). rewrite Forall_forall in Hno. apply (Hno raw' Hin).
        destruct Hoc as (a & b & ->). rewrite !elem_of_app, elem_of_cons. auto.
      - apply Hz. apply Forall_forall. intros [p1 t1] H1. rewrite Forall_forall in Hno.
        assert (Hin : t1 ∈ map (raw_text low) input) by (rewrite <- T; apply elem_of_list_fmap; by exists (p1, t1)).
        apply elem_of_list_fmap in Hin as (raw' & -> & Hin). by apply Hno. }
    destruct w as [|q0 w]; [done|].
    destruct (chosen_exact ngram_index_size gi q0 w g cf ltac:(unfold ngram_index_size; lia) Hl Hs) as (root & m & _ & -> & Hm & _ & Hd).
    exists q0, w, m. split; [done|]. split; [done|]. split; [done|]. destruct Hd as [Hd|[_ Hd]]; [left; exact Hd|by right].
  - intros key cat opt Hk Hat. specialize (Hopt key cat opt Hk Hat). rewrite <- C1 in Hat.
    destruct (option_at_stored _ _ _ _ _ SC Hat) as (cat' & opt' & Hat' & E1 & E2 & E3). rewrite <- E1, <- E2.
    apply (option_lists parse bo input c cl O key cat' opt'); [done..|]. by rewrite N2Nat.id, E3.
  - intros id t Hk Hat. specialize (Htag id t Hk Hat). rewrite <- C2 in Hat.
    destruct (tag_at_stored _ _ _ _ SC Hat) as (t' & Hat' & E1 & E2). rewrite <- E1.
    apply (tag_lists parse bo input c cl O id t'); [apply Hbo|done..|]. by rewrite N2Nat.id, E2.
Qed.

Lemma owners_total source w : (1 <= length w)%nat -> 0 ∉ w ->
  lenN (owners (length w) source w) = total_occurrences w (map snd source).
Proof.
  intros Hl Hz. rewrite owners_occurrences by done. unfold total_occurrences, lenN.
  induction source as [|[p t] source IH]; [done|]. simpl. rewrite app_length, replicate_length, Nat2N.inj_add, IH. lia.
Qed.
Lemma catalogue_found u ops1 bytes ops2 : index_and_serialize low parse P bo ro so input = Done bytes ->
  let st := lib_run low u Q lib_init ops1 in
  loads Q st (InitOp bytes) -> no_loads low u Q (lib_step low u Q st (InitOp bytes)) ops2 ->
  forall o query categories tags order st' p i raw w,
  let st1 := lib_run low u Q lib_init (ops1 ++ InitOp bytes :: ops2) in
  valid_search_order o -> handlers_ok categories tags ->
  s_classic st1 = Some (ch_handle categories) -> s_classic st1 = Some (th_handle tags) ->
  search low u o st1 query categories tags order [] = (st', Done p) ->
  NoDup (map r_id input) -> lenN input <= usize_max P ->
  input !! i = Some raw -> raw_has_options input categories i -> raw_has_tags input tags i ->
  length w = ngram_index_size -> 0 ∉ w -> occurs w (lower low query) -> occurs w (raw_text low raw) ->
  (forall limit, cutoff_for (lenN input) limit -> total_occurrences w (map (raw_text low) input) < limit) -> distinctive low input w ->
  exists n j, Some j ∈ calls pp_next n p /\ jp_sid j = N.of_nat i.
Proof.
  intros E st L NL o query categories tags order st' p i raw w st1 Ho Hok C1 C2 S ND HmP Hraw Hopts Htags Hl Hz Hwq Hwr Hocc Hdist.
  destruct (indexed_inv _ _ _ _ _ _ _ _ _ E) as (c & cl & gi & O & I & ->).
  destruct (last_loaded low u Q ops1 _ ops2 L NL) as (gi' & cl' & E' & I1 & I2 & _).
  pose proof (file_loads low parse P Q bo so input Hbo Hso Hlow Hparse Hfit Hlim c cl gi [] O I) as F.
  rewrite app_nil_r, E' in F. apply done_inj in F. injection F as -> ->. clear E'.
  assert (SC : same_classic cl (stored_classic cl)) by by right.
  fold st1 in I1, I2. rewrite I2 in C1, C2. injection C1 as C1. injection C2 as C2.
  destruct (search_delivers _ _ _ _ _ _ _ _ _ _ _ _ I1 S) as (filters & l & ids & Sf & Pf & -> & Pl).
  injection Pf as <-.
  assert (Con : consistent_gram_index ngram_index_size (stored_gram_index gi)) by (by eapply reachable_consistent).
  assert (R : Forall (fun sid => N.to_nat sid < length (c_products (gi_container (stored_gram_index gi))))%nat ids).
  { rewrite Pl. by eapply results_in_range. }
  destruct (optimize_products parse bo input c cl O) as [D W].
  assert (Lt : (i < length input)%nat) by by eapply lookup_lt_Some.
  destruct (Forall2_lookup_l _ _ _ _ _ D Hraw) as (q & Hq & Dq).
  assert (T : map snd (sources low c) = map (raw_text low) input) by by apply raw_grams.
  assert (Hn5 : (1 <= ngram_index_size <= 764)%nat) by (unfold ngram_index_size; lia).
  assert (Hlim' : total_grams (map snd (sources low c)) < 2 ^ 32) by by rewrite T.
  assert (Hsrc : (q, raw_text low raw) ∈ sources low c).
  { apply elem_of_list_fmap. exists q. split; [|by eapply elem_of_list_lookup_2]. f_equal.
    destruct Dq as (D1 & D2 & D3 & D4). unfold product_grams, raw_text, lower. by rewrite D1, D3, D4. }
  assert (Elen : lenN (c_products c) = lenN input) by (unfold lenN; by rewrite (Forall2_length _ _ _ D)).
  (* the built index has a posting list for [w] *)
  assert (Hww : w ∈ windows ngram_index_size (raw_text low raw)) by (apply windows_occurs; [apply Hn5|done..]).
  assert (Hwq' : w ∈ windows ngram_index_size (lower low query)) by (apply windows_occurs; [apply Hn5|done..]).
  assert (Hm : lenN input < 2 ^ 64).
  { destruct Hfit as [_ Hcount]. apply Forall_cons in Hcount as [[[Hc _] _] _].
    eapply N.lt_trans; [exact Hc|done]. }
  destruct (posting_lists P ngram_index_size bo (sources low c) c gi (proj1 Hn5) Hbo Hlim' I
     ltac:(by rewrite Elen) ltac:(by rewrite Elen)) as (limit & Hcut & HPL).
  destruct (HPL w) as [_ Hpost].
  destruct (proj2 Hpost) as [pl Hpl].
  { split.
    - assert (q ∈ owners ngram_index_size (sources low c) w) as Hown by (apply owners_elem; eauto).
      intros Hnil. rewrite Hnil in Hown. by apply elem_of_nil in Hown.
    - rewrite <- Hl. rewrite owners_total by (rewrite ?Hl; done || lia). rewrite T. apply Hocc. by rewrite <- Elen. }
  destruct (search_total ngram_index_size (se_rank o) gi (lower low query) Hn5) as [res0 Er0].
  destruct (chosen_for_occurring P ngram_index_size bo (sources low c) c gi (proj1 Hn5) Hbo Hlim' I w _ _ (proj2 Hn5) Hl Hsrc Hwr)
    as (q0 & q' & root & e & g & cf & -> & Hr & He & _ & _).
  destruct (exact_wins P ngram_index_size bo (sources low c) c gi (proj1 Hn5) Hbo Hlim' I q0 q' root e q (raw_text low raw) (se_rank o) (lower low query) res0 pl
    ltac:(unfold ngram_index_size; lia) Hl (proj1 Ho) Er0 Hwq' Hr He) as (p' & x & Hp' & Eid).
  { intros m cm Hne Hlm Hcm Hcand. exfalso. apply Hne.
    destruct (exact_reaches root m f32_one cm Hcm) as [leaf Hleaf].
    destruct (proj1 (proj1 (trie_paths P ngram_index_size bo (sources low c) c gi (proj1 Hn5) Hbo Hlim' I) (q0 :: m))) as (_ & _ & p1 & t1 & Ht1 & Hoc).
    { exists leaf, q0, m, root. done. }
    assert (exists raw1, raw1 ∈ input /\ t1 = raw_text low raw1) as (raw1 & Hr1 & ->).
    { assert (t1 ∈ map snd (sources low c)) as Ht by (apply elem_of_list_fmap; by exists (p1, t1)).
      rewrite T in Ht. apply elem_of_list_fmap in Ht as (raw1 & -> & ?). eauto. }
    assert (q0 :: m = q0 :: q') as [= ->]; [|done]. apply (Hdist raw1); [done..|].
    exists q0, q', m. done. }
  { done. } { done. } { done. }
  assert (p' = q) as ->.
  { destruct (result_has_gram P ngram_index_size bo (sources low c) c gi (proj1 Hn5) Hbo Hlim' I _ _ _ _ _ (proj2 Hn5) (proj1 Ho) Er0 Hp')
      as (t & _ & _ & _ & Ht & _).
    apply elem_of_list_fmap in Ht as (p1 & [= -> ->] & Hp1). apply elem_of_list_lookup in Hp1 as (k & Hk).
    destruct (Forall2_lookup_r _ _ _ _ _ D Hk) as (raw1 & Hraw1 & Dk).
    assert (k = i) as ->.
    { eapply (NoDup_lookup (map r_id input) k i (r_id raw) ND); rewrite list_lookup_fmap; [rewrite Hraw1|by rewrite Hraw].
      simpl. f_equal. destruct Dk as (_ & Ek & _), Dq as (_ & Eq & _). congruence. }
    rewrite Hq in Hk. by injection Hk. }
  destruct (filtered_spec low o (stored_gram_index gi) query categories tags [] Ho Hok) as (res & ok & Er & Eok & Ef).
  rewrite Sf in Ef. injection Ef as ->.
  assert (Hsid : N.of_nat i ∈ ids).
  { rewrite Pl. apply elem_of_list_fmap. exists (stored q). split; [by symmetry; apply (W _ _ Hq)|].
    apply elem_of_list_filter. split.
    - apply Eok. unfold passes, has_options, has_tags. change (p_sid (stored q)) with (p_sid q). rewrite (W _ _ Hq). split; [|split].
      + intros key cat opt Hk Hat. pose proof (Hopts key cat opt Hk Hat) as HL. rewrite <- C1 in Hat.
        destruct (option_at_stored _ _ _ _ _ SC Hat) as (cat' & opt' & Hat' & E1 & E2 & E3). rewrite <- E3.
        apply (option_lists parse bo input c cl O key cat' opt'); [done..|]. by rewrite E1, E2.
      + intros id t Hk Hat. pose proof (Htags id t Hk Hat) as HL. rewrite <- C2 in Hat.
        destruct (tag_at_stored _ _ _ _ SC Hat) as (t' & Hat' & E1 & E2). rewrite <- E2.
        apply (tag_lists parse bo input c cl O id t'); [apply Hbo|done..|]. by rewrite E1.
      + intros f Hf. by apply elem_of_nil in Hf.
    - apply elem_of_list_fmap. exists (stored q, x). split; [done|].
      rewrite (search_stored P ngram_index_size bo (sources low c) c gi Hn5 Hbo Hlim' I _ _ _ _ _ (proj1 Ho) (proj1 Ho) Er0 Er).
      apply elem_of_list_fmap. by exists (q, x). }
  apply elem_of_list_lookup in Hsid as (k & Hk).
  exists (Datatypes.S k), (JsProduct (gi_container (stored_gram_index gi)) (N.of_nat i)). split; [|done].
  rewrite (proj1 (producer_answers _ ids (Datatypes.S k) R)). unfold then_none. apply elem_of_list_fmap. exists k. split.
  - by rewrite list_lookup_fmap, Hk.
  - apply elem_of_seq. lia.
Qed.
End catalogue.

(** A product that shares no char with the query is not relevant. *)
Lemma disjoint_irrelevant low input query raw : Forall (fun raw' => 0 ∉ raw_text low raw') input ->
  (forall c, c ∈ lower low query -> c ∉ raw_text low raw) -> ~ relevant low input query raw.
Proof.
  intros Hno Hd (w & g & _ & (q0 & q & m & -> & -> & _) & _ & _ & H). destruct (H Hno) as [(a & b & Ha) (c & d & Hc)].
  apply (Hd q0); [rewrite Ha|rewrite Hc]; rewrite !elem_of_app, elem_of_cons; auto.
Qed.
