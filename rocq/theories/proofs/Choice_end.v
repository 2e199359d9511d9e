(** C112: from the raw catalogue to what is delivered. *)
From Verif.model Require Import Base F32 Utf8 Prim Coll Data Gram Indexer Nodes Classic Lit Raw Js Lib.
From Verif.spec Require Import Spec Data_spec Gram_spec Classic_spec Raw_spec Js_spec Lib_spec End_spec Reorder_spec Choice_spec.
From Verif.proofs Require Import Base_facts Sort_facts Cutoff_facts Data_facts File_facts Data_more Sample_facts Indexer_facts Trie_facts Trie_props
  Classic_facts Order_facts Raw_facts Raw_props Search_facts Search_more Search_props Js_facts Lib_facts End_facts End_props
  Ties_props Reorder_props Reorder_end Choice_props Float_facts.
From Coq Require Import Lia.

Lemma Forall2_exists {A B} (R : A -> B -> Prop) (l : list A) : (forall x, x ∈ l -> exists y, R x y) -> exists k, Forall2 R l k.
Proof.
  induction l as [|x l IH]; intros H; [exists []; constructor|].
  destruct (H x) as [y Hy]; [left|]. destruct IH as [k Hk]; [intros z Hz; apply H; by right|].
  exists (y :: k). by constructor.
Qed.
Lemma search_delivers_plain low u o st input categories tags entries st' p gi :
  s_index st = Some gi -> search low u o st input categories tags None entries = (st', Done p) ->
  exists filters l, search_filtered low o gi input categories tags filters = Done l /\
    parse_filters entries = Some filters /\ p = pp_new (gi_container gi) l.
Proof.
  intros I. unfold search. destruct (parse_filters entries) as [filters|]; [|done].
  destruct (lock_ok u (s_index_dead st)) as [[]| | |]; try done. rewrite I.
  destruct (search_filtered low o gi input categories tags filters) as [l| | |] eqn:E; try done.
  intros [= <- <-]. by exists filters, l.
Qed.
Lemma filter_ranked (Q : product * f32 -> Prop) `{forall x, Decision (Q x)} res : ranked res -> ranked (filter Q res).
Proof.
  induction res as [|r res IH]; [done|]. intros [F R]. rewrite filter_cons. destruct (decide (Q r)); [|by apply IH].
  split; [|by apply IH]. rewrite Forall_forall in *. intros r' Hr'. apply F. by apply elem_of_list_filter in Hr' as [_ Hr'].
Qed.
Lemma ranked_falling res : ranked res <-> falling (map snd res).
Proof.
  induction res as [|r res IH]; [done|]. simpl. rewrite IH. by rewrite Forall_fmap.
Qed.

(** What the numeric features of an indexed catalogue are. *)
Lemma numbers_are_prices parse o input c cl i raw key y : optimize parse o input = Done (c, cl) -> input !! i = Some raw ->
  numeric_at (c_features c) i key y <-> key = s_price /\ exists x, priced parse raw x /\ y = f64_of_f32 x.
Proof.
  intros (prices & H & D & W & _ & _ & (C1 & C2 & C3) & _)%Raw_facts.optimize_inv Hi.
  destruct (Forall2_lookup_l _ _ _ _ _ H Hi) as (x & Hx & E). unfold numeric_at.
  assert (nonempty prices = Some prices) as N by by destruct prices. rewrite N in C1.
  split.
  - intros Hn. destruct (decide (key = s_price)) as [->|Np].
    + split; [done|]. exists x. split; [done|]. destruct Hn as [(l & v & Hl & Hv & ->)|(l & v & Hl & _)]; rewrite C1 in Hl; [|done].
      injection Hl as <-. rewrite Hx in Hv. by injection Hv as <-.
    + exfalso. destruct (decide (key = s_image_url)) as [->|Ni].
      * destruct Hn as [(l & v & Hl & _)|(l & v & Hl & _)]; rewrite C2 in Hl; by destruct (nonempty (first_images input)).
      * destruct Hn as [(l & v & Hl & _)|(l & v & Hl & _)]; by rewrite C3 in Hl.
  - intros (-> & x' & Hx' & ->). left. exists prices, x. unfold priced in *. rewrite E in Hx'. injection Hx' as <-. done.
Qed.
Lemma filters_let_pass parse o input c cl i raw p entries filters : optimize parse o input = Done (c, cl) -> input !! i = Some raw ->
  p_sid p = N.of_nat i -> Forall (fun e => exists props, plain_object e.2 props) entries -> parse_filters entries = Some filters ->
  (forall f, f ∈ filters -> filter_accepts f (c_features c) p = true) <-> let_pass parse entries raw.
Proof.
  intros O Hi Hp F Hf. 
  assert (H : exists props, Forall2 (fun e ps => plain_object e.2 ps) entries props) by (apply Forall2_exists; intros e He; rewrite Forall_forall in F; by apply F).
  destruct H as [props H].
  assert (H' : Forall2 (fun '(_, v) ps => plain_object v ps) entries props) by (eapply Forall2_impl; [exact H|]; by intros [] ?).
  rewrite (parse_plains _ _ H') in Hf. injection Hf as <-.
  assert (A : forall from to key, filter_accepts (FeatureFilter (Range from to) key) (c_features c) p = true <->
    (~ is_number from /\ ~ is_number to) \/ (key = s_price /\ exists x, priced parse raw x /\ within from to (f64_of_f32 x))).
  { intros from to key. rewrite range_filter, Hp, Nat2N.id. split; (intros [L|R]; [by left|right]).
    - destruct R as (y & Hy & Hw). apply (numbers_are_prices _ _ _ _ _ _ _ _ _ O Hi) in Hy as (-> & x & Hx & ->). split; [done|]. by exists x.
    - destruct R as (-> & x & Hx & Hw). exists (f64_of_f32 x). split; [|done].
      apply (numbers_are_prices _ _ _ _ _ _ _ _ _ O Hi). split; [done|]. by exists x. }
  split.
  - intros All key v ps Hin Hv. apply elem_of_list_lookup in Hin as (k & Hk).
    destruct (Forall2_lookup_l _ _ _ _ _ H Hk) as (ps' & Hk' & Hv'). simpl in Hv'.
    assert (ps' = ps) as ->.
    { destruct Hv as (id1 & ->), Hv' as (id2 & E). injection E as _ E. clear -E. revert ps E.
      induction ps' as [|[k1 v1] ps' IH]; intros [|[k2 v2] ps] E; try done. simpl in E. injection E as -> -> E. f_equal. by apply IH. }
    apply A. apply All. apply elem_of_list_lookup. exists k. apply lookup_zip_with_Some. by exists (key, v), ps.
  - intros L f Hf. apply elem_of_list_lookup in Hf as (k & Hk). apply lookup_zip_with_Some in Hk as ([key v] & ps & -> & Hk & Hk').
    apply A. apply (L key v ps); [by eapply elem_of_list_lookup_2|].
    destruct (Forall2_lookup_l _ _ _ _ _ H Hk) as (ps' & Hk'' & Hv'). rewrite Hk' in Hk''. by injection Hk'' as <-.
Qed.

Section one.
Context (low : N -> list N) (parse : rstr -> option f32) (P Q : platform) (bo : build_order)
  (ro : order_of (rstr * (product * f32))) (so : ser_order) (input : list raw_product).
Context (Hbo : valid_build_order bo) (Hso : valid_ser_order so) (Hlow : low_ok low) (Hparse : parse_ok parse)
  (Hfit : raw_fits Q low input) (Hlim : total_grams (map (raw_text low) input) < 2 ^ 32) (ND : NoDup (map r_id input))
  (HP : lenN input <= usize_max P).
Lemma answered_with u ops1 bytes ops2 : index_and_serialize low parse P bo ro so input = Done bytes ->
  let st := lib_run low u Q lib_init ops1 in
  loads Q st (InitOp bytes) -> no_loads low u Q (lib_step low u Q st (InitOp bytes)) ops2 ->
  forall o query categories tags order entries st' p,
  let st1 := lib_run low u Q lib_init (ops1 ++ InitOp bytes :: ops2) in
  valid_search_order o -> handlers_ok categories tags ->
  s_classic st1 = Some (ch_handle categories) -> s_classic st1 = Some (th_handle tags) ->
  search low u o st1 query categories tags order entries = (st', Done p) ->
  Forall (fun e => exists props, plain_object e.2 props) entries ->
  exists limit choice answer js, cutoff_for (lenN input) limit /\
    (forall w, length w = ngram_index_size -> likeliest ngram_index_size (map (raw_text low) input) w (choice w)) /\
    (forall w r, length w = ngram_index_size ->
       clearly_likeliest ngram_index_size (map (raw_text low) input) w r -> choice w = r) /\
    answers_among ngram_index_size limit choice low input query
      (fun raw => suits categories tags raw /\ let_pass parse entries raw) answer /\
    (order = None -> falling (map snd answer)) /\
    (forall n, calls pp_next n p = then_none n js) /\
    Forall2 (fun '(raw, _) j => delivers parse raw j) answer js.
Proof.
  intros E st L NL o query categories tags order entries st' p st1 Ho Hok C1 C2 S Hplain.
  pose proof (catalogue_delivered low parse P Q bo ro so input Hbo Hso Hlow Hparse Hfit Hlim u ops1 bytes ops2 E L NL
    o query categories tags order entries st' p) as CD.
  specialize (fun n j => CD n j Ho Hok C1 C2 S).
  destruct (indexed_inv _ _ _ _ _ _ _ _ _ E) as (c & cl & gi & O & I & ->).
  destruct (last_loaded low u Q ops1 _ ops2 L NL) as (gi' & cl' & E' & I1 & I2 & _).
  pose proof (file_loads low parse P Q bo so input Hbo Hso Hlow Hparse Hfit Hlim c cl gi [] O I) as F.
  rewrite app_nil_r, E' in F. apply done_inj in F. injection F as -> ->. clear E'.
  assert (SC : same_classic cl (stored_classic cl)) by by right.
  fold st1 in I1, I2. rewrite I2 in C1, C2. injection C1 as C1. injection C2 as C2.
  assert (SD : exists filters l ids, search_filtered low o (stored_gram_index gi) query categories tags filters = Done l /\
    parse_filters entries = Some filters /\
    p = pp_new (gi_container (stored_gram_index gi)) ids /\ ids ≡ₚ l /\ (order = None -> ids = l)).
  { destruct order as [key|].
    - destruct (search_delivers _ _ _ _ _ _ _ _ _ _ _ _ I1 S) as (filters & l & ids & Sf & Pf & -> & Pl).
      by exists filters, l, ids.
    - destruct (search_delivers_plain _ _ _ _ _ _ _ _ _ _ _ I1 S) as (filters & l & Sf & Pf & ->).
      by exists filters, l, l. }
  destruct SD as (filters & l & ids & Sf & Hfilters & -> & Pl & Pn).
  assert (Con : consistent_gram_index ngram_index_size (stored_gram_index gi)) by (by eapply reachable_consistent).
  assert (R : Forall (fun sid => N.to_nat sid < length (c_products (gi_container (stored_gram_index gi))))%nat ids).
  { rewrite Pl. by eapply results_in_range. }
  destruct (optimize_products parse bo input c cl O) as [D W].
  assert (T : map snd (sources low c) = map (raw_text low) input) by by apply raw_grams.
  assert (Hn5 : (1 <= ngram_index_size <= 764)%nat) by (unfold ngram_index_size; lia).
  assert (Hn5' : (ngram_index_size <= 5)%nat) by (unfold ngram_index_size; lia).
  assert (Hlim' : total_grams (map snd (sources low c)) < 2 ^ 32) by by rewrite T.
  destruct (search_total ngram_index_size (se_rank o) gi (lower low query) Hn5) as [res0 Er0].
  assert (G : gi_container gi = c) by by eapply index_container.
  destruct (filtered_spec low o (stored_gram_index gi) query categories tags filters Ho Hok) as (res & ok & Er & Eok & Ef).
  rewrite Sf in Ef. injection Ef as ->.
  pose proof (search_stored P ngram_index_size bo (sources low c) c gi Hn5 Hbo Hlim' I _ _ _ _ _ (proj1 Ho) (proj1 Ho) Er0 Er) as Hres.
  assert (Hlen : lenN (c_products c) = lenN input) by (unfold lenN; by rewrite (Forall2_length _ _ _ D)).
  assert (NDs : NoDup (map (fun s => p_id s.1) (sources low c))).
  { unfold sources. rewrite map_map. change (NoDup (map p_id (c_products c))).
    assert (Ei : map p_id (c_products c) = map r_id input).
    { clear -D. induction D as [|raw q rs qs (_ & Eq & _) D IH]; [done|]. cbn [map]. by rewrite Eq, IH. }
    by rewrite Ei. }
  destruct (search_from_texts P ngram_index_size bo (sources low c) c gi (proj1 Hn5) Hbo Hlim' I (se_rank o) (lower low query) res0
    Hn5' (proj1 Ho) NDs Er0) as (choice & Ch1 & Ch2 & ND0 & Rk0 & Mem0).
  assert (Hcut : cutoff_for (lenN input) (maximum_product_amount P (lenN input))).
  { apply cutoff_spec; [|done]. destruct Hfit as [_ Hcount]. apply Forall_cons in Hcount as [[[Hc _] _] _].
    eapply N.lt_trans; [exact Hc|done]. }
  rewrite T, Hlen in Mem0. set (limit := maximum_product_amount P (lenN input)) in *. rewrite T in Ch1. rewrite T in Ch2.
  (* numbers, so that the stored results are ranked too *)
  assert (Rk : ranked res).
  { rewrite gram_search_hits in Er by done. injection Er as Er. rewrite <- Er in Hres |- *.
    apply export_ranked; [apply Ho|]. intros q x Hq. rewrite Hres in Hq.
    apply elem_of_list_fmap in Hq as ([q0 x0] & [= -> ->] & Hq).
    by apply (results_nonneg P ngram_index_size bo (sources low c) c gi (proj1 Hn5) Hbo Hlim' I (se_rank o) (lower low query) res0 q0 x0
      (proj2 Hn5) (proj1 Ho) Er0). }
  set (good := filter (fun h => ok h.1 = true) res).
  assert (Egood : map p_sid (filter (fun q => ok q = true) (map fst res)) = map (fun h => p_sid h.1) good).
  { unfold good. clear. induction res as [|h res IH]; [done|]. cbn [map]. rewrite !filter_cons.
    destruct (decide (ok h.1 = true)); cbn [map]; by rewrite IH. }
  rewrite Egood in Pl, Pn.
  assert (Hg : exists good', good' ≡ₚ good /\ ids = map (fun h => p_sid h.1) good' /\ (order = None -> ranked good')).
  { destruct order as [key|].
    - destruct (Permutation_map_inv _ _ Pl) as (good' & -> & Hp). by exists good'.
    - exists good. split; [done|]. split; [by apply Pn|]. intros _. by apply filter_ranked. }
  destruct Hg as (good' & Hgood & Eids & Rg).
  assert (Hsuits : forall q i raw, c_products c !! i = Some q -> input !! i = Some raw ->
    ok (stored q) = true <-> suits categories tags raw /\ let_pass parse entries raw).
  { intros q i raw Hq Hraw. rewrite Eok, <- (suits_raw input categories tags i raw Hraw).
    assert (Lt : (i < length input)%nat) by by eapply lookup_lt_Some.
    assert (Hfs : (forall f, f ∈ filters -> filter_accepts f (c_features (gi_container (stored_gram_index gi))) (stored q) = true) <->
      let_pass parse entries raw).
    { change (c_features (gi_container (stored_gram_index gi))) with (c_features (gi_container gi)). rewrite G.
      apply (filters_let_pass parse bo input c cl i); try done. exact (W _ _ Hq). }
    unfold passes, has_options, has_tags. rewrite Hfs. change (p_sid (stored q)) with (p_sid q). rewrite (W _ _ Hq). split.
    - intros (Hopt & Htag & Hlp). split; [|done]. split.
      + intros key cat opt Hk Hat. specialize (Hopt key cat opt Hk Hat). rewrite <- C1 in Hat.
        destruct (option_at_stored _ _ _ _ _ SC Hat) as (cat' & opt' & Hat' & E1 & E2 & E3). rewrite <- E1, <- E2.
        apply (option_lists parse bo input c cl O key cat' opt'); [done..|]. by rewrite E3.
      + intros id t Hk Hat. specialize (Htag id t Hk Hat). rewrite <- C2 in Hat.
        destruct (tag_at_stored _ _ _ _ SC Hat) as (t' & Hat' & E1 & E2). rewrite <- E1.
        apply (tag_lists parse bo input c cl O id t'); [apply Hbo|done..|]. by rewrite E2.
    - intros [[Hopts Htags] Hlp]. split; [|split; [|done]].
      + intros key cat opt Hk Hat. pose proof (Hopts key cat opt Hk Hat) as HL. rewrite <- C1 in Hat.
        destruct (option_at_stored _ _ _ _ _ SC Hat) as (cat' & opt' & Hat' & E1 & E2 & E3). rewrite <- E3.
        apply (option_lists parse bo input c cl O key cat' opt'); [done..|]. by rewrite E1, E2.
      + intros id t Hk Hat. pose proof (Htags id t Hk Hat) as HL. rewrite <- C2 in Hat.
        destruct (tag_at_stored _ _ _ _ SC Hat) as (t' & Hat' & E1 & E2). rewrite <- E2.
        apply (tag_lists parse bo input c cl O id t'); [apply Hbo|done..|]. by rewrite E1.
      }
  assert (text_of : forall raw q, describes raw q -> product_grams low q = raw_text low raw).
  { intros raw q (E1 & E2 & E3 & E4). unfold product_grams, raw_text, lower. by rewrite E1, E3, E4. }
  assert (same_text : forall q t t', (q, t) ∈ sources low c -> (q, t') ∈ sources low c -> t = t').
  { intros q t t' H1 H2. apply elem_of_list_fmap in H1 as (? & [= -> ->] & _), H2 as (? & [= -> ->] & _). done. }
  (* each of them is a raw product *)
  assert (Hraw : forall h, h ∈ good' -> exists raw, exists i q t, c_products c !! i = Some q /\ input !! i = Some raw /\ h = (stored q, h.2) /\
     (q, h.2) ∈ res0 /\ p_sid q = N.of_nat i /\ t = raw_text low raw /\ (q, t) ∈ sources low c /\ ok (stored q) = true).
  { intros h Hh. rewrite Hgood in Hh. apply elem_of_list_filter in Hh as [Hok' Hh]. rewrite Hres in Hh.
    apply elem_of_list_fmap in Hh as ([q x] & -> & Hq). simpl in *.
    destruct (proj1 (Mem0 q x) Hq) as (t & c0 & rest & Ht & _).
    pose proof Ht as Ht0.
    apply elem_of_list_fmap in Ht as (q' & [= -> ->] & Hq'). apply elem_of_list_lookup in Hq' as (i & Hi).
    destruct (Forall2_lookup_r _ _ _ _ _ D Hi) as (raw & Hraw & Dr). exists raw, i, q', (raw_text low raw).
    do 4 (split; [done|]). split; [by apply W|]. split; [done|].
    by rewrite <- (text_of raw q' Dr). }
  apply Forall2_exists in Hraw as [raws Hraws].
  set (answer := zip raws (map snd good')).
  exists limit, choice, answer, (map (JsProduct (gi_container (stored_gram_index gi))) ids).
  assert (Hlr : length raws = length good') by (symmetry; by eapply Forall2_length).
  assert (A1 : map fst answer = raws) by (apply fst_zip; rewrite map_length; lia).
  assert (A2 : map snd answer = map snd good') by (apply snd_zip; rewrite map_length; lia).
  assert (NDg : NoDup (map fst good')).
  { assert (NDr : NoDup (map fst res)).
    { pose proof (search_totals ngram_index_size (se_rank o) (stored_gram_index gi) (lower low query) res Hn5 (proj1 Ho) Er) as [NDr _].
      apply (NoDup_fmap_1 p_id). by rewrite <- list_fmap_compose. }
    assert (Hp : map fst good' ≡ₚ map fst good) by (by apply Permutation_map). rewrite Hp.
    unfold good. clear -NDr. induction res as [|h res IH]; [done|]. cbn [map] in NDr. apply NoDup_cons in NDr as [Hh NDr].
    rewrite filter_cons. destruct (decide _); [|by apply IH]. cbn [map]. constructor; [|by apply IH].
    intros Hin. apply Hh. apply elem_of_list_fmap in Hin as (h' & -> & Hin). apply elem_of_list_filter in Hin as [_ Hin].
    by apply elem_of_list_fmap_1. }
  assert (same_raw : forall i k raw, input !! i = Some raw -> input !! k = Some raw -> i = k).
  { intros i k raw Hi Hk. eapply (NoDup_lookup (map r_id input) i k (r_id raw) ND); rewrite list_lookup_fmap; [by rewrite Hi|by rewrite Hk]. }
  split; [done|]. split; [done|]. split; [done|]. split; [split|split; [|split]].
  - rewrite A1. apply NoDup_alt. intros a b raw Ha Hb.
    destruct (Forall2_lookup_r _ _ _ _ _ Hraws Ha) as (ha & Ga & ia & qa & ta & Ca & Ia & Ea & _).
    destruct (Forall2_lookup_r _ _ _ _ _ Hraws Hb) as (hb & Gb & ib & qb & tb & Cb & Ib & Eb & _).
    pose proof (same_raw _ _ _ Ia Ib) as ->. rewrite Ca in Cb. injection Cb as <-.
    eapply (NoDup_lookup (map fst good') a b (stored qa) NDg); rewrite list_lookup_fmap; [rewrite Ga, Ea|rewrite Gb, Eb]; done.
  - intros raw x. split.
    + intros Hin. apply elem_of_list_lookup in Hin as (k & Hk). unfold answer in Hk.
      apply lookup_zip_with_Some in Hk as (raw' & x' & [= <- <-] & Hr & Hx).
      destruct (Forall2_lookup_r _ _ _ _ _ Hraws Hr) as (h & Gh & i & q & t & Ci & Ii & Eh & Hq & Hsid & Et & Ht & Hk).
      rewrite list_lookup_fmap, Gh in Hx. injection Hx as <-.
      split; [by eapply elem_of_list_lookup_2|]. split; [by apply (Hsuits q i raw Ci Ii)|].
      destruct (proj1 (Mem0 q h.2) Hq) as (t' & c0 & rest & Ht' & Hp & Hs). exists c0, rest. split; [|done].
      rewrite <- Et. rewrite <- Hp. f_equal. by apply (same_text q).
    + intros (Hin & Hsu & c0 & rest & Hp & ->). apply elem_of_list_lookup in Hin as (i & Hi).
      destruct (Forall2_lookup_l _ _ _ _ _ D Hi) as (q & Hq & Dq).
      assert (Hs : (q, raw_text low raw) ∈ sources low c).
      { apply elem_of_list_fmap. exists q. rewrite (text_of raw q Dq). split; [done|]. by eapply elem_of_list_lookup_2. }
      assert (Hr0 : (q, foldl f32_add c0 rest) ∈ res0).
      { apply Mem0. by exists (raw_text low raw), c0, rest. }
      assert (Hgd : (stored q, foldl f32_add c0 rest) ∈ good').
      { rewrite Hgood. apply elem_of_list_filter. split; [by apply (Hsuits q i raw Hq Hi)|].
        rewrite Hres. apply elem_of_list_fmap. by exists (q, foldl f32_add c0 rest). }
      apply elem_of_list_lookup in Hgd as (k & Hk).
      destruct (Forall2_lookup_l _ _ _ _ _ Hraws Hk) as (raw' & Hr' & i' & q' & t' & Ci & Ii & Eh & Hq' & Hsid & _).
      pose proof (f_equal (fun h => p_sid h.1) Eh) as Est. assert (i' = i) as ->.
      { assert (Hsid' : p_sid q = N.of_nat i) by by apply W.
        change (p_sid q = p_sid q') in Est. lia. }
      rewrite Hi in Ii. injection Ii as <-.
      apply elem_of_list_lookup. exists k. unfold answer. apply lookup_zip_with_Some.
      exists raw, (foldl f32_add c0 rest). split; [done|]. split; [done|]. by rewrite list_lookup_fmap, Hk.
  - intros HN. rewrite A2. apply ranked_falling. by apply Rg.
  - intros n. by apply producer_answers.
  - rewrite Eids. apply Forall2_same_length_lookup_2.
    { rewrite <- (map_length fst answer), A1, !map_length. done. }
    intros k [raw x] j Hk Hj. unfold answer in Hk. apply lookup_zip_with_Some in Hk as (raw' & x' & [= <- <-] & Hr & Hx).
    destruct (Forall2_lookup_r _ _ _ _ _ Hraws Hr) as (h & Gh & i & q & t & Ci & Ii & Eh & Hq & Hsid & _).
    rewrite list_lookup_fmap, list_lookup_fmap, Gh in Hj. injection Hj as <-.
    destruct (CD (Datatypes.S k) (JsProduct (gi_container (stored_gram_index gi)) (p_sid h.1))) as (raw' & Hr' & Hd & _).
    { rewrite (proj1 (producer_answers _ ids (Datatypes.S k) R)). unfold then_none. apply elem_of_list_fmap. exists k. split.
      - rewrite list_lookup_fmap, Eids, list_lookup_fmap, Gh. done.
      - apply elem_of_seq. lia. }
    cbn [jp_sid] in Hr'. rewrite Eh in Hr'. cbn [fst] in Hr'. change (p_sid (stored q)) with (p_sid q) in Hr'.
    rewrite Hsid, Nat2N.id, Ii in Hr'. by injection Hr' as <-.
Qed.
Lemma answered u ops1 bytes ops2 : index_and_serialize low parse P bo ro so input = Done bytes ->
  let st := lib_run low u Q lib_init ops1 in
  loads Q st (InitOp bytes) -> no_loads low u Q (lib_step low u Q st (InitOp bytes)) ops2 ->
  forall o query categories tags order st' p,
  let st1 := lib_run low u Q lib_init (ops1 ++ InitOp bytes :: ops2) in
  valid_search_order o -> handlers_ok categories tags ->
  s_classic st1 = Some (ch_handle categories) -> s_classic st1 = Some (th_handle tags) ->
  search low u o st1 query categories tags order [] = (st', Done p) ->
  exists limit choice answer js, cutoff_for (lenN input) limit /\
    (forall w, length w = ngram_index_size -> likeliest ngram_index_size (map (raw_text low) input) w (choice w)) /\
    (forall w r, length w = ngram_index_size ->
       clearly_likeliest ngram_index_size (map (raw_text low) input) w r -> choice w = r) /\
    answers ngram_index_size limit choice low input query categories tags answer /\
    (order = None -> falling (map snd answer)) /\
    (forall n, calls pp_next n p = then_none n js) /\
    Forall2 (fun '(raw, _) j => delivers parse raw j) answer js.
Proof.
  intros E st L NL o query categories tags order st' p st1 Ho Hok C1 C2 S.
  destruct (answered_with u ops1 bytes ops2 E L NL o query categories tags order [] st' p Ho Hok C1 C2 S (Forall_nil_2 _))
    as (limit & choice & answer & js & H0 & H1 & H2 & [H3 H4] & H5).
  exists limit, choice, answer, js. split; [done|]. split; [done|]. split; [done|]. split; [|done]. split; [done|].
  intros raw x. rewrite H4. split.
  - intros (Hin & [Hs _] & R). done.
  - intros (Hin & Hs & R). split; [done|]. split; [|done]. split; [done|]. intros key v props Hk. by apply elem_of_nil in Hk.
Qed.
End one.
