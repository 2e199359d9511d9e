(** C19 and C100: when what is read back from the file of a catalogue equals what was written. *)
From Verif.model Require Import Base F32 Utf8 Prim Coll Data Gram Indexer Nodes Classic Lit Raw Js Lib Equal.
From Verif.spec Require Import Spec Data_spec Gram_spec Classic_spec Raw_spec Lib_spec End_spec Equal_spec.
From Verif.proofs Require Import Base_facts Sort_facts Coll_facts Utf8_facts Codec_lemmas Data_facts File_facts Data_more Sample_facts
  Indexer_facts Float_facts Trie_facts Trie_props Classic_facts Raw_facts Raw_props Search_facts Search_props End_facts Bytes_facts Equal_facts.

(** ** Lists of distinct elements *)
Lemma filter_first_seen `{EqDecision A} (Q : A -> Prop) `{forall x, Decision (Q x)} (l : list A) :
  filter Q (first_seen l) = first_seen (filter Q l).
Proof.
  induction l as [|x l IH]; [done|]. cbn [first_seen]. rewrite !filter_cons. case_decide as D.
  - cbn [first_seen]. f_equal. rewrite <- IH, !list_filter_filter. apply list_filter_iff. intros y. tauto.
  - rewrite <- IH, list_filter_filter. apply list_filter_iff. intros y. split; [tauto|]. intros Hy. split; [done|]. by intros ->.
Qed.
Lemma first_seen_map `{EqDecision A} `{EqDecision B} (f : A -> B) (l : list A) :
  (forall x y, x ∈ l -> y ∈ l -> f x = f y -> x = y) -> first_seen (map f l) = map f (first_seen l).
Proof.
  induction l as [|x l IH]; intros Hf; [done|]. cbn [map first_seen]. f_equal.
  rewrite IH by (intros; apply Hf; [by right..|done]).
  assert (G : forall k, (forall y, y ∈ k -> y ∈ l) -> filter (fun y => y <> f x) (map f k) = map f (filter (fun y => y <> x) k)).
  { intros k. induction k as [|y k IHk]; intros Hk; [done|]. cbn [map]. rewrite !filter_cons.
    rewrite IHk by (intros; apply Hk; by right). assert (Hy : y ∈ l) by (apply Hk; left).
    destruct (decide (y = x)) as [->|N].
    - rewrite !decide_False by (intros D; by apply D). done.
    - rewrite !decide_True; [done|done|]. intros D. apply N, Hf; [by right|left|done]. }
  apply G. intros y. by rewrite first_seen_elem.
Qed.
Lemma concat_filters (F : list (rstr * rstr)) K x : x ∈ F -> x.1 ∈ K ->
  x ∈ concat (map (fun k => filter (fun kv => kv.1 = k) F) K).
Proof.
  intros Hx Hk. apply elem_of_concat. exists (filter (fun kv => kv.1 = x.1) F). split.
  - by apply elem_of_list_filter.
  - apply elem_of_list_fmap. eauto.
Qed.

(** ** Options *)
Definition tagged (cats : list category) : list (category * cat_option) :=
  concat (map (fun cat => map (pair cat) (cat_options cat)) cats).
Lemma tagged_options cats : map snd (tagged cats) = all_options cats.
Proof.
  unfold tagged, all_options. rewrite concat_map, map_map. f_equal. apply map_ext. intros cat. rewrite map_map. apply map_id.
Qed.
Lemma tagged_pairs cats : map (fun x => (cat_name x.1, o_name x.2)) (tagged cats) = all_pairs cats.
Proof. unfold tagged, all_pairs. rewrite concat_map, map_map. f_equal. apply map_ext. intros cat. by rewrite map_map. Qed.
Lemma tagged_elem cats x : x ∈ tagged cats -> x.1 ∈ cats /\ x.2 ∈ cat_options x.1.
Proof.
  unfold tagged. rewrite elem_of_concat. intros (l & Hx & (cat & -> & Hc)%elem_of_list_fmap).
  apply elem_of_list_fmap in Hx as (opt & -> & Ho). done.
Qed.
Lemma category_of_pair raw k v : (k, v) ∈ pair_mentions raw -> k ∈ category_mentions raw.
Proof.
  unfold pair_mentions, category_mentions. rewrite elem_of_concat. intros (l & Hl & (o & -> & Ho)%elem_of_list_fmap).
  apply elem_of_list_fmap in Hl as (v' & [= -> ->] & Hv). by apply elem_of_list_fmap_1.
Qed.
Section numbered.
Context (raw : list (list raw_option)) (cats : list category).
Context (Hn : map cat_name cats = first_seen (category_mentions raw))
  (Hv : forall cat, cat ∈ cats -> map o_name (cat_options cat) = first_seen (value_mentions raw (cat_name cat)))
  (Hs : forall cat opt, cat ∈ cats -> opt ∈ cat_options cat ->
     first_seen (pair_mentions raw) !! N.to_nat (o_sid opt) = Some (cat_name cat, o_name opt)).
Lemma built_pairs : all_pairs cats =
  concat (map (fun k => filter (fun kv => kv.1 = k) (first_seen (pair_mentions raw))) (first_seen (category_mentions raw))).
Proof.
  unfold all_pairs. rewrite <- Hn, map_map. f_equal. apply map_ext_in. intros cat Hc%elem_of_list_In.
  rewrite <- (map_map o_name (fun v => (cat_name cat, v))), Hv by done. rewrite filter_first_seen. unfold value_mentions.
  rewrite first_seen_map.
  - rewrite map_map. rewrite <- (map_id (first_seen _)) at 2. apply map_ext_in. intros [k v] Hk%elem_of_list_In.
    rewrite first_seen_elem, elem_of_list_filter in Hk. destruct Hk as [<- _]. done.
  - intros [k v] [k' v'] Hx Hy. rewrite elem_of_list_filter in Hx, Hy. destruct Hx as [E _], Hy as [E' _]. simpl in *. congruence.
Qed.
Lemma in_turn_iff : option_positions cats <-> categories_in_turn raw.
Proof.
  unfold categories_in_turn. cbv zeta. rewrite <- built_pairs. set (F := first_seen (pair_mentions raw)).
  assert (ND : NoDup F) by apply first_seen_NoDup. split.
  - intros O. assert (Pre : forall i x, all_pairs cats !! i = Some x -> F !! i = Some x).
    { intros i x Hx. rewrite <- tagged_pairs in Hx. apply list_lookup_fmap_Some in Hx as (y & Hy & ->).
      pose proof (tagged_elem cats y (elem_of_list_lookup_2 _ _ _ Hy)) as [H1 H2].
      rewrite <- (Hs _ _ H1 H2). rewrite (O i y.2); [by rewrite Nat2N.id|]. rewrite <- tagged_options, list_lookup_fmap, Hy. done. }
    assert (L : (length F <= length (all_pairs cats))%nat).
    { apply submseteq_length, NoDup_submseteq; [done|]. intros [k v] Hx. rewrite built_pairs. apply concat_filters; [done|].
      rewrite first_seen_elem. unfold F in Hx. rewrite first_seen_elem in Hx. by eapply category_of_pair. }
    apply list_eq. intros i. destruct (all_pairs cats !! i) as [x|] eqn:E; [by apply Pre|].
    apply lookup_ge_None_1 in E. apply lookup_ge_None_2. lia.
  - intros E i o Hi. rewrite <- tagged_options in Hi. apply list_lookup_fmap_Some in Hi as (y & Hy & ->).
    pose proof (tagged_elem cats y (elem_of_list_lookup_2 _ _ _ Hy)) as [H1 H2].
    pose proof (Hs _ _ H1 H2) as H3. fold F in H3.
    assert (H4 : F !! i = Some (cat_name y.1, o_name y.2)) by (rewrite E, <- tagged_pairs, list_lookup_fmap, Hy; done).
    pose proof (NoDup_lookup _ _ _ _ ND H3 H4). lia.
Qed.
End numbered.

(** ** Lists of products *)
Lemma positions_in_order ps : positions ps -> in_order ps.
Proof.
  intros W. unfold in_order. assert (G : forall k l, (forall i p, l !! i = Some p -> p_sid p = N.of_nat (k + i)) -> ascending (map p_sid l)).
  { intros k l. revert k. induction l as [|p l IH]; intros k Hl; [done|]. simpl. split.
    - apply Forall_forall. intros y (q & -> & [i Hq]%elem_of_list_lookup)%elem_of_list_fmap.
      rewrite (Hl 0%nat p eq_refl), (Hl (S i) q Hq). lia.
    - apply (IH (S k)). intros i q Hq. rewrite (Hl (S i) q Hq). lia. }
  apply (G 0%nat). intros i p Hp. by rewrite (W i p Hp).
Qed.
Lemma sublist_in_order l k : l `sublist_of` k -> in_order k -> in_order l.
Proof.
  unfold in_order. induction 1 as [|x l k S IH|x l k S IH]; [done| |].
  - simpl. intros [A B]. split; [|by apply IH]. rewrite Forall_forall in *. intros y (q & -> & Hq)%elem_of_list_fmap.
    apply A. apply elem_of_list_fmap_1. by eapply elem_of_submseteq, sublist_submseteq.
  - simpl. intros [_ B]. by apply IH.
Qed.
Lemma owners_in_order raw : forall ps t, in_order ps -> in_order (tag_owners raw ps t).
Proof.
  unfold in_order, tag_owners. induction raw as [|tags raw IH]; intros ps t H; [done|]. destruct ps as [|p ps]; [done|].
  cbn [zip_with concat]. simpl in H. destruct H as [A B]. specialize (IH ps t B).
  set (rest := concat _) in *. assert (A' : Forall (fun y => p_sid p <= y) (map p_sid rest)).
  { apply Forall_forall. intros y (q & -> & Hq)%elem_of_list_fmap. rewrite Forall_forall in A. apply A, elem_of_list_fmap_1.
    unfold rest in Hq. apply (tag_owners_elem raw ps t q) in Hq as (i & Hi & _). by eapply elem_of_list_lookup_2. }
  induction (filter (fun s => s = t) tags) as [|s l IHl]; [done|]. simpl. split; [|done].
  rewrite map_app, Forall_app. split; [|done]. rewrite map_map. apply Forall_forall. intros y (z & -> & _)%elem_of_list_fmap. lia.
Qed.

(** ** Descriptions *)
Lemma survives_iff p : description_survives p <-> ~ lost_text (p_description p).
Proof.
  unfold lost_text. rewrite <- lost_description. unfold description_survives.
  destruct (p_description p) as [|c s]; [split; [intros _ [A _]; done|by left]|].
  destruct (limit_string_len (c :: s) 100) as [|d r]; split.
  - intros [A|A]; done.
  - intros A. exfalso. by apply A.
  - intros _ [_ A]. done.
  - by right.
Qed.
Lemma classified_iff raw : classified raw <->
  (exists t, t ∈ r_tags raw) \/ exists o v, o ∈ r_options raw /\ v ∈ ro_values o.
Proof.
  unfold classified. split.
  - intros [H|(o & Ho & Hv)]; [left|right]; [destruct (r_tags raw) as [|t l]; [done|]; exists t; left|].
    destruct (ro_values o) as [|v l] eqn:E; [done|]. exists o, v. rewrite E. split; [done|left].
  - intros [[t Ht]|(o & v & Ho & Hv)]; [left|right; exists o; split; [done|]].
    + intros E. rewrite E in Ht. by apply elem_of_nil in Ht.
    + intros E. rewrite E in Hv. by apply elem_of_nil in Hv.
Qed.

(** ** The catalogue *)
Section catalogue.
Context (parse : rstr -> option f32) (o : build_order) (input : list raw_product) (c : container) (cl : classic).
Context (Ho : valid_order (bo_tags o)) (E : optimize parse o input = Done (c, cl)).
Lemma product_of i raw : input !! i = Some raw -> exists p, c_products c !! i = Some p /\ describes raw p.
Proof.
  intros Hi. destruct (optimize_products parse o input c cl E) as [D _].
  destruct (Forall2_lookup_l _ _ _ _ _ D Hi) as (p & Hp & Hd). eauto.
Qed.
Lemma raw_of i p : c_products c !! i = Some p -> exists raw, input !! i = Some raw /\ describes raw p.
Proof.
  intros Hi. destruct (optimize_products parse o input c cl E) as [D _].
  destruct (Forall2_lookup_r _ _ _ _ _ D Hi) as (raw & Hr & Hd). eauto.
Qed.
Lemma all_survive : Forall description_survives (c_products c) <-> Forall (fun raw => ~ lost_text (r_description raw)) input.
Proof.
  rewrite !Forall_forall. split.
  - intros A raw [i Hi]%elem_of_list_lookup. destruct (product_of i raw Hi) as (p & Hp & (_ & _ & D & _)).
    rewrite <- D. apply survives_iff, A. by eapply elem_of_list_lookup_2.
  - intros A p [i Hi]%elem_of_list_lookup. destruct (raw_of i p Hi) as (raw & Hr & (_ & _ & D & _)).
    apply survives_iff. rewrite D. apply A. by eapply elem_of_list_lookup_2.
Qed.
Lemma classic_back_iff : classic_comes_back cl <->
  categories_in_turn (map r_options input) /\
  Forall (fun raw => classified raw -> ~ lost_text (r_description raw)) input.
Proof.
  destruct (optimize_categories parse o input c cl E) as (Cn & C).
  destruct (optimize_tags parse o input c cl Ho E) as (_ & Tn & _ & T).
  destruct (optimize_products parse o input c cl E) as [_ W]. apply positions_in_order in W as W'.
  assert (I : option_positions (cl_categories cl) <-> categories_in_turn (map r_options input)).
  { apply in_turn_iff; [done| |]; intros cat; [intros Hc|intros opt Hc]; destruct (C cat Hc) as (_ & A & B); [done|].
    intros Hopt. by apply B. }
  unfold classic_comes_back. rewrite I. apply and_iff_compat_l. split.
  - intros [A B]. apply Forall_forall. intros raw [i Hi]%elem_of_list_lookup Hc.
    destruct (product_of i raw Hi) as (p & Hp & (_ & _ & D & _)). rewrite <- D. apply survives_iff.
    apply classified_iff in Hc as [[t Ht]|(op & v & Hop & Hv)].
    + assert (L : lists_tag (map r_tags input) i t) by (exists (r_tags raw); split; [by rewrite list_lookup_fmap, Hi|done]).
      assert (Hn : t ∈ map t_name (cl_tags cl)) by (apply Tn; eauto).
      apply elem_of_list_fmap in Hn as (tg & -> & Htg). destruct (T tg Htg) as (_ & M & _).
      rewrite Forall_forall in B. destruct (B tg Htg) as [_ S]. rewrite Forall_forall in S. apply S. by apply (M i p Hp).
    + assert (L : lists_option (map r_options input) i (ro_name op) v).
      { exists (r_options raw), op. split; [by rewrite list_lookup_fmap, Hi|done]. }
      assert (Hpm : (ro_name op, v) ∈ pair_mentions (map r_options input)).
      { unfold pair_mentions. apply elem_of_concat. exists (map (pair (ro_name op)) (ro_values op)). split; [by apply elem_of_list_fmap_1|].
        apply elem_of_list_fmap. exists op. split; [done|]. apply elem_of_concat. exists (r_options raw). split; [done|].
        apply elem_of_list_fmap. exists raw. split; [done|]. by eapply elem_of_list_lookup_2. }
      assert (Hk : ro_name op ∈ map cat_name (cl_categories cl)).
      { rewrite Cn, first_seen_elem. by eapply category_of_pair. }
      apply elem_of_list_fmap in Hk as (cat & Ek & Hcat). destruct (C cat Hcat) as (_ & Ov & Oc).
      assert (Hvn : v ∈ map o_name (cat_options cat)).
      { rewrite Ov, first_seen_elem. unfold value_mentions. apply elem_of_list_fmap. exists (ro_name op, v). split; [done|].
        by apply elem_of_list_filter. }
      apply elem_of_list_fmap in Hvn as (opt & -> & Hopt). destruct (Oc opt Hopt) as (_ & M & _).
      rewrite Forall_forall in A. destruct (A opt) as [_ S].
      { unfold all_options. apply elem_of_concat. exists (cat_options cat). split; [done|]. by apply elem_of_list_fmap_1. }
      rewrite Forall_forall in S. apply S. apply (M i p Hp). by rewrite <- Ek.
  - intros A. rewrite Forall_forall in A.
    assert (G : forall i p, c_products c !! i = Some p -> forall raw, input !! i = Some raw -> classified raw -> description_survives p).
    { intros i p Hp raw Hi Hc. destruct (raw_of i p Hp) as (raw' & Hr & (_ & _ & D & _)). rewrite Hi in Hr. injection Hr as <-.
      apply survives_iff. rewrite D. apply A; [by eapply elem_of_list_lookup_2|done]. }
    split.
    + apply Forall_forall. intros opt Hopt. unfold all_options in Hopt. apply elem_of_concat in Hopt as (l & Hopt & (cat & -> & Hcat)%elem_of_list_fmap).
      destruct (C cat Hcat) as (_ & _ & Oc). destruct (Oc opt Hopt) as (S & M & _). split; [by eapply sublist_in_order|].
      apply Forall_forall. intros p Hp. assert (Hin : p ∈ c_products c) by by eapply elem_of_submseteq, sublist_submseteq.
      apply elem_of_list_lookup in Hin as [i Hi]. pose proof (proj1 (M i p Hi) Hp) as (options & op & L1 & L2 & L3 & L4).
      rewrite list_lookup_fmap in L1. destruct (input !! i) as [raw|] eqn:Er; [|done]. injection L1 as <-.
      apply (G i p Hi raw Er). apply classified_iff. right. eauto.
    + apply Forall_forall. intros tg Htg. destruct (T tg Htg) as (Eo & M & _). split; [rewrite Eo; by apply owners_in_order|].
      apply Forall_forall. intros p Hp. rewrite Eo in Hp. apply tag_owners_elem in Hp as (i & Hi & tags & L1 & L2).
      rewrite list_lookup_fmap in L1. destruct (input !! i) as [raw|] eqn:Er; [|done]. injection L1 as <-.
      apply (G i p Hi raw Er). apply classified_iff. left. eauto.
Qed.
Lemma price_column (Hparse : parse_ok parse) :
  (forall key l, (c_features c : gmap rstr feature) !! key = Some (FFloat l) -> Forall (fun x => is_nan x = false) l) <->
  prices_numeric parse input.
Proof.
  destruct (optimize_inv parse o input c cl E) as (prices & Hp & _ & _ & _ & _ & (C1 & C2 & C3) & _).
  assert (R : Forall (fun x => is_nan x = false) prices <-> prices_numeric parse input).
  { clear -Hp Hparse. unfold prices_numeric. induction Hp as [|raw x input prices Hx _ IH]; [split; constructor|].
    rewrite !Forall_cons, IH. apply and_iff_compat_r. split.
    - intros N. exists x. split; [done|]. split; [by eapply Hparse|]. by intros ->.
    - intros (y & Hy & _ & N). unfold priced in *. rewrite Hx in Hy. injection Hy as ->. by destruct y. }
  rewrite <- R. split.
  - intros A. destruct prices as [|x prices]; [constructor|]. apply (A s_price). exact C1.
  - intros A key l Hk. destruct (decide (key = s_price)) as [->|N1].
    { change (c_features c !! s_price = Some (FFloat l)) in Hk. rewrite C1 in Hk. destruct prices as [|x prices]; [done|]. by injection Hk as <-. }
    destruct (decide (key = s_image_url)) as [->|N2].
    { change (c_features c !! s_image_url = Some (FFloat l)) in Hk. rewrite C2 in Hk. by destruct (nonempty (first_images input)). }
    change (c_features c !! key = Some (FFloat l)) in Hk. by rewrite C3 in Hk.
Qed.

Section index.
Context (low : N -> list N) (P : platform) (n : nat) (gi : gram_index).
Context (Hn : (1 <= n)%nat) (Hbo : valid_build_order o) (Hparse : parse_ok parse)
  (Hlim : total_grams (map (raw_text low) input) < 2 ^ 32)
  (I : index_from P n o (sources low c) c = Done gi).
Lemma texts_are : map snd (sources low c) = map (raw_text low) input.
Proof. destruct (optimize_products parse o input c cl E) as [D _]. by apply raw_grams. Qed.
Lemma trie_numeric nd : forall w, at_path (gi_roots gi) w nd -> numeric_weights nd.
Proof.
  assert (Hl : total_grams (map snd (sources low c)) < 2 ^ 32) by by rewrite texts_are.
  induction nd as [item weight children IH] using node_ind'. intros w Hw.
  destruct (trie_weights P n o (sources low c) c gi Hn Hbo Hl I w _ Hw) as (_ & _ & Hr). cbn [n_weight] in Hr. constructor.
  - apply f32_ratio_unit in Hr. destruct weight; try done. by destruct Hr as (_ & Hr & _).
  - rewrite Forall_forall in IH |- *. intros child Hc. eapply (IH child Hc).
    by apply (at_path_down gi w (Node item weight children) child Hw).
Qed.
Lemma index_back_iff : index_comes_back gi <->
  prices_numeric parse input /\ Forall (fun raw => ~ lost_text (r_description raw)) input.
Proof.
  assert (Hl : total_grams (map snd (sources low c)) < 2 ^ 32) by by rewrite texts_are.
  assert (G : gi_container gi = c) by by eapply index_container.
  rewrite <- (price_column Hparse), <- all_survive. unfold index_comes_back. rewrite G. split.
  - intros (_ & _ & A & B). done.
  - intros [A B]. split; [|split; [|done]].
    + intros g nd Hg. apply (trie_numeric nd [g]). exists g, [], nd. split; [done|]. split; [done|]. constructor.
    + intros g l Hg. apply (postings P n (sources low c) c gi (index_from_built P n o (sources low c) c gi Hn Hbo Hl I)) in Hg as (-> & _).
      split; [apply Equal_facts.sorted_in_order|]. apply Forall_forall. intros p Hp. apply sort_by_elem in Hp. apply owners_elem in Hp as (t & Ht & _).
      apply elem_of_list_fmap in Ht as (q & [= -> _] & Hq). rewrite Forall_forall in B. by apply B.
Qed.
Lemma file_read so rest : low_ok low -> raw_fits P low input -> size_ok P (N.of_nat n) -> valid_ser_order so ->
  deserialize_all P n (serialize_all so gi cl ++ rest) = Done (stored_gram_index gi, stored_classic cl).
Proof.
  intros Hlow Hfit Hs Hso. pose proof texts_are as T. assert (G : gi_container gi = c) by by eapply index_container.
  apply (file_roundtrip P n so gi cl rest); [done| |].
  - eapply (index_storable P P n o (sources low c) c gi); [done|done|by rewrite T|done| | | |done|].
    + rewrite T. eapply (fits_count P low input 1); [done|done|done].
    + rewrite T. apply Forall_forall. intros t (raw & -> & Hr)%elem_of_list_fmap.
      apply (low_text_ok low raw P); [done|]. by eapply raw_ok.
    + by eapply container_storable.
    + intros p t (p' & [= -> ->] & Hp)%elem_of_list_fmap. done.
  - rewrite G. by eapply classic_storable.
Qed.
End index.
End catalogue.

(** ** The repository's test *)
Lemma round_trip_exact low parse P n bo so input : valid_build_order bo -> valid_ser_order so ->
  low_ok low -> parse_ok parse -> raw_fits P low input -> total_grams (map (raw_text low) input) < 2 ^ 32 ->
  (1 <= n)%nat -> size_ok P (N.of_nat n) ->
  (round_trip_test low parse P n bo so input = Done tt <->
     prices_numeric parse input /\ categories_in_turn (map r_options input) /\
     Forall (fun raw => ~ lost_text (r_description raw)) input) /\
  (round_trip_test low parse P n bo so input = Done tt \/ round_trip_test low parse P n bo so input = Panic).
Proof.
  intros Hbo Hso Hlow Hparse Hfit Hlim Hn Hs. unfold round_trip_test.
  destruct (optimize parse bo input) as [[c cl]| | |] eqn:E.
  2-4: assert (Np : ~ prices_parse parse input) by (intros Hp; apply (optimize_iff parse bo) in Hp as [out Hp]; congruence);
    rewrite (optimize_panic parse bo input Np) in E; try done.
  2: { cbn [mbind res_bind]. split; [|by right]. split; [done|]. intros [Hp _]. exfalso. apply Np.
    unfold prices_parse, prices_numeric in *. eapply Forall_impl; [exact Hp|]. intros raw (x & Hx & _). eauto. }
  cbn [mbind res_bind]. fold (sources low c).
  assert (Hl : total_grams (map snd (sources low c)) < 2 ^ 32) by by rewrite (texts_are parse bo input c cl E low).
  destruct (index_total P n bo (sources low c) c Hn Hbo Hl) as [gi I]. rewrite I. cbn [mbind res_bind].
  pose proof (file_read parse bo input c cl ltac:(apply Hbo) E low P n gi Hn Hbo Hparse Hlim I so [] Hlow Hfit Hs Hso) as R.
  rewrite app_nil_r in R. rewrite R.
  pose proof (index_equal_iff gi) as Q1. rewrite (index_back_iff parse bo input c cl E low P n gi Hn Hbo Hparse Hlim I) in Q1.
  pose proof (classic_equal_iff cl) as Q2. rewrite (classic_back_iff parse bo input c cl ltac:(apply Hbo) E) in Q2.
  assert (W : Forall (fun raw => ~ lost_text (r_description raw)) input ->
    Forall (fun raw => classified raw -> ~ lost_text (r_description raw)) input).
  { intros A. eapply Forall_impl; [exact A|]. done. }
  destruct (gram_index_eqb gi (stored_gram_index gi)), (classic_eqb cl (stored_classic cl)); split; try (by left); try (by right).
  all: split; [try done|]; intros; tauto || (exfalso; assert (false = true) by tauto; done).
Qed.
Lemma classic_catalogue_iff parse o input c cl : valid_order (bo_tags o) -> optimize parse o input = Done (c, cl) ->
  classic_eqb cl (stored_classic cl) = true <->
  categories_in_turn (map r_options input) /\
  Forall (fun raw => classified raw -> ~ lost_text (r_description raw)) input.
Proof. intros Ho E. rewrite classic_equal_iff. by eapply classic_back_iff. Qed.
