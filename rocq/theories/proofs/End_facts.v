(** Everything built from a raw catalogue that raw_fits can be stored. *)
From Verif.model Require Import Base F32 Utf8 Prim Coll Data Gram Indexer Nodes Classic Lit Raw Js Lib.
From Verif.spec Require Import Spec Data_spec Gram_spec Classic_spec Raw_spec Js_spec Lib_spec End_spec.
From Verif.proofs Require Import Base_facts Sort_facts Data_facts File_facts Data_more Sample_facts Indexer_facts Trie_facts Trie_props
  Classic_facts Order_facts Raw_facts Raw_props Search_facts Search_more Search_props Js_facts Lib_facts.

Lemma size_le P m n : m <= n -> size_ok P n -> size_ok P m.
Proof. unfold size_ok. lia. Qed.
Lemma len_le P k m n : m <= n -> size_ok P n /\ (forall k, n <= cap_max P k) -> len_ok P k m.
Proof. intros H [H1 H2]. specialize (H2 k). split; [by eapply size_le|lia]. Qed.
Lemma lenN_le {A B} (l : list A) (k : list B) : (length l <= length k)%nat -> lenN l <= lenN k.
Proof. unfold lenN. lia. Qed.
Lemma lenN_map {A B} (f : A -> B) l : lenN (map f l) = lenN l.
Proof. unfold lenN. by rewrite map_length. Qed.

(** *** Texts *)
Lemma low_text_ok low raw P : low_ok low -> raw_strings_ok P raw -> valid_str (raw_text low raw).
Proof.
  intros Hl (Hd & Hs & _). unfold raw_text.
  assert (V : valid_str (r_description raw ++ r_title raw ++ r_vendor raw)).
  { apply Forall_app in Hs as [Hs _]. rewrite !Forall_cons in Hs. destruct Hs as ([H1 _] & [H2 _] & _).
    unfold valid_str in *. rewrite !Forall_app. done. }
  induction V as [|c s Hc V IH]; [constructor|]. simpl. apply Forall_app. split; [by apply Hl|done].
Qed.
Lemma windows_elem n t w : (1 <= n)%nat -> w ∈ windows n t -> length w = n /\ forall x, x ∈ w -> x = 0 \/ x ∈ t.
Proof.
  intros Hn (j & -> & Hj)%elem_of_list_fmap. apply elem_of_seq in Hj. unfold window. split.
  - rewrite take_length, drop_length, app_length, replicate_length. lia.
  - intros x Hx. apply elem_of_take in Hx as (i & Hx & _). apply elem_of_list_lookup_2 in Hx.
    apply elem_of_list_lookup in Hx as (k & Hx). rewrite lookup_drop in Hx. apply elem_of_list_lookup_2 in Hx.
    apply elem_of_app in Hx as [Hx|Hx]; [left; by apply elem_of_replicate in Hx as [-> _]|by right].
Qed.
Lemma total_grams_concat texts : total_grams texts = lenN (concat texts).
Proof.
  unfold total_grams, lenN. induction texts as [|t texts IH]; [done|]. simpl. rewrite IH, app_length. lia.
Qed.
Lemma owners_length n source key : lenN (owners n source key) <= total_grams (map snd source).
Proof.
  unfold owners, total_grams, lenN. induction source as [|[p t] source IH]; [done|]. simpl.
  rewrite app_length, replicate_length. pose proof (filter_length (fun w => w = key) (windows n t)) as F.
  unfold windows in F at 2. rewrite map_length, seq_length in F. unfold lenN in IH. lia.
Qed.
Lemma size_bound {K V} `{Countable K} (m : gmap K V) (l : list K) :
  (forall k, is_Some (m !! k) -> k ∈ l) -> (size m <= length l)%nat.
Proof.
  intros Hl. assert (S : (map_to_list m).*1 ⊆+ l).
  { apply NoDup_submseteq; [apply NoDup_fst_map_to_list|]. intros k ([k' v] & -> & Hk)%elem_of_list_fmap.
    apply elem_of_map_to_list in Hk. apply Hl. simpl. eauto. }
  apply submseteq_length in S. rewrite fmap_length in S. exact S.
Qed.

(** *** The gram index *)
Section stored.
Context (P Q : platform) (n : nat) (o : build_order) (source : list (product * list N)) (pc : container)
  (gi : gram_index).
Context (Hn : (1 <= n)%nat) (Ho : valid_build_order o)
  (Hlim : total_grams (map snd source) < 2 ^ 32) (H : index_from P n o source pc = Done gi).
Context (Hfit : size_ok Q (total_grams (map snd source)) /\ forall k, total_grams (map snd source) <= cap_max Q k)
  (Hval : Forall (fun t => valid_str t) (map snd source)).
Let IB := index_from_built P n o source pc gi Hn Ho Hlim H.

Lemma text_elem p t x : (p, t) ∈ source -> x ∈ t -> is_scalar x = true /\ x ∈ concat (map snd source).
Proof.
  intros Ht Hx. assert (t ∈ map snd source) as Ht' by (apply elem_of_list_fmap; by exists (p, t)).
  split.
  - rewrite Forall_forall in Hval. specialize (Hval t Ht'). unfold valid_str in Hval. rewrite Forall_forall in Hval. by apply Hval.
  - apply elem_of_concat. eauto.
Qed.
Lemma path_elem w nd x : at_path (gi_roots gi) w nd -> x ∈ w -> is_scalar x = true /\ x ∈ concat (map snd source).
Proof.
  intros Hw Hx. destruct (proj1 (proj1 (trie_paths P n o source pc gi Hn Ho Hlim H) w)) as (_ & _ & p & t & Ht & u & v & ->); [eauto|].
  eapply text_elem; [done|]. rewrite !elem_of_app. auto.
Qed.
Lemma node_storable nd : forall w, at_path (gi_roots gi) w nd -> node_ok Q nd.
Proof.
  induction nd as [item weight children IH] using node_ind'. intros w Hw.
  destruct (trie_weights P n o source pc gi Hn Ho Hlim H w _ Hw) as (Hl & _ & Hr). cbn [n_item n_weight] in *.
  assert (Hdown : forall child, child ∈ children -> at_path (gi_roots gi) (w ++ [n_item child]) child).
  { intros child Hc. by apply (at_path_down gi w (Node item weight children) child Hw). }
  constructor.
  - apply (path_elem w _ item Hw). apply last_Some in Hl as [l' ->]. rewrite elem_of_app. right. left.
  - apply Hr.
  - destruct (trie_children P n o source pc gi Hn Ho Hlim H w _ Hw) as [ND _]. cbn [n_children] in ND.
    eapply len_le; [|exact Hfit]. rewrite total_grams_concat. rewrite <- (lenN_map n_item). apply lenN_le, submseteq_length.
    apply NoDup_submseteq; [done|]. intros x (child & -> & Hc)%elem_of_list_fmap.
    apply (path_elem _ _ (n_item child) (Hdown child Hc)). rewrite elem_of_app. right. left.
  - rewrite Forall_forall in IH |- *. intros child Hc. apply (IH child Hc _ (Hdown child Hc)).
Qed.
Lemma index_storable : container_ok Q pc -> size_ok Q (N.of_nat n) ->
  (forall p t, (p, t) ∈ source -> p ∈ c_products pc) -> gram_index_ok Q n gi.
Proof.
  intros Hc Hs Hp. pose proof IB as B.
  assert (Hroot : forall c nd, gi_roots gi !! c = Some nd -> at_path (gi_roots gi) [c] nd).
  { intros c nd Hcn. exists c, [], nd. split; [done|]. split; [done|]. constructor. }
  assert (Hkey : forall g l, gi_data gi !! g = Some l -> exists p t, (p, t) ∈ source /\ g ∈ windows n t).
  { intros g l Hg. destruct (postings P n source pc gi B g l Hg) as (_ & Hne & _).
    destruct (owners n source g) as [|p ps] eqn:E; [done|].
    destruct (proj1 (owners_elem n source g p)) as (t & Ht); [rewrite E; left|]. eauto. }
  split; [by rewrite (ib_container _ _ _ _ _ B)|]. split; [|split; [|split; [|split]]].
  - eapply len_le; [|exact Hfit]. rewrite total_grams_concat. unfold lenN.
    assert (size (gi_roots gi) <= length (concat (map snd source)))%nat; [|lia].
    apply size_bound. intros c [nd Hcn]. apply (path_elem _ _ c (Hroot _ _ Hcn)). left.
  - intros c nd Hcn. split; [apply (path_elem _ _ c (Hroot _ _ Hcn)); left|]. by apply (node_storable nd [c]), Hroot.
  - eapply len_le; [|exact Hfit].
    assert (E : total_grams (map snd source) = lenN (concat (map (windows n) (map snd source)))).
    { unfold total_grams, lenN. clear. induction (map snd source) as [|t l IH]; [done|]. simpl. rewrite IH, app_length.
      unfold windows at 2. rewrite map_length, seq_length. lia. }
    rewrite E. unfold lenN.
    assert (size (gi_data gi) <= length (concat (map (windows n) (map snd source))))%nat; [|lia].
    apply size_bound. intros g [l Hg]. destruct (Hkey _ _ Hg) as (p & t & Ht & Hw). apply elem_of_concat.
    exists (windows n t). split; [done|]. apply elem_of_list_fmap_1, elem_of_list_fmap. by exists (p, t).
  - done.
  - intros g l Hg. destruct (Hkey _ _ Hg) as (p & t & Ht & Hw). destruct (windows_elem n t g Hn Hw) as [Hl He].
    split; [done|]. split.
    { apply Forall_forall. intros x Hx. destruct (He x Hx) as [->|Hx']; [done|]. by eapply text_elem. }
    destruct (postings P n source pc gi B g l Hg) as (-> & _ & _). rewrite (ib_container _ _ _ _ _ B). split.
    { apply Forall_forall. intros q Hq. apply sort_by_elem in Hq. apply owners_elem in Hq as (t' & Ht' & _). by eapply Hp. }
    assert (lenN (sort_by product_cmp (owners n source g)) <= total_grams (map snd source)).
    { unfold lenN. rewrite sort_by_length. apply owners_length. }
    split; [by eapply len_le|]. etrans; [done|]. apply Hfit.
Qed.
End stored.

(** *** The catalogue *)
Lemma fits_count Q low input (i : nat) n m : raw_fits Q low input -> raw_counts low input !! i = Some m -> n <= m ->
  size_ok Q n /\ forall k, n <= cap_max Q k.
Proof.
  intros [_ F] Hm Hle. destruct (Forall_lookup_1 _ _ _ _ F Hm) as [H1 H2]. split; [by eapply size_le|].
  intros k. specialize (H2 k). lia.
Qed.
Lemma fits_len Q low input (i : nat) n m k : raw_fits Q low input -> raw_counts low input !! i = Some m -> n <= m -> len_ok Q k n.
Proof. intros F Hm Hle. destruct (fits_count Q low input i n m F Hm Hle) as [H1 H2]. by split. Qed.
Lemma numbered_lookup names v : v ∈ numbered names -> numbered names !! N.to_nat (v_id v) = Some v.
Proof.
  intros (i & Hi)%elem_of_list_lookup. unfold numbered in *. rewrite list_lookup_imap in Hi.
  destruct (names !! i) as [name|] eqn:E; [|done]. injection Hi as <-. simpl. rewrite Nat2N.id, list_lookup_imap. by rewrite E.
Qed.
Lemma short_ok Q low input s : raw_fits Q low input -> valid_str s -> str_len s <= 104 -> str_ok Q s.
Proof.
  intros F V L. split; [done|]. eapply (fits_count Q low input 5); [done|done|done].
Qed.
Lemma first_images_length l : (length (first_images l) <= length l)%nat.
Proof.
  induction l as [|raw l IH]; [done|]. change (raw :: l) with ([raw] ++ l). rewrite first_images_app, !app_length.
  assert (length (first_images [raw]) <= 1)%nat by (unfold first_images; simpl; destruct (r_media raw); simpl; lia). cbn [length]. lia.
Qed.
Section catalogue.
Context (parse : rstr -> option f32) (low : N -> list N) (Q : platform) (o : build_order) (input : list raw_product)
  (c : container) (cl : classic).
Context (Hf : raw_fits Q low input) (Hparse : parse_ok parse) (E : optimize parse o input = Done (c, cl)).
Lemma raw_ok raw : raw ∈ input -> raw_strings_ok Q raw.
Proof. destruct Hf as [F _]. rewrite Forall_forall in F. apply F. Qed.
Lemma container_storable : container_ok Q c.
Proof.
  destruct (optimize_inv parse o input c cl E) as (prices & Hp & D & W & V & Vt & C & _).
  assert (L : length input = length (c_products c)) by by eapply Forall2_length.
  assert (Lp : length input = length prices) by by eapply Forall2_length.
  pose proof (raw_vendors_are input) as (ND & Bi & T).
  split; [|split; [|split; [|split; [|split]]]].
  - rewrite V. exists (first_seen (map r_vendor input)). split; [by split|].
    assert (B : lenN (first_seen (map r_vendor input)) <= lenN input).
    { rewrite <- (lenN_map r_vendor). apply lenN_le, first_seen_length. }
    split; [|split; by eapply (fits_len Q low input 0)].
    apply Forall_forall. intros s Hs. rewrite first_seen_elem in Hs. apply elem_of_list_fmap in Hs as (raw & -> & Hr).
    destruct (raw_ok raw Hr) as (_ & F & _). rewrite Forall_forall in F. apply F. set_solver.
  - destruct C as (C1 & C2 & C3). split.
    + assert (size (c_features c) <= length [s_price; s_image_url])%nat as B.
      { apply size_bound. intros key [f Hk]. destruct (decide (key = s_price)) as [->|N1]; [left|].
        destruct (decide (key = s_image_url)) as [->|N2]; [right; left|]. by rewrite C3 in Hk. }
      simpl in B. eapply (fits_len Q low input 5); [done|done|lia].
    + intros key f Hk. destruct (decide (key = s_price)) as [->|N1].
      * split; [apply (short_ok Q low input); [done| |]; [apply (bool_decide_unpack _); vm_compute; done|vm_compute; done]|].
        rewrite C1 in Hk. destruct prices as [|x prices]; [done|]. injection Hk as <-. split.
        { eapply (fits_len Q low input 0); [done|done|]. apply lenN_le. lia. }
        clear -Hp Hparse. apply Forall_forall. intros y Hy.
        apply elem_of_list_lookup in Hy as [i Hi]. destruct (Forall2_lookup_r _ _ _ _ _ Hp Hi) as (raw & _ & Hx). by eapply Hparse.
      * destruct (decide (key = s_image_url)) as [->|N2]; [|by rewrite C3 in Hk].
        split; [apply (short_ok Q low input); [done| |]; [apply (bool_decide_unpack _); vm_compute; done|vm_compute; done]|].
        rewrite C2 in Hk. assert (exists images, first_images input = images /\ f = FString images) as (images & Ei & ->).
        { destruct (first_images input); [done|]. injection Hk as <-. eauto. }
        assert (B : (length images <= length input)%nat).
        { rewrite <- Ei. apply first_images_length. }
        split; [eapply (fits_len Q low input 0); [done|done|by apply lenN_le]|].
        rewrite <- Ei. apply Forall_forall. intros s Hs. unfold first_images in Hs. apply elem_of_list_omap in Hs as (raw & Hr & Hh).
        destruct (raw_ok raw Hr) as (_ & F & _). rewrite Forall_forall in F. apply F. rewrite !elem_of_app. right. right.
        destruct (r_media raw); [done|]. injection Hh as ->. left.
  - eapply (fits_count Q low input 0); [done|done|]. unfold lenN. by rewrite L.
  - done.
  - apply Forall_forall. intros p (i & Hi)%elem_of_list_lookup.
    destruct (Forall2_lookup_r _ _ _ _ _ D Hi) as (raw & Hr & D1 & D2 & D3 & D4).
    destruct (raw_ok raw) as (F1 & F & _); [by eapply elem_of_list_lookup_2|]. rewrite Forall_forall in F.
    split; [by rewrite D3|]. split; [rewrite D1; apply F; set_solver|]. split; [rewrite D2; apply F; set_solver|].
    split.
    + rewrite Forall_forall in Vt. specialize (Vt p (elem_of_list_lookup_2 _ _ _ Hi)). rewrite V in *.
      apply T in Vt as [Vt _]. rewrite Bi. by apply numbered_lookup.
    + rewrite (W _ _ Hi). eapply (fits_count Q low input 0); [done|done|]. apply lookup_lt_Some in Hi. unfold lenN. lia.
  - by destruct (fits_count Q low input 5 104 104 Hf) as [[_ ?] _].
Qed.
Lemma option_named k v : (k, v) ∈ pair_mentions (map r_options input) -> str_ok Q k /\ str_ok Q v.
Proof.
  unfold pair_mentions. intros (l & Hl & (ro & -> & Hro)%elem_of_list_fmap)%elem_of_concat.
  apply elem_of_list_fmap in Hl as (v' & [= -> ->] & Hv). apply elem_of_concat in Hro as (os & Hro & Hos).
  apply elem_of_list_fmap in Hos as (raw & -> & Hr). destruct (raw_ok raw Hr) as (_ & _ & F).
  rewrite Forall_forall in F. destruct (F ro Hro) as [F1 F2]. rewrite Forall_forall in F2. auto.
Qed.
Lemma category_named k : k ∈ category_mentions (map r_options input) -> str_ok Q k.
Proof.
  unfold category_mentions. intros (ro & -> & (os & Hro & Hos)%elem_of_concat)%elem_of_list_fmap.
  apply elem_of_list_fmap in Hos as (raw & -> & Hr). destruct (raw_ok raw Hr) as (_ & _ & F).
  rewrite Forall_forall in F. by destruct (F ro Hro).
Qed.
Lemma tag_owners_length raw (ps : list product) t : (length (tag_owners raw ps t) <= length (concat raw))%nat.
Proof.
  unfold tag_owners. revert ps. induction raw as [|tags raw IH]; intros ps; [done|]. destruct ps as [|p ps]; [simpl; lia|].
  simpl. rewrite !app_length, map_length. pose proof (filter_length (fun s => s = t) tags). specialize (IH ps). lia.
Qed.
Lemma tag_named t : t ∈ concat (map r_tags input) -> str_ok Q t.
Proof.
  intros (l & Ht & (raw & -> & Hr)%elem_of_list_fmap)%elem_of_concat. destruct (raw_ok raw Hr) as (_ & F & _).
  rewrite Forall_forall in F. apply F. rewrite !elem_of_app. auto.
Qed.
Lemma classic_storable : valid_order (bo_tags o) -> classic_ok Q (c_products c) cl.
Proof.
  intros Ho. destruct (optimize_products parse o input c cl E) as [D W].
  assert (L : length input = length (c_products c)) by by eapply Forall2_length.
  destruct (optimize_categories parse o input c cl E) as [Cn C].
  destruct (optimize_tags parse o input c cl Ho E) as (Tn & Tm & Tp & T).
  destruct (optimize_orders_perm parse o input c cl E) as (ra & ru & rd & Eo & R).
  split; [|split; [|split; [|split; [|split]]]].
  - eapply (fits_len Q low input 4); [done|done|]. rewrite <- (lenN_map cat_name). rewrite Cn. apply lenN_le, first_seen_length.
  - apply Forall_forall. intros cat Hcat. destruct (C cat Hcat) as (_ & On & Oo).
    split; [|split].
    + apply category_named. rewrite <- first_seen_elem, <- Cn. by apply elem_of_list_fmap_1.
    + eapply (fits_len Q low input 3); [done|done|]. rewrite <- (lenN_map o_name). rewrite On. apply lenN_le.
      etrans; [apply first_seen_length|]. unfold value_mentions. rewrite map_length. apply filter_length.
    + apply Forall_forall. intros opt Hopt. destruct (Oo opt Hopt) as (S & _ & I & X). split; [|split; [|done]].
      * apply elem_of_list_lookup_2 in X. rewrite first_seen_elem in X. apply option_named in X as [_ X]. exact X.
      * assert (B : lenN (o_content opt) <= lenN input).
        { apply lenN_le. rewrite L. by apply sublist_length. }
        split; [|split].
        -- apply Forall_forall. intros p Hp. by eapply (elem_of_submseteq _ _ _ Hp), sublist_submseteq.
        -- by eapply (fits_len Q low input 0).
        -- destruct (fits_count Q low input 0 _ _ Hf eq_refl B) as [_ K]. apply K.
  - eapply (fits_len Q low input 2); [done|done|]. rewrite <- (lenN_map t_name). apply lenN_le, submseteq_length.
    apply NoDup_submseteq; [done|]. intros name Hname. apply Tm in Hname as (i & tags & Hi & Ht).
    apply elem_of_concat. exists tags. split; [done|]. by eapply elem_of_list_lookup_2.
  - apply Forall_forall. intros t Ht. destruct (T t Ht) as (Tpr & _ & I). split; [|split; [|done]].
    + apply tag_named. assert (Hname : t_name t ∈ map t_name (cl_tags cl)) by by apply elem_of_list_fmap_1.
      apply Tm in Hname as (i & tags & Hi & Ht'). apply elem_of_concat. exists tags. split; [done|]. by eapply elem_of_list_lookup_2.
    + assert (B : lenN (t_products t) <= lenN (concat (map r_tags input))).
      { rewrite Tpr. apply lenN_le, tag_owners_length. }
      split; [|split].
      * apply Forall_forall. intros p Hp. rewrite Tpr in Hp. apply tag_owners_elem in Hp as (j & Hj & _). by eapply elem_of_list_lookup_2.
      * by eapply (fits_len Q low input 2).
      * destruct (fits_count Q low input 2 _ _ Hf eq_refl B) as [_ K]. apply K.
  - done.
  - assert (K : forall key ranks, cl_order cl !! key = Some ranks ->
      key ∈ [s_alphabetical; s_price_up; s_price_down] /\ ranks ≡ₚ map N.of_nat (seq 0 (length input))).
    { intros key ranks Hk. apply Forall_cons in R as [R1 R]. apply Forall_cons in R as [R2 R]. apply Forall_cons in R as [R3 _].
      rewrite Eo in Hk. unfold order_index in Hk. rewrite !lookup_insert_Some, lookup_empty in Hk.
      destruct Hk as [[<- <-]|[_ [[<- <-]|[_ [[<- <-]|[_ Hk]]]]]]; [..|done]; (split; [|done]); set_solver. }
    split.
    + assert (size (cl_order cl) <= length [s_alphabetical; s_price_up; s_price_down])%nat as B.
      { apply (size_bound (K := rstr)). intros key [ranks Hk]. by destruct (K _ _ Hk). }
      simpl in B. eapply (fits_len Q low input 5); [done|done|lia].
    + intros key ranks Hk. destruct (K _ _ Hk) as [Hin Hperm]. split; [|split].
      * apply (short_ok Q low input); [done| |].
        -- repeat (apply elem_of_cons in Hin as [->|Hin]; [apply (bool_decide_unpack _); vm_compute; done|]). by apply elem_of_nil in Hin.
        -- repeat (apply elem_of_cons in Hin as [->|Hin]; [vm_compute; done|]). by apply elem_of_nil in Hin.
      * eapply (fits_len Q low input 0); [done|done|]. unfold lenN. apply Permutation_length in Hperm.
        rewrite map_length, seq_length in Hperm. lia.
      * apply Forall_forall. intros r Hr. rewrite Hperm in Hr. apply elem_of_list_fmap in Hr as (i & -> & Hi). apply elem_of_seq in Hi.
        eapply (fits_count Q low input 0); [done|done|]. unfold lenN. lia.
Qed.
End catalogue.
(** ** The file *)
Definition sources (low : N -> list N) (c : container) : list (product * list N) :=
  map (fun p => (p, product_grams low p)) (c_products c).
Lemma indexed_inv low parse P n bo ro so input bytes : index_and_serialize_with_n low parse P n bo ro so input = Done bytes ->
  exists c cl gi, optimize parse bo input = Done (c, cl) /\ index_from P n bo (sources low c) c = Done gi /\
    bytes = serialize_all so gi cl.
Proof.
  unfold index_and_serialize_with_n. intros H.
  destruct (optimize parse bo input) as [[c cl]| | |] eqn:E; try done. cbn [mbind res_bind] in H.
  destruct (index_from P n bo _ c) as [gi| | |] eqn:I; try done. cbn [mbind res_bind] in H.
  destruct (gram_search n ro gi _); try done. cbn [mbind res_bind] in H. injection H as <-. by exists c, cl, gi.
Qed.
Lemma index_container P n o source pc gi : index_from P n o source pc = Done gi -> gi_container gi = pc.
Proof.
  unfold index_from. intros H. destruct (foldM _ source _) as [st| | |]; try done. cbn [mbind res_bind] in H.
  destruct (mapR _ _); try done. cbn [mbind res_bind] in H. destruct (foldM _ _ _); try done. cbn [mbind res_bind] in H.
  destruct (mapR _ _); try done. cbn [mbind res_bind] in H. by injection H as <-.
Qed.
Section file.
Context (low : N -> list N) (parse : rstr -> option f32) (P Q : platform) (bo : build_order)
  (ro : order_of (rstr * (product * f32))) (so : ser_order) (input : list raw_product).
Context (Hbo : valid_build_order bo) (Hso : valid_ser_order so) (Hlow : low_ok low) (Hparse : parse_ok parse)
  (Hfit : raw_fits Q low input) (Hlim : total_grams (map (raw_text low) input) < 2 ^ 32).
Lemma file_storable c cl gi : optimize parse bo input = Done (c, cl) ->
  index_from P ngram_index_size bo (sources low c) c = Done gi ->
  gram_index_ok Q ngram_index_size gi /\ classic_ok Q (c_products (gi_container gi)) cl.
Proof.
  intros E I. destruct (optimize_products parse bo input c cl E) as [D W].
  assert (T : map snd (sources low c) = map (raw_text low) input) by by apply raw_grams.
  assert (gi_container gi = c) as G by by eapply index_container.
  split.
  - eapply (index_storable P Q ngram_index_size bo (sources low c) c gi); [unfold ngram_index_size; lia|done|by rewrite T|done| | | | |].
    + rewrite T. eapply (fits_count Q low input 1); [done|done|done].
    + rewrite T. apply Forall_forall. intros t (raw & -> & Hr)%elem_of_list_fmap.
      apply (low_text_ok low raw Q); [done|]. by eapply raw_ok.
    + by eapply container_storable.
    + eapply (fits_count Q low input 5); [done|done|]. unfold ngram_index_size. lia.
    + intros p t (p' & [= -> ->] & Hp)%elem_of_list_fmap. done.
  - rewrite G. eapply classic_storable; [done|done|done|]. apply Hbo.
Qed.
Lemma file_loads c cl gi rest : optimize parse bo input = Done (c, cl) ->
  index_from P ngram_index_size bo (sources low c) c = Done gi ->
  deserialize_all Q ngram_index_size (serialize_all so gi cl ++ rest) = Done (stored_gram_index gi, stored_classic cl).
Proof. intros E I. destruct (file_storable c cl gi E I). by apply file_roundtrip. Qed.
End file.
