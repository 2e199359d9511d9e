(** C133: what more products do to the size of the file. *)
From Coq Require Import String.
From Verif.model Require Import Base F32 Utf8 Prim Coll Data Gram Indexer Nodes Classic Lit Raw Js Lib.
From Verif.spec Require Import Spec Data_spec Gram_spec Classic_spec Raw_spec Cost_spec Samples Raw_samples Gram_samples Lib_samples Filesize_spec.
From Verif.proofs Require Import Base_facts Sort_facts Classic_facts Data_facts Indexer_facts Raw_facts Raw_props Cutoff_facts Filesize_facts Filesize_mono Filesize_base.
From Coq Require Import ZifyBool ZifyNat ZifyN Sorting.Sorted.
Ltac Zify.zify_post_hook ::= Z.div_mod_to_equations.

Lemma first_seen_grow `{EqDecision A} (l k : list A) : exists r, first_seen (l ++ k) = first_seen l ++ r.
Proof. rewrite first_seen_app. eauto. Qed.
Lemma index_app x l k : x ∈ l -> index_of x (l ++ k) = index_of x l.
Proof.
  induction l as [|y l IH]; intros H; [by apply elem_of_nil in H|]. cbn [app index_of]. case_decide; [done|].
  apply elem_of_cons in H as [->|H]; [done|]. by rewrite IH.
Qed.
Lemma number_app {A} (l k : list A) : number_bytes (lenN l) <= number_bytes (lenN (l ++ k)).
Proof. apply number_mono. rewrite lenN_app. lia. Qed.
Lemma gaps_app l k : forall p, gaps_bytes p l <= gaps_bytes p (l ++ k).
Proof. induction l as [|x l IH]; intros p; [cbn; lia|]. cbn [app gaps_bytes]. specialize (IH x). lia. Qed.
Lemma list_app_bytes l k : list_bytes l <= list_bytes (l ++ k).
Proof. unfold list_bytes. pose proof (number_app l k). pose proof (gaps_app l k 0). lia. Qed.
Lemma texts_app_bytes l k : texts_bytes l <= texts_bytes (l ++ k).
Proof. unfold texts_bytes. pose proof (number_app l k). rewrite map_app, sum_app. lia. Qed.
Lemma rows_app {A} (count : A -> nat) rows more : exists r, row_numbers count (rows ++ more) = row_numbers count rows ++ r.
Proof. unfold row_numbers. rewrite imap_app, concat_app. eauto. Qed.
Lemma text_pos s : 1 <= text_bytes s.
Proof. unfold text_bytes. pose proof (number_pos (sum_N (map char_bytes s))). lia. Qed.

Lemma products_grow input extra : products_bytes input + lenN extra <= products_bytes (input ++ extra).
Proof.
  unfold products_bytes. pose proof (number_app input extra). rewrite map_app, sum_app.
  assert (E : sum_N (map (product_bytes (input ++ extra)) input) = sum_N (map (product_bytes input) input)).
  { apply sum_ext. intros raw Hr. unfold product_bytes, vendor_names. do 2 f_equal. rewrite map_app.
    destruct (first_seen_grow (map r_vendor input) (map r_vendor extra)) as [r ->]. apply index_app.
    rewrite first_seen_elem. by apply elem_of_list_fmap_1. }
  rewrite E. assert (lenN extra <= sum_N (map (product_bytes (input ++ extra)) extra)); [|lia].
  generalize (input ++ extra). intros all. clear. induction extra as [|raw extra IH]; [cbn; lia|].
  rewrite lenN_cons. cbn [map]. rewrite sum_cons. unfold product_bytes at 1. pose proof (text_pos (r_title raw)). lia.
Qed.
Lemma vendors_grow input extra : texts_bytes (vendor_names input) <= texts_bytes (vendor_names (input ++ extra)).
Proof.
  unfold vendor_names. rewrite map_app. destruct (first_seen_grow (map r_vendor input) (map r_vendor extra)) as [r ->]. apply texts_app_bytes.
Qed.
Lemma columns_grow input extra : columns_bytes input <= columns_bytes (input ++ extra).
Proof.
  unfold columns_bytes. rewrite first_images_app.
  assert ((if decide (input = []) then 0 else text_bytes (lit "price") + 1 + (number_bytes (lenN input) + 4 * lenN input)) <=
    (if decide (input ++ extra = []) then 0 else text_bytes (lit "price") + 1 + (number_bytes (lenN (input ++ extra)) + 4 * lenN (input ++ extra)))).
  { pose proof (number_app input extra). assert (lenN input <= lenN (input ++ extra)) by (rewrite lenN_app; lia).
    case_decide as E1; [apply N.le_0_l|]. case_decide as E2; [apply app_eq_nil in E2 as [? _]; done|]. lia. }
  assert ((if decide (first_images input = []) then 0 else text_bytes (lit "image_url") + 1 + texts_bytes (first_images input)) <=
    (if decide (first_images input ++ first_images extra = []) then 0 else text_bytes (lit "image_url") + 1 + texts_bytes (first_images input ++ first_images extra))).
  { pose proof (texts_app_bytes (first_images input) (first_images extra)).
    destruct (decide (first_images input = [])) as [E1|E1]; [apply N.le_0_l|].
    clear H. case_decide as E2; [apply app_eq_nil in E2 as [? _]; done|]. apply N.add_le_mono_l. exact H0. }
  lia.
Qed.
Lemma options_grow raw more k v : option_bytes raw k v <= option_bytes (raw ++ more) k v.
Proof.
  unfold option_bytes. match goal with |- context [row_numbers ?c (raw ++ more)] => destruct (rows_app c raw more) as [r ->] end.
  match goal with |- context [list_bytes (?a ++ r)] => pose proof (list_app_bytes a r) end. lia.
Qed.
Lemma values_grow raw more k : exists r, value_mentions (raw ++ more) k = value_mentions raw k ++ r.
Proof. unfold value_mentions, pair_mentions. rewrite concat_app, map_app, concat_app, filter_app, map_app. eauto. Qed.
Lemma category_grow raw more k : category_bytes raw k <= category_bytes (raw ++ more) k.
Proof.
  unfold category_bytes. cbv zeta. destruct (values_grow raw more k) as [r ->].
  destruct (first_seen_grow (value_mentions raw k) r) as [r' ->]. rewrite map_app, sum_app.
  pose proof (number_app (first_seen (value_mentions raw k)) r').
  pose proof (sum_le (option_bytes raw k) (option_bytes (raw ++ more) k) (first_seen (value_mentions raw k)) ltac:(intros; apply options_grow)). unfold rstr in *. lia.
Qed.
Lemma categories_grow raw more : categories_bytes raw <= categories_bytes (raw ++ more).
Proof.
  unfold categories_bytes, category_mentions. cbv zeta. rewrite concat_app, map_app.
  destruct (first_seen_grow (map ro_name (concat raw)) (map ro_name (concat more))) as [r ->]. rewrite map_app, sum_app.
  pose proof (number_app (first_seen (map ro_name (concat raw))) r).
  pose proof (sum_le (category_bytes raw) (category_bytes (raw ++ more)) (first_seen (map ro_name (concat raw))) ltac:(intros; apply category_grow)). unfold rstr in *. lia.
Qed.
Lemma tag_grow raw more t : tag_bytes raw t <= tag_bytes (raw ++ more) t.
Proof.
  unfold tag_bytes. match goal with |- context [row_numbers ?c (raw ++ more)] => destruct (rows_app c raw more) as [r ->] end.
  match goal with |- context [list_bytes (?a ++ r)] => pose proof (list_app_bytes a r) end. lia.
Qed.
Lemma tags_grow raw more : tags_bytes raw <= tags_bytes (raw ++ more).
Proof.
  unfold tags_bytes. cbv zeta. rewrite concat_app.
  destruct (first_seen_grow (concat raw) (concat more)) as [r ->]. rewrite map_app, sum_app.
  pose proof (number_app (first_seen (concat raw)) r).
  pose proof (sum_le (tag_bytes raw) (tag_bytes (raw ++ more)) (first_seen (concat raw)) ltac:(intros; apply tag_grow)). unfold rstr in *. lia.
Qed.
Lemma orders_grow input extra : orders_bytes input <= orders_bytes (input ++ extra).
Proof.
  unfold orders_bytes. apply N.add_le_mono_l, sum_le. intros key _. unfold order_bytes. pose proof (number_app input extra).
  rewrite app_length, seq_app, map_app, sum_app. lia.
Qed.
Lemma catalogue_grow input extra : catalogue_bytes input + lenN extra <= catalogue_bytes (input ++ extra).
Proof.
  unfold catalogue_bytes. rewrite !map_app. pose proof (vendors_grow input extra). pose proof (products_grow input extra).
  pose proof (columns_grow input extra). pose proof (categories_grow (map r_options input) (map r_options extra)).
  pose proof (tags_grow (map r_tags input) (map r_tags extra)). pose proof (orders_grow input extra). lia.
Qed.
Lemma trie_grow n texts more : trie_bytes n texts <= trie_bytes n (texts ++ more).
Proof.
  assert (S0 : pieces n texts ⊆+ pieces n (texts ++ more)).
  { apply NoDup_submseteq; [apply pieces_NoDup|]. intros w. rewrite !pieces_elem. intros (? & ? & t & Ht & ?).
    split; [done|]. split; [done|]. exists t. rewrite elem_of_app. auto. }
  unfold trie_bytes. cbv zeta.
  assert (S1 : filter single (pieces n texts) ⊆+ filter single (pieces n (texts ++ more))) by by apply filter_submseteq.
  pose proof (number_mono _ _ (lenN_le_sub _ _ S1)).
  pose proof (sum_submseteq (fun w => number_bytes (last_char w)) _ _ S1).
  assert (sum_N (map (piece_bytes (pieces n texts)) (pieces n texts)) <= sum_N (map (piece_bytes (pieces n (texts ++ more))) (pieces n texts))).
  { apply sum_le. intros w _. unfold piece_bytes.
    assert (number_bytes (lenN (filter (fun v => removelast v = w) (pieces n texts))) <= number_bytes (lenN (filter (fun v => removelast v = w) (pieces n (texts ++ more)))));
      [|lia]. apply number_mono, lenN_le_sub. by apply filter_submseteq. }
  pose proof (sum_submseteq (piece_bytes (pieces n (texts ++ more))) _ _ S0). lia.
Qed.
Lemma posting_more n limit limit' texts more :
  (forall key, key ∈ kept_windows n limit texts -> key ∈ kept_windows n limit' (texts ++ more)) ->
  posting_bytes n limit texts <= posting_bytes n limit' (texts ++ more).
Proof.
  intros H. assert (S : kept_windows n limit texts ⊆+ kept_windows n limit' (texts ++ more)).
  { apply NoDup_submseteq; [apply NoDup_filter, NoDup_remove_dups|done]. }
  unfold posting_bytes. cbv zeta. pose proof (number_mono _ _ (lenN_le_sub _ _ S)).
  pose proof (sum_submseteq (fun key => key_bytes key + list_bytes (places n (texts ++ more) key)) _ _ S).
  assert (sum_N (map (fun key => key_bytes key + list_bytes (places n texts key)) (kept_windows n limit texts)) <=
    sum_N (map (fun key => key_bytes key + list_bytes (places n (texts ++ more) key)) (kept_windows n limit texts))); [|lia].
  apply sum_le. intros key _. unfold places. rewrite imap_app, concat_app.
  match goal with |- context [list_bytes (?a ++ ?b)] => pose proof (list_app_bytes a b) end. lia.
Qed.
Theorem file_grow low n limit limit' input extra :
  (forall key, key ∈ kept_windows n limit (map (raw_text low) input) -> key ∈ kept_windows n limit' (map (raw_text low) (input ++ extra))) ->
  file_bytes low n limit input + lenN extra <= file_bytes low n limit' (input ++ extra).
Proof.
  intros H. unfold file_bytes. pose proof (catalogue_grow input extra). rewrite map_app in *.
  pose proof (trie_grow n (map (raw_text low) input) (map (raw_text low) extra)).
  pose proof (posting_more n limit limit' _ _ H). lia.
Qed.

(** ** Files *)
Lemma file_sizes low parse P input : lenN input < 2 ^ 64 -> lenN input <= usize_max P -> total_grams (map (raw_text low) input) < 2 ^ 32 ->
  exists limit, cutoff_for (lenN input) limit /\ forall n bo ro so bytes, (1 <= n)%nat -> valid_build_order bo -> valid_ser_order so ->
    index_and_serialize_with_n low parse P n bo ro so input = Done bytes -> lenN bytes = file_bytes low n limit input.
Proof.
  intros H1 H2 Hg. exists (maximum_product_amount P (lenN input)). split; [by apply cutoff_spec|].
  intros n bo ro so bytes Hn Hb Hs H. by apply (file_size low parse P n bo ro so).
Qed.
Lemma larger_grams low parse P n m bo bo' ro ro' so so' input bytes bytes' : (1 <= n <= m)%nat ->
  valid_build_order bo -> valid_build_order bo' -> valid_ser_order so -> valid_ser_order so' ->
  total_grams (map (raw_text low) input) < 2 ^ 32 ->
  index_and_serialize_with_n low parse P n bo ro so input = Done bytes ->
  index_and_serialize_with_n low parse P m bo' ro' so' input = Done bytes' ->
  lenN bytes <= lenN bytes'.
Proof.
  intros Hn Hb Hb' Hs Hs' Hg H H'. apply file_size in H; [|lia|done..]. apply file_size in H'; [|lia|done..].
  rewrite H, H'. unfold file_bytes.
  pose proof (sizes_mono n m (maximum_product_amount P (lenN input)) (map (raw_text low) input) ltac:(lia)). lia.
Qed.
Lemma same_size low parse P n m bo bo' ro ro' so so' input bytes bytes' : (1 <= n < m)%nat ->
  valid_build_order bo -> valid_build_order bo' -> valid_ser_order so -> valid_ser_order so' ->
  lenN input < 2 ^ 64 -> lenN input <= usize_max P -> total_grams (map (raw_text low) input) < 2 ^ 32 ->
  index_and_serialize_with_n low parse P n bo ro so input = Done bytes ->
  index_and_serialize_with_n low parse P m bo' ro' so' input = Done bytes' ->
  exists limit, cutoff_for (lenN input) limit /\ (lenN bytes = lenN bytes' <->
    Forall (fun raw => length (raw_text low raw) <= n)%nat input /\
    forall raw key, raw ∈ input -> key ∈ windows n (raw_text low raw) -> limit <= lenN (places n (map (raw_text low) input) key)).
Proof.
  intros Hn Hb Hb' Hs Hs' H1 H2 Hg H H'. apply file_size in H; [|lia|done..]. apply file_size in H'; [|lia|done..].
  exists (maximum_product_amount P (lenN input)). split; [by apply cutoff_spec|]. rewrite H, H'. unfold file_bytes.
  pose proof (sizes_same n m (maximum_product_amount P (lenN input)) (map (raw_text low) input) ltac:(lia)) as S.
  set (limit := maximum_product_amount P (lenN input)) in *. clearbody limit.
  assert (E : Forall (fun t => length t <= n)%nat (map (raw_text low) input) <-> Forall (fun raw => length (raw_text low raw) <= n)%nat input)
    by apply Forall_fmap.
  assert (K : kept_windows n limit (map (raw_text low) input) = [] <->
    forall raw key, raw ∈ input -> key ∈ windows n (raw_text low raw) -> limit <= lenN (places n (map (raw_text low) input) key)).
  { split.
    - intros Z raw key Hr Hk. destruct (decide (lenN (places n (map (raw_text low) input) key) < limit)) as [L|L]; [|lia].
      assert (X : key ∈ kept_windows n limit (map (raw_text low) input)); [|rewrite Z in X; by apply elem_of_nil in X].
      unfold kept_windows. rewrite elem_of_list_filter, elem_of_remove_dups, elem_of_concat. split; [done|].
      exists (windows n (raw_text low raw)). split; [done|]. apply elem_of_list_fmap. exists (raw_text low raw). split; [done|]. by apply elem_of_list_fmap_1.
    - intros Z. destruct (kept_windows n limit (map (raw_text low) input)) as [|key ks] eqn:Ek; [done|]. exfalso.
      assert (X : key ∈ kept_windows n limit (map (raw_text low) input)) by (rewrite Ek; left).
      unfold kept_windows in X. rewrite elem_of_list_filter, elem_of_remove_dups, elem_of_concat in X. destruct X as (L & row & Hk & Hr).
      apply elem_of_list_fmap in Hr as (t & -> & Ht). apply elem_of_list_fmap in Ht as (raw & -> & Ht). specialize (Z raw key Ht Hk). lia. }
  rewrite <- K, <- E, <- S. lia.
Qed.
Lemma more_products low parse P n bo bo' ro ro' so so' input extra bytes bytes' : (1 <= n)%nat ->
  valid_build_order bo -> valid_build_order bo' -> valid_ser_order so -> valid_ser_order so' ->
  lenN (input ++ extra) < 2 ^ 64 -> lenN (input ++ extra) <= usize_max P -> total_grams (map (raw_text low) (input ++ extra)) < 2 ^ 32 ->
  index_and_serialize_with_n low parse P n bo ro so input = Done bytes ->
  index_and_serialize_with_n low parse P n bo' ro' so' (input ++ extra) = Done bytes' ->
  exists limit limit', cutoff_for (lenN input) limit /\ cutoff_for (lenN (input ++ extra)) limit' /\
    ((forall raw key, raw ∈ input -> key ∈ windows n (raw_text low raw) ->
        lenN (places n (map (raw_text low) input) key) < limit -> lenN (places n (map (raw_text low) (input ++ extra)) key) < limit') ->
     lenN bytes + lenN extra <= lenN bytes').
Proof.
  intros Hn Hb Hb' Hs Hs' H1 H2 Hg H H'.
  assert (L : lenN input <= lenN (input ++ extra)) by (rewrite lenN_app; lia).
  assert (Hg0 : total_grams (map (raw_text low) input) < 2 ^ 32).
  { unfold total_grams in *. rewrite !map_app, sum_app in Hg. lia. }
  exists (maximum_product_amount P (lenN input)), (maximum_product_amount P (lenN (input ++ extra))).
  split; [apply cutoff_spec; lia|]. split; [by apply cutoff_spec|]. intros Hk.
  apply file_size in H; [|done..]. apply file_size in H'; [|done..]. rewrite H, H'. apply file_grow.
  intros key Hin. unfold kept_windows in *. rewrite elem_of_list_filter, elem_of_remove_dups in *. destruct Hin as [Hl Hin].
  split.
  - apply elem_of_concat in Hin as (row & Hw & Hr). apply elem_of_list_fmap in Hr as (t & -> & Ht).
    apply elem_of_list_fmap in Ht as (raw & -> & Ht). by apply (Hk raw).
  - rewrite map_app, map_app, concat_app, elem_of_app. auto.
Qed.

(** ** A smaller file for more products *)
Definition alphabet_raw : raw_product := RawProduct (lit "abcdefghijklmnopqrstuvwxyz0123456789") [] [] [] [] [] str_one [].
Definition blank_raw : raw_product := RawProduct [] [] [] [] [] [] str_one [].
Definition five_raw : list raw_product := [alphabet_raw; alphabet_raw; alphabet_raw; blank_raw; blank_raw].
Lemma five_sizes : file_bytes ascii_low 5 4 (five_raw ++ [alphabet_raw]) < file_bytes ascii_low 5 4 five_raw.
Proof. vm_compute. reflexivity. Qed.
Lemma shrunk : prices_parse sample_parse (five_raw ++ [alphabet_raw]) /\ total_grams (map (raw_text ascii_low) (five_raw ++ [alphabet_raw])) < 2 ^ 32 /\
  forall P bo ro so, 6 <= usize_max P -> valid_build_order bo -> valid_ser_order so -> exists bytes bytes',
    index_and_serialize ascii_low sample_parse P bo ro so five_raw = Done bytes /\
    index_and_serialize ascii_low sample_parse P bo ro so (five_raw ++ [alphabet_raw]) = Done bytes' /\
    lenN bytes' < lenN bytes.
Proof.
  assert (Pp : forall l, Forall (fun raw => raw = alphabet_raw \/ raw = blank_raw) l -> prices_parse sample_parse l).
  { intros l F. eapply Forall_impl; [exact F|]. intros raw [-> | ->]; (eexists; unfold priced; vm_compute; reflexivity). }
  assert (F5 : prices_parse sample_parse five_raw) by (apply Pp; unfold five_raw; repeat constructor; auto).
  assert (F6 : prices_parse sample_parse (five_raw ++ [alphabet_raw])) by (apply Pp; unfold five_raw; cbn [app]; repeat constructor; auto).
  assert (G5 : total_grams (map (raw_text ascii_low) five_raw) < 2 ^ 32) by (vm_compute; reflexivity).
  assert (G6 : total_grams (map (raw_text ascii_low) (five_raw ++ [alphabet_raw])) < 2 ^ 32) by (vm_compute; reflexivity).
  split; [exact F6|]. split; [exact G6|]. intros P bo ro so HP Hb Hs.
  destruct (index_done sample_parse ascii_low P ngram_index_size bo ro so five_raw ltac:(unfold ngram_index_size; lia) Hb G5 F5) as [b E].
  destruct (index_done sample_parse ascii_low P ngram_index_size bo ro so _ ltac:(unfold ngram_index_size; lia) Hb G6 F6) as [b' E'].
  exists b, b'. split; [exact E|]. split; [exact E'|].
  apply file_size in E; [|unfold ngram_index_size; lia|done|done|done]. apply file_size in E'; [|unfold ngram_index_size; lia|done|done|done].
  rewrite E, E'.
  assert (L5 : maximum_product_amount P (lenN five_raw) = 4).
  { destruct (cutoff_spec P (lenN five_raw)) as [X _]; [vm_compute; reflexivity| |].
    - replace (lenN five_raw) with 5 by reflexivity. lia.
    - rewrite X; [reflexivity|]. vm_compute. discriminate. }
  assert (L6 : maximum_product_amount P (lenN (five_raw ++ [alphabet_raw])) = 4).
  { destruct (cutoff_spec P (lenN (five_raw ++ [alphabet_raw]))) as [X _]; [vm_compute; reflexivity| |].
    - replace (lenN (five_raw ++ [alphabet_raw])) with 6 by reflexivity. lia.
    - rewrite X; [reflexivity|]. vm_compute. discriminate. }
  rewrite L5, L6. exact five_sizes.
Qed.
Lemma five_bytes : exists bytes bytes' bytes'',
  index_and_serialize ascii_low sample_parse host64 hash_order no_order sample_order five_raw = Done bytes /\
  index_and_serialize ascii_low sample_parse host64 hash_order no_order sample_order (five_raw ++ [alphabet_raw]) = Done bytes' /\
  index_and_serialize ascii_low sample_parse host64 hash_order no_order sample_order (five_raw ++ [blank_raw]) = Done bytes'' /\
  (lenN bytes, lenN bytes', lenN bytes'') = (file_bytes ascii_low 5 4 five_raw, file_bytes ascii_low 5 4 (five_raw ++ [alphabet_raw]),
    file_bytes ascii_low 5 4 (five_raw ++ [blank_raw])) /\
  (lenN bytes, lenN bytes', lenN bytes'') = (1648, 1335, 1659).
Proof. do 3 eexists. split; [vm_compute; reflexivity|]. split; [vm_compute; reflexivity|]. split; [vm_compute; reflexivity|].
  split; vm_compute; reflexivity.
Qed.
Lemma five_kept : forall raw key, raw ∈ five_raw -> key ∈ windows 5 (raw_text ascii_low raw) ->
  lenN (places 5 (map (raw_text ascii_low) five_raw) key) < 4 -> lenN (places 5 (map (raw_text ascii_low) (five_raw ++ [blank_raw])) key) < 4.
Proof.
  intros raw key Hr Hk _.
  assert (F : Forall (fun key => lenN (places 5 (map (raw_text ascii_low) (five_raw ++ [blank_raw])) key) < 4)
    (concat (map (fun raw => windows 5 (raw_text ascii_low raw)) five_raw))).
  { apply (bool_decide_unpack _). vm_compute. exact Logic.I. }
  rewrite Forall_forall in F. apply F. apply elem_of_concat. exists (windows 5 (raw_text ascii_low raw)). split; [done|].
  by apply (elem_of_list_fmap_1 (fun raw => windows 5 (raw_text ascii_low raw))).
Qed.
