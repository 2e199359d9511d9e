(** C43-C45, C58, C59, C71, C72, C75, C76: the catalogue, categories, tags and orders built
    from raw products. [parse] reads price strings; nothing is assumed about it. *)
From Verif.model Require Import Base F32 Utf8 Prim Coll Data Gram Indexer Nodes Classic Lit Raw Js Lib.
From Verif.spec Require Import Spec Data_spec Classic_spec Gram_spec Raw_spec Samples Gram_samples Raw_samples.
From Verif.proofs Require Import Order_facts Float_facts F64_facts Raw_facts Raw_props Raw_samples_facts.

(** C43: for any key and any total comparator. *)
Theorem C43_ranks : forall T oi c (maker : product -> feature_set -> res T) cmp key keys,
  total_cmp cmp -> positions (c_products c) ->
  Forall2 (fun p k => maker p (c_features c) = Done k) (c_products c) keys ->
  exists ranks, order_add_custom_cmp oi c maker cmp key = Done (<[key := ranks]> oi) /\
    rank_table (fun x y => cmp x y = Lt) keys ranks.
Proof. exact ranks_of. Qed.
Print Assumptions C43_ranks.
(** The tables of a built catalogue are permutations even if the prices cannot be compared. *)
Theorem C43_permutations : forall parse o input c cl, optimize parse o input = Done (c, cl) ->
  exists a u d,
    cl_order cl = <[s_price_down := d]> (<[s_price_up := u]> (<[s_alphabetical := a]> ∅)) /\
    Forall (fun ranks => ranks ≡ₚ map N.of_nat (seq 0 (length input))) [a; u; d].
Proof. exact optimize_orders_perm. Qed.
Print Assumptions C43_permutations.
Example C43_hyps : total_cmp str_cmp /\ positions (c_products sample_container) /\
  Forall2 (fun p k => Done (p_title p) = Done k) (c_products sample_container)
    (map p_title (c_products sample_container)).
Proof. exact sample_keys. Qed.

(** C44 *)
Theorem C44_orders : forall parse o input c cl prices, optimize parse o input = Done (c, cl) ->
  Forall2 (priced parse) input prices ->
  exists a u d,
    cl_order cl = <[s_price_down := d]> (<[s_price_up := u]> (<[s_alphabetical := a]> ∅)) /\
    (Forall (fun raw => valid_str (r_title raw)) input -> rank_table title_before (map r_title input) a) /\
    (Forall f32_number prices ->
       rank_table f32_lt prices u /\ rank_table (fun x y => f32_lt y x) prices d).
Proof. exact optimize_orders. Qed.
Print Assumptions C44_orders.
Example C44_hyps : Forall2 (priced sample_parse) sample_raw [two_f32; half_f32; two_f32] /\
  match optimize sample_parse hash_order sample_raw with
  | Done (_, cl) => map (fun key => cl_order cl !! key) [s_alphabetical; s_price_up; s_price_down]
  | _ => []
  end = [Some [1; 0; 2]; Some [1; 0; 2]; Some [0; 2; 1]].
Proof. split; [repeat constructor|vm_compute; reflexivity]. Qed.

(** C45: a price that is NaN separates the others. *)
Theorem C45_prices_refuted : forall parse o,
  parse str_two = Some two_f32 -> parse str_nan = Some S754_nan -> parse str_one = Some one_f32 ->
  exists c cl ranks, optimize parse o nan_raw = Done (c, cl) /\
    get_orders (cl_order cl) s_price_up = Some ranks /\
    nan_raw !! 0%nat = Some (raw_plain str_two []) /\ nan_raw !! 2%nat = Some (raw_plain str_one []) /\
    f32_lt one_f32 two_f32 /\ ranks !! 0%nat = Some 0 /\ ranks !! 2%nat = Some 2.
Proof. exact nan_disorder. Qed.
Print Assumptions C45_prices_refuted.
Example C45_hyps : sample_parse str_two = Some two_f32 /\ sample_parse str_nan = Some S754_nan /\
  sample_parse str_one = Some one_f32.
Proof. repeat split; vm_compute; reflexivity. Qed.
(** What holds: without NaN the table sorts by price. *)
Theorem C45_prices_partial : forall parse o input c cl, optimize parse o input = Done (c, cl) ->
  prices_numeric parse input ->
  exists ranks, get_orders (cl_order cl) s_price_up = Some ranks /\
    forall i j raw raw' x y r r', input !! i = Some raw -> input !! j = Some raw' ->
      priced parse raw x -> priced parse raw' y -> ranks !! i = Some r -> ranks !! j = Some r' ->
      f32_lt x y -> r < r'.
Proof. exact optimize_prices_sorted. Qed.
Print Assumptions C45_prices_partial.

(** C58: before and after the catalogue is stored and loaded (C16). *)
Theorem C58_price : forall parse o input c cl i raw x, optimize parse o input = Done (c, cl) ->
  input !! i = Some raw -> priced parse raw x ->
  jp_numeric (JsProduct c (N.of_nat i)) s_price = Done (f64_of_f32 x) /\
  jp_numeric (JsProduct (stored_container c) (N.of_nat i)) s_price = Done (f64_of_f32 x).
Proof. exact optimize_price. Qed.
Print Assumptions C58_price.
(** The reported [f64] is the same number as the [f32] that was read. *)
Theorem C58_exact : forall x, valid_f32 x -> same_value x (f64_of_f32 x).
Proof. exact f32_widening. Qed.
Print Assumptions C58_exact.
Example C58_hyps : match optimize sample_parse hash_order sample_raw with
  | Done (c, _) => jp_numeric (JsProduct c 1) s_price
  | _ => Panic
  end = Done (f64_of_f32 half_f32) /\ sample_raw !! 1%nat = Some raw_chair /\
  priced sample_parse raw_chair half_f32 /\ valid_f32 half_f32.
Proof. repeat split; vm_compute; reflexivity. Qed.

(** C59: the image column skips products without images. *)
Theorem C59_image_refuted : forall parse o, parse str_one = Some one_f32 ->
  exists c cl, optimize parse o imageless_raw = Done (c, cl) /\
    imageless_raw !! 0%nat = Some (raw_plain str_one []) /\
    jp_string (JsProduct c 0) s_image_url = Done pic /\
    imageless_raw !! 1%nat = Some (raw_plain str_one [pic]) /\
    jp_string (JsProduct c 1) s_image_url = Nope.
Proof. exact image_shift. Qed.
Print Assumptions C59_image_refuted.
(** What is reported: the i-th image of those products that have one. *)
Theorem C59_image_reported : forall parse o input c cl i, optimize parse o input = Done (c, cl) ->
  (i < length input)%nat ->
  jp_string (JsProduct c (N.of_nat i)) s_image_url = of_opt (first_images input !! i) /\
  jp_string (JsProduct (stored_container c) (N.of_nat i)) s_image_url = of_opt (first_images input !! i).
Proof. exact optimize_image. Qed.
Print Assumptions C59_image_reported.
(** So the claim holds for the products before the first one without an image. *)
Theorem C59_image_partial : forall parse o input c cl i raw, optimize parse o input = Done (c, cl) ->
  input !! i = Some raw -> Forall (fun raw => r_media raw <> []) (take i input) ->
  r_media raw <> [] ->
  jp_string (JsProduct c (N.of_nat i)) s_image_url = of_opt (head (r_media raw)).
Proof. exact optimize_image_own. Qed.
Print Assumptions C59_image_partial.
Example C59_hyps : sample_raw !! 1%nat = Some raw_chair /\
  Forall (fun raw => r_media raw <> []) (take 1 sample_raw) /\ r_media raw_chair <> [].
Proof. repeat constructor; done. Qed.

(** C71 *)
Theorem C71_products : forall parse o input c cl, optimize parse o input = Done (c, cl) ->
  Forall2 describes input (c_products c) /\ positions (c_products c).
Proof. exact optimize_products. Qed.
Print Assumptions C71_products.
Example C71_hyps : match optimize sample_parse hash_order sample_raw with
  | Done (c, _) => map p_title (c_products c)
  | _ => []
  end = map r_title sample_raw.
Proof. vm_compute; reflexivity. Qed.

(** C72 *)
Theorem C72_optimize : forall parse o input,
  (prices_parse parse input -> exists out, optimize parse o input = Done out) /\
  (~ prices_parse parse input -> optimize parse o input = Panic).
Proof. exact optimize_outcome. Qed.
Print Assumptions C72_optimize.
Theorem C72_file : forall parse low P n bo ro so input, (1 <= n <= 764)%nat -> valid_build_order bo ->
  total_grams (map (raw_text low) input) < 2 ^ 32 ->
  (prices_parse parse input ->
     exists bytes, index_and_serialize_with_n low parse P n bo ro so input = Done bytes) /\
  (~ prices_parse parse input -> index_and_serialize_with_n low parse P n bo ro so input = Panic).
Proof. exact index_outcome. Qed.
Print Assumptions C72_file.
Example C72_hyps : valid_build_order hash_order /\ prices_parse sample_parse sample_raw /\
  ~ prices_parse sample_parse unpriced_raw /\
  total_grams (map (raw_text (fun x => [x])) sample_raw) = 45.
Proof. exact sample_prices. Qed.

(** C75 *)
Theorem C75_categories : forall parse o input c cl, optimize parse o input = Done (c, cl) ->
  map cat_name (cl_categories cl) = first_seen (category_mentions (map r_options input)) /\
  forall cat, cat ∈ cl_categories cl -> cat_exclusive cat = false /\
    map o_name (cat_options cat) = first_seen (value_mentions (map r_options input) (cat_name cat)) /\
    forall opt, opt ∈ cat_options cat ->
      o_content opt `sublist_of` c_products c /\
      (forall i p, c_products c !! i = Some p ->
         p ∈ o_content opt <-> lists_option (map r_options input) i (cat_name cat) (o_name opt)) /\
      o_ids opt = sids (o_content opt) /\
      first_seen (pair_mentions (map r_options input)) !! N.to_nat (o_sid opt) = Some (cat_name cat, o_name opt).
Proof. exact optimize_categories. Qed.
Print Assumptions C75_categories.
Example C75_hyps : match optimize sample_parse hash_order sample_raw with
  | Done (_, cl) => map (fun cat => map (fun opt => (o_sid opt, map p_sid (o_content opt))) (cat_options cat))
                      (cl_categories cl)
  | _ => []
  end = [[(0, [0]); (1, [0; 2]); (4, [2])]; [(2, [0]); (3, [1])]].
Proof. vm_compute; reflexivity. Qed.

(** C76 *)
Theorem C76_tags : forall parse o input c cl, valid_order (bo_tags o) ->
  optimize parse o input = Done (c, cl) ->
  NoDup (map t_name (cl_tags cl)) /\
  (forall name, name ∈ map t_name (cl_tags cl) <-> exists i, lists_tag (map r_tags input) i name) /\
  tag_positions (cl_tags cl) /\
  forall t, t ∈ cl_tags cl ->
    t_products t = tag_owners (map r_tags input) (c_products c) (t_name t) /\
    (forall i p, c_products c !! i = Some p -> p ∈ t_products t <-> lists_tag (map r_tags input) i (t_name t)) /\
    t_ids t = sids (t_products t).
Proof. exact optimize_tags. Qed.
Print Assumptions C76_tags.
(** A product that lists a tag twice is listed twice. *)
Example C76_hyps : valid_order (bo_tags hash_order) /\
  match optimize sample_parse hash_order sample_raw with
  | Done (_, cl) => map (fun t => map p_sid (t_products t)) (cl_tags cl)
  | _ => []
  end = [[0; 2]; [0; 0]].
Proof. split; [intros l; done|vm_compute; reflexivity]. Qed.
