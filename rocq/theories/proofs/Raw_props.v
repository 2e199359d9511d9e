(** The properties of the catalogue and classic indexes built from raw products. *)
From Verif.model Require Import Base F32 Utf8 Prim Coll Data Gram Indexer Nodes Classic Lit Raw Js Lib.
From Verif.spec Require Import Spec Data_spec Classic_spec Gram_spec Raw_spec.
From Verif.proofs Require Import Base_facts Sort_facts Data_facts Classic_facts Order_facts Raw_facts Float_facts
  Trie_props Search_facts Search_props.

Lemma done_inj {A} (x y : A) : Done x = Done y -> x = y.
Proof. by intros [= ->]. Qed.
Lemma same_ranks (oi : order_index) key a b : <[key := a]> oi = <[key := b]> oi -> a = b.
Proof.
  intros E. assert (A : Some a = Some b); [|by injection A].
  etrans; [symmetry; apply (lookup_insert (M := gmap rstr) oi key a)|].
  etrans; [|apply (lookup_insert (M := gmap rstr) oi key b)]. exact (f_equal (fun m : gmap rstr (list N) => m !! key) E).
Qed.
Lemma f32_cmp_lt x y : f32_number x -> f32_number y -> f32_total_cmp x y = Lt <-> f32_lt x y.
Proof.
  intros Hx Hy. rewrite f32_total_cmp_agrees by done. unfold f32_lt, SFltb, f32_cmp.
  destruct (SFcompare x y) as [[]|]; done.
Qed.

Section raw.
Context (parse : rstr -> option f32).

Lemma describes_titles input ps : Forall2 describes input ps -> map p_title ps = map r_title input.
Proof. induction 1 as [|raw p input ps D _ IH]; [done|]. simpl. f_equal; [apply D|done]. Qed.

Lemma optimize_orders o input c cl prices : optimize parse o input = Done (c, cl) ->
  Forall2 (priced parse) input prices ->
  exists a u d, cl_order cl = <[s_price_down := d]> (<[s_price_up := u]> (<[s_alphabetical := a]> ∅)) /\
    (Forall (fun raw => valid_str (r_title raw)) input -> rank_table title_before (map r_title input) a) /\
    (Forall f32_number prices -> rank_table f32_lt prices u /\ rank_table (fun x y => f32_lt y x) prices d).
Proof.
  intros (prices' & H' & D & W & _ & _ & C & _ & _ & oa & ou & Ea & Eu & Ed)%optimize_inv H.
  assert (prices' = prices) as -> by by eapply priced_fun.
  assert (L : length input = length (c_products c)) by by eapply Forall2_length.
  assert (Lp : length prices = length input) by (symmetry; by eapply Forall2_length).
  assert (K : Forall2 (fun p k => price_maker p (c_features c) = Done k) (c_products c) prices).
  { apply price_keys; [apply C|done|lia]. }
  destruct (order_add_ranks ∅ c (fun p _ => Done (p_title p)) str_cmp (fun a b => unwrap_or_equal (Some (str_cmp a b)))
              s_alphabetical (map p_title (c_products c)) str_cmp_total (fun x y _ _ => eq_refl) W (title_keys _)) as (ra & Ea' & Pa).
  rewrite Ea in Ea'. injection Ea' as ->.
  destruct (order_add_any (<[s_alphabetical:=ra]> ∅) c price_maker (fun a b => unwrap_or_equal (f32_cmp a b))
              s_price_up prices W K) as (ru & Eu' & _). rewrite Eu in Eu'. injection Eu' as ->.
  destruct (order_add_any (<[s_price_up:=ru]> (<[s_alphabetical:=ra]> ∅)) c price_maker
              (fun a b => reverse_ord (unwrap_or_equal (f32_cmp a b))) s_price_down prices W K) as (rd & Ed' & _).
  rewrite Ed in Ed'. apply done_inj in Ed'.
  exists ra, ru, rd. split; [done|]. split.
  - intros V. rewrite (describes_titles _ _ D) in Pa. eapply rank_table_ext; [|exact Pa].
    intros x y Hx Hy. apply elem_of_list_fmap in Hx as (rx & -> & Hx), Hy as (ry & -> & Hy).
    rewrite Forall_forall in V. apply str_cmp_before; by apply V.
  - intros V. rewrite Forall_forall in V. split.
    + edestruct (order_add_ranks (<[s_alphabetical:=ra]> ∅) c price_maker f32_total_cmp (fun a b => unwrap_or_equal (f32_cmp a b)) s_price_up prices f32_total)
        as (ru' & Eu' & Pu); [|exact W|exact K|].
      { intros x y Hx Hy. symmetry. apply f32_total_cmp_agrees; by apply V. }
      rewrite Eu in Eu'. apply done_inj in Eu'. apply same_ranks in Eu' as <-. eapply rank_table_ext; [|exact Pu]. intros x y Hx%V Hy%V. cbv beta.
      by apply f32_cmp_lt.
    + edestruct (order_add_ranks (<[s_price_up:=ru]> (<[s_alphabetical:=ra]> ∅)) c price_maker (fun x y => reverse_ord (f32_total_cmp x y))
         (fun a b => reverse_ord (unwrap_or_equal (f32_cmp a b))) s_price_down prices (total_cmp_reverse _ f32_total))
        as (rd' & Ed'' & Pd); [|exact W|exact K|].
      { intros x y Hx Hy. f_equal. symmetry. apply f32_total_cmp_agrees; by apply V. }
      rewrite Ed in Ed''. apply done_inj in Ed''. rewrite Ed' in Ed''. apply same_ranks in Ed'' as <-. eapply rank_table_ext; [|exact Pd]. intros x y Hx%V Hy%V. cbv beta. rewrite cmp_opp_lt.
      rewrite <- f32_cmp_lt by done. rewrite (tc_sym _ f32_total x y). by destruct (f32_total_cmp x y).
Qed.

(** C58, C59: features of a product. *)
Lemma getN_products c i p : c_products c !! i = Some p -> getN (c_products c) (N.of_nat i) = Some p.
Proof. by rewrite getN_of_nat. Qed.
Lemma nonempty_lookup {A} (l : list A) i : (l' ← nonempty l; l' !! i) = l !! i.
Proof. by destruct l. Qed.
Lemma optimize_price o input c cl i raw x : optimize parse o input = Done (c, cl) ->
  input !! i = Some raw -> priced parse raw x ->
  jp_numeric (JsProduct c (N.of_nat i)) s_price = Done (f64_of_f32 x) /\
  jp_numeric (JsProduct (stored_container c) (N.of_nat i)) s_price = Done (f64_of_f32 x).
Proof.
  intros (prices & H & D & W & _ & _ & C & _)%optimize_inv Hi Hx.
  destruct (Forall2_lookup_l _ _ _ _ _ H Hi) as (x' & Hx' & E). unfold priced in *. rewrite Hx in E. injection E as <-.
  destruct (Forall2_lookup_l _ _ _ _ _ D Hi) as (p & Hp & _).
  assert (G : forall q, p_sid q = N.of_nat i -> fs_get (c_features c) q s_price = Some (VFloat x)).
  { intros q Hq. unfold fs_get. destruct C as (-> & _). assert (nonempty prices = Some prices) as -> by by destruct prices.
    cbn [fmap option_fmap option_map mbind option_bind]. rewrite Hq, getN_of_nat, Hx'. done. }
  unfold jp_numeric, jp_product. simpl jp_container. simpl jp_sid. split.
  - rewrite getN_of_nat, Hp. cbn [unwrap mbind res_bind]. rewrite (G p (W _ _ Hp)). done.
  - simpl c_products. rewrite getN_of_nat, list_lookup_fmap, Hp. cbn [fmap option_fmap option_map unwrap mbind res_bind].
    simpl c_features. rewrite (G (stored p) (W _ _ Hp)). done.
Qed.
Lemma optimize_image o input c cl i : optimize parse o input = Done (c, cl) -> (i < length input)%nat ->
  jp_string (JsProduct c (N.of_nat i)) s_image_url = of_opt (first_images input !! i) /\
  jp_string (JsProduct (stored_container c) (N.of_nat i)) s_image_url = of_opt (first_images input !! i).
Proof.
  intros (prices & H & D & W & _ & _ & C & _)%optimize_inv Hi.
  assert (L : length input = length (c_products c)) by by eapply Forall2_length.
  destruct (lookup_lt_is_Some_2 (c_products c) i) as [p Hp]; [lia|].
  assert (G : forall q, p_sid q = N.of_nat i -> fs_get (c_features c) q s_image_url = VString <$> first_images input !! i).
  { intros q Hq. unfold fs_get. destruct C as (_ & -> & _). destruct (first_images input) as [|url l]; [done|].
    cbn [fmap option_fmap option_map mbind option_bind nonempty]. rewrite Hq, getN_of_nat. done. }
  unfold jp_string, jp_product. simpl jp_container. simpl jp_sid. split.
  - rewrite getN_of_nat, Hp. cbn [unwrap mbind res_bind]. rewrite (G p (W _ _ Hp)). by destruct (first_images input !! i).
  - simpl c_products. rewrite getN_of_nat, list_lookup_fmap, Hp. cbn [fmap option_fmap option_map unwrap mbind res_bind].
    simpl c_features. rewrite (G (stored p) (W _ _ Hp)). by destruct (first_images input !! i).
Qed.
Lemma first_images_all input i raw : Forall (fun raw => r_media raw <> []) input -> input !! i = Some raw ->
  first_images input !! i = head (r_media raw).
Proof.
  intros H. revert i. unfold first_images. induction H as [|r input Hr _ IH]; intros i Hi; [done|].
  simpl. destruct (r_media r) as [|url l] eqn:E; [done|]. simpl. destruct i; simpl in *; [|by apply IH].
  injection Hi as <-. by rewrite E.
Qed.

(** C72 *)
Lemma raw_grams low input ps : Forall2 describes input ps ->
  map snd (map (fun p => (p, product_grams low p)) ps) = map (raw_text low) input.
Proof.
  induction 1 as [|raw p input ps (E1 & E2 & E3 & E4) D IH]; [done|]. cbn [map]. f_equal; [|done].
  simpl. unfold product_grams, raw_text, lower. by rewrite E1, E3, E4.
Qed.
Lemma index_done low P n bo ro so input : (1 <= n <= 764)%nat -> valid_build_order bo ->
  total_grams (map (raw_text low) input) < 2 ^ 32 -> prices_parse parse input ->
  exists bytes, index_and_serialize_with_n low parse P n bo ro so input = Done bytes.
Proof.
  intros Hn Hb Hg Hp. apply (optimize_iff _ bo) in Hp as [[c cl] E]. unfold index_and_serialize_with_n. rewrite E.
  cbn [mbind res_bind]. apply optimize_products in E as [D W].
  rewrite <- (raw_grams low _ _ D) in Hg.
  destruct (index_total P n bo _ c (proj1 Hn) Hb Hg) as [gi ->]. cbn [mbind res_bind].
  destruct (search_total n ro gi (lower low s_kunst)) as [r ->]; [lia|]. simpl. eauto.
Qed.
Lemma index_panic low P n bo ro so input : ~ prices_parse parse input ->
  index_and_serialize_with_n low parse P n bo ro so input = Panic.
Proof. intros H. unfold index_and_serialize_with_n. by rewrite optimize_panic. Qed.
End raw.

(** Only the readings of the prices of the catalogue matter. *)
Lemma optimize_same_prices parse parse' o input :
  Forall (fun raw => parse (r_price_min_amount raw) = parse' (r_price_min_amount raw)) input ->
  optimize parse o input = optimize parse' o input.
Proof.
  intros H. unfold optimize. set (vm := foldl _ _ _). clearbody vm. generalize (OptState 0 [] ∅ [] []) as st. intros st.
  assert (E : foldM (optimize_step parse vm) input st = foldM (optimize_step parse' vm) input st).
  { revert st. induction H as [|raw input Hr _ IH]; intros st; [done|]. cbn [foldM].
    assert (optimize_step parse vm st raw = optimize_step parse' vm st raw) as -> by
      (unfold optimize_step, to_intermediate; by rewrite Hr).
    destruct (optimize_step parse' vm st raw); [apply IH|done..]. }
  by rewrite E.
Qed.

Section indexes.
Context (parse : rstr -> option f32).
Lemma optimize_categories o input c cl : optimize parse o input = Done (c, cl) ->
  map cat_name (cl_categories cl) = first_seen (category_mentions (map r_options input)) /\
  forall cat, cat ∈ cl_categories cl -> cat_exclusive cat = false /\
    map o_name (cat_options cat) = first_seen (value_mentions (map r_options input) (cat_name cat)) /\
    forall opt, opt ∈ cat_options cat ->
      o_content opt `sublist_of` c_products c /\
      (forall i p, c_products c !! i = Some p ->
         p ∈ o_content opt <-> lists_option (map r_options input) i (cat_name cat) (o_name opt)) /\
      o_ids opt = sids (o_content opt) /\
      first_seen (pair_mentions (map r_options input)) !! N.to_nat (o_sid opt) = Some (cat_name cat, o_name opt).
Proof.
  intros (prices & H & D & W & _ & _ & _ & E & _)%optimize_inv. apply (categories_built _ c); [done| |done].
  rewrite map_length. by eapply Forall2_length.
Qed.
Lemma optimize_tags o input c cl : valid_order (bo_tags o) -> optimize parse o input = Done (c, cl) ->
  NoDup (map t_name (cl_tags cl)) /\
  (forall name, name ∈ map t_name (cl_tags cl) <-> exists i, lists_tag (map r_tags input) i name) /\
  tag_positions (cl_tags cl) /\
  forall t, t ∈ cl_tags cl ->
    t_products t = tag_owners (map r_tags input) (c_products c) (t_name t) /\
    (forall i p, c_products c !! i = Some p -> p ∈ t_products t <-> lists_tag (map r_tags input) i (t_name t)) /\
    t_ids t = sids (t_products t).
Proof.
  intros Ho (prices & H & D & W & _ & _ & _ & _ & E & _)%optimize_inv.
  assert (Ln : length (map r_tags input) = length (c_products c)) by (rewrite map_length; by eapply Forall2_length).
  destruct (tags_built _ (map r_tags input) c _ Ho Ln E) as (ND & N & P & T).
  split; [done|]. split; [done|]. split; [done|]. intros t Ht. destruct (T t Ht) as [E1 E2].
  split; [done|]. split; [|done]. intros i p Hp. rewrite E1. rewrite tag_owners_elem. split.
  - intros (j & Hj & L). assert (i = j) as <-; [|done].
    apply (inj N.of_nat). rewrite <- (W _ _ Hp), <- (W _ _ Hj). done.
  - intros L. eauto.
Qed.
End indexes.

Lemma ranks_of T oi c (maker : product -> feature_set -> res T) cmp key keys :
  total_cmp cmp -> positions (c_products c) ->
  Forall2 (fun p k => maker p (c_features c) = Done k) (c_products c) keys ->
  exists ranks, order_add_custom_cmp oi c maker cmp key = Done (<[key := ranks]> oi) /\
    rank_table (fun x y => cmp x y = Lt) keys ranks.
Proof. intros Hc. by apply order_add_ranks. Qed.
Lemma optimize_prices_sorted parse o input c cl : optimize parse o input = Done (c, cl) ->
  prices_numeric parse input ->
  exists ranks, get_orders (cl_order cl) s_price_up = Some ranks /\
    forall i j raw raw' x y r r', input !! i = Some raw -> input !! j = Some raw' ->
      priced parse raw x -> priced parse raw' y -> ranks !! i = Some r -> ranks !! j = Some r' ->
      f32_lt x y -> r < r'.
Proof.
  intros E N. assert (H : prices_parse parse input) by (apply (optimize_iff _ o); eauto).
  apply prices_listed in H as [prices H].
  destruct (optimize_orders parse o input c cl prices E H) as (a & u & d & Eo & _ & O).
  destruct O as [[_ U] _].
  { apply Forall_forall. intros x Hx. apply elem_of_list_lookup in Hx as [i Hx].
    destruct (Forall2_lookup_r _ _ _ _ _ H Hx) as (raw & Hr & P).
    unfold prices_numeric in N. rewrite Forall_forall in N. destruct (N raw) as (x' & P' & Nx); [by eapply elem_of_list_lookup_2|].
    unfold priced in *. congruence. }
  exists u. split.
  { unfold get_orders. rewrite Eo. etrans; [apply (lookup_insert_ne (M := gmap rstr)); done|].
    apply (lookup_insert (M := gmap rstr)). }
  intros i j raw raw' x y r r' Hi Hj Hx Hy Hr Hr' L.
  destruct (Forall2_lookup_l _ _ _ _ _ H Hi) as (x' & Hpx & Ex). destruct (Forall2_lookup_l _ _ _ _ _ H Hj) as (y' & Hpy & Ey).
  unfold priced in *. assert (x' = x) as -> by congruence. assert (y' = y) as -> by congruence.
  apply (U i j x y r r'); try done. by left.
Qed.
Lemma first_images_own input i raw : input !! i = Some raw -> Forall (fun raw => r_media raw <> []) (take i input) ->
  r_media raw <> [] -> first_images input !! i = head (r_media raw).
Proof.
  revert i. unfold first_images. induction input as [|r input IH]; intros i Hi F N; [done|]. destruct i as [|i].
  - injection Hi as ->. simpl. by destruct (r_media raw).
  - simpl in *. inversion F as [|? ? Hr F']; subst. destruct (r_media r) as [|url l]; [done|]. by apply IH.
Qed.
Lemma optimize_image_own parse o input c cl i raw : optimize parse o input = Done (c, cl) ->
  input !! i = Some raw -> Forall (fun raw => r_media raw <> []) (take i input) -> r_media raw <> [] ->
  jp_string (JsProduct c (N.of_nat i)) s_image_url = of_opt (head (r_media raw)).
Proof.
  intros E Hi F N. destruct (optimize_image parse o input c cl i E) as [-> _]; [by eapply lookup_lt_Some|].
  by rewrite (first_images_own _ _ raw).
Qed.
Lemma optimize_outcome parse o input :
  (prices_parse parse input -> exists out, optimize parse o input = Done out) /\
  (~ prices_parse parse input -> optimize parse o input = Panic).
Proof. split; [apply optimize_iff|apply optimize_panic]. Qed.
Lemma index_outcome parse low P n bo ro so input : (1 <= n <= 764)%nat -> valid_build_order bo ->
  total_grams (map (raw_text low) input) < 2 ^ 32 ->
  (prices_parse parse input ->
     exists bytes, index_and_serialize_with_n low parse P n bo ro so input = Done bytes) /\
  (~ prices_parse parse input -> index_and_serialize_with_n low parse P n bo ro so input = Panic).
Proof. intros Hn Hb Hg. split; [by apply index_done|apply index_panic]. Qed.
