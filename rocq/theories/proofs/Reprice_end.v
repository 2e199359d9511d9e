(** C138 for files of raw catalogues. *)
From Coq Require Import String.
From Verif.model Require Import Base F32 Utf8 Prim Coll Data Gram Indexer Nodes Classic Lit Raw Js Lib.
From Verif.spec Require Import Spec Data_spec Gram_spec Classic_spec Raw_spec Js_spec Lib_spec End_spec Reprice_spec Samples Raw_samples
  Gram_samples Lib_samples.
From Verif.proofs Require Import Base_facts Raw_facts End_facts Reprice_facts.
From Coq Require Import Lia.

(** A search without filters does not look at the features. *)
Lemma search_repriced low uw o gi cl i v query cats tags order :
  positions_of (search low uw o (loaded (index_repriced i v gi) cl) query cats tags order []).2 =
  positions_of (search low uw o (loaded gi cl) query cats tags order []).2.
Proof.
  unfold search. cbn [parse_filters mapM mbind option_bind s_index s_index_dead s_classic s_classic_dead loaded].
  set (F := search_filtered low o (index_repriced i v gi) query cats tags []).
  assert (E : F = search_filtered low o gi query cats tags []).
  { unfold F, search_filtered. assert (G : gram_search ngram_index_size (se_rank o) (index_repriced i v gi) (lower low query) =
      gram_search ngram_index_size (se_rank o) gi (lower low query)) by reflexivity.
    rewrite G. destruct (gram_search _ _ gi _) as [l| | |]; cbn [mbind res_bind]; [|done..]. by destruct (filterR _ _). }
  clearbody F. subst F. unfold lock_ok. cbn [s_index s_classic].
  destruct (search_filtered low o gi query cats tags []) as [l| | |]; [|done..].
  destruct order as [key|]; [|done]. cbn [mbind option_bind].
  destruct (get_orders (cl_order cl) key) as [ranks|]; [|done]. by destruct (sort_by_order ranks l).
Qed.

Lemma fs_get_set (fs : feature_set) col p : fs_get (<[s_price := FFloat col]> fs) p s_price = VFloat <$> getN col (p_sid p).
Proof.
  unfold fs_get. assert (E : (<[s_price := FFloat col]> fs : feature_set) !! s_price = Some (FFloat col))
    by apply (lookup_insert (M := gmap rstr)). by rewrite E.
Qed.
Lemma changed_price_file low parse P Q bo ro so input bytes i raw x :
  valid_build_order bo -> valid_ser_order so -> low_ok low -> parse_ok parse ->
  raw_fits Q low input -> total_grams (map (raw_text low) input) < 2 ^ 32 ->
  index_and_serialize low parse P bo ro so input = Done bytes ->
  input !! i = Some raw -> priced parse raw x ->
  exists before after, bytes = before ++ enc_f32 x ++ after /\
  forall b0 b1 b2 b3 st, s_index_dead st = false -> s_classic_dead st = false ->
    exists gi gi' cl, initialize Q st bytes = (loaded gi cl, Done true) /\
    initialize Q st (before ++ [b0; b1; b2; b3] ++ after) = (loaded gi' cl, Done true) /\
    (forall k raw' x', input !! k = Some raw' -> priced parse raw' x' ->
       jp_numeric (JsProduct (gi_container gi') (N.of_nat k)) s_price =
       Done (f64_of_f32 (if decide (k = i) then f32_of_bits (b0 * 2 ^ 24 + b1 * 2 ^ 16 + b2 * 2 ^ 8 + b3) else x'))) /\
    (forall low' uw o query cats tags order,
       positions_of (search low' uw o (loaded gi' cl) query cats tags order []).2 =
       positions_of (search low' uw o (loaded gi cl) query cats tags order []).2).
Proof.
  intros Hbo Hso Hlow Hparse Hfit Hlim E Hi Hx.
  destruct (indexed_inv _ _ _ _ _ _ _ _ _ E) as (C & cl & gi & O & I & ->).
  destruct (file_storable low parse P Q bo input Hbo Hlow Hparse Hfit Hlim C cl gi O I) as [Hg Hcl].
  assert (G : gi_container gi = C) by by eapply index_container.
  destruct (optimize_inv parse bo input C cl O) as (prices & Hp & D & W & _ & _ & (Hcol & _) & _).
  destruct (Forall2_lookup_l _ _ _ _ _ Hp Hi) as (x' & Hx' & Ex). unfold priced in Hx, Ex. rewrite Hx in Ex. injection Ex as <-.
  assert (Hcol' : c_features (gi_container gi) !! s_price = Some (FFloat prices)).
  { rewrite G, Hcol. by destruct prices. }
  destruct (changed_price Q ngram_index_size so gi cl prices i x Hso Hg Hcl Hcol' Hx') as (before & after & Eb & H).
  exists before, after. split; [done|]. intros b0 b1 b2 b3 st D1 D2.
  eexists _, _, _. split; [|split; [|split]].
  - unfold initialize. rewrite <- (app_nil_r (serialize_all so gi cl)).
    rewrite (File_facts.file_roundtrip Q ngram_index_size so gi cl [] Hso Hg Hcl). unfold lock_unwrap. rewrite D1, D2. reflexivity.
  - unfold initialize. rewrite H. unfold lock_unwrap. rewrite D1, D2. reflexivity.
  - intros k raw' y Hk Hy.
    destruct (Forall2_lookup_l _ _ _ _ _ Hp Hk) as (y' & Hy' & Ey). unfold priced in Hy, Ey. rewrite Hy in Ey. injection Ey as <-.
    destruct (Forall2_lookup_l _ _ _ _ _ D Hk) as (p & Hpk & _).
    unfold index_repriced, stored_gram_index. cbn [gi_container]. unfold repriced, stored_container. cbn [c_features c_products c_vendors].
    rewrite Hcol'. unfold jp_numeric, jp_product. cbn [jp_container jp_sid c_products c_features]. rewrite G.
    rewrite getN_of_nat. change (map stored (c_products C)) with (stored <$> c_products C).
    rewrite list_lookup_fmap, Hpk. cbn [fmap option_fmap option_map unwrap mbind res_bind].
    rewrite fs_get_set.
    assert (Es : p_sid (stored p) = N.of_nat k) by exact (W k p Hpk). rewrite Es, getN_of_nat.
    destruct (decide (k = i)) as [->|Dk].
    + rewrite list_lookup_insert by (by eapply lookup_lt_Some). reflexivity.
    + rewrite list_lookup_insert_ne by done. rewrite Hy'. reflexivity.
  - intros. apply search_repriced.
Qed.

Lemma dear_chair : take 4 (drop 86 sample_file) = enc_f32 half_f32 /\
  answer (after [InitOp sample_file]) three_words no_cats no_tags (Some s_price_up) [] = Done [1; 0; 2] /\
  (initialize host64 lib_init (<[86%nat := 66]> sample_file)).2 = Done true /\
  answer (after [InitOp (<[86%nat := 66]> sample_file)]) three_words no_cats no_tags (Some s_price_up) [] = Done [1; 0; 2] /\
  match s_index (after [InitOp (<[86%nat := 66]> sample_file)]) with
  | Some gi => map (fun k => jp_numeric (JsProduct (gi_container gi) k) s_price) [1; 0; 2]
  | None => []
  end = map (fun k => Done (f64_of_f32 (f32_of_N k))) [32; 2; 2].
Proof. do 4 (split; [vm_compute; reflexivity|]). vm_compute. reflexivity. Qed.
