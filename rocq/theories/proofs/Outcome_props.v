(** C104: how indexing a catalogue ends. *)
From Verif.model Require Import Base F32 Utf8 Prim Coll Data Gram Indexer Nodes Classic Lit Raw Js Lib Json.
From Verif.spec Require Import Spec Data_spec Gram_spec Classic_spec Raw_spec Js_spec Lib_spec End_spec Json_spec Outcome_spec.
From Verif.proofs Require Import Base_facts Codec_lemmas Indexer_facts Outcome_facts Raw_facts Raw_props Search_props Json_props Json_end.
From Coq Require Import Lia ZifyN.

Section outcomes.
Context (low : N -> list N) (parse : rstr -> option f32) (P : platform) (bo : build_order)
  (ro : order_of (rstr * (product * f32))) (so : ser_order) (Hbo : valid_build_order bo).
Lemma file_outcomes n input : (1 <= n <= 764)%nat ->
  (prices_parse parse input /\ ~ overflows P (map (raw_text low) input) ->
     exists bytes, index_and_serialize_with_n low parse P n bo ro so input = Done bytes) /\
  (~ prices_parse parse input \/ overflows P (map (raw_text low) input) ->
     index_and_serialize_with_n low parse P n bo ro so input = Panic).
Proof.
  intros Hn. assert (Hc : forall c cl, optimize parse bo input = Done (c, cl) ->
    map snd (map (fun p => (p, product_grams low p)) (c_products c)) = map (raw_text low) input).
  { intros c cl E. apply optimize_products in E as [D W]. by apply raw_grams. }
  unfold index_and_serialize_with_n. split.
  - intros [Hp Hg]. apply (optimize_iff _ bo) in Hp as [[c cl] E]. rewrite E. cbn [mbind res_bind].
    rewrite <- (Hc _ _ E) in Hg. destruct (proj2 (index_outcomes P n bo _ c (proj1 Hn) Hbo) Hg) as [gi ->]. cbn [mbind res_bind].
    destruct (search_total n ro gi (lower low s_kunst)) as [r ->]; [lia|]. simpl. eauto.
  - destruct (optimize_outcome parse bo input) as [H1 H2].
    intros [Hp|Hg]; [by rewrite H2|].
    destruct (optimize parse bo input) as [[c cl]| | |] eqn:E.
    2, 4: (assert (~ prices_parse parse input) as Hp by (intros Hp; by destruct (H1 Hp));
           by specialize (H2 Hp)).
    2: done.
    cbn [mbind res_bind]. specialize (Hc _ _ eq_refl). rewrite <- Hc in Hg.
    by rewrite (proj1 (index_outcomes P n bo _ c (proj1 Hn) Hbo) Hg).
Qed.
Context (mo : order_of (rstr * raw_product)) (Hmo : valid_order mo).
Lemma text_outcomes t entries l : is_catalogue verbatim entries t -> survivors entries l ->
  (prices_parse parse (map snd l) /\ ~ overflows P (map (raw_text low) (map snd l)) ->
     exists bytes, index low parse P mo bo ro so t = Done bytes) /\
  (~ prices_parse parse (map snd l) \/ overflows P (map (raw_text low) (map snd l)) ->
     index low parse P mo bo ro so t = Panic).
Proof.
  intros Ht Hl. destruct (index_accepts low parse P mo bo ro so t entries Hmo Ht) as (l' & Hl' & ->).
  pose proof (survivors_perm _ _ _ Hl Hl') as Hp.
  assert (Hp' : map snd l ≡ₚ map snd l') by (by apply Permutation_map).
  unfold index_and_serialize.
  destruct (file_outcomes ngram_index_size (map snd l')) as [H1 H2]; [unfold ngram_index_size; lia|].
  assert (Hq : prices_parse parse (map snd l) <-> prices_parse parse (map snd l')).
  { unfold prices_parse. by split; apply Forall_Permutation. }
  assert (Ho : overflows P (map (raw_text low) (map snd l)) <-> overflows P (map (raw_text low) (map snd l'))).
  { unfold overflows. by rewrite (grams_perm low _ _ Hp'). }
  rewrite Hq, Ho. by split.
Qed.
End outcomes.
