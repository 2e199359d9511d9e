(** C136: constructors and accessors. *)
From Verif.model Require Import Base F32 Utf8 Prim Coll Data Gram Indexer Nodes Classic Lit Raw Js Lib Access.
From Verif.spec Require Import Spec Data_spec Js_spec.
From Verif.proofs Require Import Base_facts Sort_facts Data_facts File_facts Js_facts.
From Coq Require Import Lia.
Local Open Scope N_scope.

Lemma tags_by_id ts id t : tag_positions ts -> tags_get ts id = Some t <-> t ∈ tags_iter ts /\ tag_get_id t = id.
Proof.
  intros Pos. unfold tags_get, tags_iter, tag_get_id. rewrite getN_lookup. split.
  - intros H. split; [by eapply elem_of_list_lookup_2|]. rewrite (Pos _ _ H). lia.
  - intros [H <-]. apply elem_of_list_lookup in H as (i & Hi). by rewrite (Pos _ _ Hi), Nat2N.id.
Qed.
Lemma tags_loaded P n bytes gi cl id t : deserialize_all P n bytes = Done (gi, cl) ->
  tags_get (cl_tags cl) id = Some t <-> t ∈ tags_iter (cl_tags cl) /\ tag_get_id t = id.
Proof. intros E. destruct (load_consistent _ _ _ _ _ E) as (_ & (_ & _ & _ & Pos)). by apply tags_by_id. Qed.
Lemma tag_shown cl id :
  (forall t, tags_get (cl_tags cl) id = Some t ->
     jt_get_name (js_tag_new cl id) = Done (t_name t) /\ jt_get_id (js_tag_new cl id) = Done (tag_get_id t)) /\
  (tags_get (cl_tags cl) id = None -> jt_get_name (js_tag_new cl id) = Panic /\ jt_get_id (js_tag_new cl id) = Panic).
Proof.
  unfold tags_get, jt_get_name, jt_get_id, js_tag_new. cbn [jt_handle jt_index]. split; [intros t ->|intros ->]; split; reflexivity.
Qed.
Lemma categories_at (cs : list category) i :
  (forall c, cs !! i = Some c -> categories_get cs (N.of_nat i) = Some c /\ categories_index cs (N.of_nat i) = Done c) /\
  (cs !! i = None -> categories_get cs (N.of_nat i) = None /\ categories_index cs (N.of_nat i) = Panic).
Proof.
  unfold categories_get, categories_index. rewrite getN_of_nat. split; [intros c ->|intros ->]; split; reflexivity.
Qed.
Lemma ranked_by_id p q x y o : valid_order o ->
  length (rank_export o (rank_add (rank_add ranker_new p x) q y)) = 1%nat <->
  string_extract (product_extract p) = string_extract (product_extract q).
Proof.
  intros Ho. unfold string_extract, product_extract, rank_export, ranker_new.
  assert (L : forall r, length (sort_by rank_cmp (map snd (o (map_to_list r)))) = size r).
  { intros r. rewrite (Permutation_length (sort_by_perm _ _)), map_length, (Permutation_length (Ho (map_to_list r))). unfold size, map_size. reflexivity. }
  rewrite L. assert (E1 : rank_add ∅ p x = ({[p_id p := (p, x)]} : gmap rstr (product * f32))).
  { unfold rank_add. unfold ranker. rewrite lookup_empty. apply insert_empty. }
  rewrite E1. unfold rank_add. destruct (decide (p_id q = p_id p)) as [E|E].
  - rewrite E. match goal with |- context [match ?t with _ => _ end] => assert (t = Some (p, x)) as -> by apply (lookup_singleton (M := gmap rstr)) end.
    split; [done|]. intros _. etransitivity; [apply f_equal, (insert_singleton (M := gmap rstr))|]. apply (map_size_singleton (M := gmap rstr)).
  - match goal with |- context [match ?t with _ => _ end] => assert (t = None) as -> by (apply (lookup_singleton_ne (M := gmap rstr)); congruence) end.
    assert (S2 : size (<[p_id q := (q, y)]> ({[p_id p := (p, x)]} : gmap rstr (product * f32))) = 2%nat).
    { rewrite map_size_insert_None by (apply lookup_singleton_ne; congruence). by rewrite map_size_singleton. }
    split; [|congruence]. intros C. exfalso. enough (2 = 1)%nat by lia. rewrite <- S2. exact C.
Qed.
Lemma nothing_ranked o : valid_order o -> rank_export o ranker_new = [].
Proof.
  intros Ho. unfold rank_export, ranker_new.
  assert (o (map_to_list (∅ : gmap rstr (product * f32))) = []) as E by (apply Permutation_nil_r; rewrite (Ho _); by rewrite map_to_list_empty).
  change (sort_by rank_cmp (map snd (o (map_to_list (∅ : gmap rstr (product * f32))))) = []). rewrite E. reflexivity.
Qed.
Lemma made_range from to feature fs p : filter_accepts (filter_range from to feature) fs p = true <->
  (~ is_number from /\ ~ is_number to) \/
  exists x, numeric_at fs (N.to_nat (p_sid p)) feature x /\ within from to x.
Proof. apply range_filter. Qed.
Lemma made_exact v feature fs p : filter_accepts (filter_exactly v feature) fs p = true <->
  (exists s, v = JStr s /\ string_at fs (N.to_nat (p_sid p)) feature s) \/
  (exists x y, v = JNum y /\ numeric_at fs (N.to_nat (p_sid p)) feature x /\ SFeqb x y = true).
Proof. apply exact_filter. Qed.
Lemma parsed_made entry f : parse_entry entry = Some f ->
  (exists from to, f = filter_range from to entry.1) \/ (exists v, f = filter_exactly v entry.1).
Proof. intros (i & ps & _ & [(a & b & _ & _ & ->)|(v & _ & _ & ->)])%entry_stands_for; [left|right]; eauto. Qed.
Lemma container_shows ps vs fs i p key : ps !! i = Some p ->
  let j := JsProduct (container_new ps vs fs) (N.of_nat i) in
  jp_title j = Done (p_title p) /\ jp_id j = Done (p_id p) /\ jp_description j = Done (p_description p) /\
  forall s, jp_string j key = Done s <->
    exists f, fs_get_feature fs key = Some f /\ feature_get f (p_sid p) = Some (VString s).
Proof.
  intros H. cbn zeta. unfold jp_title, jp_id, jp_description, jp_string, jp_product, container_new, fs_get_feature. cbn [jp_container jp_sid c_products c_features].
  rewrite getN_of_nat, H. cbn [unwrap mbind res_bind]. do 3 (split; [done|]). intros s.
  unfold fs_get. destruct (fs !! key) as [f|]; cbn [mbind option_bind].
  - split.
    + intros E. exists f. split; [done|]. unfold feature_get. destruct f as [l|l|l]; destruct (getN l (p_sid p)); cbn in *; congruence.
    + intros (g & [= <-] & E). unfold feature_get in E. destruct f as [l|l|l]; destruct (getN l (p_sid p)); cbn in *; congruence.
  - split; [done|]. by intros (? & ? & _).
Qed.
Lemma classic_holds cs ts os o : valid_order o ->
  (forall i, categories_get (cl_categories (classic_new cs ts os)) i = categories_get cs i) /\
  (forall i, tags_get (cl_tags (classic_new cs ts os)) i = tags_get ts i) /\
  (forall key, get_orders (cl_order (classic_new cs ts os)) key = get_orders os key) /\
  (forall key, key ∈ order_options o (cl_order (classic_new cs ts os)) <-> exists ranks, get_orders os key = Some ranks).
Proof.
  intros Ho. unfold classic_new. cbn [cl_categories cl_tags cl_order]. do 3 (split; [done|]). intros key.
  unfold order_options, get_orders. rewrite elem_of_list_fmap. split.
  - intros ([k v] & -> & H). exists v. apply (proj1 (elem_of_map_to_list (M := gmap rstr) os k v)). rewrite <- (Ho (map_to_list os)). exact H.
  - intros (v & H). exists (key, v). split; [done|]. rewrite (Ho (map_to_list os)).
    by apply (proj2 (elem_of_map_to_list (M := gmap rstr) os key v)).
Qed.
Lemma nothing_held o p key : valid_order o ->
  order_options o orders_new = [] /\ get_orders orders_new key = None /\ fs_get_feature fs_new_empty key = None /\
  fs_get fs_new_empty p key = None.
Proof.
  intros Ho. split; [|split; [apply (lookup_empty (M := gmap rstr))|split; [apply (lookup_empty (M := gmap rstr))|]]].
  - unfold order_options. change (map fst (o (map_to_list (∅ : gmap rstr (list N)))) = []).
    assert (o (map_to_list (∅ : gmap rstr (list N))) = []) as -> by (apply Permutation_nil_r; rewrite (Ho _); by rewrite map_to_list_empty).
    reflexivity.
  - unfold fs_get. change ((fs_new_empty : gmap rstr feature) !! key) with ((∅ : gmap rstr feature) !! key). by rewrite lookup_empty.
Qed.
(** Comparing two nodes through [partial_cmp] always answers, even if a weight is not a number. *)
Lemma nodes_compared a b :
  (node_partial_cmp a b = Some Lt <-> SFltb (n_weight a) (n_weight b) = true) /\
  (node_partial_cmp a b = Some Gt <-> SFltb (n_weight b) (n_weight a) = true) /\
  (node_partial_cmp a b = Some Eq <-> SFltb (n_weight a) (n_weight b) = false /\ SFltb (n_weight b) (n_weight a) = false).
Proof.
  assert (S : SFltb (n_weight b) (n_weight a) = match SFcompare (n_weight a) (n_weight b) with Some Gt => true | _ => false end).
  { unfold SFltb. destruct (n_weight a) as [[]|[]| |[] m e], (n_weight b) as [[]|[]| |[] m' e']; try reflexivity; cbn;
      rewrite (Z.compare_antisym e e'); destruct (e ?= e')%Z; try reflexivity; cbn;
      replace (Pos.compare_cont Eq m' m) with (CompOpp (Pos.compare_cont Eq m m')) by (rewrite Pos.compare_cont_antisym; reflexivity); cbn; destruct (Pos.compare_cont Eq m m'); reflexivity. }
  rewrite S. unfold SFltb, node_partial_cmp, node_cmp, f32_cmp.
  destruct (SFcompare (n_weight a) (n_weight b)) as [[]|]; cbn; repeat split; try done; by intros [].
Qed.
Lemma keys_are_ids p q : string_extract (product_extract p) = string_extract (product_extract q) <-> p_id p = p_id q.
Proof. reflexivity. Qed.
