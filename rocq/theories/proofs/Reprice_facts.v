(** C138: a price that was changed in the file. *)
From Verif.model Require Import Base F32 Utf8 Prim Coll Data Gram Indexer Nodes Classic Lit Js Lib.
From Verif.spec Require Import Spec Data_spec Reprice_spec.
From Verif.proofs Require Import Base_facts Utf8_facts Prim_facts Prim_codec Coll_facts Codec_lemmas Data_facts File_facts.
From Coq Require Import Lia.

(** ** Reading items one by one *)
Lemma map_items P kd `{Countable K} {V} (deck : decoder K) (decv : decoder V) (items : list (list N * (K * V))) rest :
  len_ok P kd (lenN items) -> NoDup (map (fun x => x.2.1) items) ->
  (forall b k v rest, (b, (k, v)) ∈ items -> exists mid, deck (b ++ rest) = Done (mid, k) /\ decv mid = Done (rest, v)) ->
  dec_map P kd deck decv (enc_usize (lenN items) ++ concat (map fst items) ++ rest) = Done (rest, list_to_map (map snd items)).
Proof.
  intros [Hs Hc] ND Hi. unfold dec_map. rewrite (rt_usize_ok P _ Hs). cbn [mbind res_bind].
  rewrite with_capacity_ok by done. cbn [mbind res_bind]. rewrite rep_N_length.
  rewrite (rep_consume fst (fun i s => (i, s)) (fun out x => <[x.2.1 := x.2.2]> out)).
  - do 2 f_equal. assert (Hf : forall l (m0 : gmap K V), foldl (fun out x => <[x.2.1 := x.2.2]> out) m0 (l : list (list N * (K * V)))
        = foldl (fun m kv => <[kv.1 := kv.2]> m) m0 (snd <$> l)).
    { induction l as [|[b [k v]] l IH]; intros m0; cbn; [done|]. apply IH. }
    rewrite Hf, foldl_insert_list_to_map; [by rewrite right_id_L by apply _|].
    rewrite <- list_fmap_compose. exact ND.
  - intros [b [k v]] out r Hx. destruct (Hi b k v r Hx) as (mid & E1 & E2). cbn [fst snd]. rewrite E1. cbn [mbind res_bind].
    rewrite E2. done.
Qed.
Lemma list_to_map_one `{Countable K} {V} (l1 l2 : list (K * V)) k v w : NoDup (l1 ++ (k, v) :: l2).*1 ->
  list_to_map (M := gmap K V) (l1 ++ (k, w) :: l2) = <[k := w]> (list_to_map (l1 ++ (k, v) :: l2)).
Proof.
  intros ND. rewrite fmap_app, fmap_cons in ND. cbn [fst] in ND.
  rewrite !list_to_map_app. cbn [list_to_map foldr uncurry]. cbn.
  assert (Hk : list_to_map (M := gmap K V) l1 !! k = None).
  { apply not_elem_of_list_to_map_1. apply NoDup_app in ND as (_ & D & _). intros Hin. apply (D k Hin). by left. }
  rewrite insert_union_r by done. by rewrite <- !insert_union_r, insert_insert by done.
Qed.

Section changed.
  Context (P : platform) (n : nat) (o : ser_order) (gi : gram_index) (cl : classic)
    (col1 col2 : list f32) (x : f32).
  Context (Ho : valid_ser_order o) (Hg : gram_index_ok P n gi) (Hcl : classic_ok P (c_products (gi_container gi)) cl).
  Let C := gi_container gi.
  Context (Hcol : c_features C !! s_price = Some (FFloat (col1 ++ x :: col2))).
  Context (l1 l2 : list (rstr * feature))
    (Hl : so_features o (map_to_list (M := gmap rstr feature) (c_features C)) = l1 ++ (s_price, FFloat (col1 ++ x :: col2)) :: l2).
  Let item : encoder (rstr * feature) := fun '(k, v) => enc_str k ++ enc_feature v.
  Let fbefore := enc_usize (N.of_nat (size (c_features C))) ++ concat (map item l1) ++ enc_str s_price ++
     enc_u8 1 ++ enc_usize (lenN (col1 ++ x :: col2)) ++ concat (map enc_f32 col1).
  Let fafter := concat (map enc_f32 col2) ++ concat (map item l2).
  Let front := enc_vendors (so_vendors o) (c_vendors C) ++ enc_vec enc_product (c_products C).
  Let before := front ++ fbefore.
  Let rest := enc_map (so_roots o) enc_char enc_node (gi_roots gi) ++
    enc_map (so_data o) (enc_array enc_char) enc_product_refs (gi_data gi) ++ enc_classic o cl.

  Lemma features_are : enc_features (so_features o) (c_features C) = fbefore ++ enc_f32 x ++ fafter.
  Proof.
    unfold enc_features, enc_map. fold item. rewrite Hl, map_app, concat_app. cbn [map concat]. unfold item at 2. cbn [enc_feature].
    unfold enc_vec. rewrite (map_app enc_f32), concat_app. cbn [map concat]. unfold fbefore, fafter. rewrite <- ?app_assoc. done.
  Qed.
  Lemma file_is : serialize_all o gi cl = before ++ enc_f32 x ++ fafter ++ rest.
  Proof.
    unfold serialize_all, enc_gram_index, enc_container. fold C. rewrite features_are. unfold before, front, rest.
    rewrite <- ?app_assoc. done.
  Qed.
  Lemma features_read q v r : (forall r, dec_f32 (q ++ r) = Done (r, v)) ->
    dec_features P (fbefore ++ q ++ fafter ++ r) = Done (r, <[s_price := FFloat (col1 ++ v :: col2)]> (c_features C)).
  Proof.
    intros Hq. pose proof (proj1 Hg) as (_ & (Hlen & Hf) & _). fold C in Hlen, Hf.
    destruct Ho as (_ & Hof & _).
    assert (Hperm : l1 ++ (s_price, FFloat (col1 ++ x :: col2)) :: l2 ≡ₚ map_to_list (M := gmap rstr feature) (c_features C)) by (rewrite <- Hl; apply Hof).
    assert (ND : NoDup (l1 ++ (s_price, FFloat (col1 ++ x :: col2)) :: l2).*1) by (rewrite Hperm; apply NoDup_fst_map_to_list).
    set (b := enc_str s_price ++ enc_u8 1 ++ enc_usize (lenN (col1 ++ x :: col2)) ++ concat (map enc_f32 col1) ++ q ++ concat (map enc_f32 col2)).
    set (plain := map (fun kv : rstr * feature => (item kv, kv))).
    set (items := plain l1 ++ (b, (s_price, FFloat (col1 ++ v :: col2))) :: plain l2).
    assert (Ps : forall l, map snd (plain l) = l) by (intros l; unfold plain; rewrite map_map; apply map_id).
    assert (Pf : forall l, map fst (plain l) = map item l) by (intros l; unfold plain; by rewrite map_map).
    assert (Pk : forall l, map (fun y : list N * (rstr * feature) => y.2.1) (plain l) = l.*1) by (intros l; unfold plain; by rewrite map_map).
    assert (Hn : N.of_nat (size (c_features C)) = lenN items).
    { unfold lenN, items. rewrite app_length. cbn [length]. unfold plain. rewrite !map_length.
      replace (size (c_features C)) with (length (l1 ++ (s_price, FFloat (col1 ++ x :: col2)) :: l2)) by (rewrite Hperm; done).
      rewrite app_length. done. }
    assert (Hin : forall k w, (k, w) ∈ l1 ++ (s_price, FFloat (col1 ++ x :: col2)) :: l2 -> str_ok P k /\ feature_ok P w).
    { intros k w Hk. apply Hf. rewrite Hperm in Hk. by apply (elem_of_map_to_list (M := gmap rstr)). }
    transitivity (dec_map P KFeatureMap (dec_str P) (dec_feature P) (enc_usize (lenN items) ++ concat (map fst items) ++ r)).
    { unfold dec_features. f_equal. unfold fbefore, fafter. rewrite Hn. unfold items. rewrite map_app, concat_app. cbn [map concat fst].
      rewrite !Pf. unfold b. rewrite <- ?app_assoc. done. }
    rewrite map_items.
    - do 2 f_equal. unfold items. rewrite map_app. cbn [map snd]. rewrite !Ps, (list_to_map_one _ _ _ (FFloat (col1 ++ x :: col2))) by done.
      f_equal. rewrite <- (list_to_map_to_list (M := gmap rstr) (c_features C)). by apply list_to_map_proper.
    - by rewrite <- Hn.
    - unfold items. rewrite map_app. cbn [map snd fst]. rewrite !Pk. rewrite fmap_app, fmap_cons in ND. exact ND.
    - intros b' k w r' Hx. unfold items in Hx. apply elem_of_app in Hx as [Hx|Hx]; [|apply elem_of_cons in Hx as [Hx|Hx]].
      1,3: unfold plain in Hx; apply elem_of_list_In, in_map_iff in Hx as ([k' w'] & [= <- <- <-] & Hx%elem_of_list_In);
        (destruct (Hin k' w') as [H1 H2]; [apply elem_of_app; first [by left | right; by right]|]);
        (exists (enc_feature w' ++ r'); split; [unfold item; rewrite <- app_assoc; by apply rt_str | by apply rt_feature]).
      injection Hx as -> -> ->. destruct (Hin s_price (FFloat (col1 ++ x :: col2))) as [H1 [H2 H3]]; [apply elem_of_app; right; by left|].
      eexists. split; [unfold b; rewrite <- app_assoc; by apply rt_str|].
      rewrite Forall_app, Forall_cons in H3. destruct H3 as (H3 & _ & H4). rewrite Forall_forall in H3, H4.
      set (col := map (fun y => (enc_f32 y, y)) col1 ++ (q, v) :: map (fun y => (enc_f32 y, y)) col2).
      assert (E : dec_vec P KFloats dec_f32 (enc_vec fst col ++ r') = Done (r', map snd col)).
      { apply (rt_vec P KFloats fst dec_f32 snd).
        - replace (lenN col) with (lenN (col1 ++ x :: col2)); [done|]. unfold col, lenN. rewrite !app_length. cbn [length]. by rewrite !map_length.
        - intros [q' y] Hy. unfold col in Hy. apply elem_of_app in Hy as [Hy|Hy]; [|apply elem_of_cons in Hy as [Hy|Hy]].
          1,3: apply elem_of_list_In, in_map_iff in Hy as (y' & [= <- <-] & Hy%elem_of_list_In); intros r2; cbn [fst snd];
            apply rt_f32; auto.
          injection Hy as -> ->. intros r2. apply Hq. }
      assert (E1 : enc_vec fst col = enc_usize (lenN (col1 ++ x :: col2)) ++ concat (map enc_f32 col1) ++ q ++ concat (map enc_f32 col2)).
      { unfold enc_vec. replace (lenN col) with (lenN (col1 ++ x :: col2))
          by (unfold col, lenN; rewrite !app_length; cbn [length]; by rewrite !map_length).
        unfold col. rewrite map_app, concat_app. cbn [map concat fst]. by rewrite !map_map. }
      rewrite E1 in E. unfold dec_feature, enc_u8. cbn [app dec_u8 mbind res_bind]. cbv iota beta. change (1 =? 0) with false. change (1 =? 1) with true.
      cbv iota. rewrite E. cbn [mbind res_bind]. do 3 f_equal. unfold col. rewrite map_app. cbn [map snd]. rewrite !map_map. cbn [snd].
      by rewrite !map_id.
  Qed.
  Lemma container_read q v r : (forall r, dec_f32 (q ++ r) = Done (r, v)) ->
    dec_container P (before ++ q ++ fafter ++ r) =
      Done (r, Container (map stored (c_products C)) (c_vendors C) (<[s_price := FFloat (col1 ++ v :: col2)]> (c_features C))).
  Proof.
    intros Hq. pose proof (proj1 Hg) as (Hv & _ & Hn & Hpos & Hps & Hm). fold C in Hv, Hn, Hpos, Hps.
    unfold before, front, dec_container. rewrite <- !app_assoc. rewrite (rt_vendors P) by (done || apply Ho). cbn [mbind res_bind]. unfold enc_vec.
    rewrite <- app_assoc, rt_usize_ok by done. cbn [mbind res_bind]. rewrite rep_N_length.
    rewrite (rep_consume enc_product (fun i '(ps, id) => (i, ps, id))
      (fun '(ps, id) p => (ps ++ [with_sid (stored p) id], id + 1)) _ _ ([], 0)).
    - rewrite (foldl_numbering (fun id p => with_sid (stored p) id)). cbn [mbind res_bind].
      rewrite (features_read q v r Hq). cbn [mbind res_bind]. do 3 f_equal.
      apply list_eq. intros i. cbn [app]. rewrite list_lookup_imap.
      change (map stored (c_products C)) with (stored <$> c_products C). rewrite list_lookup_fmap.
      destruct (c_products C !! i) as [p|] eqn:E; [|done]. simpl.
      apply Hpos in E. unfold with_sid. simpl. unfold stored. by rewrite E.
    - intros p [ps id] r' Hp. cbv beta iota. rewrite Forall_forall in Hps. specialize (Hps p Hp).
      rewrite rt_product; [done|done|done|].
      eapply vendors_ok_id; [done|]. eapply elem_of_list_lookup_2. apply Hps.
  Qed.
  Lemma file_read q v : (forall r, dec_f32 (q ++ r) = Done (r, v)) ->
    deserialize_all P n (before ++ q ++ fafter ++ rest) =
      Done (index_repriced (length col1) v (stored_gram_index gi), stored_classic cl).
  Proof.
    intros Hq. pose proof (file_roundtrip P n o gi cl [] Ho Hg Hcl) as E. rewrite app_nil_r, file_is in E. revert E.
    assert (Hx : forall r, dec_f32 (enc_f32 x ++ r) = Done (r, x)).
    { intros r. apply rt_f32. pose proof (proj1 Hg) as (_ & (_ & Hf) & _). destruct (Hf _ _ Hcol) as [_ [_ H]].
      rewrite Forall_app, Forall_cons in H. tauto. }
    unfold deserialize_all, dec_gram_index. rewrite (container_read _ x rest Hx), (container_read q v rest Hq). cbn [mbind res_bind c_products].
    destruct (dec_map P KRootMap dec_char (dec_node P) rest) as [[i roots]| | |]; cbn [mbind res_bind]; try discriminate.
    destruct (dec_map P KDataMap _ _ i) as [[i1 data]| | |]; cbn [mbind res_bind]; try discriminate.
    cbn [gi_container c_products].
    assert (E : forall fs fs', dec_classic P (Container (map stored (c_products C)) (c_vendors C) fs) i1 =
      dec_classic P (Container (map stored (c_products C)) (c_vendors C) fs') i1) by done.
    intros H. revert H. set (Dx := dec_classic P _ i1) at 1. set (Dv := dec_classic P _ i1).
    assert (Ev : Dv = Dx) by apply E. clearbody Dv. subst Dv. clearbody Dx.
    destruct Dx as [[i2 cl']| | |]; cbn [mbind res_bind]; try discriminate.
    intros [= E1 E2 E3 E4]. subst roots cl' data. do 2 f_equal. unfold index_repriced, stored_gram_index. cbn [gi_roots gi_data gi_container]. f_equal.
    unfold repriced, stored_container. fold C. cbn [c_features c_products c_vendors]. rewrite Hcol. do 3 f_equal.
    by rewrite insert_app_r_alt, Nat.sub_diag by done.
  Qed.
End changed.

Lemma changed_price P n o gi cl col i x : valid_ser_order o -> gram_index_ok P n gi ->
  classic_ok P (c_products (gi_container gi)) cl ->
  c_features (gi_container gi) !! s_price = Some (FFloat col) -> col !! i = Some x ->
  exists before after, serialize_all o gi cl = before ++ enc_f32 x ++ after /\
    forall b0 b1 b2 b3, deserialize_all P n (before ++ [b0; b1; b2; b3] ++ after) =
      Done (index_repriced i (f32_of_bits (b0 * 2 ^ 24 + b1 * 2 ^ 16 + b2 * 2 ^ 8 + b3)) (stored_gram_index gi), stored_classic cl).
Proof.
  intros Ho Hg Hcl Hcol Hi. apply elem_of_list_split_length in Hi as (col1 & col2 & -> & ->).
  assert (Hin : (s_price, FFloat (col1 ++ x :: col2)) ∈ so_features o (map_to_list (M := gmap rstr feature) (c_features (gi_container gi)))).
  { destruct Ho as (_ & Hof & _). rewrite (Hof _). by apply (elem_of_map_to_list (M := gmap rstr)). }
  apply elem_of_list_split in Hin as (l1 & l2 & Hl).
  eexists _, _. split; [by eapply file_is|]. intros b0 b1 b2 b3.
  eapply (file_read P n o gi cl col1 col2 x Ho Hg Hcl Hcol l1 l2 Hl [b0; b1; b2; b3]). intros r. reflexivity.
Qed.
