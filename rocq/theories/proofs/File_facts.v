(** The index file: round trip of everything, and safety on arbitrary bytes. *)
From Verif.model Require Import Base F32 Utf8 Prim Coll Data Gram Nodes Classic Lib.
From Verif.spec Require Import Spec Data_spec.
From Verif.proofs Require Import Base_facts Sort_facts Prim_facts Prim_codec Utf8_facts Coll_facts Data_facts.
From Coq Require Import ZifyBool ZifyNat ZifyN.
Ltac Zify.zify_post_hook ::= Z.div_mod_to_equations.

(** ** Trie nodes *)
Lemma node_ind' (Q : node -> Prop) :
  (forall item weight children, Forall Q children -> Q (Node item weight children)) ->
  forall nd, Q nd.
Proof.
  intros H. fix IH 1. intros [item weight children]. apply H.
  induction children as [|c l IHl]; constructor; [apply IH|exact IHl].
Qed.

Lemma rt_node_fuel P nd : node_ok P nd -> forall fuel, (length (enc_node nd) <= fuel)%nat ->
  forall rest, dec_node_fuel P fuel (enc_node nd ++ rest) = Done (rest, nd).
Proof.
  induction nd as [item weight children IH] using node_ind'. intros Hok fuel Hf rest.
  inversion Hok as [? ? ? Hi Hw Hl Hc]; subst.
  assert (Hlen : forall x, x ∈ children -> (length (enc_node x) + 4 <= length (enc_node (Node item weight children)))%nat).
  { intros x Hx. cbn [enc_node]. rewrite !app_length.
    assert (length (enc_f32 weight) = 4%nat) as -> by done.
    apply elem_of_list_split in Hx as (l1 & l2 & ->).
    rewrite map_app, concat_app. simpl. rewrite !app_length. lia. }
  destruct fuel as [|fuel].
  { exfalso. cbn [enc_node] in Hf. rewrite !app_length in Hf.
    assert (length (enc_f32 weight) = 4%nat) by done. lia. }
  cbn [dec_node_fuel]. cbn [enc_node] in *. rewrite <- !app_assoc.
  rewrite rt_char by done. cbn [mbind res_bind].
  rewrite rt_f32 by done. cbn [mbind res_bind].
  change (enc_usize (lenN children) ++ concat (map enc_node children) ++ rest)
    with (enc_usize (lenN children) ++ (concat (map enc_node children) ++ rest)).
  rewrite app_assoc. change (enc_usize (lenN children) ++ concat (map enc_node children)) with (enc_vec enc_node children).
  rewrite rt_vec_id; [done|done|]. intros x Hx r. rewrite Forall_forall in IH, Hc.
  apply IH; [done|by apply Hc|]. specialize (Hlen x Hx). lia.
Qed.
Lemma rt_node P nd : node_ok P nd -> rt enc_node (dec_node P) nd nd.
Proof. intros H rest. unfold dec_node. apply rt_node_fuel; [done|]. rewrite app_length. lia. Qed.

Lemma dec_node_fuel_eats P fuel : eats 5 (dec_node_fuel P fuel).
Proof.
  induction fuel as [|fuel IH]; intros i r v H; [done|]. cbn [dec_node_fuel] in H.
  inv_bind H. destruct x as [i1 item]. inv_bind H. destruct x as [i2 w].
  inv_bind H. destruct x as [i3 l]. injection H as <- <-.
  apply dec_char_eats in E as (p1 & -> & H1). apply dec_f32_eats in E0 as (p2 & -> & H2).
  apply (dec_vec_eats P KNodeRefs 5) in E1 as (p3 & -> & H3); [|done].
  exists (p1 ++ p2 ++ p3). rewrite !app_length, <- !app_assoc. split; [done|lia].
Qed.
Lemma dec_node_eats P : eats 5 (dec_node P).
Proof. intros i r v. apply dec_node_fuel_eats. Qed.

Lemma rep_nat_not_stuck_inv {S} (f : S -> res S) (I : S -> Prop) n s :
  I s -> (forall s, I s -> f s <> Stuck) -> (forall s s', I s -> f s = Done s' -> I s') ->
  rep_nat n f s <> Stuck.
Proof.
  intros Hi Hf Hs. revert s Hi. induction n as [|n IH]; intros s Hi; simpl; [done|].
  specialize (Hf s Hi). destruct (f s) as [s'| | |] eqn:E; simpl; try done. eauto.
Qed.
Lemma dec_node_fuel_not_stuck P fuel input : (length input < fuel)%nat ->
  dec_node_fuel P fuel input <> Stuck.
Proof.
  revert input. induction fuel as [|fuel IH]; intros input Hl; [lia|].
  cbn [dec_node_fuel].
  destruct (dec_char input) as [[i1 item]| | |] eqn:E1; simpl; try done; [|by apply dec_char_no_stuck in E1].
  destruct (dec_f32 i1) as [[i2 w]| | |] eqn:E2; simpl; try done; [|by apply dec_f32_no_stuck in E2].
  assert (Hi2 : (length i2 < fuel)%nat).
  { apply dec_char_eats in E1 as (p1 & -> & H1). apply dec_f32_eats in E2 as (p2 & -> & H2).
    rewrite !app_length in Hl. lia. }
  assert (Hv : dec_vec P KNodeRefs (dec_node_fuel P fuel) i2 <> Stuck).
  { unfold dec_vec. destruct (dec_usize P i2) as [[i3 len]| | |] eqn:E3; simpl; try done; [|by apply dec_usize_no_stuck in E3].
    destruct (with_capacity P KNodeRefs len) eqn:Ec; simpl; try done; [|by apply with_capacity_not_stuck in Ec].
    apply dec_usize_eats in E3 as (p3 & -> & H3). rewrite app_length in Hi2.
    rewrite rep_N_nat. apply (rep_nat_not_stuck_inv _ (fun '(inp, _) => (length inp < fuel)%nat)).
    - lia.
    - intros [inp out] Hinp. specialize (IH inp Hinp). destruct (dec_node_fuel P fuel inp) as [[? ?]| | |]; done.
    - intros [inp out] [inp' out'] Hinp Hf. inv_bind Hf. destruct x as [ni nd]. injection Hf as <- <-.
      apply dec_node_fuel_eats in E as (p & -> & _). rewrite app_length in Hinp. lia. }
  destruct (dec_vec P KNodeRefs (dec_node_fuel P fuel) i2) as [[? ?]| | |]; done.
Qed.
Lemma dec_node_not_stuck P : no_stuck (dec_node P).
Proof. intros i. apply dec_node_fuel_not_stuck. lia. Qed.

(** ** The n-gram index *)
Lemma rt_gram_array P n g : size_ok P (N.of_nat n) -> length g = n -> valid_str g ->
  rt (enc_array enc_char) (dec_array P n dec_char) g g.
Proof.
  intros Hn Hl Hg. apply rt_array; [done| |].
  - unfold lenN. by rewrite Hl.
  - intros c Hc. apply rt_char. unfold valid_str in Hg. rewrite Forall_forall in Hg. auto.
Qed.
Lemma rt_gram_index P n o gi : valid_ser_order o -> gram_index_ok P n gi ->
  rt (enc_gram_index o) (dec_gram_index P n) gi (stored_gram_index gi).
Proof.
  intros (Ho1 & Ho2 & Ho3 & Ho4 & _) (Hc & Hrl & Hr & Hdl & Hn & Hd) rest.
  unfold enc_gram_index, dec_gram_index. rewrite <- !app_assoc.
  rewrite (rt_container P) by done. simpl.
  rewrite (rt_map_id P KRootMap).
  2: done. 2: done.
  2: { intros c nd H. apply Hr in H as [H1 H2]. split; [by apply rt_char|by apply rt_node]. }
  simpl.
  rewrite (rt_map P KDataMap _ _ _ _ _ stored_refs).
  2: done. 2: done.
  2: { intros g l H. apply Hd in H as (H1 & H2 & H3). split; [by apply rt_gram_array|].
       intros r. destruct Hc as (_ & _ & Hs & Hpos & _). rewrite rt_product_refs by done. done. }
  done.
Qed.

(** ** Classic indexes *)
Lemma rt_category P ps next c : positions ps -> size_ok P (lenN ps) -> category_ok P ps c ->
  rt enc_category (dec_category P (map stored ps) next) c
    (Category (cat_name c) (stored_options next (cat_options c)) (cat_exclusive c),
     next + lenN (cat_options c)).
Proof.
  intros Hpos Hn (Hname & [Hl Hcap] & Hos) rest. unfold enc_category, dec_category.
  rewrite <- !app_assoc, rt_bool. simpl. rewrite rt_str by done. simpl.
  rewrite rt_usize_ok by done. simpl. rewrite with_capacity_ok by done. simpl.
  rewrite rep_N_length.
  rewrite (rep_consume (fun o => enc_str (o_name o) ++ enc_product_refs (o_content o))
    (fun i '(os, id) => (i, os, id))
    (fun '(os, id) o => (os ++ [CatOption (o_name o) id (stored_refs (o_content o)) (o_ids o)], id + 1))
    _ _ ([], next)).
  - rewrite (foldl_numbering (fun id o => CatOption (o_name o) id (stored_refs (o_content o)) (o_ids o))).
    simpl. do 4 f_equal.
    clear. generalize (cat_options c) as os. intros os. revert next.
    induction os as [|o os IH]; intros next; simpl; [done|]. f_equal; [f_equal; lia|].
    rewrite <- IH. apply imap_ext. intros. simpl. f_equal. lia.
  - intros o [os id] r Ho. simpl. rewrite Forall_forall in Hos. destruct (Hos o Ho) as (H1 & H2 & H3).
    rewrite <- app_assoc, rt_str by done. simpl. rewrite rt_product_refs by done. simpl.
    rewrite stored_refs_ids, H3. done.
Qed.
Lemma rt_categories P ps cs : positions ps -> size_ok P (lenN ps) ->
  len_ok P KCategories (lenN cs) -> Forall (category_ok P ps) cs ->
  rt enc_categories (dec_categories P (map stored ps)) cs (stored_categories 0 cs).
Proof.
  intros Hpos Hn [Hl Hcap] Hcs rest. unfold enc_categories, dec_categories.
  rewrite <- app_assoc, rt_usize_ok by done. simpl. rewrite with_capacity_ok by done. simpl.
  rewrite rep_N_length.
  rewrite (rep_consume enc_category (fun i '(cs, id) => (i, cs, id))
    (fun '(cs, id) c => (cs ++ [Category (cat_name c) (stored_options id (cat_options c)) (cat_exclusive c)],
        id + lenN (cat_options c))) _ _ ([], 0)).
  - assert (Hf : forall cs acc id, (foldl (fun '(cs, id) c => (cs ++ [Category (cat_name c) (stored_options id (cat_options c)) (cat_exclusive c)],
        id + lenN (cat_options c))) (acc, id) cs).1 = acc ++ stored_categories id cs).
    { clear. induction cs as [|c cs IH]; intros acc id; simpl; [by rewrite app_nil_r|].
      rewrite IH, <- app_assoc. done. }
    specialize (Hf cs [] 0). destruct (foldl _ _ _) as [out id]. simpl in *. by rewrite Hf.
  - intros c [cs' id] r Hc. rewrite Forall_forall in Hcs. rewrite rt_category by auto. done.
Qed.

Lemma rt_tags P ps ts : positions ps -> size_ok P (lenN ps) ->
  len_ok P KTags (lenN ts) -> Forall (tag_ok P ps) ts -> tag_positions ts ->
  rt enc_tags (dec_tags P (map stored ps)) ts (map stored_tag ts).
Proof.
  intros Hpos Hn [Hl Hcap] Hts Htp rest. unfold enc_tags, enc_vec, dec_tags.
  rewrite <- app_assoc, rt_usize_ok by done. simpl. rewrite with_capacity_ok by done. simpl.
  rewrite rep_N_length.
  rewrite (rep_consume enc_tag (fun i '(ts, id) => (i, ts, id))
    (fun '(ts, id) t => (ts ++ [Tag (t_name t) (stored_refs (t_products t)) (t_ids t) id], id + 1)) _ _ ([], 0)).
  - rewrite (foldl_numbering (fun id t => Tag (t_name t) (stored_refs (t_products t)) (t_ids t) id)). simpl.
    do 2 f_equal. apply list_eq. intros i. rewrite list_lookup_imap.
    change (map stored_tag ts) with (stored_tag <$> ts). rewrite list_lookup_fmap.
    destruct (ts !! i) as [t|] eqn:E; [|done]. simpl. unfold stored_tag. by rewrite (Htp _ _ E).
  - intros t [ts' id] r Ht. simpl. rewrite Forall_forall in Hts. destruct (Hts t Ht) as (H1 & H2 & H3).
    unfold enc_tag. rewrite <- app_assoc, rt_str by done. simpl. rewrite rt_product_refs by done. simpl.
    rewrite stored_refs_ids, H3. done.
Qed.

Lemma rt_orders P o oi : valid_order o -> orders_ok P oi -> rt (enc_orders o) (dec_orders P) oi oi.
Proof.
  intros Ho [Hl Hk]. apply rt_map_id; [done|done|]. intros k r H. apply Hk in H as (H1 & H2 & H3).
  split; [by apply rt_str|]. apply rt_vec_id; [done|]. intros x Hx. rewrite Forall_forall in H3.
  by apply rt_usize_ok, H3.
Qed.

Lemma rt_classic P o c cl : valid_ser_order o -> positions (c_products c) ->
  size_ok P (lenN (c_products c)) -> classic_ok P (c_products c) cl ->
  rt (enc_classic o) (dec_classic P (stored_container c)) cl (stored_classic cl).
Proof.
  intros (_ & _ & _ & _ & Ho) Hpos Hn (H1 & H2 & H3 & H4 & H5 & H6) rest.
  unfold enc_classic, dec_classic. rewrite <- !app_assoc. simpl.
  rewrite (rt_categories P) by done. simpl. rewrite (rt_tags P) by done. simpl.
  rewrite (rt_orders P) by done. done.
Qed.

Lemma file_roundtrip P n o gi cl rest : valid_ser_order o -> gram_index_ok P n gi ->
  classic_ok P (c_products (gi_container gi)) cl ->
  deserialize_all P n (serialize_all o gi cl ++ rest) = Done (stored_gram_index gi, stored_classic cl).
Proof.
  intros Ho Hg Hc. unfold serialize_all, deserialize_all. rewrite <- app_assoc.
  rewrite rt_gram_index by done. simpl. destruct Hg as ((_ & _ & Hs & Hpos & _) & _).
  rewrite rt_classic by done. done.
Qed.

(** ** Arbitrary bytes *)
Definition vm_consistent (vm : vendor_manager) : Prop :=
  exists names, vm_by_id vm = numbered names /\
     forall name v, vm_tags vm !! name = Some v -> v ∈ numbered names /\ v_name v = name.

Lemma dec_vendors_inv P input rest vm : dec_vendors P input = Done (rest, vm) ->
  vm_consistent vm /\ exists pre, input = pre ++ rest /\ (1 <= length pre)%nat.
Proof.
  unfold dec_vendors. intros H. inv_bind H. destruct x as [mid len].
  inv_bind H. inv_bind H. inv_bind H. destruct x1 as [[i2 vm2] id2]. injection H as <- <-.
  apply (rep_N_inv _ (fun k '(inp, vm, id) => suffix_of inp mid /\ id = N.of_nat k /\
     exists names, length names = k /\ vm_by_id vm = numbered names /\
     forall name v, vm_tags vm !! name = Some v -> v ∈ numbered names /\ v_name v = name)) in E2.
  - destruct E2 as ([p ->] & _ & names & _ & H1 & H2). split; [by exists names|].
    apply dec_usize_eats in E as (pre & -> & Hp). exists (pre ++ p). rewrite app_length, <- app_assoc.
    split; [done|lia].
  - split; [apply suffix_refl|]. split; [done|]. exists []. split; [done|]. split; [done|].
    intros n v. simpl. by rewrite lookup_empty.
  - intros k [[inp vm] id] [[inp' vm'] id'] Hk (H1 & -> & names & Hn & H2 & H3) Hf.
    inv_bind Hf. destruct x1 as [ni name]. injection Hf as <- <- <-.
    split; [eapply suffix_trans; [by eapply eats_suffix; [apply dec_str_eats|]|done]|].
    split; [lia|]. exists (names ++ [name]). split; [rewrite app_length; simpl; lia|].
    rewrite numbered_snoc. simpl. unfold lenN. rewrite Hn. split; [by rewrite H2|].
    intros n v. rewrite lookup_insert_Some, elem_of_app, elem_of_list_singleton.
    intros [[<- <-]|[_ Hv]]; [by auto|]. apply H3 in Hv as [? ?]. auto.
Qed.
Lemma dec_vendors_eats P : eats 1 (dec_vendors P).
Proof. intros i r v H. by apply dec_vendors_inv in H as [_ H]. Qed.
Lemma dec_vendors_no_stuck P : no_stuck (dec_vendors P).
Proof.
  intros i. unfold dec_vendors.
  destruct (dec_usize P i) as [[mid len]| | |] eqn:E; simpl; try done; [|by apply dec_usize_no_stuck in E].
  destruct (with_capacity P KVendorMap len) eqn:Ec; simpl; try done; [|by apply with_capacity_not_stuck in Ec].
  destruct (with_capacity P KVendorVec len) eqn:Ec'; simpl; try done; [|by apply with_capacity_not_stuck in Ec'].
  rewrite rep_N_nat.
  match goal with |- context [rep_nat ?n ?f ?s] => assert (Hr : rep_nat n f s <> Stuck) end.
  { apply rep_nat_not_stuck. intros [[inp vm] id]. pose proof (dec_str_no_stuck P inp).
    by destruct (dec_str P inp) as [[? ?]| | |]. }
  destruct (rep_nat _ _ _) as [[[? ?] ?]| | |]; done.
Qed.

Lemma dec_product_inv P sid vm input rest p : dec_product P sid vm input = Done (rest, p) ->
  p_sid p = sid /\ (exists j, vm_by_id vm !! j = Some (p_vendor p)) /\
  exists pre, input = pre ++ rest /\ (4 <= length pre)%nat.
Proof.
  unfold dec_product. intros H. inv_bind H. destruct x as [i1 d]. inv_bind H. destruct x as [i2 t].
  inv_bind H. destruct x as [i3 id]. inv_bind H. destruct x as [i4 vid]. inv_bind H.
  injection H as <- <-. split; [done|]. split.
  { simpl. apply of_opt_Done in E3. rewrite getN_lookup in E3. by eexists. }
  apply dec_str_eats in E as (p1 & -> & H1). apply dec_str_eats in E0 as (p2 & -> & H2).
  apply dec_str_eats in E1 as (p3 & -> & H3). apply dec_usize_eats in E2 as (p4 & -> & H4).
  exists (p1 ++ p2 ++ p3 ++ p4). rewrite !app_length, <- !app_assoc. split; [done|lia].
Qed.
Lemma of_opt_not_stuck {A} (o : option A) : of_opt o <> Stuck.
Proof. by destruct o. Qed.
Lemma dec_product_no_stuck P sid vm : no_stuck (dec_product P sid vm).
Proof.
  intros i. unfold dec_product.
  destruct (dec_str P i) as [[i1 ?]| | |] eqn:E1; simpl; try done; [|by apply dec_str_no_stuck in E1].
  destruct (dec_str P i1) as [[i2 ?]| | |] eqn:E2; simpl; try done; [|by apply dec_str_no_stuck in E2].
  destruct (dec_str P i2) as [[i3 ?]| | |] eqn:E3; simpl; try done; [|by apply dec_str_no_stuck in E3].
  destruct (dec_usize P i3) as [[i4 ?]| | |] eqn:E4; simpl; try done; [|by apply dec_usize_no_stuck in E4].
  by destruct (getN _ _).
Qed.

Lemma dec_feature_eats P : eats 2 (dec_feature P).
Proof.
  intros i r v H. unfold dec_feature in H. inv_bind H. destruct x as [i1 id].
  apply dec_u8_eats in E as (p1 & -> & H1).
  destruct id as [|[q|[q|q|]|]]; try done; inv_bind H; destruct x as [i2 d]; injection H as <- <-.
  - apply (dec_vec_eats _ _ 1) in E as (p2 & -> & H2); [|apply dec_str_eats].
    exists (p1 ++ p2). rewrite app_length, <- app_assoc. split; [done|lia].
  - apply (dec_vec_eats _ _ 1) in E as (p2 & -> & H2); [|apply dec_u32_eats].
    exists (p1 ++ p2). rewrite app_length, <- app_assoc. split; [done|lia].
  - apply (dec_vec_eats _ _ 4) in E as (p2 & -> & H2); [|apply dec_f32_eats].
    exists (p1 ++ p2). rewrite app_length, <- app_assoc. split; [done|lia].
Qed.
Lemma dec_feature_no_stuck P : no_stuck (dec_feature P).
Proof.
  intros i. unfold dec_feature.
  destruct (dec_u8 i) as [[i1 id]| | |] eqn:E1; simpl; try done; [|by apply dec_u8_no_stuck in E1].
  destruct id as [|[q|[q|q|]|]]; try done.
  - pose proof (dec_vec_no_stuck P KStrings _ (dec_str_no_stuck P) i1). by destruct (dec_vec _ _ _ _) as [[? ?]| | |].
  - pose proof (dec_vec_no_stuck P KInts _ dec_u32_no_stuck i1). by destruct (dec_vec _ _ _ _) as [[? ?]| | |].
  - pose proof (dec_vec_no_stuck P KFloats _ dec_f32_no_stuck i1). by destruct (dec_vec _ _ _ _) as [[? ?]| | |].
Qed.
Lemma dec_features_eats P : eats 1 (dec_features P).
Proof.
  apply dec_map_eats; [eapply eats_weaken; [apply dec_str_eats|lia]|eapply eats_weaken; [apply dec_feature_eats|lia]].
Qed.
Lemma dec_features_no_stuck P : no_stuck (dec_features P).
Proof. apply dec_map_no_stuck; [apply dec_str_no_stuck|apply dec_feature_no_stuck]. Qed.

Lemma positions_snoc ps p : positions ps -> p_sid p = lenN ps -> positions (ps ++ [p]).
Proof.
  intros H Hp i q Hq. apply lookup_app_Some in Hq as [Hq|[Hl Hq]]; [by apply H|].
  apply list_lookup_singleton_Some in Hq as [Hi <-]. rewrite Hp. unfold lenN. lia.
Qed.
Lemma dec_container_inv P input rest c : dec_container P input = Done (rest, c) ->
  consistent_container c /\ exists pre, input = pre ++ rest /\ (3 <= length pre)%nat.
Proof.
  unfold dec_container. intros H. inv_bind H. destruct x as [i1 vm]. inv_bind H. destruct x as [i2 count].
  inv_bind H. destruct x as [[i3 ps] id]. inv_bind H. destruct x as [i4 fs]. injection H as <- <-.
  apply (rep_N_inv _ (fun k '(inp, ps, id) => suffix_of inp i2 /\ id = N.of_nat k /\ length ps = k /\
     positions ps /\ Forall (fun p => exists j, vm_by_id vm !! j = Some (p_vendor p)) ps)) in E1.
  - destruct E1 as ([p ->] & _ & _ & Hpos & Hv). apply dec_vendors_inv in E as [Hvm (p1 & -> & H1)].
    split.
    + split; [done|]. split; [done|]. simpl. destruct Hvm as (names & Hby & _).
      eapply Forall_impl; [exact Hv|]. intros q [j Hj]. rewrite Hby in *.
      apply numbered_lookup. apply numbered_lookup in Hj as (n & Hn & ->). simpl.
      exists n. by rewrite Nat2N.id.
    + apply dec_usize_eats in E0 as (p2 & -> & H2). apply dec_features_eats in E2 as (p4 & -> & H4).
      exists (p1 ++ p2 ++ p ++ p4). rewrite !app_length, <- !app_assoc. split; [done|lia].
  - split; [apply suffix_refl|]. split; [done|]. split; [done|]. split; [|constructor].
    intros i q Hq. done.
  - intros k [[inp ps'] id'] [[inp' ps''] id''] Hk (H1 & -> & Hl & Hpos & Hv) Hf.
    inv_bind Hf. destruct x as [ni p]. injection Hf as <- <- <-.
    apply dec_product_inv in E3 as (Hsid & Hj & pre & -> & _).
    split; [eapply suffix_trans; [by exists pre|done]|]. split; [lia|].
    split; [rewrite app_length; simpl; lia|]. split.
    + apply positions_snoc; [done|]. unfold lenN. by rewrite Hl.
    + apply Forall_app. split; [done|]. by constructor.
Qed.
Lemma dec_container_no_stuck P : no_stuck (dec_container P).
Proof.
  intros i. unfold dec_container.
  destruct (dec_vendors P i) as [[i1 vm]| | |] eqn:E1; simpl; try done; [|by apply dec_vendors_no_stuck in E1].
  destruct (dec_usize P i1) as [[i2 len]| | |] eqn:E2; simpl; try done; [|by apply dec_usize_no_stuck in E2].
  rewrite rep_N_nat.
  match goal with |- context [rep_nat ?n ?f ?s] => assert (Hr : rep_nat n f s <> Stuck) end.
  { apply rep_nat_not_stuck. intros [[inp ps] id]. pose proof (dec_product_no_stuck P id vm inp).
    by destruct (dec_product P id vm inp) as [[? ?]| | |]. }
  destruct (rep_nat _ _ _) as [[[i3 ps] id]| | |]; simpl; try done.
  pose proof (dec_features_no_stuck P i3). by destruct (dec_features P i3) as [[? ?]| | |].
Qed.

Lemma getN_elem {A} (l : list A) i x : getN l i = Some x -> x ∈ l.
Proof. rewrite getN_lookup. apply elem_of_list_lookup_2. Qed.
Lemma dec_product_refs_inv P ps input rest l ids : positions ps ->
  dec_product_refs P ps input = Done (rest, (l, ids)) ->
  Forall (fun p => p ∈ ps) l /\ ids = map p_sid l /\
  dec_seq P input = Done (rest, ids) /\ exists pre, input = pre ++ rest /\ (1 <= length pre)%nat.
Proof.
  unfold dec_product_refs. intros Hpos H. inv_bind H. destruct x as [i1 ids'].
  inv_bind H. inv_bind H. injection H as <- <- <-.
  apply mapR_Done in E1. split; [|split; [|split]].
  - apply Forall_forall. intros p Hp. apply elem_of_list_lookup in Hp as [i Hi].
    destruct (Forall2_lookup_r _ _ _ _ _ E1 Hi) as (id & _ & Hg). apply of_opt_Done in Hg. by eapply getN_elem.
  - apply list_eq. intros i. change (map p_sid x0) with (p_sid <$> x0). rewrite list_lookup_fmap.
    destruct (x0 !! i) as [p|] eqn:Ep.
    + destruct (Forall2_lookup_r _ _ _ _ _ E1 Ep) as (id & Hid & Hg). rewrite Hid. simpl. f_equal.
      apply of_opt_Done in Hg. rewrite getN_lookup in Hg. apply Hpos in Hg. rewrite Hg. lia.
    + simpl. apply lookup_ge_None. apply lookup_ge_None in Ep. by rewrite (Forall2_length _ _ _ E1).
  - done.
  - by apply dec_seq_eats in E.
Qed.
Lemma dec_product_refs_no_stuck P ps : no_stuck (dec_product_refs P ps).
Proof.
  intros i. unfold dec_product_refs.
  destruct (dec_seq P i) as [[i1 ids]| | |] eqn:E1; simpl; try done; [|by apply dec_seq_no_stuck in E1].
  destruct (with_capacity _ _ _) eqn:Ec; simpl; try done; [|by apply with_capacity_not_stuck in Ec].
  assert (Hr : mapR (fun id => of_opt (getN ps id)) ids <> Stuck).
  { apply mapR_not_stuck. intros x _. apply of_opt_not_stuck. }
  by destruct (mapR _ _).
Qed.
Lemma dec_product_refs_eats P ps : eats 1 (dec_product_refs P ps).
Proof.
  intros i r v H. unfold dec_product_refs in H. inv_bind H. destruct x as [i1 ids].
  inv_bind H. inv_bind H. injection H as <- <-. by apply dec_seq_eats in E.
Qed.

Lemma dec_gram_index_inv P n input rest gi : dec_gram_index P n input = Done (rest, gi) ->
  consistent_gram_index n gi.
Proof.
  unfold dec_gram_index. intros H. inv_bind H. destruct x as [i1 c]. inv_bind H. destruct x as [i2 roots].
  inv_bind H. destruct x as [i3 data]. injection H as <- <-.
  apply dec_container_inv in E as [Hc _]. split; [done|]. simpl.
  assert (He : eats 0 (fun input => '(input, (products, _)) ← dec_product_refs P (c_products c) input;
                    Done (input, products))).
  { intros i r v H. inv_bind H. destruct x as [i4 [l ids]]. injection H as <- <-.
    eapply (eats_weaken 1 0); [apply dec_product_refs_eats|lia|done]. }
  apply (dec_map_inv _ _ _ _ _ _ _ (fun g l => length g = n /\ valid_str g /\ Forall (fun p => p ∈ c_products c) l)) in E1
    as (mid & len & _ & _ & H).
  - intros g l Hg. by apply H in Hg.
  - eapply eats_weaken; [apply dec_array_eats|lia]. eapply eats_weaken; [apply dec_char_eats|lia].
  - done.
  - intros i r g r' l Hg Hl.
    apply (dec_array_inv _ _ _ _ _ _ (fun c => is_scalar c = true)) in Hg as (m & _ & H1 & _ & H2).
    + split; [done|]. split; [done|]. inv_bind Hl. destruct x as [i4 [l' ids]]. injection Hl as <- <-.
      apply dec_product_refs_inv in E; [|apply Hc]. tauto.
    + eapply eats_weaken; [apply dec_char_eats|lia].
    + apply dec_char_gives.
Qed.
Lemma dec_gram_index_no_stuck P n : no_stuck (dec_gram_index P n).
Proof.
  intros i. unfold dec_gram_index.
  destruct (dec_container P i) as [[i1 c]| | |] eqn:E1; simpl; try done; [|by apply dec_container_no_stuck in E1].
  destruct (dec_map P KRootMap _ _ i1) as [[i2 r]| | |] eqn:E2; simpl; try done.
  2: { apply dec_map_no_stuck in E2; [done|apply dec_char_no_stuck|apply dec_node_not_stuck]. }
  match goal with |- context [dec_map ?P ?k ?d ?v ?i] => destruct (dec_map P k d v i) as [[i3 d']| | |] eqn:E3 end; simpl; try done.
  apply dec_map_no_stuck in E3; [done|apply dec_array_no_stuck, dec_char_no_stuck|].
  intros j. pose proof (dec_product_refs_no_stuck P (c_products c) j).
  by destruct (dec_product_refs _ _ _) as [[? [? ?]]| | |].
Qed.

Lemma dec_category_inv P ps next input rest c next' : positions ps ->
  dec_category P ps next input = Done (rest, (c, next')) ->
  Forall (consistent_option ps) (cat_options c) /\
  (forall i o, cat_options c !! i = Some o -> o_sid o = next + N.of_nat i) /\
  next' = next + lenN (cat_options c).
Proof.
  unfold dec_category. intros Hpos H. inv_bind H. destruct x as [i1 ex]. inv_bind H. destruct x as [i2 name].
  inv_bind H. destruct x as [i3 len]. inv_bind H. inv_bind H. destruct x0 as [[i4 os] nx].
  injection H as <- <- <-. simpl.
  apply (rep_N_inv _ (fun k '(inp, os, id) => length os = k /\ id = next + N.of_nat k /\
     Forall (consistent_option ps) os /\ (forall i o, os !! i = Some o -> o_sid o = next + N.of_nat i))) in E3.
  - destruct E3 as (H1 & H2 & H3 & H4). split; [done|]. split; [done|]. unfold lenN. lia.
  - split; [done|]. split; [lia|]. split; [constructor|]. done.
  - intros k [[inp os'] id] [[inp' os''] id'] Hk (H1 & -> & H3 & H4) Hf.
    inv_bind Hf. destruct x0 as [i5 nm]. inv_bind Hf. destruct x0 as [i6 [l ids]]. injection Hf as <- <- <-.
    apply dec_product_refs_inv in E5 as (Hl & -> & _); [|done].
    split; [rewrite app_length; simpl; lia|]. split; [lia|]. split.
    + apply Forall_app. split; [done|]. constructor; [|constructor]. split; [done|]. done.
    + intros i o Ho. apply lookup_app_Some in Ho as [Ho|[Hi Ho]]; [by apply H4|].
      apply list_lookup_singleton_Some in Ho as [Hz <-]. simpl. lia.
Qed.
Lemma dec_category_eats P ps next : eats 1 (dec_category P ps next).
Proof.
  intros i r v. unfold dec_category. intros H. inv_bind H. destruct x as [i1 ex]. inv_bind H. destruct x as [i2 name].
  inv_bind H. destruct x as [i3 len]. inv_bind H. inv_bind H. destruct x0 as [[i4 os] nx].
  injection H as <- <-.
  apply (rep_N_inv _ (fun k '(inp, os, id) => suffix_of inp i3)) in E3.
  - destruct E3 as [p4 ->]. apply dec_bool_eats in E as (p1 & -> & H1).
    apply dec_str_eats in E0 as (p2 & -> & H2). apply dec_usize_eats in E1 as (p3 & -> & H3).
    exists (p1 ++ p2 ++ p3 ++ p4). rewrite !app_length, <- !app_assoc. split; [done|lia].
  - apply suffix_refl.
  - intros k [[inp os'] id] [[inp' os''] id'] Hk H1 Hf.
    inv_bind Hf. destruct x0 as [i5 nm]. inv_bind Hf. destruct x0 as [i6 [l ids]]. injection Hf as <- <- <-.
    apply dec_str_eats in E4 as (p5 & -> & _). apply dec_product_refs_eats in E5 as (p6 & -> & _).
    eapply suffix_trans; [|exact H1]. exists (p5 ++ p6). by rewrite <- app_assoc.
Qed.
Lemma dec_category_no_stuck P ps next : no_stuck (dec_category P ps next).
Proof.
  intros i. unfold dec_category.
  destruct (dec_bool i) as [[i1 ?]| | |] eqn:E1; simpl; try done; [|by apply dec_bool_no_stuck in E1].
  destruct (dec_str P i1) as [[i2 ?]| | |] eqn:E2; simpl; try done; [|by apply dec_str_no_stuck in E2].
  destruct (dec_usize P i2) as [[i3 len]| | |] eqn:E3; simpl; try done; [|by apply dec_usize_no_stuck in E3].
  destruct (with_capacity _ _ _) eqn:Ec; simpl; try done; [|by apply with_capacity_not_stuck in Ec].
  rewrite rep_N_nat.
  match goal with |- context [rep_nat ?n ?f ?s] => assert (Hr : rep_nat n f s <> Stuck) end.
  { apply rep_nat_not_stuck. intros [[inp os] id]. pose proof (dec_str_no_stuck P inp).
    destruct (dec_str P inp) as [[i4 ?]| | |]; simpl; try done.
    pose proof (dec_product_refs_no_stuck P ps i4). by destruct (dec_product_refs _ _ _) as [[? [? ?]]| | |]. }
  destruct (rep_nat _ _ _) as [[[? ?] ?]| | |]; done.
Qed.
Lemma dec_categories_inv P ps input rest cs : positions ps ->
  dec_categories P ps input = Done (rest, cs) ->
  Forall (consistent_option ps) (all_options cs) /\ option_positions cs.
Proof.
  unfold dec_categories. intros Hpos H. inv_bind H. destruct x as [i1 len]. inv_bind H. inv_bind H.
  destruct x0 as [[i2 cs'] nx]. injection H as <- <-.
  apply (rep_N_inv _ (fun k '(inp, cs, id) => id = lenN (all_options cs) /\
    Forall (consistent_option ps) (all_options cs) /\ option_positions cs)) in E1.
  - tauto.
  - split; [done|]. split; [constructor|done].
  - intros k [[inp cs1] id] [[inp' cs2] id'] Hk (-> & H1 & H2) Hf.
    inv_bind Hf. destruct x0 as [i3 [c nx']]. injection Hf as <- <- <-.
    apply dec_category_inv in E2 as (H3 & H4 & ->); [|done].
    assert (Ha : all_options (cs1 ++ [c]) = all_options cs1 ++ cat_options c).
    { unfold all_options. rewrite map_app, concat_app. simpl. by rewrite app_nil_r. }
    unfold option_positions. rewrite Ha. split; [by rewrite lenN_app|].
    split; [by apply Forall_app|].
    intros i o Ho. apply lookup_app_Some in Ho as [Ho|[Hi Ho]]; [by apply H2|].
    apply H4 in Ho. rewrite Ho. unfold lenN. lia.
Qed.
Lemma dec_categories_no_stuck P ps : no_stuck (dec_categories P ps).
Proof.
  intros i. unfold dec_categories.
  destruct (dec_usize P i) as [[i3 len]| | |] eqn:E3; simpl; try done; [|by apply dec_usize_no_stuck in E3].
  destruct (with_capacity _ _ _) eqn:Ec; simpl; try done; [|by apply with_capacity_not_stuck in Ec].
  rewrite rep_N_nat.
  match goal with |- context [rep_nat ?n ?f ?s] => assert (Hr : rep_nat n f s <> Stuck) end.
  { apply rep_nat_not_stuck. intros [[inp os] id]. pose proof (dec_category_no_stuck P ps id inp).
    by destruct (dec_category P ps id inp) as [[? [? ?]]| | |]. }
  destruct (rep_nat _ _ _) as [[[? ?] ?]| | |]; done.
Qed.

Lemma dec_tags_inv P ps input rest ts : positions ps -> dec_tags P ps input = Done (rest, ts) ->
  Forall (consistent_tag ps) ts /\ tag_positions ts.
Proof.
  unfold dec_tags. intros Hpos H. inv_bind H. destruct x as [i1 len]. inv_bind H. inv_bind H.
  destruct x0 as [[i2 ts'] nx]. injection H as <- <-.
  apply (rep_N_inv _ (fun k '(inp, ts, id) => length ts = k /\ id = N.of_nat k /\
     Forall (consistent_tag ps) ts /\ tag_positions ts)) in E1.
  - tauto.
  - split; [done|]. split; [done|]. split; [constructor|done].
  - intros k [[inp ts1] id] [[inp' ts2] id'] Hk (H1 & -> & H3 & H4) Hf.
    inv_bind Hf. destruct x0 as [i5 nm]. inv_bind Hf. destruct x0 as [i6 [l ids]]. injection Hf as <- <- <-.
    apply dec_product_refs_inv in E3 as (Hl & -> & _); [|done].
    split; [rewrite app_length; simpl; lia|]. split; [lia|]. split.
    + apply Forall_app. split; [done|]. constructor; [|constructor]. by split.
    + intros i t Ht. apply lookup_app_Some in Ht as [Ht|[Hi Ht]]; [by apply H4|].
      apply list_lookup_singleton_Some in Ht as [Hz <-]. simpl. lia.
Qed.
Lemma dec_tags_no_stuck P ps : no_stuck (dec_tags P ps).
Proof.
  intros i. unfold dec_tags.
  destruct (dec_usize P i) as [[i3 len]| | |] eqn:E3; simpl; try done; [|by apply dec_usize_no_stuck in E3].
  destruct (with_capacity _ _ _) eqn:Ec; simpl; try done; [|by apply with_capacity_not_stuck in Ec].
  rewrite rep_N_nat.
  match goal with |- context [rep_nat ?n ?f ?s] => assert (Hr : rep_nat n f s <> Stuck) end.
  { apply rep_nat_not_stuck. intros [[inp os] id]. pose proof (dec_str_no_stuck P inp).
    destruct (dec_str P inp) as [[i4 ?]| | |]; simpl; try done.
    pose proof (dec_product_refs_no_stuck P ps i4). by destruct (dec_product_refs _ _ _) as [[? [? ?]]| | |]. }
  destruct (rep_nat _ _ _) as [[[? ?] ?]| | |]; done.
Qed.
Lemma dec_orders_no_stuck P : no_stuck (dec_orders P).
Proof.
  apply dec_map_no_stuck; [apply dec_str_no_stuck|]. apply dec_vec_no_stuck, dec_usize_no_stuck.
Qed.
Lemma dec_classic_inv P c input rest cl : positions (c_products c) ->
  dec_classic P c input = Done (rest, cl) -> consistent_classic (c_products c) cl.
Proof.
  unfold dec_classic. intros Hpos H. inv_bind H. destruct x as [i1 cs]. inv_bind H. destruct x as [i2 ts].
  inv_bind H. destruct x as [i3 oi]. injection H as <- <-.
  apply dec_categories_inv in E as [H1 H2]; [|done]. apply dec_tags_inv in E0 as [H3 H4]; [|done].
  by repeat split.
Qed.
Lemma dec_classic_no_stuck P c : no_stuck (dec_classic P c).
Proof.
  intros i. unfold dec_classic.
  destruct (dec_categories P _ i) as [[i1 ?]| | |] eqn:E1; simpl; try done; [|by apply dec_categories_no_stuck in E1].
  destruct (dec_tags P _ i1) as [[i2 ?]| | |] eqn:E2; simpl; try done; [|by apply dec_tags_no_stuck in E2].
  destruct (dec_orders P i2) as [[i3 ?]| | |] eqn:E3; simpl; try done; [by apply dec_orders_no_stuck in E3].
Qed.

Lemma load_terminates P n bs : deserialize_all P n bs <> Stuck.
Proof.
  unfold deserialize_all.
  destruct (dec_gram_index P n bs) as [[i1 gi]| | |] eqn:E1; simpl; try done; [|by apply dec_gram_index_no_stuck in E1].
  destruct (dec_classic P _ i1) as [[i2 ?]| | |] eqn:E2; simpl; try done; [by apply dec_classic_no_stuck in E2].
Qed.
Lemma load_consistent P n bs gi cl : deserialize_all P n bs = Done (gi, cl) ->
  consistent_gram_index n gi /\ consistent_classic (c_products (gi_container gi)) cl.
Proof.
  unfold deserialize_all. intros H. inv_bind H. destruct x as [i1 gi']. inv_bind H. destruct x as [i2 cl'].
  injection H as <- <-. apply dec_gram_index_inv in E. split; [done|].
  eapply dec_classic_inv; [|done]. apply E.
Qed.
