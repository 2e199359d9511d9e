(** The length of a file does not depend on hash orders. *)
From Verif.model Require Import Base F32 Utf8 Prim Coll Data Gram Indexer Nodes Classic Lit Raw Js Lib.
From Verif.spec Require Import Spec Gram_spec Samples Cost_spec.
From Verif.proofs Require Import Base_facts Sort_facts File_facts Size_facts.
From Coq Require Import ZifyBool ZifyNat ZifyN.
Ltac Zify.zify_post_hook ::= Z.div_mod_to_equations.

Lemma concat_map_length {A B} (f : A -> list B) l : length (concat (map f l)) = list_sum (map (fun x => length (f x)) l).
Proof. by rewrite concat_length, map_map. Qed.
Lemma sum_map_perm {A} (f : A -> nat) l1 l2 : l1 ≡ₚ l2 -> list_sum (map f l1) = list_sum (map f l2).
Proof. intros E. apply list_sum_perm. by apply Permutation_map. Qed.

(** [enc_map] *)
Lemma enc_map_length `{Countable K} {V} (o : order_of (K * V)) enck encv (m : gmap K V) : valid_order o ->
  length (enc_map o enck encv m) =
  (length (enc_usize (N.of_nat (size m))) +
   list_sum (map (fun '(k, v) => length (enck k) + length (encv v)) (map_to_list m)))%nat.
Proof.
  intros Ho. unfold enc_map. rewrite app_length, concat_map_length. f_equal.
  rewrite (sum_map_perm _ _ _ (Ho (map_to_list m))). f_equal. apply map_ext. intros [k v]. apply app_length.
Qed.
Lemma enc_vendors_length o vm : valid_order o ->
  length (enc_vendors o vm) =
  (length (enc_usize (N.of_nat (size (vm_tags vm)))) +
   list_sum (map (fun '(_, v) => length (enc_vendor v)) (map_to_list (vm_tags vm))))%nat.
Proof.
  intros Ho. unfold enc_vendors. rewrite app_length, concat_map_length. f_equal.
  - f_equal. f_equal. unfold lenN. rewrite sort_by_length, map_length. rewrite (Ho (map_to_list (vm_tags vm))). reflexivity.
  - rewrite (sum_map_perm _ _ _ (sort_by_perm _ _)), map_map, (sum_map_perm _ _ _ (Ho (map_to_list (vm_tags vm)))).
    f_equal. apply map_ext. by intros [].
Qed.

(** ** The trie *)
Lemma mapR_sums {A B} (f1 f2 : A -> res B) (s : B -> nat) l1 l2 r1 r2 : l1 ≡ₚ l2 ->
  mapR f1 l1 = Done r1 -> mapR f2 l2 = Done r2 ->
  (forall x a b, f1 x = Done a -> f2 x = Done b -> s a = s b) ->
  list_sum (map s r1) = list_sum (map s r2) /\ length r1 = length r2.
Proof.
  intros E H1 H2 Hs. pose proof (mapR_length _ _ _ H1) as L1. pose proof (mapR_length _ _ _ H2) as L2.
  pose proof (Permutation_length E).
  apply mapR_Done in H1, H2.
  symmetry in E. destruct (Permutation_Forall2 E H2) as (r2' & E' & H2'). split; [|lia].
  rewrite (sum_map_perm s _ _ E'). f_equal. clear -H1 H2' Hs. revert r2' H2'.
  induction H1 as [|x a l1 r1 Ha _ IH]; intros r2' H2; inversion H2; subst; [done|].
  cbn [map]. f_equal; [by eapply Hs|by apply IH].
Qed.
Lemma enc_node_length item weight children :
  length (enc_node (Node item weight children)) =
  (length (enc_char item) + 4 + (length (enc_usize (lenN children)) +
   list_sum (map (fun nd => length (enc_node nd)) children)))%nat.
Proof. cbn [enc_node]. rewrite !app_length, concat_map_length. cbn [enc_f32 length]. lia. Qed.
Lemma immutalize_length o1 o2 h : (forall a, valid_order (o1 a)) -> (forall a, valid_order (o2 a)) ->
  forall fuel a p1 p2 nd1 nd2,
  immutalize o1 h fuel a p1 = Done nd1 -> immutalize o2 h fuel a p2 = Done nd2 ->
  length (enc_node nd1) = length (enc_node nd2).
Proof.
  intros Ho1 Ho2. induction fuel as [|fuel IH]; intros a p1 p2 nd1 nd2; [done|]. cbn [immutalize].
  destruct (h_nodes h !! a) as [me|]; [|done]. cbn [unwrap mbind res_bind].
  destruct (mapR (fun '(_, v) => immutalize o1 h fuel v (m_occ me)) (o1 a (map_to_list (m_items me)))) as [r1| | |] eqn:E1; try done.
  destruct (mapR (fun '(_, v) => immutalize o2 h fuel v (m_occ me)) (o2 a (map_to_list (m_items me)))) as [r2| | |] eqn:E2; try done.
  cbn [mbind res_bind]. intros [= <-] [= <-]. rewrite !enc_node_length.
  destruct (mapR_sums _ _ (fun nd => length (enc_node nd)) _ _ r1 r2 ltac:(etrans; [apply Ho1|symmetry; apply Ho2]) E1 E2)
    as [Es El].
  { intros [g v] x y. apply IH. }
  unfold lenN. rewrite !sort_by_length, El.
  rewrite !(sum_map_perm (fun nd => length (enc_node nd)) _ _ (sort_by_perm _ _)). by rewrite Es.
Qed.

Definition root_bytes (roots : list (N * node)) : nat :=
  list_sum (map (fun '(k, v) => length (enc_char k) + length (enc_node v))%nat roots).
Lemma index_from_length P n o1 o2 source pc gi1 gi2 : valid_build_order o1 -> valid_build_order o2 ->
  index_from P n o1 source pc = Done gi1 -> index_from P n o2 source pc = Done gi2 ->
  gi_container gi1 = pc /\ gi_container gi2 = pc /\ gi_data gi1 = gi_data gi2 /\
  size (gi_roots gi1) = size (gi_roots gi2) /\
  root_bytes (map_to_list (gi_roots gi1)) = root_bytes (map_to_list (gi_roots gi2)).
Proof.
  intros (Hc1 & Hr1 & _) (Hc2 & Hr2 & _). unfold index_from.
  destruct (foldM (index_feed P n) source istate_init) as [st| | |]; try done. cbn [mbind res_bind].
  destruct (mapR _ (bo_root o1 _)) as [occs1| | |]; try done. cbn [mbind res_bind].
  destruct (foldM _ occs1 0) as [t1| | |]; try done. cbn [mbind res_bind].
  destruct (mapR (fun '(k, v) => nd ← immutalize (bo_children o1) (i_heap st) (S n) v t1; Done (k, nd)) (bo_root o1 _))
    as [r1| | |] eqn:E1; try done. cbn [mbind res_bind]. intros [= <-].
  destruct (mapR _ (bo_root o2 _)) as [occs2| | |]; try done. cbn [mbind res_bind].
  destruct (foldM _ occs2 0) as [t2| | |]; try done. cbn [mbind res_bind].
  destruct (mapR (fun '(k, v) => nd ← immutalize (bo_children o2) (i_heap st) (S n) v t2; Done (k, nd)) (bo_root o2 _))
    as [r2| | |] eqn:E2; try done. cbn [mbind res_bind]. intros [= <-].
  cbn [gi_container gi_data gi_roots]. do 3 (split; [done|]).
  assert (K : forall o t r, valid_order (bo_root o) ->
    mapR (fun '(k, v) => nd ← immutalize (bo_children o) (i_heap st) (S n) v t; Done (k, nd))
      (bo_root o (map_to_list (i_root st))) = Done r ->
    NoDup (map fst r) /\ length r = size (i_root st)).
  { intros o t r Ho E. split.
    - apply mapR_Done in E.
      assert (map fst r = map fst (bo_root o (map_to_list (i_root st)))) as ->.
      { clear -E. induction E as [|[k v] [k' nd] l r H _ IH]; [done|]. cbn [map fst]. f_equal; [|done].
        destruct (immutalize _ _ _ _ _) as [x| | |]; try done. by injection H. }
      rewrite (Ho (map_to_list (i_root st))). apply NoDup_fst_map_to_list.
    - rewrite (mapR_length _ _ _ E), (Ho (map_to_list (i_root st))). reflexivity. }
  destruct (K _ _ _ Hr1 E1) as [N1 L1]. destruct (K _ _ _ Hr2 E2) as [N2 L2].
  destruct (mapR_sums _ _ (fun '(k, v) => length (enc_char k) + length (enc_node v))%nat _ _ r1 r2
     ltac:(etrans; [apply Hr1|symmetry; apply Hr2]) E1 E2) as [Es El].
  { intros [g v] x y Hx Hy.
    destruct (immutalize (bo_children o1) (i_heap st) (S n) v t1) as [x'| | |] eqn:Ex; try done.
    destruct (immutalize (bo_children o2) (i_heap st) (S n) v t2) as [y'| | |] eqn:Ey; try done.
    injection Hx as <-. injection Hy as <-. by rewrite (immutalize_length _ _ _ Hc1 Hc2 _ _ _ _ _ _ Ex Ey). }
  unfold root_bytes, size, map_size. rewrite !(map_to_list_to_map r1), !(map_to_list_to_map r2) by done. done.
Qed.

(** ** The catalogue and the classic indexes *)
Lemma optimize_orders parse o1 o2 input c1 cl1 c2 cl2 : valid_build_order o1 -> valid_build_order o2 ->
  optimize parse o1 input = Done (c1, cl1) -> optimize parse o2 input = Done (c2, cl2) ->
  c1 = c2 /\ cl_categories cl1 = cl_categories cl2 /\ cl_order cl1 = cl_order cl2 /\
  length (enc_tags (cl_tags cl1)) = length (enc_tags (cl_tags cl2)).
Proof.
  intros (_ & _ & H1) (_ & _ & H2). unfold optimize.
  set (vendors := foldl _ vm_new input).
  destruct (foldM (optimize_step parse vendors) input (OptState 0 [] ∅ [] [])) as [st| | |]; try done.
  cbn [mbind res_bind]. set (out := Container _ _ _).
  unfold tag_index_build. destruct (foldM _ (os_tags st) (0, ∅)) as [[id m]| | |]; try done. cbn [mbind res_bind].
  destruct (order_add ∅ out _ _ _) as [ord1| | |]; try done. cbn [mbind res_bind].
  destruct (order_add ord1 out _ _ _) as [ord2| | |]; try done. cbn [mbind res_bind].
  destruct (order_add_custom_cmp ord2 out _ _ _) as [ord3| | |]; try done. cbn [mbind res_bind].
  destruct (category_index_build _ out) as [cats| | |]; try done. cbn [mbind res_bind].
  intros [= <- <-] [= <- <-]. cbn [cl_categories cl_order cl_tags]. do 3 (split; [done|]).
  assert (T : forall l : list (rstr * list product), length (enc_tags (imap (fun id '(name, products) => tag_new name products (N.of_nat id)) l)) =
    (length (enc_usize (lenN l)) + list_sum (map (fun '(name, products) => length (enc_str name ++ enc_product_refs products)) l))%nat).
  { intros l. unfold enc_tags, enc_vec, lenN. rewrite app_length, concat_map_length, imap_length. f_equal. f_equal.
    assert (G : forall k, map (fun x => length (enc_tag x)) (imap (fun id '(name, products) => tag_new name products (N.of_nat (k + id))) l) =
      map (fun '(name, products) => length (enc_str name ++ enc_product_refs products)) l).
    { induction l as [|[name products] l IH]; intros k; [done|]. cbn [imap map]. f_equal.
      rewrite <- (IH (S k)). f_equal. apply imap_ext. intros i [name' products'] _. cbn. do 2 f_equal. lia. }
    apply (G 0%nat). }
  rewrite !T. unfold lenN. rewrite (H1 (map_to_list m)), (H2 (map_to_list m)).
  done.
Qed.

Lemma serialize_all_length so gi cl : valid_ser_order so ->
  length (serialize_all so gi cl) =
  (length (enc_container no_order no_order (gi_container gi)) +
   (length (enc_usize (N.of_nat (size (gi_roots gi)))) + root_bytes (map_to_list (gi_roots gi))) +
   length (enc_map no_order (enc_array enc_char) enc_product_refs (gi_data gi)) +
   length (enc_categories (cl_categories cl)) + length (enc_tags (cl_tags cl)) +
   length (enc_orders no_order (cl_order cl)))%nat.
Proof.
  intros (Hv & Hf & Hr & Hd & Ho). unfold serialize_all, enc_gram_index, enc_classic, enc_container, enc_features, enc_orders.
  rewrite !app_length, !enc_map_length, !enc_vendors_length by (done || by intros l). unfold root_bytes. lia.
Qed.
Lemma file_length low parse P n bo1 bo2 ro1 ro2 so1 so2 input bytes1 bytes2 :
  valid_build_order bo1 -> valid_build_order bo2 -> valid_ser_order so1 -> valid_ser_order so2 ->
  index_and_serialize_with_n low parse P n bo1 ro1 so1 input = Done bytes1 ->
  index_and_serialize_with_n low parse P n bo2 ro2 so2 input = Done bytes2 ->
  length bytes1 = length bytes2.
Proof.
  intros Hb1 Hb2 Hs1 Hs2. unfold index_and_serialize_with_n.
  destruct (optimize parse bo1 input) as [[c1 cl1]| | |] eqn:O1; try done. cbn [mbind res_bind].
  destruct (index_from P n bo1 _ c1) as [gi1| | |] eqn:I1; try done. cbn [mbind res_bind].
  destruct (gram_search n ro1 gi1 _) as [r1| | |]; try done. cbn [mbind res_bind]. intros [= <-].
  destruct (optimize parse bo2 input) as [[c2 cl2]| | |] eqn:O2; try done. cbn [mbind res_bind].
  destruct (index_from P n bo2 _ c2) as [gi2| | |] eqn:I2; try done. cbn [mbind res_bind].
  destruct (gram_search n ro2 gi2 _) as [r2| | |]; try done. cbn [mbind res_bind]. intros [= <-].
  destruct (optimize_orders _ _ _ _ _ _ _ _ Hb1 Hb2 O1 O2) as (<- & Ec & Eo & Et).
  destruct (index_from_length _ _ _ _ _ _ _ _ Hb1 Hb2 I1 I2) as (Ep1 & Ep2 & Ed & Es & Er).
  rewrite !serialize_all_length by done. by rewrite Ep1, Ep2, Ed, Es, Er, Ec, Eo, Et.
Qed.
