(** Facts about the samples, counterexamples, and corollaries in the shape of the properties. *)
From Verif.model Require Import Base F32 Utf8 Prim Coll Data Gram Nodes Classic Lib.
From Verif.spec Require Import Spec Data_spec Samples.
From Verif.proofs Require Import Base_facts Sort_facts Prim_facts Prim_codec Utf8_facts Coll_facts Data_facts File_facts Data_more.
From Coq Require Import ZifyBool ZifyNat ZifyN Sorting.Sorted.
Ltac Zify.zify_post_hook ::= Z.div_mod_to_equations.

(** ** Vendors *)
Lemma first_seen_spec A (EA : EqDecision A) (names : list A) :
  NoDup (first_seen names) /\ (forall x, x ∈ first_seen names <-> x ∈ names) /\
  (forall (l : list A) x, x ∉ l -> first_seen (l ++ [x]) = first_seen l ++ [x]) /\
  (forall (l : list A) x, x ∈ l -> first_seen (l ++ [x]) = first_seen l).
Proof.
  split; [apply first_seen_NoDup|]. split; [intros; apply first_seen_elem|].
  split; intros l x Hx; rewrite first_seen_snoc; [by rewrite decide_False|by rewrite decide_True].
Qed.
Lemma filter_all {A} (P : A -> Prop) `{forall x, Decision (P x)} l : Forall P l -> filter P l = l.
Proof. induction 1; [done|]. rewrite filter_cons_True by done. by f_equal. Qed.
Lemma first_seen_id `{EqDecision A} (l : list A)  : NoDup l -> first_seen l = l.
Proof.
  induction 1 as [|x l Hx Hl IH]; simpl; [done|]. rewrite IH. f_equal.
  apply filter_all. apply Forall_forall. intros y Hy ->. done.
Qed.
Lemma get_or_insert_spec names vm name : vendors_are names vm ->
  let '(vm', v) := vm_get_or_insert vm name in
  v_name v = name /\ vm_get vm' name = Some v /\
  vm_by_id vm' !! N.to_nat (v_id v) = Some v /\
  vendors_are (first_seen (names ++ [name])) vm'.
Proof.
  intros H. destruct (vm_get_or_insert vm name) as [vm' v] eqn:E.
  pose proof (vm_get_or_insert_fst vm name) as H1. pose proof (vm_get_or_insert_snd vm name) as H2.
  pose proof (vm_get_or_insert_vendor names vm name H) as [H3 H4].
  pose proof (vm_insert_are names vm name H) as H5. rewrite E in *. simpl in *. subst vm'.
  split; [done|]. split; [done|]. split; [done|]. rewrite first_seen_snoc.
  rewrite (first_seen_id names) by apply H. done.
Qed.
Lemma first_seen_length `{EqDecision A} (l : list A)  : (length (first_seen l) <= length l)%nat.
Proof.
  induction l as [|x l IH]; simpl; [lia|].
  pose proof (filter_length (fun y => y <> x) (first_seen l)). lia.
Qed.
Lemma inserts_ok P names : Forall (str_ok P) names ->
  len_ok P KVendorMap (lenN names) -> len_ok P KVendorVec (lenN names) ->
  vendors_ok P (foldl vm_insert vm_new names).
Proof.
  intros H1 H2 H3. exists (first_seen names). split; [apply vm_inserts_are|].
  pose proof (first_seen_length names). unfold len_ok, size_ok, lenN in *.
  split; [|lia]. rewrite Forall_forall in *. intros x Hx. apply H1. by apply first_seen_elem.
Qed.

(** ** What is stored *)
Lemma what_is_stored c :
  c_vendors (stored_container c) = c_vendors c /\ c_features (stored_container c) = c_features c /\
  length (c_products (stored_container c)) = length (c_products c) /\
  forall i p, c_products c !! i = Some p ->
    exists p', c_products (stored_container c) !! i = Some p' /\
      p_title p' = p_title p /\ p_id p' = p_id p /\ p_vendor p' = p_vendor p /\ p_sid p' = p_sid p /\
      (exists t, p_description p = p_description p' ++ t) /\
      (str_len (p_description p) <= 100 -> p_description p' = p_description p).
Proof.
  split; [done|]. split; [done|]. split; [apply map_length|]. intros i p Hp. exists (stored p).
  split; [simpl; change (map stored) with (fmap (M := list) stored); by rewrite list_lookup_fmap, Hp|].
  do 4 (split; [done|]). split; [apply limit_prefix|]. intros H. by apply limit_short.
Qed.
Lemma by_sid_total : total_cmp by_sid.
Proof. apply (total_cmp_on p_sid), N_compare_total. Qed.
Lemma stored_refs_perm l : stored_refs l ≡ₚ map stored l.
Proof. unfold stored_refs. apply Permutation_map. apply sort_by_perm. Qed.
Lemma sorted_in_order l : StronglySorted (le_cmp by_sid) l -> in_order l.
Proof.
  unfold in_order. induction 1 as [|x l Hl IH Hx]; simpl; [done|]. split; [|done].
  apply Forall_fmap. eapply Forall_impl; [exact Hx|]. intros y. unfold le_cmp, by_sid. cbv [compose].
  rewrite N.compare_le_iff. done.
Qed.
Lemma stored_refs_in_order l : ascending (map p_sid (stored_refs l)).
Proof.
  unfold stored_refs. rewrite map_map.
  change (map (fun x => p_sid (stored x)) (sort_by by_sid l)) with (map p_sid (sort_by by_sid l)).
  apply sorted_in_order. apply sort_by_total_sorted. apply by_sid_total.
Qed.
Lemma what_is_stored_index gi :
  gi_roots (stored_gram_index gi) = gi_roots gi /\
  gi_container (stored_gram_index gi) = stored_container (gi_container gi) /\
  (forall g, gi_data gi !! g = None -> gi_data (stored_gram_index gi) !! g = None) /\
  (forall g l, gi_data gi !! g = Some l -> exists l', gi_data (stored_gram_index gi) !! g = Some l' /\
     l' ≡ₚ map stored l /\ ascending (map p_sid l')).
Proof.
  split; [done|]. split; [done|]. split.
  - intros g Hg. simpl. by rewrite lookup_fmap, Hg.
  - intros g l Hg. exists (stored_refs l). simpl. rewrite lookup_fmap, Hg.
    split; [done|]. split; [apply stored_refs_perm|apply stored_refs_in_order].
Qed.
Lemma stored_options_Forall2 next os :
  Forall2 (fun o o' => o_name o' = o_name o /\ o_ids o' = o_ids o /\
          o_content o' ≡ₚ map stored (o_content o) /\ ascending (map p_sid (o_content o')))
        os (stored_options next os).
Proof.
  revert next. induction os as [|o os IH]; intros next; simpl; constructor; [|apply IH].
  split; [done|]. split; [done|]. split; [apply stored_refs_perm|apply stored_refs_in_order].
Qed.
Lemma stored_options_sids next os i o : stored_options next os !! i = Some o -> o_sid o = next + N.of_nat i.
Proof.
  revert next i. induction os as [|o' os IH]; intros next [|i]; simpl; try done.
  - intros [= <-]. simpl. lia.
  - intros H. apply IH in H. lia.
Qed.
Lemma stored_options_length next os : length (stored_options next os) = length os.
Proof. revert next. induction os; intros; simpl; [done|]. by rewrite IHos. Qed.
Lemma stored_categories_sids next cs i o :
  all_options (stored_categories next cs) !! i = Some o -> o_sid o = next + N.of_nat i.
Proof.
  revert next i. induction cs as [|c cs IH]; intros next i; simpl; [done|].
  unfold all_options. simpl. intros H. apply lookup_app_Some in H as [H|[Hi H]].
  - by apply stored_options_sids in H.
  - apply IH in H. rewrite stored_options_length in *. unfold lenN in *. lia.
Qed.
Lemma what_is_stored_classic cl :
  cl_order (stored_classic cl) = cl_order cl /\
  Forall2 (fun t t' => t_name t' = t_name t /\ t_id t' = t_id t /\ t_ids t' = t_ids t /\
      t_products t' ≡ₚ map stored (t_products t) /\ ascending (map p_sid (t_products t')))
    (cl_tags cl) (cl_tags (stored_classic cl)) /\
  Forall2 (fun c c' => cat_name c' = cat_name c /\ cat_exclusive c' = cat_exclusive c /\
      Forall2 (fun o o' => o_name o' = o_name o /\ o_ids o' = o_ids o /\
          o_content o' ≡ₚ map stored (o_content o) /\ ascending (map p_sid (o_content o')))
        (cat_options c) (cat_options c'))
    (cl_categories cl) (cl_categories (stored_classic cl)) /\
  option_positions (cl_categories (stored_classic cl)).
Proof.
  split; [done|]. split; [|split].
  - simpl. apply Forall2_self. intros t _. split; [done|]. split; [done|]. split; [done|].
    split; [apply stored_refs_perm|apply stored_refs_in_order].
  - simpl. generalize 0. induction (cl_categories cl) as [|c cs IH]; intros next; simpl; constructor; [|apply IH].
    split; [done|]. split; [done|]. apply stored_options_Forall2.
  - intros i o H. apply stored_categories_sids in H. lia.
Qed.

(** ** The samples are storable *)
Lemma no_order_valid {A} : valid_order (@no_order A).
Proof. intros l. done. Qed.
Lemma rev_order_valid {A} : valid_order (@rev_order A).
Proof. intros l. symmetry. apply Permutation_rev. Qed.
Lemma sample_order_valid : valid_ser_order sample_order.
Proof.
  split; [apply rev_order_valid|]. split; [apply no_order_valid|]. split; [apply rev_order_valid|].
  split; [apply no_order_valid|apply rev_order_valid].
Qed.
Lemma valid_str_bool s : forallb is_scalar s = true -> valid_str s.
Proof.
  intros H. unfold valid_str. apply Forall_forall. intros c Hc. rewrite forallb_forall in H.
  apply H. by apply elem_of_list_In.
Qed.
Lemma str_ok_bool P s : forallb is_scalar s = true -> (str_len s <? 2 ^ 56) = true ->
  (str_len s <=? usize_max P) = true -> str_ok P s.
Proof. intros H1 H2%N.ltb_lt H3%N.leb_le. split; [by apply valid_str_bool|done]. Qed.
Lemma size_ok_bool P n : (n <? 2 ^ 56) = true -> (n <=? usize_max P) = true -> size_ok P n.
Proof. intros H2%N.ltb_lt H3%N.leb_le. done. Qed.
Lemma len_ok_bool P k n : (n <? 2 ^ 56) = true -> (n <=? usize_max P) = true ->
  (n <=? cap_max P k) = true -> len_ok P k n.
Proof. intros H2%N.ltb_lt H3%N.leb_le H4%N.leb_le. done. Qed.
Lemma le_bool (a b : N) : (a <=? b) = true -> a <= b.
Proof. apply N.leb_le. Qed.
Lemma lt_bool (a b : N) : (a <? b) = true -> a < b.
Proof. apply N.ltb_lt. Qed.
Lemma no_entry `{Countable K} {V} (k : K) (v : V) : (∅ : gmap K V) !! k = Some v -> False.
Proof. by rewrite lookup_empty. Qed.
(** Closing goals about concrete strings and numbers. *)
Ltac concrete :=
  repeat match goal with
  | |- Forall _ (_ :: _) => apply Forall_cons; split
  | |- Forall _ [] => apply Forall_nil_2
  | |- Forall _ (cat_options _) => cbn [cat_options]
  | |- Forall _ (o_content _) => cbn [o_content]
  | |- Forall _ (t_products _) => cbn [t_products]
  | |- str_ok _ _ => apply str_ok_bool; vm_compute; reflexivity
  | |- len_ok _ _ _ => apply len_ok_bool; vm_compute; reflexivity
  | |- size_ok _ _ => apply size_ok_bool; vm_compute; reflexivity
  | |- valid_f32 _ => vm_compute; reflexivity
  | |- valid_str _ => apply valid_str_bool; vm_compute; reflexivity
  | |- _ <= _ => apply le_bool; vm_compute; reflexivity
  | |- _ < _ => apply lt_bool; vm_compute; reflexivity
  | |- _ /\ _ => split
  end.
Ltac member := solve [reflexivity | repeat first [apply elem_of_list_here | apply elem_of_list_further]].
Definition fits (P : platform) : Prop := P = wasm32 \/ P = host64.
Lemma sample_vendors_gen P : fits P -> vendors_ok P sample_vendors.
Proof.
  intros HP. unfold sample_vendors. apply inserts_ok; destruct HP as [->| ->]; concrete.
Qed.
Lemma sample_features_gen P : fits P -> features_ok P sample_features.
Proof.
  intros HP. split; [destruct HP as [->| ->]; concrete|].
  intros key f H. unfold sample_features in H.
  apply lookup_insert_Some in H as [[<- <-]|[_ H]].
  { unfold feature_ok. destruct HP as [->| ->]; concrete. }
  apply lookup_insert_Some in H as [[<- <-]|[_ H]].
  { unfold feature_ok. destruct HP as [->| ->]; concrete. }
  by apply no_entry in H.
Qed.
Lemma sample_positions : positions (c_products sample_container).
Proof. intros [|[|[|i]]] p; simpl; try done; intros [= <-]; done. Qed.
Lemma sample_container_gen P : fits P -> container_ok P sample_container.
Proof.
  intros HP. split; [by apply sample_vendors_gen|]. split; [by apply sample_features_gen|].
  split; [destruct HP as [->| ->]; concrete|]. split; [apply sample_positions|].
  split; [|destruct HP as [->| ->]; concrete].
  unfold product_ok. cbn [c_products c_vendors sample_container]. destruct HP as [->| ->]; concrete; vm_compute; reflexivity.
Qed.
Lemma node_ok_leaf P item w : fits P -> is_scalar item = true -> valid_f32 w -> node_ok P (Node item w []).
Proof. intros HP H1 H2. constructor; [done|done|destruct HP as [->| ->]; concrete|constructor]. Qed.
Lemma sample_index_gen P : fits P -> gram_index_ok P 2 sample_index.
Proof.
  intros HP. split; [by apply sample_container_gen|].
  split; [destruct HP as [->| ->]; concrete|]. split.
  { intros c nd H. cbn [gi_roots sample_index] in H. apply lookup_insert_Some in H as [[<- <-]|[_ H]]; [|by apply no_entry in H].
    split; [done|]. constructor; [done|done|destruct HP as [->| ->]; concrete|].
    constructor; [by apply node_ok_leaf|]. constructor; [by apply node_ok_leaf|constructor]. }
  split; [destruct HP as [->| ->]; concrete|]. split; [destruct HP as [->| ->]; concrete|].
  intros g l H. unfold refs_ok. cbn [gi_data gi_container sample_index c_products sample_container] in *. apply lookup_insert_Some in H as [[<- <-]|[_ H]].
  { split; [done|]. split; [concrete|]. split; [repeat (constructor; [member|]); constructor|].
    destruct HP as [->| ->]; concrete. }
  apply lookup_insert_Some in H as [[<- <-]|[_ H]]; [|by apply no_entry in H].
  split; [done|]. split; [concrete|]. split; [repeat (constructor; [member|]); constructor|].
  destruct HP as [->| ->]; concrete.
Qed.
Lemma sample_classic_gen P : fits P -> classic_ok P (c_products sample_container) sample_classic.
Proof.
  intros HP. split; [destruct HP as [->| ->]; concrete|]. split.
  { unfold category_ok, option_ok, refs_ok. cbn [cl_categories sample_classic c_products sample_container]. unfold sample_categories, sample_option. cbn [cat_name cat_options o_name o_content o_ids]. destruct HP as [->| ->];
      concrete; member. }
  split; [destruct HP as [->| ->]; concrete|]. split.
  { unfold tag_ok, refs_ok. cbn [cl_tags sample_classic c_products sample_container]. unfold sample_tags. cbn [t_name t_products t_ids]. destruct HP as [->| ->]; concrete; member. }
  split; [intros [|i] t; simpl; [by intros [= <-]|done]|].
  split; [destruct HP as [->| ->]; concrete|].
  intros key r H. cbn [cl_order sample_classic] in H. unfold sample_orders in H. apply lookup_insert_Some in H as [[<- <-]|[_ H]]; [|by apply no_entry in H].
  destruct HP as [->| ->]; concrete.
Qed.
Lemma sample_vendors_ok : vendors_ok wasm32 sample_vendors.
Proof. apply sample_vendors_gen. by left. Qed.
Lemma sample_features_ok : features_ok wasm32 sample_features.
Proof. apply sample_features_gen. by left. Qed.
Lemma sample_container_ok : container_ok wasm32 sample_container.
Proof. apply sample_container_gen. by left. Qed.
Lemma sample_index_ok : gram_index_ok wasm32 2 sample_index.
Proof. apply sample_index_gen. by left. Qed.
Lemma sample_index_ok64 : gram_index_ok host64 2 sample_index.
Proof. apply sample_index_gen. by right. Qed.
Lemma sample_classic_ok : classic_ok wasm32 (c_products sample_container) sample_classic.
Proof. apply sample_classic_gen. by left. Qed.
Lemma sample_classic_ok64 : classic_ok host64 (c_products sample_container) sample_classic.
Proof. apply sample_classic_gen. by right. Qed.

(** ** Counterexamples and corollaries *)
Lemma reload_not_equal : exists P o gi raw cats,
  valid_ser_order o /\ gram_index_ok P 2 gi /\
  category_index_build raw (gi_container gi) = Done cats /\
  exists gi' cl', deserialize_all P 2 (serialize_all o gi (Classic cats [] ∅)) = Done (gi', cl') /\
    classic_eqb (Classic cats [] ∅) cl' = false.
Proof.
  exists wasm32, sample_order, sample_index, sample_raw_options.
  eexists. split; [exact sample_order_valid|]. split; [exact sample_index_ok|].
  split; [vm_compute; reflexivity|].
  eexists _, _. split; [vm_compute; reflexivity|]. vm_compute. reflexivity.
Qed.
Lemma sample_reload_hyps : let cl := stored_classic sample_classic in
  option_positions (cl_categories cl) /\
  Forall (fun o => in_order (o_content o) /\ Forall description_survives (o_content o)) (all_options (cl_categories cl)) /\
  Forall (fun t => in_order (t_products t) /\ Forall description_survives (t_products t)) (cl_tags cl).
Proof.
  cbv zeta. split; [apply what_is_stored_classic|].
  assert (Hin : forall l, in_order (stored_refs l)) by (intros l; apply stored_refs_in_order).
  assert (Hs : Forall description_survives (map stored [sample_p0; sample_p1; sample_p2])).
  { cbn [map]. constructor; [right; vm_compute; discriminate|].
    constructor; [left; vm_compute; reflexivity|]. constructor; [right; vm_compute; discriminate|constructor]. }
  assert (Hr : forall l, Forall (fun p => p ∈ [sample_p0; sample_p1; sample_p2]) l -> Forall description_survives (stored_refs l)).
  { intros l Hl. rewrite stored_refs_perm. rewrite Forall_forall in *. intros p Hp.
    apply elem_of_list_fmap in Hp as (q & -> & Hq). apply Hs. apply elem_of_list_fmap_1. by apply Hl. }
  assert (Ho : forall l, Forall (fun p => p ∈ [sample_p0; sample_p1; sample_p2]) l ->
    in_order (stored_refs l) /\ Forall description_survives (stored_refs l)) by (split; auto).
  split.
  - unfold all_options. simpl. repeat (constructor; [simpl; apply Ho; repeat (constructor; [member|]); constructor|]). constructor.
  - simpl. constructor; [|constructor]. apply Ho. repeat (constructor; [member|]); constructor.
Qed.
Lemma file_any_target P Q n o gi cl rest : valid_ser_order o ->
  gram_index_ok P n gi -> classic_ok P (c_products (gi_container gi)) cl ->
  gram_index_ok Q n gi -> classic_ok Q (c_products (gi_container gi)) cl ->
  deserialize_all P n (serialize_all o gi cl ++ rest) = deserialize_all Q n (serialize_all o gi cl).
Proof.
  intros Ho H1 H2 H3 H4. rewrite file_roundtrip by done.
  rewrite <- (app_nil_r (serialize_all o gi cl)). by rewrite file_roundtrip.
Qed.
Lemma load_panics : exists P n bs, Forall is_byte bs /\ deserialize_all P n bs = Panic.
Proof. exists wasm32, 2%nat, [1; 5; 65]. split; [repeat constructor; done|]. vm_compute. done. Qed.
Lemma written_no_panic P n o gi cl rest : valid_ser_order o -> gram_index_ok P n gi ->
  classic_ok P (c_products (gi_container gi)) cl ->
  deserialize_all P n (serialize_all o gi cl ++ rest) <> Panic.
Proof. intros Ho H1 H2. by rewrite file_roundtrip. Qed.
Lemma numeric_id P p ds : trailing_digits (p_id p) ds ->
  ((length ds <= 19)%nat -> product_get_id P p = Done (digits_value ds)) /\
  (overflow_checks P = false -> product_get_id P p = Done (digits_value ds mod 2 ^ 64)) /\
  (overflow_checks P = true -> (19 < length ds)%nat -> product_get_id P p = Panic).
Proof.
  intros H. split; [intros; by apply get_id_exact|].
  split; [intros; by apply get_id_release|intros; by apply (get_id_checked P p ds)].
Qed.
Lemma app_cases {A} (a b c d : list A) : a ++ b = c ++ d ->
  (exists k, c = a ++ k /\ b = k ++ d) \/ (exists k, a = c ++ k /\ d = k ++ b).
Proof.
  revert c. induction a as [|x a IH]; intros c H; simpl in H.
  - left. by exists c.
  - destruct c as [|y c]; simpl in H; [right; by exists (x :: a)|].
    injection H as -> H. apply IH in H as [(k & -> & ->)|(k & -> & ->)]; [left|right]; by exists k.
Qed.
Lemma trailing_digits_le s ds ds' k : trailing_digits s ds -> Forall is_digit ds' -> ds' = k ++ ds ->
  (exists pre, s = pre ++ ds') -> k = [].
Proof.
  intros (Hd & pre & -> & Hp) Hd' -> [pre' E]. rewrite app_assoc in E. apply app_inv_tail in E.
  destruct k as [|c k _] using rev_ind; [done|]. exfalso.
  apply (Hp (pre' ++ k) c); [by rewrite <- app_assoc|].
  apply Forall_app in Hd' as [Hd' _]. apply Forall_app in Hd' as [_ Hc]. by inversion Hc.
Qed.
Lemma trailing_digits_unique s : exists ds, trailing_digits s ds /\
  forall ds', trailing_digits s ds' -> ds' = ds.
Proof.
  destruct (trailing_digits_exists s) as [ds H]. exists ds. split; [done|]. intros ds' H'.
  pose proof H as (Hd & pre & E & Hp). pose proof H' as (Hd' & pre' & E' & Hp').
  rewrite E in E'. destruct (app_cases _ _ _ _ E') as [(k & -> & ->)|(k & -> & ->)].
  - assert (k = []) as ->; [|done]. eapply (trailing_digits_le s ds' (k ++ ds')); [done|done|done|by exists pre].
  - assert (k = []) as ->; [|done]. eapply (trailing_digits_le s ds (k ++ ds)); [done|done|done|].
    exists pre'. rewrite E. by rewrite <- app_assoc.
Qed.
Lemma sample_trailing : trailing_digits (p_id sample_p1) [49; 50] /\ digits_value [49; 50] = 12.
Proof.
  split; [|done]. split; [repeat constructor; unfold is_digit; lia|].
  exists [103; 105; 100; 47]. split; [done|]. intros pre' c E.
  change [103; 105; 100; 47] with ([103; 105; 100] ++ [47]) in E. apply app_inj_tail in E as [_ <-].
  unfold is_digit. lia.
Qed.
Lemma product_eqb_not_trans : exists p q r,
  product_eqb p q = true /\ product_eqb q r = true /\ product_eqb p r = false.
Proof.
  exists (Product [97; 98] [] (Vendor [] 0) [] 0), (Product [97] [] (Vendor [] 0) [] 0),
    (Product [97; 99] [] (Vendor [] 0) [] 0). vm_compute. done.
Qed.
Lemma product_eqb_refl_sym :
  (forall p, product_eqb p p = true) /\ (forall p q, product_eqb p q = product_eqb q p).
Proof. split; [exact product_eqb_refl|exact product_eqb_sym]. Qed.
Lemma load_out_of_order : exists P bs gi cl, Forall is_byte bs /\
  deserialize_all P 2 bs = Done (gi, cl) /\
  ~ Forall (fun t => in_order (t_products t)) (cl_tags cl).
Proof.
  exists wasm32, wrapping_file. eexists _, _. split.
  { apply (Forall_impl (fun b => b <? 256 = true)); [|intros x Hx; by apply N.ltb_lt].
    apply Forall_forall. intros x Hx. apply elem_of_list_In in Hx. revert x Hx. apply forallb_forall.
    vm_compute. reflexivity. }
  split; [vm_compute; reflexivity|]. intros H. inversion H as [|t l Ht _]; subst. unfold in_order in Ht. simpl in Ht.
  destruct Ht as [Ht _]. inversion Ht as [|x l' Hx]; subst. lia.
Qed.
