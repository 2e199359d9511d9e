(** Facts about filters, handlers, iterators and results (model/Js.v). *)
From Verif.model Require Import Base F32 Utf8 Prim Coll Data Gram Indexer Nodes Classic Lit Raw Js.
From Verif.spec Require Import Spec Data_spec Classic_spec Raw_spec Js_spec.
From Verif.proofs Require Import Base_facts Data_facts Classic_facts Raw_facts Raw_props.

(** ** Handlers as filters *)
Lemma all_contain_spec {K} (test : K -> res bool) keys :
  (forall k, k ∈ keys -> exists b, test k = Done b) ->
  exists b, all_contain test keys = Done b /\ (b = true <-> forall k, k ∈ keys -> test k = Done true).
Proof.
  induction keys as [|k keys IH]; intros H; simpl.
  - exists true. split; [done|]. split; [|done]. intros _ k Hk. by apply elem_of_nil in Hk.
  - destruct (H k) as [b E]; [left|]. rewrite E. cbn [mbind res_bind].
    destruct IH as (b' & E' & I); [intros; apply H; by right|]. destruct b.
    + exists b'. split; [done|]. rewrite I. split.
      * intros A k' Hk'. apply elem_of_cons in Hk' as [->|Hk']; [done|by apply A].
      * intros A k' Hk'. apply A. by right.
    + exists false. split; [done|]. split; [done|]. intros A. rewrite (A k) in E; [done|left].
Qed.

Lemma ch_valid_spec o h p : valid_order o -> active_options_exist h ->
  exists b, ch_is_valid o h p = Done b /\ (b = true <-> has_options h (p_sid p)).
Proof.
  intros Ho Hex. unfold ch_is_valid.
  set (test := fun '(category, option) => _).
  assert (T : forall key cat opt, option_at (ch_handle h) key cat opt ->
    test key = Done (bool_decide (p_sid p ∈ o_ids opt))).
  { intros [k v] cat opt [Hc Ho']. unfold test. simpl in Hc, Ho'. assert (getN (cl_categories (ch_handle h)) k = Some cat) as -> by (rewrite getN_lookup; exact Hc).
    cbn [unwrap mbind res_bind]. rewrite getN_lookup, Ho'. done. }
  assert (In : forall key, key ∈ o (elements (ch_active h)) <-> key ∈ ch_active h).
  { intros key. rewrite (Ho (elements (ch_active h))). apply elem_of_elements. }
  destruct (all_contain_spec test (o (elements (ch_active h)))) as (b & E & I).
  { intros key Hk%In. destruct (Hex key Hk) as (cat & opt & A). eauto. }
  exists b. split; [done|]. rewrite I. split.
  - intros A key cat opt Hk Hat. assert (test key = Done true) as E1 by by apply A, In.
    rewrite (T _ _ _ Hat) in E1. injection E1 as E1. by apply bool_decide_eq_true in E1.
  - intros A key Hk%In. destruct (Hex key Hk) as (cat & opt & Hat). rewrite (T _ _ _ Hat). f_equal.
    apply bool_decide_eq_true. by apply (A key cat opt).
Qed.
Lemma th_valid_spec o h p : valid_order o -> active_tags_exist h ->
  exists b, th_is_valid o h p = Done b /\ (b = true <-> has_tags h (p_sid p)).
Proof.
  intros Ho Hex. unfold th_is_valid.
  set (test := fun id : N => unwrap _ ≫= _).
  assert (T : forall id t, tag_at (th_handle h) id t -> test id = Done (bool_decide (p_sid p ∈ t_ids t))).
  { intros id t Hat. unfold test.
    assert (getN (cl_tags (th_handle h)) id = Some t) as -> by (rewrite getN_lookup; exact Hat). done. }
  assert (In : forall id, id ∈ o (elements (th_active h)) <-> id ∈ th_active h).
  { intros key. rewrite (Ho (elements (th_active h))). apply elem_of_elements. }
  destruct (all_contain_spec test (o (elements (th_active h)))) as (b & E & I).
  { intros id Hk%In. destruct (Hex id Hk) as (t & A). eauto. }
  exists b. split; [done|]. rewrite I. split.
  - intros A id t Hk Hat. assert (test id = Done true) as E1 by by apply A, In.
    rewrite (T _ _ Hat) in E1. injection E1 as E1. by apply bool_decide_eq_true in E1.
  - intros A id Hk%In. destruct (Hex id Hk) as (t & Hat). rewrite (T _ _ Hat). f_equal.
    apply bool_decide_eq_true. by apply (A id t).
Qed.

(** Loading keeps names and id sets. *)
Lemma stored_options_lookup os : forall next i,
  stored_options next os !! i = (fun o => CatOption (o_name o) (next + N.of_nat i) (stored_refs (o_content o)) (o_ids o)) <$> os !! i.
Proof.
  induction os as [|x os IH]; intros next i; [done|]. destruct i as [|i]; simpl.
  - by rewrite N.add_0_r.
  - rewrite IH. destruct (os !! i); [|done]. simpl. do 2 f_equal. lia.
Qed.
Lemma stored_categories_lookup cs : forall next i, exists n,
  stored_categories next cs !! i = (fun c => Category (cat_name c) (stored_options n (cat_options c)) (cat_exclusive c)) <$> cs !! i.
Proof.
  induction cs as [|c cs IH]; intros next i; [by exists 0|]. destruct i as [|i]; simpl.
  - by exists next.
  - apply IH.
Qed.
Lemma option_at_stored cl handle key cat opt : same_classic cl handle -> option_at handle key cat opt ->
  exists cat' opt', option_at cl key cat' opt' /\ cat_name cat' = cat_name cat /\ o_name opt' = o_name opt /\ o_ids opt' = o_ids opt.
Proof.
  intros [->| ->] [Hc Ho]; [by exists cat, opt|]. simpl in Hc.
  destruct (stored_categories_lookup (cl_categories cl) 0 (N.to_nat key.1)) as [n E]. rewrite E in Hc.
  apply fmap_Some in Hc as (cat' & Hc & ->). simpl in Ho. rewrite stored_options_lookup in Ho.
  apply fmap_Some in Ho as (opt' & Ho & ->). exists cat', opt'. done.
Qed.
Lemma tag_at_stored cl handle id t : same_classic cl handle -> tag_at handle id t ->
  exists t', tag_at cl id t' /\ t_name t' = t_name t /\ t_ids t' = t_ids t.
Proof.
  intros [->| ->] H; [by exists t|]. unfold tag_at in *. simpl in H. rewrite list_lookup_fmap in H.
  apply fmap_Some in H as (t' & H & ->). by exists t'.
Qed.

(** C47, C48 *)
Section raw.
Context (parse : rstr -> option f32) (bo : build_order) (input : list raw_product) (c : container) (cl : classic).
Hypothesis E : optimize parse bo input = Done (c, cl).

Lemma option_lists key cat opt i : option_at cl key cat opt -> (i < length input)%nat ->
  N.of_nat i ∈ o_ids opt <-> lists_option (map r_options input) i (cat_name cat) (o_name opt).
Proof.
  intros [Hc Ho] Hi. destruct (optimize_products _ _ _ _ _ E) as [D W].
  destruct (optimize_categories _ _ _ _ _ E) as [_ C].
  destruct (C cat) as (_ & _ & O); [by eapply elem_of_list_lookup_2|].
  destruct (O opt) as (Sub & M & I & _); [by eapply elem_of_list_lookup_2|].
  destruct (lookup_lt_is_Some_2 (c_products c) i) as [p Hp].
  { rewrite <- (Forall2_length _ _ _ D). done. }
  rewrite <- (M i p Hp). rewrite I, elem_of_sids. split.
  - intros (q & Hq & Eq). assert (q ∈ c_products c) as Hq'.
    { eapply elem_of_submseteq; [exact Hq|by apply sublist_submseteq]. }
    rewrite <- (positions_apart (c_products c) q p); [done..| |].
    + by eapply elem_of_list_lookup_2.
    + rewrite (W _ _ Hp). done.
  - intros Hq. exists p. split; [done|]. by apply W.
Qed.
Lemma tag_lists id t i : valid_order (bo_tags bo) -> tag_at cl id t -> (i < length input)%nat ->
  N.of_nat i ∈ t_ids t <-> lists_tag (map r_tags input) i (t_name t).
Proof.
  intros Hb Ht Hi. destruct (optimize_products _ _ _ _ _ E) as [D W].
  destruct (optimize_tags _ _ _ _ _ Hb E) as (_ & _ & _ & T).
  destruct (T t) as (Own & M & I); [by eapply elem_of_list_lookup_2|].
  destruct (lookup_lt_is_Some_2 (c_products c) i) as [p Hp].
  { rewrite <- (Forall2_length _ _ _ D). done. }
  rewrite <- (M i p Hp). rewrite I, elem_of_sids. split.
  - intros (q & Hq & Eq). assert (q ∈ c_products c) as Hq'.
    { rewrite Own in Hq. apply tag_owners_elem in Hq as (j & Hj & _). by eapply elem_of_list_lookup_2. }
    rewrite <- (positions_apart (c_products c) q p); [done..| |].
    + by eapply elem_of_list_lookup_2.
    + rewrite (W _ _ Hp). done.
  - intros Hq. exists p. split; [done|]. by apply W.
Qed.
Lemma category_filter o h p i : valid_order o -> same_classic cl (ch_handle h) -> active_options_exist h ->
  p_sid p = N.of_nat i -> (i < length input)%nat ->
  exists b, ch_is_valid o h p = Done b /\
    (b = true <-> forall key cat opt, key ∈ ch_active h -> option_at (ch_handle h) key cat opt ->
       lists_option (map r_options input) i (cat_name cat) (o_name opt)).
Proof.
  intros Ho Hs Hex Hp Hi. destruct (ch_valid_spec o h p Ho Hex) as (b & Eb & I). exists b. split; [done|].
  rewrite I. unfold has_options. rewrite Hp.
  split; intros A key cat opt Hk Hat; destruct (option_at_stored _ _ _ _ _ Hs Hat) as (cat' & opt' & Hat' & E1 & E2 & E3).
  - rewrite <- E1, <- E2. rewrite <- (option_lists key cat' opt' i) by done. rewrite E3. by apply (A key cat opt).
  - rewrite <- E3. apply (option_lists key cat' opt' i); [done..|]. rewrite E1, E2. by apply (A key cat opt).
Qed.
Lemma tag_filter o h p i : valid_order o -> valid_order (bo_tags bo) -> same_classic cl (th_handle h) -> active_tags_exist h ->
  p_sid p = N.of_nat i -> (i < length input)%nat ->
  exists b, th_is_valid o h p = Done b /\
    (b = true <-> forall id t, id ∈ th_active h -> tag_at (th_handle h) id t ->
       lists_tag (map r_tags input) i (t_name t)).
Proof.
  intros Ho Hb Hs Hex Hp Hi. destruct (th_valid_spec o h p Ho Hex) as (b & Eb & I). exists b. split; [done|].
  rewrite I. unfold has_tags. rewrite Hp.
  split; intros A id t Hk Hat; destruct (tag_at_stored _ _ _ _ Hs Hat) as (t' & Hat' & E1 & E2).
  - rewrite <- E1. rewrite <- (tag_lists id t' i) by done. rewrite E2. by apply (A id t).
  - rewrite <- E2. apply (tag_lists id t' i); [done..|]. rewrite E1. by apply (A id t).
Qed.
End raw.

(** ** Filters by feature *)
Lemma get_js_numeric fs p key x :
  (v ← fs_get_js fs p key; as_f64 v) = Some x <-> numeric_at fs (N.to_nat (p_sid p)) key x.
Proof.
  unfold fs_get_js, numeric_at. destruct (fs !! key) as [[l|l|l]|] eqn:E; cbn [mbind option_bind].
  - rewrite getN_lookup. split.
    + destruct (l !! _); intros [=].
    + intros [(l' & v & [= ] & _)|(l' & v & [= ] & _)].
  - rewrite getN_lookup. split.
    + destruct (l !! _) as [v|] eqn:L; intros [= <-]. left. eauto 10.
    + intros [(l' & v & [= <-] & -> & ->)|(l' & v & [= ] & _)]. done.
  - rewrite getN_lookup. split.
    + destruct (l !! _) as [v|] eqn:L; intros [= <-]. right. eauto 10.
    + intros [(l' & v & [= ] & _)|(l' & v & [= <-] & -> & ->)]. done.
  - split; [done|]. intros [(l' & v & [= ] & _)|(l' & v & [= ] & _)].
Qed.
(** C49 *)
Lemma range_filter from to feature fs p :
  filter_accepts (FeatureFilter (Range from to) feature) fs p = true <->
  (~ is_number from /\ ~ is_number to) \/
  exists x, numeric_at fs (N.to_nat (p_sid p)) feature x /\ within from to x.
Proof.
  unfold filter_accepts. cbn [ff_data ff_feature].
  assert (N : forall v, (exists x, as_f64 v = Some x /\ v = JNum x) \/ (as_f64 v = None /\ ~ is_number v)).
  { intros v. destruct v; simpl; try (right; split; [done|]; intros [x [=]]). left. eauto. }
  set (found := (v ← fs_get_js fs p feature; as_f64 v)).
  assert (F : forall x, found = Some x <-> numeric_at fs (N.to_nat (p_sid p)) feature x) by apply get_js_numeric.
  clearbody found. unfold within.
  destruct (N from) as [(a & -> & ->)|[-> Na]], (N to) as [(b & -> & ->)|[-> Nb]].
  - split.
    + destruct found as [x|]; [|done]. intros [A B]%andb_prop. right. exists x. split; [by apply F|].
      split; intros ? [= <-]; done.
    + intros [[A _]|(x & Hx & A & B)]; [destruct A; by exists a|]. apply F in Hx as ->.
      apply andb_true_intro. split; [by apply A|by apply B].
  - split.
    + destruct found as [x|]; [|done]. intros A. right. exists x. split; [by apply F|].
      split; [intros ? [= <-]; done|]. intros b ->. destruct Nb. by exists b.
    + intros [[A _]|(x & Hx & A & B)]; [destruct A; by exists a|]. apply F in Hx as ->. by apply A.
  - split.
    + destruct found as [x|]; [|done]. intros A. right. exists x. split; [by apply F|].
      split; [|intros ? [= <-]; done]. intros a ->. destruct Na. by exists a.
    + intros [[_ A]|(x & Hx & A & B)]; [destruct A; by exists b|]. apply F in Hx as ->. by apply B.
  - split; [by left|done].
Qed.

(** C50, C51 *)
Lemma reflect_plain identity props key :
  reflect_get (JObj identity (map (fun '(k, v) => (k, Some v)) props)) key = Some (property props key).
Proof.
  simpl. induction props as [|[k v] props IH]; [done|]. simpl. unfold str_eqb in *. case_bool_decide as E.
  - rewrite decide_True; done.
  - rewrite decide_False; done.
Qed.
Lemma parse_plain feature v props : plain_object v props ->
  parse_entry (feature, v) = Some (FeatureFilter (Range (property props s_from) (property props s_to)) feature).
Proof. intros [identity ->]. unfold parse_entry. by rewrite !reflect_plain. Qed.
Lemma parse_not_object feature v : (forall identity props, v <> JObj identity props) -> parse_entry (feature, v) = None.
Proof. intros H. destruct v; try done. by destruct (H identity props). Qed.
Lemma parse_filters_Some entries filters : parse_filters entries = Some filters <-> Forall2 (fun e f => parse_entry e = Some f) entries filters.
Proof.
  revert filters. induction entries as [|e entries IH]; intros filters; simpl.
  - split; [intros [= <-]; constructor|]. by inversion 1.
  - split.
    + destruct (parse_entry e) as [f|] eqn:E; [|done]. cbn [mbind option_bind].
      destruct (parse_filters entries) as [fs|]; [|done]. intros [= <-]. constructor; [done|]. by apply IH.
    + inversion 1 as [|? f ? fs Hf Hfs]; subst. rewrite Hf. cbn [mbind option_bind]. apply IH in Hfs as ->. done.
Qed.
Lemma parse_filters_None entries : parse_filters entries = None <-> Exists (fun e => parse_entry e = None) entries.
Proof.
  induction entries as [|e entries IH]; simpl.
  - split; [done|]. by inversion 1.
  - rewrite Exists_cons, <- IH. destruct (parse_entry e) as [f|]; cbn [mbind option_bind].
    + destruct (parse_filters entries); naive_solver.
    + naive_solver.
Qed.
Lemma exact_filter v feature fs p :
  filter_accepts (FeatureFilter (Exact v) feature) fs p = true <->
  (exists s, v = JStr s /\ string_at fs (N.to_nat (p_sid p)) feature s) \/
  (exists x y, v = JNum y /\ numeric_at fs (N.to_nat (p_sid p)) feature x /\ SFeqb x y = true).
Proof.
  unfold filter_accepts. cbn [ff_data ff_feature]. unfold fs_get_js, string_at, numeric_at.
  destruct (fs !! feature) as [[l|l|l]|] eqn:E; cbn [mbind option_bind].
  - rewrite getN_lookup. destruct (l !! _) as [s|] eqn:L; cbn [fmap option_fmap option_map].
    + split.
      * destruct v; try done. simpl. unfold str_eqb. intros ->%bool_decide_eq_true. left. eauto.
      * intros [(s' & -> & l' & [= <-] & L')|(x & y & _ & [(l' & ? & [=] & _)|(l' & ? & [=] & _)] & _)].
        rewrite L in L'. injection L' as <-. simpl. unfold str_eqb. by apply bool_decide_eq_true.
    + split; [done|]. intros [(s' & -> & l' & [= <-] & L')|(x & y & _ & [(l' & ? & [=] & _)|(l' & ? & [=] & _)] & _)]. congruence.
  - rewrite getN_lookup. destruct (l !! _) as [n|] eqn:L; cbn [fmap option_fmap option_map].
    + split.
      * destruct v; try done. simpl. intros Eq. right. eexists _, _. split; [done|]. split; [|exact Eq]. left. eauto.
      * intros [(s' & -> & l' & [=] & L')|(x & y & -> & [(l' & n' & [= <-] & L' & ->)|(l' & ? & [=] & _)] & Eq)].
        rewrite L in L'. by injection L' as <-.
    + split; [done|]. intros [(s' & -> & l' & [=] & L')|(x & y & -> & [(l' & n' & [= <-] & L' & ->)|(l' & ? & [=] & _)] & Eq)]. congruence.
  - rewrite getN_lookup. destruct (l !! _) as [n|] eqn:L; cbn [fmap option_fmap option_map].
    + split.
      * destruct v; try done. simpl. intros Eq. right. eexists _, _. split; [done|]. split; [|exact Eq]. right. eauto.
      * intros [(s' & -> & l' & [=] & L')|(x & y & -> & [(l' & ? & [=] & _)|(l' & n' & [= <-] & L' & ->)] & Eq)].
        rewrite L in L'. by injection L' as <-.
    + split; [done|]. intros [(s' & -> & l' & [=] & L')|(x & y & -> & [(l' & ? & [=] & _)|(l' & n' & [= <-] & L' & ->)] & Eq)]. congruence.
  - split; [done|]. intros [(s' & -> & l' & [=] & L')|(x & y & _ & [(l' & ? & [=] & _)|(l' & ? & [=] & _)] & _)].
Qed.
Lemma exact_ignored v identity feature fs p :
  exists f, parse_entry (feature, JObj identity [(s_exact, Some v)]) = Some f /\ filter_accepts f fs p = true.
Proof. eexists. split; [reflexivity|]. done. Qed.

Lemma reflect_read identity props key : reflect_get (JObj identity props) key = read props key.
Proof.
  unfold reflect_get. induction props as [|[k r] props IH]; simpl; [done|].
  unfold str_eqb in *. case_decide as E; [by rewrite bool_decide_true|by rewrite bool_decide_false].
Qed.
Lemma entry_stands_for entry f : parse_entry entry = Some f <-> stands_for entry f.
Proof.
  destruct entry as [feature v]. unfold stands_for. cbn [fst snd]. split.
  - destruct v as [| | | | |identity props]; try done. unfold parse_entry. rewrite !reflect_read. intros H.
    exists identity, props. split; [done|].
    destruct (read props s_from) as [from|] eqn:E1.
    + destruct (read props s_to) as [to|] eqn:E2.
      * injection H as <-. left. eauto 6.
      * destruct (read props s_exact) as [x|] eqn:E3; [|done]. injection H as <-. right. eauto 6.
    + destruct (read props s_exact) as [x|] eqn:E3; [|done]. injection H as <-. right. eauto 6.
  - intros (identity & props & -> & H). unfold parse_entry. rewrite !reflect_read.
    destruct H as [(from & to & -> & -> & ->)|(x & Hn & -> & ->)]; [done|].
    destruct (read props s_from), (read props s_to); destruct Hn; done.
Qed.
Lemma filters_stand_for entries fs : parse_filters entries = Some fs <-> Forall2 stands_for entries fs.
Proof.
  revert fs. induction entries as [|e entries IH]; intros fs; cbn [parse_filters].
  - split; [intros [= <-]; constructor|by intros ->%Forall2_nil_inv_l].
  - split.
    + intros H. destruct (parse_entry e) as [f|] eqn:E; [|done]. cbn [mbind option_bind] in H.
      destruct (parse_filters entries) as [fs'|] eqn:E2; [|done]. injection H as <-.
      constructor; [by apply entry_stands_for|by apply IH].
    + intros (f & fs' & H1 & H2 & ->)%Forall2_cons_inv_l. apply entry_stands_for in H1. apply IH in H2. by rewrite H1, H2.
Qed.

(** ** Toggles and observers *)
Section observers.
Context `{Countable K}.
Lemma toggle_key_active (active : gset K) k k' :
  k' ∈ (toggle_key active k).1 <-> (if decide (k = k') then k' ∉ active else k' ∈ active).
Proof.
  unfold toggle_key. case_decide as A; simpl; case_decide as B; subst; set_solver.
Qed.
Lemma toggle_key_state (active : gset K) k : (toggle_key active k).2 = true <-> k ∉ active.
Proof. unfold toggle_key. by case_decide. Qed.
Lemma add_observer_lookup (m : gmap K (list N)) k f k' :
  default [] (add_observer m k f !! k') = if decide (k = k') then default [] (m !! k') ++ [f] else default [] (m !! k').
Proof.
  unfold add_observer. destruct (m !! k) as [l|] eqn:E; case_decide; subst;
    rewrite ?lookup_insert, ?lookup_insert_ne by done; try done; by rewrite E.
Qed.
Lemma position_Some f l i : position f l = Some i -> l !! i = Some f.
Proof.
  revert i. induction l as [|x l IH]; intros i; simpl; [done|]. destruct (N.eqb_spec f x) as [->|Ne].
  - by intros [= <-].
  - destruct (position f l) as [j|]; intros [= <-]. by apply IH.
Qed.
Lemma position_None f l : position f l = None -> f ∉ l.
Proof.
  induction l as [|x l IH]; simpl; [intros _ Hin; by apply elem_of_nil in Hin|]. destruct (N.eqb_spec f x) as [->|Ne]; [done|].
  intros E. apply fmap_None in E. apply not_elem_of_cons. split; [done|by apply IH].
Qed.
Lemma without_one_perm f l k : f ∈ l -> l ≡ₚ f :: k -> without_one f l ≡ₚ k.
Proof.
  intros Hf E. enough (A : l ≡ₚ f :: without_one f l) by (rewrite A in E; by apply Permutation_cons_inv in E).
  clear E. induction l as [|x l IH]; [by apply elem_of_nil in Hf|]. simpl. case_decide as D; [by subst|].
  apply elem_of_cons in Hf as [->|Hf]; [done|]. rewrite (IH Hf) at 1. constructor.
Qed.
Lemma without_one_none f l : f ∉ l -> without_one f l = l.
Proof.
  induction l as [|x l IH]; [done|]. intros [Ne Hn]%not_elem_of_cons. simpl. rewrite decide_False by done. by rewrite IH.
Qed.
Lemma swap_remove_perm {A} (l : list A) i x : l !! i = Some x -> l ≡ₚ x :: swap_remove l i.
Proof.
  intros E. unfold swap_remove. destruct (last l) as [y|] eqn:L.
  2: { apply last_None in L as ->. done. }
  apply last_Some in L as [k ->]. destruct (decide (i < length k)%nat) as [Hi|Hi].
  - rewrite lookup_app_l in E by done. rewrite insert_app_l by done. rewrite removelast_last.
    rewrite (Permutation_app_comm k [y]). simpl.
    rewrite <- (list_insert_id k i x E) at 1.
    assert (P : y :: <[i:=x]> k ≡ₚ x :: <[i:=y]> k); [|exact P].
    revert k E Hi. induction i as [|i IH]; intros [|z k] E Hi; simpl in *; try lia.
    + constructor.
    +
      transitivity (z :: y :: <[i:=x]> k); [constructor|]. rewrite (IH k) by (done || lia). constructor.
  - assert (i = length k) as ->. { apply lookup_lt_Some in E. rewrite app_length in E. simpl in E. lia. }
    rewrite list_lookup_middle in E by done. injection E as ->.
    rewrite insert_app_r_alt by lia. rewrite Nat.sub_diag. simpl. rewrite removelast_last. by rewrite Permutation_app_comm.
Qed.
Lemma remove_observer_perm (m : gmap K (list N)) k f k' :
  default [] (remove_observer m k f !! k') ≡ₚ
    if decide (k = k') then without_one f (default [] (m !! k')) else default [] (m !! k').
Proof.
  unfold remove_observer. destruct (m !! k) as [l|] eqn:E.
  2: { case_decide; [subst; by rewrite E|done]. }
  destruct (position f l) as [i|] eqn:P.
  - case_decide as D; [subst|by rewrite lookup_insert_ne].
    rewrite lookup_insert, E. simpl. apply position_Some in P.
    symmetry. apply without_one_perm; [by eapply elem_of_list_lookup_2|]. by apply swap_remove_perm.
  - case_decide as D; [subst|done]. rewrite E. simpl. by rewrite without_one_none by by apply position_None.
Qed.
Lemma remove_observer_other (m : gmap K (list N)) k f k' : k <> k' -> remove_observer m k f !! k' = m !! k'.
Proof.
  intros Hk. unfold remove_observer. destruct (m !! k); [|done]. destruct (position f l); [|done]. by rewrite lookup_insert_ne.
Qed.
Lemma remove_observer_absent (m : gmap K (list N)) k f : f ∉ default [] (m !! k) -> remove_observer m k f = m.
Proof.
  intros Hk. unfold remove_observer. destruct (m !! k) as [l|] eqn:E; [|done]. simpl in Hk. destruct (position f l) as [i|] eqn:P; [|done].
  destruct Hk. apply position_Some in P. by eapply elem_of_list_lookup_2.
Qed.
End observers.

(** ** Histories of operations *)
Lemma without_one_proper f l k : l ≡ₚ k -> without_one f l ≡ₚ without_one f k.
Proof.
  intros E. destruct (decide (f ∈ l)) as [Hf|Hf].
  - apply without_one_perm; [done|]. rewrite E in *. clear E. induction k as [|x k IH]; [by apply elem_of_nil in Hf|].
    simpl. case_decide; [by subst|]. apply elem_of_cons in Hf as [->|Hf]; [done|]. rewrite (IH Hf) at 1. constructor.
  - rewrite !without_one_none; [done|by rewrite <- E|done].
Qed.
Lemma registered_proper {K K'} `{EqDecision K'} (key : K -> K') ops k : forall l l',
  l ≡ₚ l' -> registered key l ops k ≡ₚ registered key l' ops k.
Proof.
  induction ops as [|op ops IH]; intros l l' E; [done|].
  destruct op as [k'|f|k' f|k' f]; simpl; auto; apply IH; case_decide; auto.
  - by rewrite E.
  - by apply without_one_proper.
Qed.

(** C53 for category handlers *)
Lemma cat_status h ops item :
  ch_get_status (cat_run h ops) item = xorb (ch_get_status h item) (Nat.odd (toggles eo_keys ops (eo_keys item))).
Proof.
  revert h. induction ops as [|op ops IH]; intros h; [by rewrite xorb_false_r|].
  change (cat_run h (op :: ops)) with (cat_run (cat_op h op).1 ops). rewrite IH.
  destruct op as [k|f|k f|k f]; try done. simpl toggles. rewrite Nat.odd_add. rewrite <- xorb_assoc. f_equal.
  unfold cat_op, ch_toggle, ch_get_status. destruct (toggle_key (ch_active h) (eo_keys k)) as [active s] eqn:T. simpl.
  assert (Ht := toggle_key_active (ch_active h) (eo_keys k) (eo_keys item)). rewrite T in Ht. simpl in Ht.
  destruct (decide (eo_keys k = eo_keys item)); simpl.
  - rewrite xorb_true_r. repeat case_bool_decide; tauto.
  - rewrite xorb_false_r. repeat case_bool_decide; tauto.
Qed.
Lemma cat_parity cl ops item :
  ch_get_status (cat_run (ch_new cl) ops) item = Nat.odd (toggles eo_keys ops (eo_keys item)).
Proof. rewrite cat_status. unfold ch_get_status, ch_new. simpl. rewrite bool_decide_eq_false_2 by set_solver. apply xorb_false_l. Qed.

Lemma cat_active cl ops key :
  key ∈ ch_active (cat_run (ch_new cl) ops) <-> Nat.odd (toggles eo_keys ops key) = true.
Proof.
  destruct key as [k o]. pose proof (cat_parity cl ops (ExportOption [] k o)) as P.
  change (eo_keys (ExportOption [] k o)) with (k, o) in P. rewrite <- P. unfold ch_get_status.
  by rewrite bool_decide_eq_true.
Qed.
Lemma cat_handle h ops : ch_handle (cat_run h ops) = ch_handle h.
Proof.
  revert h. induction ops as [|op ops IH]; intros h; [done|].
  change (cat_run h (op :: ops)) with (cat_run (cat_op h op).1 ops). rewrite IH.
  destruct op as [k|f|k f|k f]; simpl; try done. unfold ch_toggle. by destruct (toggle_key _ _).
Qed.
Lemma toggles_toggled {K K'} `{EqDecision K'} (key : K -> K') ops k :
  toggles key ops k <> 0%nat -> exists x, Toggle x ∈ ops /\ key x = k.
Proof.
  induction ops as [|op ops IH]; [done|]. destruct op as [x|f|x f|x f]; simpl.
  - case_decide as D; [intros _; exists x; split; [left|done]|].
    intros (y & Hy & Ey)%IH. exists y. split; [by right|done].
  - intros (y & Hy & Ey)%IH. exists y. split; [by right|done].
  - intros (y & Hy & Ey)%IH. exists y. split; [by right|done].
  - intros (y & Hy & Ey)%IH. exists y. split; [by right|done].
Qed.
Lemma cat_history_exist cl ops : Forall (cat_op_ok cl) ops -> active_options_exist (cat_run (ch_new cl) ops).
Proof.
  intros F key Hk. rewrite cat_handle. simpl. apply cat_active in Hk.
  destruct (toggles_toggled eo_keys ops key) as (x & Hx & <-); [intros E; by rewrite E in Hk|].
  rewrite Forall_forall in F. exact (F _ Hx).
Qed.
(** C47 *)
Lemma category_history parse bo input c cl handle ops o p i :
  optimize parse bo input = Done (c, cl) -> same_classic cl handle -> Forall (cat_op_ok handle) ops ->
  valid_order o -> p_sid p = N.of_nat i -> (i < length input)%nat ->
  exists b, ch_is_valid o (cat_run (ch_new handle) ops) p = Done b /\
    (b = true <-> forall key cat opt, Nat.odd (toggles eo_keys ops key) = true -> option_at handle key cat opt ->
       lists_option (map r_options input) i (cat_name cat) (o_name opt)).
Proof.
  intros E Hs F Ho Hp Hi.
  destruct (category_filter _ _ _ _ _ E o (cat_run (ch_new handle) ops) p i Ho) as (b & Eb & I); try done.
  { by rewrite cat_handle. } { by apply cat_history_exist. }
  exists b. split; [done|]. rewrite I. rewrite cat_handle. cbn [ch_handle ch_new].
  split; intros A key cat opt Hk; apply A; by apply (cat_active handle).
Qed.

(** C54 for category handlers *)
Lemma cat_general h ops : ch_general (cat_run h ops) = ch_general h ++ general_observers ops.
Proof.
  revert h. induction ops as [|op ops IH]; intros h; [by rewrite app_nil_r|].
  change (cat_run h (op :: ops)) with (cat_run (cat_op h op).1 ops). rewrite IH.
  destruct op as [k|f|k f|k f]; simpl; try done.
  - unfold ch_toggle. by destruct (toggle_key _ _).
  - by rewrite <- app_assoc.
Qed.
Lemma cat_specific h ops k :
  default [] (ch_option (cat_run h ops) !! k) ≡ₚ registered eo_keys (default [] (ch_option h !! k)) ops k.
Proof.
  revert h. induction ops as [|op ops IH]; intros h; [done|].
  change (cat_run h (op :: ops)) with (cat_run (cat_op h op).1 ops). rewrite IH.
  destruct op as [i|f|i f|i f]; simpl; try done.
  - unfold ch_toggle. by destruct (toggle_key _ _).
  - by rewrite add_observer_lookup.
  - apply registered_proper. apply remove_observer_perm.
Qed.
Lemma cat_specific_order h ops k : no_removal eo_keys ops k ->
  default [] (ch_option (cat_run h ops) !! k) = registered eo_keys (default [] (ch_option h !! k)) ops k.
Proof.
  revert h. induction ops as [|op ops IH]; intros h N; [done|].
  change (cat_run h (op :: ops)) with (cat_run (cat_op h op).1 ops).
  destruct op as [i|f|i f|i f]; simpl; simpl in N; try (rewrite IH by apply N).
  - unfold ch_toggle. by destruct (toggle_key _ _).
  - done.
  - simpl. by rewrite add_observer_lookup.
  - simpl. rewrite remove_observer_other by apply N. by rewrite decide_False by apply N.
Qed.
Lemma cat_calls cl ops item h' cs : ch_toggle (cat_run (ch_new cl) ops) item = (h', cs) ->
  exists specific s,
    cs = map (fun f => (f, s)) (specific ++ general_observers ops) /\
    specific ≡ₚ registered eo_keys [] ops (eo_keys item) /\
    (no_removal eo_keys ops (eo_keys item) -> specific = registered eo_keys [] ops (eo_keys item)) /\
    ch_get_status h' item = s /\
    s = negb (ch_get_status (cat_run (ch_new cl) ops) item).
Proof.
  intros E. pose proof (toggle_key_state (ch_active (cat_run (ch_new cl) ops)) (eo_keys item)) as Hs.
  pose proof (toggle_key_active (ch_active (cat_run (ch_new cl) ops)) (eo_keys item) (eo_keys item)) as Ha.
  unfold ch_toggle in E. destruct (toggle_key _ _) as [active s] eqn:T.
  injection E as <- <-.
  exists (default [] (ch_option (cat_run (ch_new cl) ops) !! eo_keys item)), s. split.
  { unfold toggle_calls. by rewrite cat_general. }
  split; [by rewrite cat_specific|]. split; [intros N; by rewrite cat_specific_order|].
  simpl in Hs, Ha. rewrite decide_True in Ha by done. unfold ch_get_status. cbn [ch_active].
  destruct s.
  - assert (A : eo_keys item ∉ ch_active (cat_run (ch_new cl) ops)) by by apply Hs. split.
    + apply bool_decide_eq_true. tauto.
    + by rewrite bool_decide_eq_false_2.
  - assert (A : eo_keys item ∈ ch_active (cat_run (ch_new cl) ops)).
    { destruct (decide (eo_keys item ∈ ch_active (cat_run (ch_new cl) ops))) as [|A]; [done|]. by apply Hs in A. } split.
    + apply bool_decide_eq_false. tauto.
    + by rewrite bool_decide_eq_true_2.
Qed.

(** The same for tag handlers *)
Lemma tag_handle_id t : tag_handle_ok t -> jt_get_id t = Done (jt_index t).
Proof.
  intros [P [x Hx]]. unfold jt_get_id. unfold tag_at in Hx.
  assert (getN (cl_tags (jt_handle t)) (jt_index t) = Some x) as -> by (rewrite getN_lookup; exact Hx).
  simpl. f_equal. rewrite (P _ _ Hx). apply N2Nat.id.
Qed.
Lemma tag_op_done h op : tag_op_ok op -> exists h' cs, tag_op h op = Done (h', cs).
Proof.
  destruct op as [t|f|t f|t f]; simpl; intros Ht.
  - unfold th_toggle. rewrite (tag_handle_id t Ht). cbn [mbind res_bind]. destruct (toggle_key _ _). eauto.
  - eauto.
  - unfold th_add_tag. rewrite (tag_handle_id t Ht). cbn [mbind res_bind]. eauto.
  - unfold th_remove_tag. rewrite (tag_handle_id t Ht). cbn [mbind res_bind]. eauto.
Qed.
Lemma tag_run_cons h op ops h' cs : tag_op h op = Done (h', cs) -> tag_run h (op :: ops) = tag_run h' ops.
Proof. intros E. unfold tag_run. cbn [foldM]. rewrite E. done. Qed.
Lemma tag_run_done h ops : Forall tag_op_ok ops -> exists h', tag_run h ops = Done h'.
Proof.
  intros F. revert h. induction F as [|op ops Hop F IH]; intros h; [by exists h|].
  destruct (tag_op_done h op Hop) as (h' & cs & E). rewrite (tag_run_cons _ _ _ _ _ E). apply IH.
Qed.
(** What an operation does to the parts of the handler. *)
Lemma tag_op_parts h op h' cs : tag_op_ok op -> tag_op h op = Done (h', cs) ->
  th_handle h' = th_handle h /\
  th_general h' = th_general h ++ general_observers [op] /\
  (forall k, default [] (th_tag h' !! k) ≡ₚ registered jt_index (default [] (th_tag h !! k)) [op] k) /\
  (forall k, no_removal jt_index [op] k -> default [] (th_tag h' !! k) = registered jt_index (default [] (th_tag h !! k)) [op] k) /\
  (forall t, th_get_status h' t = xorb (th_get_status h t) (Nat.odd (toggles jt_index [op] (jt_index t)))).
Proof.
  intros Ok E. destruct op as [t|f|t f|t f]; simpl in *.
  - unfold th_toggle in E. rewrite (tag_handle_id t Ok) in E. cbn [mbind res_bind] in E.
    destruct (toggle_key (th_active h) (jt_index t)) as [active s] eqn:T. injection E as <- <-. simpl.
    split; [done|]. split; [by rewrite app_nil_r|]. split; [done|]. split; [done|]. intros t'.
    unfold th_get_status. simpl.
    assert (Ht := toggle_key_active (th_active h) (jt_index t) (jt_index t')). rewrite T in Ht. simpl in Ht.
    destruct (decide (jt_index t = jt_index t')); simpl.
    + rewrite xorb_true_r. repeat case_bool_decide; tauto.
    + rewrite xorb_false_r. repeat case_bool_decide; tauto.
  - injection E as <- <-. simpl. repeat split; try done. intros t'. by rewrite xorb_false_r.
  - unfold th_add_tag in E. rewrite (tag_handle_id t Ok) in E. cbn [mbind res_bind] in E. injection E as <- <-. simpl.
    split; [done|]. split; [by rewrite app_nil_r|]. split; [intros k; by rewrite add_observer_lookup|].
    split; [intros k _; by rewrite add_observer_lookup|]. intros t'. by rewrite xorb_false_r.
  - unfold th_remove_tag in E. rewrite (tag_handle_id t Ok) in E. cbn [mbind res_bind] in E. injection E as <- <-. simpl.
    split; [done|]. split; [by rewrite app_nil_r|]. split; [intros k; by rewrite remove_observer_perm|].
    split; [intros k [N _]; rewrite remove_observer_other by done; by rewrite decide_False|]. intros t'. by rewrite xorb_false_r.
Qed.
Lemma general_cons {K} (op : handler_op K) ops : general_observers (op :: ops) = general_observers [op] ++ general_observers ops.
Proof. by destruct op. Qed.
Lemma registered_cons {K K'} `{EqDecision K'} (key : K -> K') l op ops k :
  registered key l (op :: ops) k = registered key (registered key l [op] k) ops k.
Proof. by destruct op. Qed.
Lemma no_removal_cons {K K'} `{EqDecision K'} (key : K -> K') op ops k :
  no_removal key (op :: ops) k -> no_removal key [op] k /\ no_removal key ops k.
Proof. destruct op; simpl; tauto. Qed.
Lemma toggles_cons {K K'} `{EqDecision K'} (key : K -> K') op ops k :
  toggles key (op :: ops) k = (toggles key [op] k + toggles key ops k)%nat.
Proof. destruct op; simpl; lia. Qed.
Lemma tag_run_parts h ops h' : Forall tag_op_ok ops -> tag_run h ops = Done h' ->
  th_handle h' = th_handle h /\
  th_general h' = th_general h ++ general_observers ops /\
  (forall k, default [] (th_tag h' !! k) ≡ₚ registered jt_index (default [] (th_tag h !! k)) ops k) /\
  (forall k, no_removal jt_index ops k -> default [] (th_tag h' !! k) = registered jt_index (default [] (th_tag h !! k)) ops k) /\
  (forall t, th_get_status h' t = xorb (th_get_status h t) (Nat.odd (toggles jt_index ops (jt_index t)))).
Proof.
  intros F. revert h. induction F as [|op ops Hop F IH]; intros h E.
  { injection E as <-. repeat split; try done; [by rewrite app_nil_r|]. intros t. by rewrite xorb_false_r. }
  destruct (tag_op_done h op Hop) as (h1 & cs & E1). rewrite (tag_run_cons _ _ _ _ _ E1) in E.
  destruct (tag_op_parts _ _ _ _ Hop E1) as (A1 & A2 & A3 & A4 & A5).
  destruct (IH _ E) as (B1 & B2 & B3 & B4 & B5). split; [congruence|].
  split; [by rewrite general_cons, B2, A2, app_assoc|].
  split; [intros k; rewrite registered_cons, B3; apply registered_proper, A3|].
  split.
  - intros k [N1 N2]%no_removal_cons. rewrite registered_cons, B4 by done. by rewrite A4.
  - intros t. rewrite B5, A5, (toggles_cons _ op ops), Nat.odd_add. by rewrite xorb_assoc.
Qed.
Lemma tag_parity cl ops h t : Forall tag_op_ok ops -> tag_run (th_new cl) ops = Done h ->
  th_get_status h t = Nat.odd (toggles jt_index ops (jt_index t)).
Proof.
  intros F E. destruct (tag_run_parts _ _ _ F E) as (_ & _ & _ & _ & ->). unfold th_get_status, th_new. simpl.
  rewrite bool_decide_eq_false_2 by set_solver. apply xorb_false_l.
Qed.
Lemma tag_history_exist cl ops h : Forall tag_op_ok ops -> Forall (own_tag cl) ops -> tag_run (th_new cl) ops = Done h ->
  active_tags_exist h.
Proof.
  intros F O E id Hk. assert (P := tag_parity cl ops h (JSTag cl id) F E). unfold th_get_status in P. cbn [jt_index] in P.
  rewrite bool_decide_eq_true_2 in P by done. destruct (tag_run_parts _ _ _ F E) as (-> & _). cbn [th_handle th_new].
  destruct (toggles_toggled jt_index ops id) as (x & Hx & <-); [intros Z; by rewrite Z in P|].
  rewrite Forall_forall in O. exact (O _ Hx).
Qed.
(** C48 *)
Lemma tag_history parse bo input c cl handle ops h o p i :
  optimize parse bo input = Done (c, cl) -> valid_order (bo_tags bo) -> same_classic cl handle ->
  Forall tag_op_ok ops -> Forall (own_tag handle) ops -> tag_run (th_new handle) ops = Done h ->
  valid_order o -> p_sid p = N.of_nat i -> (i < length input)%nat ->
  exists b, th_is_valid o h p = Done b /\
    (b = true <-> forall id t, Nat.odd (toggles jt_index ops id) = true -> tag_at handle id t ->
       lists_tag (map r_tags input) i (t_name t)).
Proof.
  intros E Hb Hs F O R Ho Hp Hi. destruct (tag_run_parts _ _ _ F R) as (Hh & _). cbn [th_handle th_new] in Hh.
  destruct (tag_filter _ _ _ _ _ E o h p i Ho Hb) as (b & Eb & I); try done.
  { by rewrite Hh. } { by eapply tag_history_exist. }
  exists b. split; [done|]. rewrite I. rewrite Hh.
  assert (Q : forall id, id ∈ th_active h <-> Nat.odd (toggles jt_index ops id) = true).
  { intros id. pose proof (tag_parity handle ops h (JSTag handle id) F R) as P. cbn [jt_index] in P. rewrite <- P.
    unfold th_get_status. by rewrite bool_decide_eq_true. }
  split; intros A key t Hk; apply A; by apply Q.
Qed.
Lemma tag_calls cl ops h t : Forall tag_op_ok ops -> tag_run (th_new cl) ops = Done h -> tag_handle_ok t ->
  exists h' specific s,
    th_toggle h t = Done (h', map (fun f => (f, s)) (specific ++ general_observers ops)) /\
    specific ≡ₚ registered jt_index [] ops (jt_index t) /\
    (no_removal jt_index ops (jt_index t) -> specific = registered jt_index [] ops (jt_index t)) /\
    th_get_status h' t = s /\
    s = negb (th_get_status h t).
Proof.
  intros F E Ht. destruct (tag_run_parts _ _ _ F E) as (_ & G & R1 & R2 & _).
  pose proof (toggle_key_state (th_active h) (jt_index t)) as Hs.
  pose proof (toggle_key_active (th_active h) (jt_index t) (jt_index t)) as Ha.
  unfold th_toggle. rewrite (tag_handle_id t Ht). cbn [mbind res_bind]. destruct (toggle_key _ _) as [active s] eqn:T.
  eexists _, (default [] (th_tag h !! jt_index t)), s. split.
  { unfold toggle_calls. rewrite G. done. }
  split; [by rewrite R1|]. split; [intros N; by rewrite R2|].
  simpl in Hs, Ha. rewrite decide_True in Ha by done. unfold th_get_status. cbn [th_active].
  destruct s.
  - assert (A : jt_index t ∉ th_active h) by by apply Hs. split.
    + apply bool_decide_eq_true. tauto.
    + by rewrite bool_decide_eq_false_2.
  - assert (A : jt_index t ∈ th_active h).
    { destruct (decide (jt_index t ∈ th_active h)) as [|A]; [done|]. by apply Hs in A. } split.
    + apply bool_decide_eq_false. tauto.
    + by rewrite bool_decide_eq_true_2.
Qed.

(** ** Iterators *)
Lemma calls_list {It Out} (next : It -> It * option Out) (st : nat -> It) (l : list Out) :
  (forall i x, l !! i = Some x -> next (st i) = (st (S i), Some x)) ->
  (forall i, l !! i = None -> (next (st i)).2 = None /\ (next (st i)).1 = st i) ->
  forall n i, (i <= length l)%nat -> calls next n (st i) = map (fun j => l !! j) (seq i n).
Proof.
  intros A B. assert (S : forall n i, l !! i = None -> calls next n (st i) = map (fun j => l !! j) (seq i n)).
  { intros n. induction n as [|n IH]; intros i L; [done|]. simpl. destruct (B i L) as [B1 B2].
    destruct (next (st i)) as [it r]. simpl in *. subst. rewrite L. f_equal.
    rewrite IH by done. rewrite <- seq_shift, map_map. apply map_ext_in. intros j Hj. apply in_seq in Hj.
    apply lookup_ge_None in L. rewrite !lookup_ge_None_2 by lia. done. }
  intros n. induction n as [|n IH]; intros i Hi; [done|].
  destruct (l !! i) as [x|] eqn:L; [|by apply S].
  simpl. rewrite (A i x L), L. f_equal. apply IH. apply lookup_lt_Some in L. lia.
Qed.
Lemma calls_then_none {It Out} (next : It -> It * option Out) (st : nat -> It) (l : list Out) :
  (forall i x, l !! i = Some x -> next (st i) = (st (S i), Some x)) ->
  (forall i, l !! i = None -> (next (st i)).2 = None /\ (next (st i)).1 = st i) ->
  forall n, calls next n (st 0%nat) = then_none n l.
Proof. intros A B n. unfold then_none. apply calls_list; [done..|lia]. Qed.
(** C56 *)
Lemma category_calls h n : calls ci_next n (ch_iter h) =
  then_none n (imap (fun i _ => OptIter (ch_handle h) (N.of_nat i) 0) (cl_categories (ch_handle h))).
Proof.
  apply (calls_then_none ci_next (fun i => CatIter (ch_handle h) (N.of_nat i))).
  - intros i x L. rewrite list_lookup_imap in L. unfold ci_next. cbn [ci_handle ci_index]. rewrite getN_of_nat.
    destruct ((cl_categories (ch_handle h) : list category) !! i) as [c|] eqn:E; [|done]. injection L as <-.
    cbn [ci_index]. do 3 f_equal; lia.
  - intros i L. rewrite list_lookup_imap in L. unfold ci_next. cbn [ci_handle ci_index]. rewrite getN_of_nat.
    destruct ((cl_categories (ch_handle h) : list category) !! i) as [c|] eqn:E; done.
Qed.
Lemma option_calls cl c cat n : (cl_categories cl : list category) !! c = Some cat ->
  calls oi_next n (OptIter cl (N.of_nat c) 0) =
  then_none n (imap (fun i o => ExportOption (o_name o) (N.of_nat c) (N.of_nat i)) (cat_options cat)).
Proof.
  intros Hc. assert (G : getN (cl_categories cl) (N.of_nat c) = Some cat) by (rewrite getN_of_nat; exact Hc).
  apply (calls_then_none oi_next (fun i => OptIter cl (N.of_nat c) (N.of_nat i))).
  - intros i x L. rewrite list_lookup_imap in L. unfold oi_next. cbn [oi_handle oi_category oi_index].
    rewrite G. cbn [mbind option_bind]. rewrite getN_of_nat.
    destruct (cat_options cat !! i) as [o|] eqn:E; [|done]. injection L as <-.
    replace (N.of_nat i + 1) with (N.of_nat (S i)) by lia. done.
  - intros i L. rewrite list_lookup_imap in L. unfold oi_next. cbn [oi_handle oi_category oi_index].
    rewrite G. cbn [mbind option_bind]. rewrite getN_of_nat.
    by destruct (cat_options cat !! i) as [o|].
Qed.
Lemma tag_iter_calls h n : calls ti_next n (th_tags h) =
  then_none n (imap (fun i _ => JSTag (th_handle h) (N.of_nat i)) (cl_tags (th_handle h))).
Proof.
  apply (calls_then_none ti_next (fun i => TagIter (th_handle h) (N.of_nat i))).
  - intros i x L. rewrite list_lookup_imap in L. unfold ti_next. cbn [ti_handle ti_index]. rewrite getN_of_nat.
    destruct ((cl_tags (th_handle h) : list tag) !! i) as [c|] eqn:E; [|done]. injection L as <-.
    replace (N.of_nat i + 1) with (N.of_nat (S i)) by lia. done.
  - intros i L. rewrite list_lookup_imap in L. unfold ti_next. cbn [ti_handle ti_index]. rewrite getN_of_nat.
    destruct ((cl_tags (th_handle h) : list tag) !! i) as [c|] eqn:E; done.
Qed.
(** C57 *)
Lemma producer_calls c ids n : Forall (fun sid => N.to_nat sid < length (c_products c))%nat ids ->
  calls pp_next n (pp_new c ids) = then_none n (map (JsProduct c) ids).
Proof.
  intros F. apply (calls_then_none pp_next (fun i => Producer c ids (N.of_nat i))).
  - intros i x L. rewrite list_lookup_fmap in L. unfold pp_next. cbn [pp_export pp_index pp_container]. rewrite getN_of_nat.
    destruct (ids !! i) as [sid|] eqn:E; [|done]. injection L as <-.
    rewrite Forall_lookup in F. destruct (lookup_lt_is_Some_2 _ _ (F _ _ E)) as [p Hp].
    rewrite getN_lookup, Hp. replace (N.of_nat i + 1) with (N.of_nat (S i)) by lia. done.
  - intros i L. rewrite list_lookup_fmap in L. unfold pp_next. cbn [pp_export pp_index pp_container]. rewrite getN_of_nat.
    by destruct (ids !! i) as [sid|].
Qed.
(** C60 *)
Lemma numeric_accessor j p key : jp_product j = Done p ->
  match jp_numeric j key with
  | Done x => numeric_at (c_features (jp_container j)) (N.to_nat (p_sid p)) key x
  | Nope => forall x, ~ numeric_at (c_features (jp_container j)) (N.to_nat (p_sid p)) key x
  | _ => False
  end.
Proof.
  intros Hp. unfold jp_numeric. rewrite Hp. cbn [mbind res_bind]. unfold fs_get, numeric_at.
  destruct (c_features (jp_container j) !! key) as [[l|l|l]|] eqn:E; cbn [mbind option_bind].
  - rewrite getN_lookup. destruct (l !! _); simpl; intros x [(l' & v & [= ] & _)|(l' & v & [= ] & _)].
  - rewrite getN_lookup. destruct (l !! _) eqn:L; simpl; [left; eauto 10|].
    intros x [(l' & v & [= <-] & L' & _)|(l' & v & [= ] & _)]. congruence.
  - rewrite getN_lookup. destruct (l !! _) eqn:L; simpl; [right; eauto 10|].
    intros x [(l' & v & [= ] & _)|(l' & v & [= <-] & L' & _)]. congruence.
  - simpl. intros x [(l' & v & [= ] & _)|(l' & v & [= ] & _)].
Qed.
Lemma string_accessor j p key : jp_product j = Done p ->
  match jp_string j key with
  | Done s => string_at (c_features (jp_container j)) (N.to_nat (p_sid p)) key s
  | Nope => forall s, ~ string_at (c_features (jp_container j)) (N.to_nat (p_sid p)) key s
  | _ => False
  end.
Proof.
  intros Hp. unfold jp_string. rewrite Hp. cbn [mbind res_bind]. unfold fs_get, string_at.
  destruct (c_features (jp_container j) !! key) as [[l|l|l]|] eqn:E; cbn [mbind option_bind].
  - rewrite getN_lookup. destruct (l !! _) eqn:L; simpl; [eauto|]. intros s (l' & [= <-] & L'). congruence.
  - rewrite getN_lookup. destruct (l !! _); simpl; intros s (l' & [= ] & _).
  - rewrite getN_lookup. destruct (l !! _); simpl; intros s (l' & [= ] & _).
  - simpl. intros s (l' & [= ] & _).
Qed.

(** ** The statements of props/P_js.v *)
Lemma iterator_keys cl c cat i opt : (cl_categories cl : list category) !! c = Some cat -> cat_options cat !! i = Some opt ->
  oi_name (OptIter cl (N.of_nat c) 0) = Done (cat_name cat) /\
  option_at cl (eo_keys (ExportOption (o_name opt) (N.of_nat c) (N.of_nat i))) cat opt.
Proof.
  intros Hc Ho. split.
  - unfold oi_name. cbn [oi_handle oi_category].
    assert (getN (cl_categories cl) (N.of_nat c) = Some cat) as -> by (rewrite getN_of_nat; exact Hc). done.
  - split; simpl; by rewrite Nat2N.id.
Qed.
Lemma iterator_tags cl i t : (cl_tags cl : list tag) !! i = Some t ->
  jt_get_name (JSTag cl (N.of_nat i)) = Done (t_name t) /\
  tag_at cl (jt_index (JSTag cl (N.of_nat i))) t /\
  (tag_positions (cl_tags cl) -> tag_handle_ok (JSTag cl (N.of_nat i))).
Proof.
  intros Hc. assert (A : tag_at cl (jt_index (JSTag cl (N.of_nat i))) t) by (unfold tag_at; simpl; by rewrite Nat2N.id).
  split; [|split; [done|]].
  - unfold jt_get_name. cbn [jt_handle jt_index].
    assert (getN (cl_tags cl) (N.of_nat i) = Some t) as -> by (rewrite getN_of_nat; exact Hc). done.
  - intros P. split; [done|]. by exists t.
Qed.
Lemma parse_none entries :
  (exists feature v, (feature, v) ∈ entries /\ forall identity props, v <> JObj identity props) -> parse_filters entries = None.
Proof.
  intros (feature & v & Hin & N). apply parse_filters_None, Exists_exists. exists (feature, v). split; [done|].
  by apply parse_not_object.
Qed.
Lemma parse_plains entries props : Forall2 (fun '(_, v) ps => plain_object v ps) entries props ->
  parse_filters entries = Some (zip_with (fun '(feature, _) ps =>
    FeatureFilter (Range (property ps s_from) (property ps s_to)) feature) entries props).
Proof.
  intros F. apply parse_filters_Some. induction F as [|[feature v] ps entries props Hp F IH]; [constructor|].
  simpl. constructor; [|done]. by apply parse_plain.
Qed.
Lemma cat_removal h item f item' :
  let h' := ch_remove_option h item f in
  ch_active h' = ch_active h /\ ch_general h' = ch_general h /\ ch_handle h' = ch_handle h /\
  (eo_keys item' <> eo_keys item -> ch_option h' !! eo_keys item' = ch_option h !! eo_keys item') /\
  (f ∈ default [] (ch_option h !! eo_keys item) ->
     default [] (ch_option h !! eo_keys item) ≡ₚ f :: default [] (ch_option h' !! eo_keys item)) /\
  (f ∉ default [] (ch_option h !! eo_keys item) -> h' = h).
Proof.
  simpl. split; [done|]. split; [done|]. split; [done|]. split; [|split].
  - intros Ne. apply remove_observer_other. congruence.
  - intros Hf. rewrite remove_observer_perm, decide_True by done.
    remember (default [] _) as l eqn:E. clear E. induction l as [|x l IH]; [by apply elem_of_nil in Hf|]. simpl.
    case_decide; [by subst|]. apply elem_of_cons in Hf as [->|Hf]; [done|]. rewrite (IH Hf) at 1. constructor.
  - intros Hf. unfold ch_remove_option. rewrite remove_observer_absent by done. by destruct h.
Qed.
Lemma tag_removal h t f t' h' : tag_handle_ok t -> th_remove_tag h t f = Done h' ->
  th_active h' = th_active h /\ th_general h' = th_general h /\ th_handle h' = th_handle h /\
  (jt_index t' <> jt_index t -> th_tag h' !! jt_index t' = th_tag h !! jt_index t') /\
  (f ∈ default [] (th_tag h !! jt_index t) ->
     default [] (th_tag h !! jt_index t) ≡ₚ f :: default [] (th_tag h' !! jt_index t)) /\
  (f ∉ default [] (th_tag h !! jt_index t) -> h' = h).
Proof.
  intros Ok E. unfold th_remove_tag in E. rewrite (tag_handle_id t Ok) in E. cbn [mbind res_bind] in E. injection E as <-.
  simpl. split; [done|]. split; [done|]. split; [done|]. split; [|split].
  - intros Ne. apply remove_observer_other. congruence.
  - intros Hf. rewrite remove_observer_perm, decide_True by done.
    remember (default [] _) as l eqn:E. clear E. induction l as [|x l IH]; [by apply elem_of_nil in Hf|]. simpl.
    case_decide; [by subst|]. apply elem_of_cons in Hf as [->|Hf]; [done|]. rewrite (IH Hf) at 1. constructor.
  - intros Hf. rewrite remove_observer_absent by done. by destruct h.
Qed.
Lemma producer_answers c ids n : Forall (fun sid => N.to_nat sid < length (c_products c))%nat ids ->
  calls pp_next n (pp_new c ids) = then_none n (map (JsProduct c) ids) /\
  forall sid, sid ∈ ids -> exists p, c_products c !! N.to_nat sid = Some p /\ jp_product (JsProduct c sid) = Done p.
Proof.
  intros F. split; [by apply producer_calls|]. intros sid Hin. rewrite Forall_forall in F.
  destruct (lookup_lt_is_Some_2 _ _ (F _ Hin)) as [p Hp]. exists p. split; [done|].
  unfold jp_product. cbn [jp_container jp_sid]. by rewrite getN_lookup, Hp.
Qed.
Lemma exact_kept : exists feature v fs p,
  string_at fs (N.to_nat (p_sid p)) feature s_to /\ v = JStr s_from /\ s_from <> s_to /\
  exists f, parse_filters [(feature, JObj 0 [(s_exact, Some v)])] = Some [f] /\ filter_accepts f fs p = true.
Proof.
  exists s_price, (JStr s_from), {[s_price := FString [s_to]]}, (Product [] [] (Vendor [] 0) [] 0).
  split; [|split; [done|]].
  - exists [s_to]. split; [apply lookup_singleton|done].
  - split; [by vm_compute|]. eexists. split; [reflexivity|done].
Qed.
