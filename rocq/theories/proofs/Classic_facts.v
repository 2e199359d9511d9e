(** Building the category, tag and order indexes. *)
From Verif.model Require Import Base F32 Utf8 Prim Coll Data Gram Nodes Classic.
From Verif.spec Require Import Spec Data_spec Classic_spec.
From Verif.proofs Require Import Base_facts Sort_facts Data_facts Sample_facts.
From Coq Require Import Sorting.Sorted.

Lemma elem_of_concat {A} (x : A) ls : x ∈ concat ls <-> exists l, x ∈ l /\ l ∈ ls.
Proof. rewrite elem_of_list_In, in_concat. setoid_rewrite elem_of_list_In. naive_solver. Qed.

(** ** Positions in a list *)
Fixpoint place_of `{EqDecision A} (x : A) (l : list A) : N :=
  match l with [] => 0 | y :: l' => if decide (x = y) then 0 else 1 + place_of x l' end.
Lemma place_of_app `{EqDecision A} (x : A) l k :
  place_of x (l ++ k) = if decide (x ∈ l) then place_of x l else lenN l + place_of x k.
Proof.
  induction l as [|y l IH]; [done|]. simpl. destruct (decide (x = y)) as [->|N].
  - rewrite decide_True; [done|by left].
  - rewrite IH. rewrite lenN_cons. repeat case_decide; try lia; exfalso; rewrite elem_of_cons in *; naive_solver.
Qed.
Lemma place_of_lookup `{EqDecision A} (x : A) l : x ∈ l -> l !! N.to_nat (place_of x l) = Some x.
Proof.
  induction l as [|y l IH]; [by intros ?%elem_of_nil|]. simpl. intros H. destruct (decide (x = y)) as [->|N]; [done|].
  apply elem_of_cons in H as [?|H]; [done|]. rewrite N2Nat.inj_add. simpl. by apply IH.
Qed.

(** ** [find_or_push] on a list of named things *)
Lemma find_or_push_named {A} (F : rstr -> A) (name : A -> rstr) f new k names :
  (forall n, name (F n) = n) -> NoDup names ->
  find_or_push (fun x => str_eqb (name x) k) f new (map F names) =
  if decide (k ∈ names) then map (fun n => if decide (n = k) then f (F n) else F n) names
  else map F names ++ [f new].
Proof.
  intros E ND. induction ND as [|n names Hn ND IH]; [done|]. simpl. rewrite E. unfold str_eqb at 1.
  case_bool_decide as D.
  - subst n. rewrite decide_True by by left. rewrite (decide_True (P := k = k)) by done. f_equal.
    apply map_ext_in. intros m Hm%elem_of_list_In. rewrite decide_False; [done|]. by intros ->.
  - rewrite IH. destruct (decide (k ∈ names)).
    + rewrite decide_True by by right. by rewrite (decide_False (P := n = k)).
    + rewrite decide_False; [done|]. rewrite elem_of_cons. naive_solver.
Qed.
Lemma existsb_named {A} (F : rstr -> A) (name : A -> rstr) k names :
  (forall n, name (F n) = n) ->
  existsb (fun x => str_eqb (name x) k) (map F names) = bool_decide (k ∈ names).
Proof.
  intros E. apply eq_bool_prop_intro. rewrite bool_decide_spec, Is_true_true, existsb_exists. split.
  - intros (x & H & D). apply in_map_iff in H as (n & <- & H). rewrite E in D. apply bool_decide_eq_true in D as ->.
    by apply elem_of_list_In.
  - intros H. exists (F k). split; [apply in_map; by apply elem_of_list_In|]. rewrite E. by apply bool_decide_eq_true.
Qed.
Lemma find_named {A} (F : rstr -> A) (name : A -> rstr) k names :
  (forall n, name (F n) = n) ->
  find (fun x => str_eqb (name x) k) (map F names) = if decide (k ∈ names) then Some (F k) else None.
Proof.
  intros E. induction names as [|n names IH]; [done|]. simpl. rewrite E. unfold str_eqb at 1. case_bool_decide as D.
  - subst n. rewrite decide_True by by left. done.
  - rewrite IH. destruct (decide (k ∈ names)).
    + by rewrite decide_True by by right.
    + rewrite decide_False; [done|]. rewrite elem_of_cons. naive_solver.
Qed.

(** ** Categories *)
(** The mentions seen so far: category, value, product. *)
Definition event := (rstr * rstr * product)%type.
Definition values_of (L : list event) (k : rstr) : list rstr :=
  map (fun e : event => e.1.2) (filter (fun e : event => e.1.1 = k) L).
Definition products_of (L : list event) (k v : rstr) : list product :=
  map snd (filter (fun e : event => e.1 = (k, v)) L).
Definition pairs_of (L : list event) : list (rstr * rstr) := first_seen (map fst L).
(** The option, the options and the categories they give rise to. *)
Definition the_option (L : list event) (k v : rstr) : cat_option :=
  CatOption v (place_of (k, v) (pairs_of L)) (first_seen (products_of L k v)) (sids (products_of L k v)).
Definition the_options (L : list event) (k : rstr) : list cat_option :=
  map (the_option L k) (first_seen (values_of L k)).
Definition the_category (L : list event) (k : rstr) : category := Category k (the_options L k) false.
Definition the_categories (K : list rstr) (L : list event) : list category :=
  map (the_category L) (first_seen K).

Lemma values_of_app L M k : values_of (L ++ M) k = values_of L k ++ values_of M k.
Proof. unfold values_of. by rewrite filter_app, map_app. Qed.
Lemma products_of_app L M k v : products_of (L ++ M) k v = products_of L k v ++ products_of M k v.
Proof. unfold products_of. by rewrite filter_app, map_app. Qed.
Lemma elem_of_values L k v : v ∈ values_of L k <-> exists p, (k, v, p) ∈ L.
Proof.
  unfold values_of. rewrite elem_of_list_fmap. split.
  - intros ([[k' v'] p] & -> & H). apply elem_of_list_filter in H as [E H]. simpl in *. subst. eauto.
  - intros (p & H). exists (k, v, p). split; [done|]. by apply elem_of_list_filter.
Qed.
Lemma elem_of_products L k v p : p ∈ products_of L k v <-> (k, v, p) ∈ L.
Proof.
  unfold products_of. rewrite elem_of_list_fmap. split.
  - intros ([[k' v'] p'] & -> & H). apply elem_of_list_filter in H as [E H]. simpl in *. by simplify_eq.
  - intros H. exists (k, v, p). split; [done|]. by apply elem_of_list_filter.
Qed.
Lemma elem_of_pairs L k v : (k, v) ∈ pairs_of L <-> v ∈ values_of L k.
Proof.
  unfold pairs_of. rewrite first_seen_elem, elem_of_values, elem_of_list_fmap. split.
  - intros ([[k' v'] p] & [= -> ->] & H). eauto.
  - intros (p & H). by exists (k, v, p).
Qed.
Lemma pairs_of_snoc L k v p :
  pairs_of (L ++ [(k, v, p)]) = if decide (v ∈ values_of L k) then pairs_of L else pairs_of L ++ [(k, v)].
Proof.
  pose proof (elem_of_pairs L k v) as E.
  unfold pairs_of in *. rewrite map_app. simpl. rewrite first_seen_snoc. rewrite first_seen_elem in E.
  repeat case_decide; tauto.
Qed.
Lemma values_of_snoc L k v p : values_of (L ++ [(k, v, p)]) k = values_of L k ++ [v].
Proof. rewrite values_of_app. f_equal. unfold values_of. rewrite filter_cons_True by done. done. Qed.
Lemma values_of_other L k k' v p : k' <> k -> values_of (L ++ [(k, v, p)]) k' = values_of L k'.
Proof. intros N. rewrite values_of_app. unfold values_of at 2. rewrite filter_cons_False by by simpl. by rewrite app_nil_r. Qed.
Lemma products_of_snoc L k v p : products_of (L ++ [(k, v, p)]) k v = products_of L k v ++ [p].
Proof. rewrite products_of_app. f_equal. unfold products_of. rewrite filter_cons_True by done. done. Qed.
Lemma products_of_other L k v k' v' p : (k', v') <> (k, v) ->
  products_of (L ++ [(k, v, p)]) k' v' = products_of L k' v'.
Proof.
  intros N. rewrite products_of_app. unfold products_of at 2. rewrite filter_cons_False by (simpl; congruence).
  by rewrite app_nil_r.
Qed.
Lemma the_option_other L k v k' v' p : (k', v') <> (k, v) -> v' ∈ values_of L k' ->
  the_option (L ++ [(k, v, p)]) k' v' = the_option L k' v'.
Proof.
  intros N H. unfold the_option. rewrite products_of_other by done. f_equal.
  rewrite pairs_of_snoc. case_decide; [done|]. rewrite place_of_app, decide_True; [done|]. by apply elem_of_pairs.
Qed.
Lemma the_options_other L k v k' p : k' <> k -> the_options (L ++ [(k, v, p)]) k' = the_options L k'.
Proof.
  intros N. unfold the_options. rewrite values_of_other by done. apply map_ext_in.
  intros v' H%elem_of_list_In. apply the_option_other; [congruence|]. by rewrite first_seen_elem in H.
Qed.

(** Products mentioned are told apart by their serialization ids. *)
Definition told_apart (L : list event) : Prop :=
  forall e e', e ∈ L -> e' ∈ L -> p_sid e.2 = p_sid e'.2 -> e.2 = e'.2.

Lemma elem_of_sids i l : i ∈ sids l <-> exists p, p ∈ l /\ p_sid p = i.
Proof.
  unfold sids. rewrite elem_of_list_to_set, elem_of_list_fmap. naive_solver.
Qed.
Lemma sids_app l k : sids (l ++ k) = sids l ∪ sids k.
Proof. unfold sids. by rewrite map_app, list_to_set_app_L. Qed.
Lemma sids_first_seen l : sids (first_seen l) = sids l.
Proof.
  apply set_eq. intros i. rewrite !elem_of_sids. split; intros (p & H & E); exists p; split; auto;
    by apply first_seen_elem.
Qed.

Lemma option_add_the L k v p : told_apart (L ++ [(k, v, p)]) -> v ∈ values_of L k ->
  option_add (the_option L k v) p = the_option (L ++ [(k, v, p)]) k v.
Proof.
  intros T H. unfold option_add, the_option. simpl. rewrite products_of_snoc.
  assert (E : place_of (k, v) (pairs_of (L ++ [(k, v, p)])) = place_of (k, v) (pairs_of L)).
  { rewrite pairs_of_snoc, decide_True; done. }
  rewrite E. rewrite first_seen_snoc, sids_app.
  destruct (decide (p_sid p ∈ sids (products_of L k v))) as [I|I].
  - assert (p ∈ products_of L k v) as J.
    { apply elem_of_sids in I as (p' & I & D). apply elem_of_products in I as I'.
      assert (p' = p) as -> by (apply (T (k, v, p') (k, v, p)); [apply elem_of_app; by left|apply elem_of_app; right; by left|done]).
      done. }
    rewrite decide_True by done. f_equal. apply set_eq. intros i. rewrite elem_of_union.
    split; [by left|intros [?|Hi]; [done|]]. apply elem_of_sids in Hi as (p' & ->%elem_of_list_singleton & <-). done.
  - rewrite decide_False. 2: { intros J. apply I. apply elem_of_sids. eauto. }
    f_equal. apply set_eq. intros i. rewrite !elem_of_union, elem_of_singleton, (elem_of_sids _ [p]).
    split.
    + intros [->|?]; [|by left]. right. exists p. split; [by left|done].
    + intros [?|(p' & ->%elem_of_list_singleton & <-)]; [by right|by left].
Qed.
Lemma option_add_new L k v p : v ∉ values_of L k ->
  option_add (option_new v (lenN (pairs_of L))) p = the_option (L ++ [(k, v, p)]) k v.
Proof.
  intros H. unfold option_add, the_option, option_new. simpl. rewrite decide_False by set_solver.
  rewrite products_of_snoc. assert (products_of L k v = []) as ->.
  { destruct (products_of L k v) as [|p' l] eqn:E; [done|]. destruct H. apply elem_of_values. exists p'.
    apply elem_of_products. rewrite E. by left. }
  simpl. unfold sids. simpl. f_equal.
  rewrite pairs_of_snoc, decide_False by done. rewrite place_of_app, decide_False by by rewrite elem_of_pairs.
  simpl. rewrite decide_True by done. lia.
Qed.

Lemma index_value_the L k v p : told_apart (L ++ [(k, v, p)]) ->
  index_value p (the_options L k, lenN (pairs_of L)) v =
  (the_options (L ++ [(k, v, p)]) k, lenN (pairs_of (L ++ [(k, v, p)]))).
Proof.
  intros T. unfold index_value. unfold the_options at 1 2.
  rewrite (existsb_named (the_option L k) o_name) by done.
  rewrite (find_or_push_named (the_option L k) o_name) by (done || apply first_seen_NoDup).
  rewrite pairs_of_snoc. unfold the_options. rewrite values_of_snoc, first_seen_snoc.
  destruct (decide (v ∈ values_of L k)) as [H|H].
  - rewrite decide_True by by apply first_seen_elem.
    rewrite bool_decide_eq_true_2 by by apply first_seen_elem. f_equal. apply map_ext_in.
    intros v' H'%elem_of_list_In. destruct (decide (v' = v)) as [->|N].
    + by apply option_add_the.
    + rewrite the_option_other; [done|congruence|by rewrite first_seen_elem in H'].
  - rewrite decide_False by by rewrite first_seen_elem.
    rewrite bool_decide_eq_false_2 by by rewrite first_seen_elem. rewrite lenN_app. f_equal.
    rewrite map_app. simpl. f_equal; [|f_equal; by apply option_add_new].
    apply map_ext_in. intros v' H'%elem_of_list_In. rewrite first_seen_elem in H'.
    rewrite the_option_other; [done| |done]. intros [= ->]. done.
Qed.

Definition option_events (p : product) (o : raw_option) : list event :=
  map (fun v => (ro_name o, v, p)) (ro_values o).
Lemma told_apart_app L M : told_apart (L ++ M) -> told_apart L.
Proof. intros T e e' H H'. apply T; apply elem_of_app; by left. Qed.

Lemma index_values_the L k vs p : told_apart (L ++ map (fun v => (k, v, p)) vs) ->
  foldl (index_value p) (the_options L k, lenN (pairs_of L)) vs =
  (the_options (L ++ map (fun v => (k, v, p)) vs) k, lenN (pairs_of (L ++ map (fun v => (k, v, p)) vs))).
Proof.
  revert L. induction vs as [|v vs IH]; intros L T; [simpl; by rewrite app_nil_r|].
  cbn [foldl map] in *. rewrite (cons_middle _ L), (app_assoc L) in *. rewrite index_value_the; [by apply IH|].
  by eapply told_apart_app.
Qed.
Lemma the_options_others L k vs k' p : k' <> k ->
  the_options (L ++ map (fun v => (k, v, p)) vs) k' = the_options L k'.
Proof.
  intros N. revert L. induction vs as [|v vs IH]; intros L; simpl; [by rewrite app_nil_r|].
  rewrite (cons_middle _ L), (app_assoc L). rewrite IH. by apply the_options_other.
Qed.
(** Every value mentioned belongs to a category mentioned. *)
Definition named (K : list rstr) (L : list event) : Prop := forall e, e ∈ L -> e.1.1 ∈ K.
Lemma no_options K L k : named K L -> k ∉ K -> the_options L k = [].
Proof.
  intros W H. unfold the_options. destruct (values_of L k) as [|v l] eqn:E; [done|].
  assert (v ∈ values_of L k) as (p & I)%elem_of_values by (rewrite E; by left). by destruct H; apply (W _ I).
Qed.
Lemma index_option_the K L o p : told_apart (L ++ option_events p o) -> named K L ->
  index_option p (the_categories K L, lenN (pairs_of L)) o =
  (the_categories (K ++ [ro_name o]) (L ++ option_events p o), lenN (pairs_of (L ++ option_events p o))).
Proof.
  intros T W. unfold index_option. unfold the_categories at 1.
  rewrite (find_named (the_category L) cat_name) by done.
  assert (E : match (if decide (ro_name o ∈ first_seen K) then Some (the_category L (ro_name o)) else None) with
    | Some c => cat_options c | None => [] end = the_options L (ro_name o)).
  { case_decide as H; [done|]. symmetry. apply (no_options K); [done|]. by rewrite first_seen_elem in H. }
  rewrite E. rewrite index_values_the by done. f_equal. unfold the_categories.
  rewrite (find_or_push_named (the_category L) cat_name) by (done || apply first_seen_NoDup).
  rewrite first_seen_snoc. destruct (decide (ro_name o ∈ K)) as [H|H].
  - rewrite decide_True by by apply first_seen_elem. apply map_ext. intros k. unfold the_category.
    destruct (decide (k = ro_name o)) as [->|N]; [done|]. unfold option_events. by rewrite the_options_others.
  - rewrite decide_False by by rewrite first_seen_elem. rewrite map_app. simpl. f_equal.
    apply map_ext_in. intros k Hk%elem_of_list_In. rewrite first_seen_elem in Hk. unfold the_category, option_events.
    rewrite the_options_others; [done|]. by intros ->.
Qed.
Definition product_events (p : product) (options : list raw_option) : list event :=
  concat (map (option_events p) options).
Lemma named_app K L o p : named K L -> named (K ++ [ro_name o]) (L ++ option_events p o).
Proof.
  intros W e H. apply elem_of_app in H as [H|H]; apply elem_of_app; [left; by apply W|right].
  apply elem_of_list_fmap in H as (v & -> & _). by left.
Qed.
Lemma index_options_the K L os p : told_apart (L ++ product_events p os) -> named K L ->
  foldl (index_option p) (the_categories K L, lenN (pairs_of L)) os =
  (the_categories (K ++ map ro_name os) (L ++ product_events p os), lenN (pairs_of (L ++ product_events p os)))
  /\ named (K ++ map ro_name os) (L ++ product_events p os).
Proof.
  revert K L. induction os as [|o os IH]; intros K L T W; cbn [foldl map].
  - unfold product_events. simpl. by rewrite !app_nil_r.
  - unfold product_events in *. cbn [map concat] in *. rewrite (cons_middle _ K), (app_assoc K).
    rewrite (app_assoc L) in *. rewrite index_option_the; [|by eapply told_apart_app|done].
    apply IH; [done|by apply named_app].
Qed.

(** All mentions of a catalogue. *)
Definition all_events (raw : list (list raw_option)) (ps : list product) : list event :=
  concat (zip_with (fun os p => product_events p os) raw ps).
Lemma zip_with_snoc {A B C} (f : A -> B -> C) l k x y : length l = length k ->
  zip_with f (l ++ [x]) (k ++ [y]) = zip_with f l k ++ [f x y].
Proof. intros E. by rewrite zip_with_app. Qed.
Lemma elem_of_all_events raw ps k v p : (k, v, p) ∈ all_events raw ps <->
  exists i, ps !! i = Some p /\ lists_option raw i k v.
Proof.
  unfold all_events, product_events, lists_option. rewrite elem_of_concat. split.
  - intros (l & H & Hl). apply elem_of_list_lookup in Hl as [i Hl]. apply lookup_zip_with_Some in Hl as (os & q & -> & H1 & H2).
    apply elem_of_concat in H as (l & H & Hl). apply elem_of_list_fmap in Hl as (o & -> & Ho).
    apply elem_of_list_fmap in H as (v' & [= -> -> ->] & Hv). exists i. eauto 10.
  - intros (i & Hp & os & o & Hos & Ho & <- & Hv). exists (product_events p os). split.
    + apply elem_of_concat. exists (option_events p o). split; [|by apply elem_of_list_fmap; exists o].
      apply elem_of_list_fmap. eauto.
    + apply elem_of_list_lookup. exists i. rewrite lookup_zip_with, Hos, Hp. done.
Qed.
Lemma positions_apart ps p q : positions ps -> p ∈ ps -> q ∈ ps -> p_sid p = p_sid q -> p = q.
Proof.
  intros W Hp Hq E. apply elem_of_list_lookup in Hp as [i Hp], Hq as [j Hq].
  rewrite (W _ _ Hp), (W _ _ Hq) in E. assert (i = j) as -> by lia. congruence.
Qed.
Lemma all_events_apart raw ps : positions ps -> told_apart (all_events raw ps).
Proof.
  intros W [[k v] p] [[k' v'] p'] (i & H & _)%elem_of_all_events (j & H' & _)%elem_of_all_events. simpl.
  apply (positions_apart ps); [done|by eapply elem_of_list_lookup_2..].
Qed.

Lemma category_build_step raw c : positions (c_products c) -> (length raw <= length (c_products c))%nat ->
  let L := all_events raw (take (length raw) (c_products c)) in
  foldM (fun '(i, categories, next_id) options =>
      p ← unwrap (getN (c_products c) i);
      let '(categories, next_id) := foldl (index_option p) (categories, next_id) options in
      Done (i + 1, categories, next_id)) raw (0, [], 0) =
    Done (lenN raw, the_categories (category_mentions raw) L, lenN (pairs_of L))
  /\ named (category_mentions raw) L.
Proof.
  intros W. cbn zeta. induction raw as [|os raw IH] using rev_ind; intros H.
  { split; [done|]. by intros e ?%elem_of_nil. }
  rewrite app_length in H. simpl in H. destruct IH as [E N]; [lia|]. 
  rewrite foldM_app, E. cbn [mbind res_bind foldM].
  assert (G : getN (c_products c) (lenN raw) = c_products c !! length raw) by apply getN_of_nat.
  rewrite G.
  destruct (lookup_lt_is_Some_2 (c_products c) (length raw)) as [p Hp]; [lia|]. rewrite Hp. cbn [unwrap mbind res_bind].
  assert (EL : all_events (raw ++ [os]) (take (length (raw ++ [os])) (c_products c)) =
    all_events raw (take (length raw) (c_products c)) ++ product_events p os).
  { rewrite app_length. simpl. rewrite Nat.add_1_r. rewrite (take_S_r _ _ p) by done. unfold all_events.
    rewrite zip_with_snoc by (rewrite take_length; lia). rewrite concat_app. simpl. by rewrite app_nil_r. }
  assert (EK : category_mentions (raw ++ [os]) = category_mentions raw ++ map ro_name os).
  { unfold category_mentions. rewrite concat_app, map_app. simpl. by rewrite app_nil_r. }
  rewrite EL, EK.
  assert (T : told_apart (all_events raw (take (length raw) (c_products c)) ++ product_events p os)).
  { rewrite <- EL. apply all_events_apart. intros i q Hq. apply (W i q).
    rewrite lookup_take in Hq; [done|]. apply lookup_lt_Some in Hq. rewrite take_length in Hq. lia. }
  destruct (index_options_the _ _ os p T N) as [E' N']. rewrite E'. split; [|done].
  by rewrite lenN_app.
Qed.

(** [first_seen] of the owners is the owners in catalogue order, each once. *)
Lemma category_build raw c : positions (c_products c) -> (length raw <= length (c_products c))%nat ->
  category_index_build raw c =
  Done (the_categories (category_mentions raw) (all_events raw (take (length raw) (c_products c)))).
Proof.
  intros W H. unfold category_index_build. by destruct (category_build_step raw c W H) as [-> _].
Qed.

Lemma filter_drop {A} (P : A -> Prop) `{forall x, Decision (P x)} l :
  Forall (fun x => ~ P x) l -> filter P l = [].
Proof. induction 1; [done|]. by rewrite filter_cons_False by done. Qed.
Lemma filter_both {A} (P Q : A -> Prop) `{forall x, Decision (P x), forall x, Decision (Q x)}
    `{forall x, Decision (R x)} (l : list A) : (forall x, R x <-> P x /\ Q x) ->
  filter P (filter Q l) = filter R l.
Proof.
  intros E. induction l as [|x l IH]; [done|]. destruct (decide (Q x)) as [HQ|HQ].
  - rewrite (filter_cons_True Q) by done. destruct (decide (P x)).
    + rewrite !filter_cons_True by naive_solver. by f_equal.
    + rewrite !filter_cons_False by naive_solver. done.
  - rewrite (filter_cons_False Q) by done. rewrite (filter_cons_False R) by (rewrite E; naive_solver). done.
Qed.
Lemma filter_sublist {A} (P : A -> Prop) `{forall x, Decision (P x)} (l : list A) :
  filter P l `sublist_of` l.
Proof.
  induction l as [|x l IH]; [constructor|]. destruct (decide (P x)).
  - rewrite filter_cons_True by done. by constructor.
  - rewrite filter_cons_False by done. by constructor.
Qed.
Lemma first_seen_app `{EqDecision A} (l k : list A) :
  first_seen (l ++ k) = first_seen l ++ filter (fun x => x ∉ l) (first_seen k).
Proof.
  induction l as [|x l IH]; simpl.
  - symmetry. apply filter_all. apply Forall_forall. by intros x _ ?%elem_of_nil.
  - rewrite IH. f_equal. rewrite filter_app. f_equal.
    apply filter_both. intros y. by rewrite not_elem_of_cons.
Qed.
Lemma first_seen_copies `{EqDecision A} (l : list A) p : Forall (fun x => x = p) l ->
  first_seen l = [] \/ first_seen l = [p].
Proof.
  induction 1 as [|x l -> H IH]; [by left|]. right. simpl. f_equal.
  apply filter_drop. apply Forall_forall. intros y Hy. rewrite first_seen_elem in Hy.
  rewrite Forall_forall in H. apply H in Hy. naive_solver.
Qed.
Lemma first_seen_sublist `{EqDecision A} (ls : list (list A)) ps :
  Forall2 (fun l p => Forall (fun x => x = p) l) ls ps -> first_seen (concat ls) `sublist_of` ps.
Proof.
  induction 1 as [|l p ls ps H _ IH]; [constructor|]. simpl. rewrite first_seen_app.
  assert (S : filter (fun x => x ∉ l) (first_seen (concat ls)) `sublist_of` ps).
  { etrans; [apply filter_sublist|done]. }
  destruct (first_seen_copies l p H) as [->| ->]; by constructor.
Qed.
Lemma products_of_concat Ls k v : products_of (concat Ls) k v = concat (map (fun L => products_of L k v) Ls).
Proof. induction Ls as [|L Ls IH]; [done|]. simpl. by rewrite products_of_app, IH. Qed.
Lemma content_sublist raw ps k v : length raw = length ps ->
  first_seen (products_of (all_events raw ps) k v) `sublist_of` ps.
Proof.
  intros E. unfold all_events. rewrite products_of_concat. apply first_seen_sublist.
  apply Forall2_same_length_lookup_2; [rewrite map_length, zip_with_length; lia|].
  intros i l p Hl Hp. rewrite list_lookup_fmap in Hl. apply fmap_Some in Hl as (L & HL & ->).
  apply lookup_zip_with_Some in HL as (os & q & -> & _ & Hq). simplify_eq.
  apply Forall_forall. intros x Hx. rewrite elem_of_products in Hx. unfold product_events in Hx.
  apply elem_of_concat in Hx as (l & Hx & Hl). apply elem_of_list_fmap in Hl as (o & -> & _).
  by apply elem_of_list_fmap in Hx as (w & [= _ _ ->] & _).
Qed.
Lemma all_events_pairs raw ps : length raw = length ps -> map fst (all_events raw ps) = pair_mentions raw.
Proof.
  revert ps. induction raw as [|os raw IH]; intros [|p ps] E; try done. simpl in E. injection E as E.
  unfold all_events, pair_mentions. simpl. rewrite !map_app, concat_app. f_equal.
  - unfold product_events. clear. induction os as [|o os IH]; [done|]. simpl. rewrite map_app. rewrite IH. f_equal.
    unfold option_events. by rewrite map_map.
  - apply (IH ps E).
Qed.
Lemma values_of_mentions raw ps k : length raw = length ps ->
  values_of (all_events raw ps) k = value_mentions raw k.
Proof.
  intros E. unfold value_mentions. rewrite <- (all_events_pairs raw ps E). unfold values_of.
  induction (all_events raw ps) as [|[[k' v] p] L IH]; [done|]. simpl. destruct (decide (k' = k)).
  - rewrite !filter_cons_True by done. simpl. by f_equal.
  - by rewrite !filter_cons_False by done.
Qed.

(** What is built. *)
Lemma categories_built raw c cats : positions (c_products c) -> length raw = length (c_products c) ->
  category_index_build raw c = Done cats ->
  map cat_name cats = first_seen (category_mentions raw) /\
  forall cat, cat ∈ cats -> cat_exclusive cat = false /\
    map o_name (cat_options cat) = first_seen (value_mentions raw (cat_name cat)) /\
    forall o, o ∈ cat_options cat ->
      o_content o `sublist_of` c_products c /\
      (forall i p, c_products c !! i = Some p -> p ∈ o_content o <-> lists_option raw i (cat_name cat) (o_name o)) /\
      o_ids o = sids (o_content o) /\
      first_seen (pair_mentions raw) !! N.to_nat (o_sid o) = Some (cat_name cat, o_name o).
Proof.
  intros W E H. rewrite category_build in H by (done || lia). injection H as <-.
  rewrite take_ge by lia. set (L := all_events raw (c_products c)). split.
  { unfold the_categories. rewrite map_map. by rewrite map_id. }
  intros cat Hc. apply elem_of_list_fmap in Hc as (k & -> & Hk). simpl. split; [done|]. split.
  { unfold the_options. rewrite map_map. rewrite <- (values_of_mentions _ _ _ E). by rewrite map_id. }
  intros o Ho. apply elem_of_list_fmap in Ho as (v & -> & Hv). rewrite first_seen_elem in Hv. simpl.
  split; [by apply content_sublist|]. split.
  { intros i p Hp. rewrite first_seen_elem, elem_of_products. unfold L. rewrite elem_of_all_events. split.
    - intros (j & Hj & Hl). assert (i = j) as ->; [|done].
      pose proof (W _ _ Hp) as A. rewrite (W _ _ Hj) in A. lia.
    - eauto. }
  split; [by rewrite sids_first_seen|].
  unfold L in *. rewrite <- (all_events_pairs _ _ E). apply place_of_lookup. by apply elem_of_pairs.
Qed.
Lemma categories_build_total raw c : positions (c_products c) -> length raw = length (c_products c) ->
  exists cats, category_index_build raw c = Done cats.
Proof. intros W E. rewrite category_build by (done || lia). eauto. Qed.

(** ** Tags *)
Lemma tag_push_owners m t p name : tag_push m t p !! name =
  if decide (name = t) then Some (default [] (m !! name) ++ [p]) else m !! name.
Proof.
  unfold tag_push. case_decide as E.
  - subst. rewrite lookup_insert. by destruct (m !! t).
  - by rewrite lookup_insert_ne by done.
Qed.
Definition nonempty {A} (l : list A) : option (list A) := match l with [] => None | _ => Some l end.
Lemma tag_pushes m ts p name l : m !! name = nonempty l ->
  foldl (fun m t => tag_push m t p) m ts !! name = nonempty (l ++ map (fun _ => p) (filter (fun s => s = name) ts)).
Proof.
  revert m l. induction ts as [|t ts IH]; intros m l H; cbn [foldl].
  - by rewrite app_nil_r.
  - destruct (decide (t = name)) as [->|N].
    + rewrite filter_cons_True by done. rewrite map_cons, cons_middle, app_assoc. apply IH.
      rewrite tag_push_owners, decide_True by done. rewrite H. by destruct l.
    + rewrite filter_cons_False by done. apply IH. by rewrite tag_push_owners, decide_False by done.
Qed.
Lemma tag_owners_snoc raw ps tags p t : length raw = length ps ->
  tag_owners (raw ++ [tags]) (ps ++ [p]) t =
  tag_owners raw ps t ++ map (fun _ => p) (filter (fun s => s = t) tags).
Proof.
  intros E. unfold tag_owners. rewrite zip_with_snoc by done. rewrite concat_app. simpl. by rewrite app_nil_r.
Qed.
Lemma tags_step raw c : (length raw <= length (c_products c))%nat ->
  exists m, foldM (fun '(id, m) tags =>
      p ← unwrap (getN (c_products c) id);
      Done (id + 1, foldl (fun m t => tag_push m t p) m tags)) raw (0, ∅) = Done (lenN raw, m) /\
    forall t, m !! t = nonempty (tag_owners raw (take (length raw) (c_products c)) t).
Proof.
  induction raw as [|tags raw IH] using rev_ind; intros H; [by exists ∅|].
  rewrite app_length in H. simpl in H. destruct IH as (m & E & M); [lia|].
  rewrite foldM_app, E. cbn [mbind res_bind foldM].
  assert (G : getN (c_products c) (lenN raw) = c_products c !! length raw) by apply getN_of_nat. rewrite G.
  destruct (lookup_lt_is_Some_2 (c_products c) (length raw)) as [p Hp]; [lia|]. rewrite Hp. cbn [unwrap mbind res_bind].
  eexists. split; [by rewrite lenN_app|]. intros t. rewrite app_length. simpl. rewrite Nat.add_1_r.
  rewrite (take_S_r _ _ p) by done. rewrite tag_owners_snoc by (rewrite take_length; lia). by apply tag_pushes.
Qed.
Lemma tag_owners_elem raw ps t p : p ∈ tag_owners raw ps t <-> exists i, ps !! i = Some p /\ lists_tag raw i t.
Proof.
  unfold tag_owners, lists_tag. rewrite elem_of_concat. split.
  - intros (l & H & Hl). apply elem_of_list_lookup in Hl as [i Hl].
    apply lookup_zip_with_Some in Hl as (tags & q & -> & H1 & H2).
    apply elem_of_list_fmap in H as (s & -> & H). apply elem_of_list_filter in H as [-> H]. eauto.
  - intros (i & Hp & tags & Ht & H). eexists. split.
    2: { apply elem_of_list_lookup. exists i. by rewrite lookup_zip_with, Ht, Hp. }
    apply elem_of_list_fmap. exists t. split; [done|]. by apply elem_of_list_filter.
Qed.
Lemma tags_built o raw c tags : valid_order o -> length raw = length (c_products c) ->
  tag_index_build o raw c = Done tags ->
  NoDup (map t_name tags) /\ (forall name, name ∈ map t_name tags <-> exists i, lists_tag raw i name) /\
  tag_positions tags /\
  forall t, t ∈ tags -> t_products t = tag_owners raw (c_products c) (t_name t) /\ t_ids t = sids (t_products t).
Proof.
  intros Ho E H. unfold tag_index_build in H. destruct (tags_step raw c) as (m & F & M); [lia|].
  rewrite F in H. cbn [mbind res_bind] in H. injection H as <-.
  rewrite take_ge in M by lia.
  set (tags := imap _ _).
  assert (EN : map t_name tags = map fst (o (map_to_list m))).
  { unfold tags. generalize (o (map_to_list m)). intros l.
    apply list_eq. intros i. rewrite !list_lookup_fmap, list_lookup_imap. destruct (l !! i) as [[]|]; done. }
  assert (ET : forall t, t ∈ tags -> m !! t_name t = Some (t_products t) /\ t_ids t = sids (t_products t)).
  { intros t Ht. apply elem_of_list_lookup in Ht as [i Hi]. unfold tags in Hi. rewrite list_lookup_imap in Hi.
    apply fmap_Some in Hi as ([name l] & Hi & ->). simpl. split; [|done].
    apply elem_of_map_to_list. rewrite <- (Ho (map_to_list m)). by eapply elem_of_list_lookup_2. }
  split; [|split; [|split]].
  - rewrite EN. rewrite (Ho (map_to_list m)). apply NoDup_fst_map_to_list.
  - intros name. rewrite EN. rewrite (Ho (map_to_list m)). rewrite elem_of_list_fmap. split.
    + intros ([n l] & -> & H). apply elem_of_map_to_list in H. simpl. rewrite M in H.
      destruct (tag_owners raw (c_products c) n) as [|p ?] eqn:D; [done|].
      assert (p ∈ tag_owners raw (c_products c) n) as (i & _ & L)%tag_owners_elem by (rewrite D; by left). eauto.
    + intros (i & L). pose proof L as (ts & Hts & _).
      destruct (lookup_lt_is_Some_2 (c_products c) i) as [p Hp]; [apply lookup_lt_Some in Hts; lia|].
      assert (p ∈ tag_owners raw (c_products c) name) as D by (apply tag_owners_elem; eauto).
      exists (name, tag_owners raw (c_products c) name). split; [done|]. apply elem_of_map_to_list. rewrite M.
      destruct (tag_owners raw (c_products c) name); [by apply elem_of_nil in D|done].
  - intros i t Hi. unfold tags in Hi. rewrite list_lookup_imap in Hi. apply fmap_Some in Hi as ([name l] & Hi & ->). done.
  - intros t Ht. destruct (ET t Ht) as [E1 E2]. split; [|done]. rewrite M in E1.
    destruct (tag_owners _ _ _); simpl in E1; congruence.
Qed.
Lemma tags_build_total o raw c : length raw = length (c_products c) -> exists tags, tag_index_build o raw c = Done tags.
Proof. intros E. unfold tag_index_build. destruct (tags_step raw c) as (m & -> & M); [lia|]. simpl. eauto. Qed.
