(** C41: without ties, the index does not depend on hash orders. *)
From Verif.model Require Import Base F32 Utf8 Prim Coll Data Gram Indexer.
From Verif.spec Require Import Spec Data_spec Gram_spec.
From Verif.proofs Require Import Base_facts Sort_facts Float_facts File_facts Indexer_facts Trie_facts Search_facts Trie_props Search_props.
From Coq Require Import Lia.

Lemma le_both x y : f32_le x y -> f32_le y x -> f32_cmp x y = Some Eq.
Proof.
  unfold f32_le, SFleb, f32_cmp. intros H1 H2.
  assert (C : forall a b, match Pos.compare_cont Eq a b with Gt => false | _ => true end = true ->
    match Pos.compare_cont Eq b a with Gt => false | _ => true end = true -> a = b).
  { intros a b. fold (Pos.compare a b) (Pos.compare b a).
    destruct (Pos.compare_spec a b), (Pos.compare_spec b a); try done; lia. }
  assert (C' : forall a b, match CompOpp (Pos.compare_cont Eq a b) with Gt => false | _ => true end = true ->
    match CompOpp (Pos.compare_cont Eq b a) with Gt => false | _ => true end = true -> a = b).
  { intros a b. fold (Pos.compare a b) (Pos.compare b a).
    destruct (Pos.compare_spec a b), (Pos.compare_spec b a); try done; lia. }
  revert H1 H2.
  destruct x as [[]|[]| |[] m e], y as [[]|[]| |[] m' e']; simpl; try done.
  - destruct (Z.compare_spec e e') as [->|L|L]; [rewrite Z.compare_refl|destruct (Z.compare_spec e' e); try lia; done..].
    intros H1 H2. rewrite (C' m m') by done. fold (Pos.compare m' m'). by rewrite Pos.compare_refl.
  - destruct (Z.compare_spec e e') as [->|L|L]; [rewrite Z.compare_refl|destruct (Z.compare_spec e' e); try lia; done..].
    intros H1 H2. rewrite (C m m') by done. fold (Pos.compare m' m'). by rewrite Pos.compare_refl.
Qed.
Definition no_ties (children : list node) : Prop :=
  forall a b, a ∈ children -> b ∈ children -> f32_cmp (n_weight a) (n_weight b) = Some Eq -> a = b.
Lemma descending_unique l1 l2 : no_ties l1 -> descending l1 -> descending l2 -> l1 ≡ₚ l2 -> l1 = l2.
Proof.
  revert l2. induction l1 as [|x l1 IH]; intros l2 HT D1 D2 HP.
  - by apply Permutation_nil_l.
  - destruct l2 as [|y l2]; [by apply Permutation_nil_r in HP|].
    destruct D1 as [F1 D1], D2 as [F2 D2]. rewrite Forall_forall in F1, F2.
    assert (x = y) as ->.
    { assert (Hx : x ∈ y :: l2) by (rewrite <- HP; left). assert (Hy : y ∈ x :: l1) by (rewrite HP; left).
      apply elem_of_cons in Hx as [Hx|Hx]; [done|]. apply elem_of_cons in Hy as [Hy|Hy]; [done|].
      apply HT; [left|by right|]. apply le_both; [by apply F2|by apply F1]. }
    f_equal. apply IH; try done; [|by eapply Permutation_cons_inv].
    intros a b Ha Hb. apply HT; by right.
Qed.
Lemma built_unique c nd1 : forall w parent nd2, built c w parent nd1 -> built c w parent nd2 ->
  (forall u nd, reaches nd1 u nd -> no_ties (n_children nd)) -> nd1 = nd2.
Proof.
  induction nd1 as [item weight children IH] using node_ind'. intros w parent nd2 B1 B2 HT.
  inversion B1 as [w1 p1 i1 ch1 L1 G1 N1 D1 F1 E1 E2 E3]; subst.
  inversion B2 as [w2 p2 i2 ch2 L2 G2 N2 D2 F2 E1 E2 E3]; subst.
  assert (item = i2) as -> by congruence. f_equal.
  rewrite Forall_forall in IH, F1, F2.
  assert (Hsame : forall a b, a ∈ children -> b ∈ ch2 -> n_item a = n_item b -> a = b).
  { intros a b Ha Hb E. eapply IH; [done|by apply F1|rewrite E; by apply F2|].
    intros u nd Hr. apply (HT (n_item a :: u)). by econstructor. }
  apply descending_unique; [exact (HT [] _ (reaches_here _))|done|done|].
  apply NoDup_Permutation; [by eapply NoDup_fmap_1|by eapply NoDup_fmap_1|]. intros x. split.
  - intros Hx. destruct (proj2 (G2 (n_item x))) as (y & Hy & E); [apply G1; eauto|].
    by rewrite (Hsame x y).
  - intros Hx. destruct (proj2 (G1 (n_item x))) as (y & Hy & E); [apply G2; eauto|].
    by rewrite <- (Hsame y x).
Qed.
Lemma no_ties_same P n o1 o2 source pc gi1 gi2 : (1 <= n)%nat -> valid_build_order o1 -> valid_build_order o2 ->
  total_grams (map snd source) < 2 ^ 32 ->
  index_from P n o1 source pc = Done gi1 -> index_from P n o2 source pc = Done gi2 ->
  (forall w nd a b, at_path (gi_roots gi1) w nd -> a ∈ n_children nd -> b ∈ n_children nd ->
     f32_cmp (n_weight a) (n_weight b) = Some Eq -> a = b) ->
  gi1 = gi2.
Proof.
  intros Hn Ho1 Ho2 Hlim H1 H2 HT.
  pose proof (index_from_built _ _ _ _ _ _ Hn Ho1 Hlim H1) as IB1.
  pose proof (index_from_built _ _ _ _ _ _ Hn Ho2 Hlim H2) as IB2.
  pose proof (same_postings P n o1 o2 source pc gi1 gi2 Hn Ho1 Ho2 Hlim H1 H2) as E.
  destruct gi1 as [r1 d1 c1], gi2 as [r2 d2 c2]. cbn [gi_data gi_roots] in *. f_equal; [|done|].
  2: { pose proof (ib_container _ _ _ _ _ IB1). pose proof (ib_container _ _ _ _ _ IB2). simpl in *. congruence. }
  apply map_eq. intros g. pose proof (ib_roots _ _ _ _ _ IB1 g) as R1. pose proof (ib_roots _ _ _ _ _ IB2 g) as R2.
  cbn [gi_roots] in R1, R2. destruct (r1 !! g) as [nd1|] eqn:E1, (r2 !! g) as [nd2|] eqn:E2; [| | |done].
  - f_equal. eapply built_unique; [by apply (ib_root _ _ _ _ _ IB1)|by apply (ib_root _ _ _ _ _ IB2)|].
    intros u nd Hr a b. apply (HT (g :: u)). exists g, u, nd1. done.
  - destruct (proj2 R2) as [? ?]; [|done]. apply R1. eauto.
  - destruct (proj2 R1) as [? ?]; [|done]. apply R2. eauto.
Qed.

(** ** With ties, turning all hash orders around makes another trie *)
Lemma palindrome_short {A} (l : list A) : NoDup l -> l = reverse l -> forall a b, a ∈ l -> b ∈ l -> a = b.
Proof.
  intros Hn E. destruct l as [|x l]; [intros a b H; by apply elem_of_nil in H|].
  destruct l as [|y l] using rev_ind; [intros a b; rewrite !elem_of_list_singleton; congruence|].
  rewrite reverse_cons, reverse_app in E. cbn in E. injection E as -> _.
  apply NoDup_cons in Hn as [Hn _]. exfalso. apply Hn. apply elem_of_app. right. by left.
Qed.
Definition turned (o : addr -> order_of (N * addr)) : addr -> order_of (N * addr) := fun a l => reverse (o a l).
Lemma class_map {A} (cmp : A -> A -> comparison) x l k (f : A -> N) :
  Forall2 (fun a b => f a = f b /\ cmp x a = cmp x b) l k -> map f (class cmp x l) = map f (class cmp x k).
Proof.
  unfold class. induction 1 as [|a b l k [H1 H2] _ IH]; [done|]. cbn [List.filter]. rewrite H2.
  destruct (cmp x b); cbn [map]; congruence.
Qed.
Lemma class_reverse {A} (cmp : A -> A -> comparison) x l : class cmp x (reverse l) = reverse (class cmp x l).
Proof.
  unfold class. induction l as [|a l IH]; [done|]. rewrite reverse_cons, List.filter_app, IH. cbn [List.filter].
  destruct (cmp x a); [by rewrite reverse_cons|by rewrite app_nil_r..].
Qed.
Lemma in_class {A} (cmp : A -> A -> comparison) x y l : y ∈ l -> cmp x y = Eq -> y ∈ class cmp x l.
Proof. intros H E. unfold class. rewrite elem_of_list_In, filter_In, <- elem_of_list_In. by rewrite E. Qed.
Definition heavier (a b : node) : comparison := reverse_ord (f32_total_cmp (n_weight a) (n_weight b)).
Lemma heavier_total : total_cmp heavier.
Proof. apply (total_cmp_reverse (fun a b => f32_total_cmp (n_weight a) (n_weight b))). apply (total_cmp_on n_weight), f32_total. Qed.
Lemma sort_heavier l : (forall x, x ∈ l -> f32_number (n_weight x)) ->
  sort_by (fun a b => reverse_ord (node_cmp a b)) l = sort_by heavier l.
Proof. intros H. apply sort_by_ext. intros x y Hx Hy. unfold heavier, node_cmp. rewrite f32_total_cmp_agrees; auto. Qed.
Lemma class_NoDup {A} (f : A -> N) cmp x l : NoDup (map f l) -> NoDup (map f (class cmp x l)).
Proof.
  unfold class. induction l as [|a l IH]; [done|]. cbn [map List.filter]. intros [H1 H2]%NoDup_cons.
  destruct (cmp x a); cbn [map]; [|by apply IH..]. apply NoDup_cons. split; [|by apply IH].
  intros Hin. apply H1. apply elem_of_list_fmap in Hin as (y & -> & Hy). apply elem_of_list_fmap. exists y. split; [done|].
  rewrite elem_of_list_In, filter_In, <- elem_of_list_In in Hy. by destruct Hy.
Qed.
(** A list and its reordering that sort to the same list tie nowhere. *)
Lemma turned_no_ties l1 l2 : Forall2 (fun a b => n_item a = n_item b /\ n_weight a = n_weight b) l1 (reverse l2) ->
  (forall x, x ∈ l1 -> f32_number (n_weight x)) -> NoDup (map n_item l1) ->
  sort_by (fun a b => reverse_ord (node_cmp a b)) l1 = sort_by (fun a b => reverse_ord (node_cmp a b)) l2 ->
  no_ties (sort_by (fun a b => reverse_ord (node_cmp a b)) l1).
Proof.
  intros F Hnum Hnd E. assert (Hnum2 : forall x, x ∈ l2 -> f32_number (n_weight x)).
  { intros x Hx. rewrite <- elem_of_reverse in Hx. apply elem_of_list_lookup in Hx as [i Hi].
    destruct (Forall2_lookup_r _ _ _ _ _ F Hi) as (y & Hy & _ & <-). apply Hnum. by eapply elem_of_list_lookup_2. }
  rewrite (sort_heavier l1), (sort_heavier l2) in E by done. rewrite (sort_heavier l1) by done.
  intros a b Ha%sort_by_elem Hb%sort_by_elem T.
  assert (Hab : heavier a b = Eq).
  { unfold heavier. rewrite f32_total_cmp_agrees by auto. by rewrite T. }
  assert (Haa : heavier a a = Eq).
  { unfold heavier. rewrite f32_total_cmp_agrees by auto. rewrite f32_cmp_key by auto. simpl. rewrite Raux.Rcompare_Eq by done. done. }
  assert (P : map n_item (class heavier a l1) = reverse (map n_item (class heavier a l1))).
  { assert (E2 : class heavier a l1 = class heavier a l2).
    { rewrite <- (class_sort heavier a l1 heavier_total), <- (class_sort heavier a l2 heavier_total). by rewrite E. }
    rewrite E2 at 2. rewrite <- fmap_reverse, <- class_reverse. apply class_map.
    eapply Forall2_impl; [exact F|]. intros x y [H1 H2]. unfold heavier. by rewrite H2. }
  assert (Hi : n_item a = n_item b).
  { eapply (palindrome_short _ (class_NoDup n_item heavier a l1 Hnd) P).
    - apply elem_of_list_fmap. exists a. split; [done|]. by apply in_class.
    - apply elem_of_list_fmap. exists b. split; [done|]. by apply in_class. }
  apply elem_of_list_lookup in Ha as [i Hi1]. apply elem_of_list_lookup in Hb as [j Hj].
  assert (i = j) as ->; [|congruence].
  eapply NoDup_lookup; [exact Hnd| |]; rewrite list_lookup_fmap; [by rewrite Hi1|]. rewrite Hj. simpl. by rewrite Hi.
Qed.
Lemma frozen_head o h fuel a parent nd : immutalize o h fuel a parent = Done nd ->
  exists me, h_nodes h !! a = Some me /\ n_item nd = m_item me /\ n_weight nd = occurances_to_weight parent (m_occ me).
Proof.
  destruct fuel as [|fuel]; [done|]. cbn [immutalize]. destruct (h_nodes h !! a) as [me|] eqn:E; [|done]. cbn [unwrap mbind res_bind].
  intros H. destruct (mapR _ _) as [l| | |]; try done. injection H as <-. eauto.
Qed.
Lemma turned_trie o h fuel : forall a parent nd, immutalize o h fuel a parent = Done nd ->
  immutalize (turned o) h fuel a parent = Done nd ->
  (forall u nd', reaches nd u nd' -> NoDup (map n_item (n_children nd')) /\
     forall x, x ∈ n_children nd' -> f32_number (n_weight x)) ->
  forall u nd', reaches nd u nd' -> no_ties (n_children nd').
Proof.
  induction fuel as [|fuel IH]; [done|]. intros a parent nd H1 H2 Hg.
  cbn [immutalize] in H1, H2. destruct (h_nodes h !! a) as [me|] eqn:E; [|done]. cbn [unwrap mbind res_bind] in H1, H2.
  destruct (mapR (fun '(_, v) => immutalize o h fuel v (m_occ me)) _) as [l1| | |] eqn:M1; try done.
  destruct (mapR (fun '(_, v) => immutalize (turned o) h fuel v (m_occ me)) _) as [l2| | |] eqn:M2; try done.
  cbn [mbind res_bind] in H1, H2. injection H1 as <-. injection H2 as H2.
  apply mapR_Done in M1, M2. set (ks := o a (map_to_list (m_items me))) in *.
  unfold turned at 2 in M2. fold ks in M2. apply Forall2_reverse in M2. rewrite reverse_involutive in M2.
  assert (F : Forall2 (fun a b => n_item a = n_item b /\ n_weight a = n_weight b) l1 (reverse l2)).
  { clear -M1 M2. revert M2. generalize (reverse l2). induction M1 as [|[k v] x ks l1 Hx _ IH]; intros l M2; inversion M2; subst; constructor; auto.
    apply frozen_head in Hx as (me1 & E1 & -> & ->).
    match goal with H : immutalize (turned o) _ _ _ _ = _ |- _ => apply frozen_head in H as (me2 & E2 & -> & ->) end.
    rewrite E1 in E2. by injection E2 as <-. }
  destruct (Hg [] _ (reaches_here _)) as [Hnd Hnum]. cbn [n_children] in Hnd, Hnum.
  rewrite (sort_by_perm _ l1) in Hnd.
  assert (Hnum' : forall x, x ∈ l1 -> f32_number (n_weight x)) by (intros x Hx; apply Hnum; by apply sort_by_elem).
  intros u nd' Hr. inversion Hr as [|? child u' ? Hc Hr']; subst.
  - cbn [n_children]. by apply (turned_no_ties l1 l2).
  - cbn [n_children] in Hc. pose proof Hc as Hc2. rewrite <- H2 in Hc2. apply sort_by_elem in Hc, Hc2.
    rewrite <- elem_of_reverse in Hc2. apply elem_of_list_lookup in Hc as [i Hi]. apply elem_of_list_lookup in Hc2 as [j Hj].
    destruct (Forall2_lookup_r _ _ _ _ _ F Hj) as (y & Hy & Ey & _).
    assert (i = j) as <-.
    { eapply NoDup_lookup; [exact Hnd| |]; rewrite list_lookup_fmap; [by rewrite Hi|]. rewrite Hy. simpl. by rewrite Ey. }
    destruct (Forall2_lookup_r _ _ _ _ _ M1 Hi) as ([k v] & Hk & I1).
    destruct (Forall2_lookup_r _ _ _ _ _ M2 Hj) as ([k' v'] & Hk' & I2). rewrite Hk in Hk'. injection Hk' as <- <-.
    eapply (IH v (m_occ me) child I1 I2); [|exact Hr']. intros w nd2 Hw. apply (Hg (n_item child :: w)).
    econstructor; [|done]. cbn [n_children]. apply sort_by_elem. by eapply elem_of_list_lookup_2.
Qed.
Definition turned_order (o : build_order) : build_order :=
  BuildOrder (fun a => turned (bo_children o) a) (bo_root o) (bo_tags o).
Lemma turned_valid o : valid_build_order o -> valid_build_order (turned_order o).
Proof.
  intros (H1 & H2 & H3). split; [|done]. intros a l. cbn [turned_order bo_children]. unfold turned.
  rewrite reverse_Permutation. apply H1.
Qed.
Lemma in_roots {K} `{Countable K} {X Y} (f : X -> res Y) (ks : list (K * X)) r g y :
  mapR (fun '(k, v) => nd ← f v; Done (k, nd)) ks = Done r -> (list_to_map r : gmap K Y) !! g = Some y ->
  exists v, (g, v) ∈ ks /\ f v = Done y.
Proof.
  intros M%mapR_Done E%elem_of_list_to_map_2. apply elem_of_list_lookup in E as [i Hi].
  destruct (Forall2_lookup_r _ _ _ _ _ M Hi) as ([k v] & Hk & Ev).
  destruct (f v) as [y'| | |] eqn:Ef; try done. injection Ev as -> ->. exists v. split; [|done]. by eapply elem_of_list_lookup_2.
Qed.
Lemma same_no_ties P n o source pc gi : (1 <= n)%nat -> valid_build_order o ->
  total_grams (map snd source) < 2 ^ 32 -> index_from P n o source pc = Done gi ->
  index_from P n (turned_order o) source pc = Done gi ->
  forall w nd a b, at_path (gi_roots gi) w nd -> a ∈ n_children nd -> b ∈ n_children nd ->
     f32_cmp (n_weight a) (n_weight b) = Some Eq -> a = b.
Proof.
  intros Hn Ho Hlim H1 H2 w nd a b (g & u & root & -> & Eg & Hr). revert a b. fold (no_ties (n_children nd)).
  assert (Hg : forall u nd', reaches root u nd' -> NoDup (map n_item (n_children nd')) /\
     forall x, x ∈ n_children nd' -> f32_number (n_weight x)).
  { intros u' nd' Hr'. assert (Hp : at_path (gi_roots gi) (g :: u') nd') by (exists g, u', root; done).
    split; [by apply (trie_children P n o source pc gi Hn Ho Hlim H1 _ _ Hp)|]. intros x Hx.
    assert (Hp' : at_path (gi_roots gi) ((g :: u') ++ [n_item x]) x).
    { exists g, (u' ++ [n_item x]), root. split; [done|]. split; [done|].
      clear -Hr' Hx. induction Hr'; [by econstructor; [|constructor]|]. simpl. by econstructor; [|auto]. }
    apply f32_unit_number, f32_ratio_unit. by apply (trie_weights P n o source pc gi Hn Ho Hlim H1 _ _ Hp'). }
  unfold index_from in H1, H2. destruct (foldM _ source istate_init) as [st| | |]; try done. cbn [mbind res_bind turned_order bo_root bo_children] in H1, H2.
  destruct (mapR _ (bo_root o (map_to_list (i_root st)))) as [occs| | |]; try done. cbn [mbind res_bind] in H1, H2.
  destruct (foldM _ occs 0) as [total| | |]; try done. cbn [mbind res_bind] in H1, H2.
  destruct (mapR (fun '(k, v) => nd ← immutalize (bo_children o) (i_heap st) (S n) v total; Done (k, nd)) _) as [r1| | |] eqn:M1; try done.
  destruct (mapR (fun '(k, v) => nd ← immutalize (fun a => turned (bo_children o) a) (i_heap st) (S n) v total; Done (k, nd)) _) as [r2| | |] eqn:M2; try done.
  cbn [mbind res_bind] in H1, H2. injection H1 as <-. injection H2 as E2. cbn [gi_roots] in Eg. pose proof Eg as Eg2. rewrite <- E2 in Eg2.
  destruct (in_roots _ _ _ _ _ M1 Eg) as (v & Hv & I1). destruct (in_roots _ _ _ _ _ M2 Eg2) as (v2 & Hv2 & I2).
  assert (v2 = v) as ->.
  { destruct Ho as (_ & Hor & _). rewrite (Hor (map_to_list (i_root st))) in Hv, Hv2. apply elem_of_map_to_list in Hv, Hv2. congruence. }
  exact (turned_trie _ _ _ _ _ _ I1 I2 Hg u nd Hr).
Qed.
Lemma same_iff_no_ties P n o source pc gi : (1 <= n)%nat -> valid_build_order o ->
  total_grams (map snd source) < 2 ^ 32 -> index_from P n o source pc = Done gi ->
  (forall o', valid_build_order o' -> index_from P n o' source pc = Done gi) <->
  (forall w nd a b, at_path (gi_roots gi) w nd -> a ∈ n_children nd -> b ∈ n_children nd ->
     f32_cmp (n_weight a) (n_weight b) = Some Eq -> a = b).
Proof.
  intros Hn Ho Hlim H. split.
  - intros Hall. apply (same_no_ties P n o source pc gi Hn Ho Hlim H). apply Hall. by apply turned_valid.
  - intros HT o' Ho'. destruct (index_total P n o' source pc Hn Ho' Hlim) as (gi' & E). rewrite E. f_equal. symmetry.
    exact (no_ties_same P n o o' source pc gi gi' Hn Ho Ho' Hlim H E HT).
Qed.
Lemma ties_tied P n o source pc gi : (1 <= n)%nat -> valid_build_order o ->
  total_grams (map snd source) < 2 ^ 32 -> index_from P n o source pc = Done gi ->
  (forall w nd a b, at_path (gi_roots gi) w nd -> a ∈ n_children nd -> b ∈ n_children nd ->
     f32_cmp (n_weight a) (n_weight b) = Some Eq -> a = b) <-> ~ tied n (map snd source).
Proof.
  intros Hn Ho Hlim H. destruct (trie_paths P n o source pc gi Hn Ho Hlim H) as [Hpaths Huniq].
  pose proof (index_from_built _ _ _ _ _ _ Hn Ho Hlim H) as IB.
  assert (Hw : forall w x c, w <> [] -> at_path (gi_roots gi) (w ++ [x]) c ->
    n_item c = x /\ n_weight c = share (map snd source) w x).
  { intros w x c Hne Hc. destruct (trie_weights P n o source pc gi Hn Ho Hlim H _ _ Hc) as (L & W & _).
    rewrite last_snoc in L. injection L as ->. split; [done|]. rewrite W. unfold share. f_equal. f_equal. unfold parent_occurrences.
    destruct (w ++ [n_item c]) as [|g [|g' u]] eqn:E; [by destruct w|by destruct w as [|? []]|].
    rewrite <- E, removelast_last. done. }
  split.
  - intros HT (w & x & y & t1 & t2 & Hne & Hlen & Hxy & Ht1 & Ho1 & Ht2 & Ho2 & E).
    apply elem_of_list_fmap in Ht1 as ([p1 t1'] & -> & Ht1). apply elem_of_list_fmap in Ht2 as ([p2 t2'] & -> & Ht2). simpl in Ho1, Ho2.
    destruct (proj2 (Hpaths (w ++ [x]))) as [cx Hx].
    { split; [by destruct w|]. rewrite app_length. simpl. split; [lia|eauto]. }
    destruct (proj2 (Hpaths (w ++ [y]))) as [cy Hy].
    { split; [by destruct w|]. rewrite app_length. simpl. split; [lia|eauto]. }
    destruct (proj2 (Hpaths w)) as [nd Hnd].
    { split; [done|]. split; [lia|]. exists p1, t1'. split; [done|]. destruct Ho1 as (u & v & ->). exists u, ([x] ++ v). by rewrite <- app_assoc. }
    destruct (at_path_children P n source pc gi Hn Hlim IB w nd Hnd) as (_ & _ & Hch).
    destruct (proj2 (Hch x)) as (a & Ha & Ea); [eauto|]. destruct (proj2 (Hch y)) as (b & Hb & Eb); [eauto|].
    pose proof (at_path_child _ _ _ _ Hnd Ha) as Pa. pose proof (at_path_child _ _ _ _ Hnd Hb) as Pb.
    destruct (Hw w _ a Hne Pa) as [_ Wa]. destruct (Hw w _ b Hne Pb) as [_ Wb].
    apply Hxy. rewrite <- Ea, <- Eb. f_equal. apply (HT w nd a b Hnd Ha Hb). rewrite Wa, Wb, Ea, Eb. exact E.
  - intros HT w nd a b Hnd Ha Hb E.
    assert (Hne : w <> []) by (destruct Hnd as (? & ? & ? & -> & _); done).
    pose proof (at_path_child _ _ _ _ Hnd Ha) as Pa. pose proof (at_path_child _ _ _ _ Hnd Hb) as Pb.
    destruct (Hw w _ a Hne Pa) as [_ Wa]. destruct (Hw w _ b Hne Pb) as [_ Wb]. rewrite Wa, Wb in E.
    destruct (decide (n_item a = n_item b)) as [Ei|Ei]; [rewrite Ei in Pa; by eapply Huniq|]. exfalso. apply HT.
    destruct (proj1 (Hpaths _) (ex_intro _ _ Pa)) as (_ & L & p1 & t1 & H1 & O1).
    destruct (proj1 (Hpaths _) (ex_intro _ _ Pb)) as (_ & _ & p2 & t2 & H2 & O2).
    rewrite app_length in L. simpl in L.
    exists w, (n_item a), (n_item b), t1, t2. split; [done|]. split; [lia|]. split; [done|].
    split; [apply elem_of_list_fmap; by exists (p1, t1)|]. split; [done|].
    split; [apply elem_of_list_fmap; by exists (p2, t2)|]. split; [done|]. exact E.
Qed.
Lemma builds_agree P n source pc : (1 <= n)%nat -> total_grams (map snd source) < 2 ^ 32 ->
  (forall o1 o2, valid_build_order o1 -> valid_build_order o2 -> index_from P n o1 source pc = index_from P n o2 source pc) <->
  ~ tied n (map snd source).
Proof.
  intros Hn Hlim. split.
  - intros Hall. set (o := BuildOrder (fun _ l => l) (fun l => l) (fun l => l)).
    assert (Ho : valid_build_order o) by (split; [|split]; unfold valid_order; simpl; done).
    destruct (index_total P n o source pc Hn Ho Hlim) as (gi & E). apply (ties_tied P n o source pc gi Hn Ho Hlim E).
    apply (same_iff_no_ties P n o source pc gi Hn Ho Hlim E). intros o' Ho'. by rewrite (Hall o' o).
  - intros HT o1 o2 Ho1 Ho2. destruct (index_total P n o1 source pc Hn Ho1 Hlim) as (gi & E). rewrite E. symmetry.
    revert o2 Ho2. apply (same_iff_no_ties P n o1 source pc gi Hn Ho1 Hlim E). by apply (ties_tied P n o1 source pc gi Hn Ho1 Hlim E).
Qed.
