(** The derived equalities, and when the round-trip test passes. *)
From Verif.model Require Import Base F32 Utf8 Prim Coll Data Gram Indexer Nodes Classic Lit Raw Js Lib Equal.
From Verif.spec Require Import Spec Data_spec Gram_spec Classic_spec Raw_spec Lib_spec End_spec Equal_spec.
From Verif.proofs Require Import Base_facts Sort_facts Coll_facts Utf8_facts Data_facts File_facts Data_more Sample_facts Indexer_facts
  Float_facts Trie_facts Trie_props Classic_facts Raw_facts Raw_props Search_facts End_facts Bytes_facts.

(** ** Equality of floats, maps, nodes *)
Lemma f32_eqb_refl x : f32_eqb x x = negb (is_nan x).
Proof.
  unfold f32_eqb, SFeqb. destruct x as [[]|[]| |[] m e]; try done; simpl; rewrite Z.compare_refl.
  - by rewrite Pos.compare_cont_refl.
  - by rewrite Pos.compare_cont_refl.
Qed.
Lemma map_eqb_iff `{Countable K} {V} (eqb : V -> V -> bool) (a b : gmap K V) :
  map_eqb eqb a b = true <->
  size a = size b /\ forall k v, a !! k = Some v -> exists w, b !! k = Some w /\ eqb v w = true.
Proof.
  unfold map_eqb. rewrite andb_true_iff, Nat.eqb_eq, forallb_forall.
  apply and_iff_compat_l. split.
  - intros A k v Hk. specialize (A (k, v)). simpl in A. rewrite <- elem_of_list_In, elem_of_map_to_list in A.
    specialize (A Hk). destruct (b !! k) as [w|]; [eauto|done].
  - intros A [k v] Hk. rewrite <- elem_of_list_In, elem_of_map_to_list in Hk. destruct (A k v Hk) as (w & -> & ->). done.
Qed.
Lemma map_eqb_fmap `{Countable K} {V} (eqb : V -> V -> bool) (f : V -> V) (a : gmap K V) :
  map_eqb eqb a (f <$> a) = true <-> forall k v, a !! k = Some v -> eqb v (f v) = true.
Proof.
  rewrite map_eqb_iff, map_size_fmap. split.
  - intros [_ A] k v Hk. destruct (A k v Hk) as (w & Hw & E). rewrite lookup_fmap, Hk in Hw. injection Hw as <-. done.
  - intros A. split; [done|]. intros k v Hk. exists (f v). rewrite lookup_fmap, Hk. split; [done|]. by eapply A.
Qed.
Lemma map_eqb_self `{Countable K} {V} (eqb : V -> V -> bool) (a : gmap K V) :
  map_eqb eqb a a = true <-> forall k v, a !! k = Some v -> eqb v v = true.
Proof. rewrite <- (map_eqb_fmap eqb id). by rewrite map_fmap_id. Qed.
Lemma list_eqb_map {A} (eqb : A -> A -> bool) (f : A -> A) l :
  list_eqb eqb l (map f l) = true <-> Forall (fun x => eqb x (f x) = true) l.
Proof.
  induction l as [|x l IH]; simpl; [split; [constructor|done]|]. rewrite andb_true_iff, IH, Forall_cons. done.
Qed.
Lemma list_eqb_self {A} (eqb : A -> A -> bool) l :
  list_eqb eqb l l = true <-> Forall (fun x => eqb x x = true) l.
Proof. rewrite <- (list_eqb_map eqb id). by rewrite map_id. Qed.

(** The map of children is compared like any map. *)
Lemma items_of_cons c cs k : items_of (c :: cs) !! k =
  match items_of cs !! k with Some d => Some d | None => if decide (n_item c = k) then Some c else None end.
Proof.
  induction cs as [|d cs IH] using rev_ind.
  - unfold items_of. simpl. rewrite lookup_empty. case_decide as E; [rewrite E; apply lookup_insert|by rewrite lookup_insert_ne].
  - rewrite app_comm_cons, !items_of_snoc. destruct (decide (n_item d = k)) as [<-|N].
    + by rewrite !lookup_insert.
    + rewrite !lookup_insert_ne by done. exact IH.
Qed.
Lemma items_of_none cs k : items_of cs !! k = None <-> k ∉ map n_item cs.
Proof.
  split.
  - intros H (c & -> & Hc)%elem_of_list_fmap. destruct (items_of_elem _ _ Hc) as (d & E). congruence.
  - intros H. destruct (items_of cs !! k) as [d|] eqn:E; [|done]. exfalso. apply H.
    apply items_of_Some in E as [Hd <-]. by apply elem_of_list_fmap_1.
Qed.
Lemma node_eqb_unfold a b : node_eqb a b =
  (n_item a =? n_item b) && f32_eqb (n_weight a) (n_weight b) &&
  list_eqb node_eqb (n_children a) (n_children b) && map_eqb node_eqb (node_items a) (node_items b).
Proof.
  destruct a as [i w cs], b as [j v ds]. cbn [node_eqb n_item n_weight n_children node_items]. f_equal.
  { f_equal. revert ds. induction cs as [|c cs IH]; intros [|d ds]; simpl; try done. by rewrite IH. }
  unfold node_items. cbn [n_children]. apply eq_true_iff_eq. rewrite map_eqb_iff, andb_true_iff, Nat.eqb_eq. apply and_iff_compat_l.
  induction cs as [|c cs IH].
  { split; [|done]. intros _ k v0 H. by destruct (items_of_Some _ _ _ H) as [?%elem_of_nil _]. }
  rewrite andb_true_iff, IH, orb_true_iff, bool_decide_eq_true. clear IH. split.
  - intros [A B] k x Hk. rewrite items_of_cons in Hk. destruct (items_of cs !! k) as [d|] eqn:E; [injection Hk as ->; by eapply B|].
    case_decide as D; [|done]. injection Hk as ->. apply items_of_none in E. rewrite D in A.
    destruct A as [A|A]; [done|]. destruct (items_of ds !! k) as [d|]; [eauto|done].
  - intros A. split.
    + destruct (decide (n_item c ∈ map n_item cs)) as [|N]; [by left|]. right. apply items_of_none in N.
      destruct (A (n_item c) c) as (d & -> & E); [|done]. rewrite items_of_cons, N. by rewrite decide_True.
    + intros k x Hk. apply (A k x). rewrite items_of_cons, Hk. done.
Qed.
Lemma node_eqb_self nd : node_eqb nd nd = true <-> numeric_weights nd.
Proof.
  induction nd as [item weight children IH] using node_ind'. rewrite node_eqb_unfold. cbn [n_item n_weight n_children].
  rewrite !andb_true_iff, N.eqb_eq, f32_eqb_refl, negb_true_iff, list_eqb_self, map_eqb_self.
  assert (E : Forall (fun x => node_eqb x x = true) children <-> Forall numeric_weights children).
  { rewrite !Forall_forall in *. split; intros A x Hx; by apply IH, A. }
  split.
  - intros [[[_ A] B] _]. constructor; [done|]. by apply E.
  - intros H. inversion H as [? ? ? A B]; subst. apply E in B. split; [done|].
    intros k x Hk%node_items_Some. rewrite Forall_forall in B. by apply B, Hk.
Qed.

(** ** Products and lists of them *)
Lemma product_eqb_stored_iff p : product_eqb p (stored p) = true <-> description_survives p.
Proof.
  split; [|apply product_eqb_stored]. unfold product_eqb. cbv zeta. rewrite !andb_true_iff. intros [[[[A _] _] _] _].
  unfold description_survives. destruct (decide (p_description p = [])) as [|N]; [by left|]. right. intros E.
  cbn [stored p_description] in A. rewrite E, str_len_nil in A. apply str_len_pos in N.
  rewrite (proj2 (N.leb_le 1 (str_len (p_description p)))) in A by done. rewrite orb_true_r in A. done.
Qed.
Lemma eqb_sid p q : product_eqb p q = true -> p_sid p = p_sid q.
Proof. unfold product_eqb. cbv zeta. rewrite !andb_true_iff, N.eqb_eq. tauto. Qed.
Lemma sorted_in_order l : in_order (sort_by by_sid l).
Proof.
  pose proof (sort_by_total_sorted by_sid l by_sid_total) as S. unfold in_order.
  induction S as [|p k S IH F]; simpl; [done|]. split; [|done]. apply Forall_forall. intros y (q & -> & Hq)%elem_of_list_fmap.
  rewrite Forall_forall in F. specialize (F q Hq). unfold le_cmp, by_sid in F. by rewrite N.compare_le_iff in F.
Qed.
Lemma refs_eqb_iff l : list_eqb product_eqb l (stored_refs l) = true <-> refs_come_back l.
Proof.
  split; [|intros []; by apply refs_eqb]. intros H. assert (O : in_order l).
  { apply list_eqb_Forall2 in H. unfold stored_refs in H. pose proof (sorted_in_order l) as O. unfold in_order in *.
    assert (E : map p_sid l = map p_sid (sort_by by_sid l)); [|by rewrite E].
    clear O. revert H. generalize (sort_by by_sid l) as k. intros k. revert l. induction k as [|q k IH]; intros l H; inversion H as [|p ? l' ? A B]; subst; [done|].
    simpl. f_equal; [by apply eqb_sid in A|by apply IH]. }
  split; [done|]. unfold stored_refs in H. rewrite sort_in_order in H by done. apply list_eqb_map in H.
  eapply Forall_impl; [exact H|]. intros p. by rewrite product_eqb_stored_iff.
Qed.

(** ** Any index *)
Lemma str_eqb_refl' s : str_eqb s s = true.
Proof. apply str_eqb_refl. Qed.
Lemma vendor_eqb_refl v : vendor_eqb v v = true.
Proof. unfold vendor_eqb. by rewrite str_eqb_refl, N.eqb_refl. Qed.
Lemma vendors_eqb_refl vm : vendors_eqb vm vm = true.
Proof.
  unfold vendors_eqb. rewrite andb_true_iff. split.
  - apply map_eqb_self. intros. apply vendor_eqb_refl.
  - apply list_eqb_self. apply Forall_forall. intros. apply vendor_eqb_refl.
Qed.
Lemma feature_eqb_self f : feature_eqb f f = true <-> forall l, f = FFloat l -> Forall (fun x => is_nan x = false) l.
Proof.
  destruct f as [l|l|l]; cbn [feature_eqb]; rewrite list_eqb_self.
  - split; [done|]. intros _. apply Forall_forall. intros. apply str_eqb_refl.
  - split.
    + intros H k [= <-]. eapply Forall_impl; [exact H|]. intros x. cbn beta. rewrite f32_eqb_refl. by rewrite negb_true_iff.
    + intros H. eapply Forall_impl; [by apply H|]. intros x. cbn beta. rewrite f32_eqb_refl. by rewrite negb_true_iff.
  - split; [done|]. intros _. apply Forall_forall. intros. apply N.eqb_refl.
Qed.
Lemma index_equal_iff gi : gram_index_eqb gi (stored_gram_index gi) = true <-> index_comes_back gi.
Proof.
  unfold gram_index_eqb, container_eqb. cbn [stored_gram_index gi_roots gi_data gi_container stored_container c_products c_vendors c_features].
  rewrite !andb_true_iff, map_eqb_self, map_eqb_fmap, map_eqb_self, list_eqb_map, vendors_eqb_refl. unfold index_comes_back.
  assert (E1 : (forall g nd, gi_roots gi !! g = Some nd -> node_eqb nd nd = true) <->
    (forall g nd, gi_roots gi !! g = Some nd -> numeric_weights nd)).
  { split; intros A g nd Hg; apply node_eqb_self || apply node_eqb_self; by eapply A. }
  assert (E2 : (forall g l, gi_data gi !! g = Some l -> list_eqb product_eqb l (stored_refs l) = true) <->
    (forall g l, gi_data gi !! g = Some l -> refs_come_back l)).
  { split; intros A g l Hg; apply refs_eqb_iff; by eapply A. }
  assert (E3 : Forall (fun p => product_eqb p (stored p) = true) (c_products (gi_container gi)) <->
    Forall description_survives (c_products (gi_container gi))).
  { rewrite !Forall_forall. split; intros A p Hp; by apply product_eqb_stored_iff, A. }
  assert (E4 : (forall key f, (c_features (gi_container gi) : gmap rstr feature) !! key = Some f -> feature_eqb f f = true) <->
    (forall key l, (c_features (gi_container gi) : gmap rstr feature) !! key = Some (FFloat l) -> Forall (fun x => is_nan x = false) l)).
  { split.
    - intros A key l Hk. apply (proj1 (feature_eqb_self (FFloat l))); [by eapply A|done].
    - intros A key f Hk. apply feature_eqb_self. intros l ->. by eapply A. }
  unfold feature_set in *. tauto.
Qed.
Lemma stored_options_eqb_iff next os : list_eqb option_eqb os (stored_options next os) = true <->
  (forall i o, os !! i = Some o -> o_sid o = next + N.of_nat i) /\ Forall (fun o => refs_come_back (o_content o)) os.
Proof.
  split; [|intros [A B]; by apply stored_options_eqb]. revert next. induction os as [|o os IH]; intros next; simpl; [done|].
  rewrite andb_true_iff. intros [A B]. apply IH in B as [B1 B2]. unfold option_eqb in A. cbn [o_name o_sid o_content o_ids] in A.
  rewrite !andb_true_iff in A. destruct A as [[[_ A1] A2] _]. apply N.eqb_eq in A1. apply refs_eqb_iff in A2. split; [|by constructor].
  intros [|i] o' Hi; simpl in Hi; [injection Hi as <-; lia|]. rewrite (B1 i o' Hi). lia.
Qed.
Lemma stored_categories_eqb_iff next cs : list_eqb category_eqb cs (stored_categories next cs) = true <->
  (forall i o, all_options cs !! i = Some o -> o_sid o = next + N.of_nat i) /\
  Forall (fun o => refs_come_back (o_content o)) (all_options cs).
Proof.
  split; [|intros [A B]; by apply stored_categories_eqb]. revert next. unfold all_options.
  induction cs as [|c cs IH]; intros next; simpl; [done|].
  rewrite andb_true_iff. intros [A B]. apply IH in B as [B1 B2]. unfold category_eqb in A. cbn [cat_name cat_options cat_exclusive] in A.
  rewrite !andb_true_iff in A. destruct A as [[_ A] _]. apply stored_options_eqb_iff in A as [A1 A2]. split; [|by apply Forall_app].
  intros i o Hi. apply lookup_app_Some in Hi as [Hi|[L Hi]]; [by apply A1|]. rewrite (B1 _ _ Hi). unfold lenN. lia.
Qed.
Lemma classic_equal_iff cl : classic_eqb cl (stored_classic cl) = true <-> classic_comes_back cl.
Proof.
  split; [|intros (A & B & C); by apply classic_reload_equal]. unfold classic_eqb, stored_classic. cbn [cl_categories cl_tags cl_order].
  rewrite !andb_true_iff, stored_categories_eqb_iff, list_eqb_map. intros [[[A B] C] _]. split; [|split; [done|]].
  - intros i o Hi. rewrite (A i o Hi). lia.
  - eapply Forall_impl; [exact C|]. intros t. unfold tag_eqb. cbn [stored_tag t_products]. rewrite !andb_true_iff, refs_eqb_iff. tauto.
Qed.
