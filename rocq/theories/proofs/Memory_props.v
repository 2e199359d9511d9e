(** C105 and C106: what the references show, and how much the arenas hold. *)
From Verif.model Require Import Base F32 Utf8 Prim Coll Data Gram Indexer Nodes Classic Lib Memory.
From Verif.spec Require Import Memory_spec Spec Data_spec Gram_spec Cost_spec.
From Verif.proofs Require Import Base_facts Codec_lemmas Sort_facts Coll_facts Data_facts File_facts Memory_facts.
From Coq Require Import Lia.
Local Open Scope nat_scope.

(** ** The references show what was decoded *)
Lemma load_shows P n input M : exists M' r, mdeserialize_all P n input M = (M', r) /\ grows M M' /\
  same_end (shows_all M') r (deserialize_all P n input).
Proof.
  destruct (all_sim P n M input) as (M' & r & E & G & S). exists M', r. split; [done|]. split; [done|].
  destruct r, (deserialize_all P n input); try done. by destruct S as [S _].
Qed.

(** ** They show one value only *)
Lemma Forall2_unique {A B} (R : A -> B -> Prop) l k k' : (forall a b b', R a b -> R a b' -> b = b') ->
  Forall2 R l k -> Forall2 R l k' -> k = k'.
Proof.
  intros HR H. revert k'. induction H as [|a b l k H _ IH]; intros k' H'; inversion H'; subst; [done|].
  f_equal; eauto.
Qed.
Lemma option_unique {A B} (R : A -> B -> Prop) (x : option A) y y' : (forall a b b', R a b -> R a b' -> b = b') ->
  option_Forall2 R x y -> option_Forall2 R x y' -> y = y'.
Proof. intros HR H H'. destruct H; inversion H'; subst; [|done]. f_equal. eauto. Qed.
Lemma shows_node_unique M nd : forall a nd', shows_node M a nd -> shows_node M a nd' -> nd = nd'.
Proof.
  induction nd as [item weight children IH] using node_ind'. intros a [item' weight' children'].
  rewrite !shows_node_eq. intros (b & i & H1 & H2 & _) (b' & i' & H1' & H2' & _). rewrite H1 in H1'. injection H1' as <- <- <- <-.
  f_equal. clear -IH H2 H2'. revert children' H2'. induction H2 as [|r c b l H _ IHl]; intros children' H2'; inversion H2'; subst; [done|].
  apply Forall_cons in IH as [IH1 IH2]. f_equal; eauto.
Qed.
Lemma shows_vendor_unique M r v v' : shows_vendor M r v -> shows_vendor M r v' -> v = v'.
Proof. intros (l & H1 & H2) (l' & H1' & H2'). congruence. Qed.
Lemma shows_vendors_unique M c v v' : shows_vendors M c v -> shows_vendors M c v' -> v = v'.
Proof.
  destruct v as [t b], v' as [t' b']. intros [H1 H2] [H1' H2']. simpl in *. f_equal.
  - apply map_eq. intros k. eapply option_unique; [apply shows_vendor_unique|apply H1|apply H1'].
  - eapply Forall2_unique; [apply shows_vendor_unique|done|done].
Qed.
Lemma shows_product_unique M c p p' : shows_product M c p -> shows_product M c p' -> p = p'.
Proof.
  destruct p, p'. intros (? & ? & H & ? & ?) (? & ? & H' & ? & ?). simpl in *. subst.
  f_equal; [|congruence..]. by eapply shows_vendor_unique.
Qed.
Lemma shows_container_unique M c v v' : shows_container M c v -> shows_container M c v' -> v = v'.
Proof.
  destruct v, v'. intros (H1 & H2 & H3) (H1' & H2' & H3'). simpl in *. f_equal; [| |congruence].
  - eapply Forall2_unique; [apply shows_product_unique|done|done].
  - by eapply shows_vendors_unique.
Qed.
Lemma shows_ref_unique M i r p p' : shows_product_ref M i r p -> shows_product_ref M i r p' -> p = p'.
Proof.
  intros (_ & c & cp & H1 & H2 & H3) (_ & c' & cp' & H1' & H2' & H3'). rewrite H1 in H1'. injection H1' as <-.
  rewrite H2 in H2'. injection H2' as <-. by eapply shows_product_unique.
Qed.
Lemma shows_refs_unique M i l k k' : Forall2 (shows_product_ref M i) l k -> Forall2 (shows_product_ref M i) l k' -> k = k'.
Proof. apply Forall2_unique. apply shows_ref_unique. Qed.
Lemma shows_index_unique M c v v' : shows_index M c v -> shows_index M c v' -> v = v'.
Proof.
  destruct v, v'. intros ((cc & H1 & H2) & H3 & H4) ((cc' & H1' & H2') & H3' & H4'). simpl in *.
  rewrite H1 in H1'. injection H1' as <-. f_equal.
  - apply map_eq. intros k. eapply option_unique; [|apply H3|apply H3']. intros a b b' H. by apply shows_node_unique.
  - apply map_eq. intros k. eapply option_unique; [apply shows_refs_unique|apply H4|apply H4'].
  - by eapply shows_container_unique.
Qed.
Lemma shows_option_unique M i c v v' : shows_option M i c v -> shows_option M i c v' -> v = v'.
Proof.
  destruct v, v'. intros (? & ? & H & ?) (? & ? & H' & ?). simpl in *. pose proof (shows_refs_unique _ _ _ _ _ H H'). congruence.
Qed.
Lemma shows_category_unique M i c v v' : shows_category M i c v -> shows_category M i c v' -> v = v'.
Proof.
  destruct v, v'. intros (? & H & ?) (? & H' & ?). simpl in *.
  pose proof (Forall2_unique _ _ _ _ (shows_option_unique M i) H H'). congruence.
Qed.
Lemma shows_tag_unique M i c v v' : shows_tag M i c v -> shows_tag M i c v' -> v = v'.
Proof.
  destruct v, v'. intros (? & H & ? & ?) (? & H' & ? & ?). simpl in *. pose proof (shows_refs_unique _ _ _ _ _ H H'). congruence.
Qed.
Lemma shows_all_unique M c v v' : shows_all M c v -> shows_all M c v' -> v = v'.
Proof.
  destruct v as [gi [cats tags order]], v' as [gi' [cats' tags' order']]. intros (H1 & H2 & H3 & H4) (H1' & H2' & H3' & H4').
  simpl in *. f_equal; [by eapply shows_index_unique|].
  pose proof (Forall2_unique _ _ _ _ (shows_category_unique M _) H2 H2').
  pose proof (Forall2_unique _ _ _ _ (shows_tag_unique M _) H3 H3'). congruence.
Qed.

(** ** Freezing *)
Lemma Forall2_insert_by {A B} (R : A -> B -> Prop) cmp cmp' x y l k :
  (forall a a' b b', R a b -> R a' b' -> cmp a a' = cmp' b b') ->
  R x y -> Forall2 R l k -> Forall2 R (insert_by cmp x l) (insert_by cmp' y k).
Proof.
  intros HR Hx H. induction H as [|a b l k H HF IH]; simpl; [by repeat constructor|].
  rewrite (HR _ _ _ _ Hx H). destruct (cmp' y b); by repeat constructor.
Qed.
Lemma Forall2_sort_by {A B} (R : A -> B -> Prop) cmp cmp' l k :
  (forall a a' b b', R a b -> R a' b' -> cmp a a' = cmp' b b') ->
  Forall2 R l k -> Forall2 R (sort_by cmp l) (sort_by cmp' k).
Proof. intros HR H. induction H as [|a b l k H HF IH]; simpl; [constructor|]. by apply Forall2_insert_by. Qed.
Lemma mmapR_sim {A B C} (R : memory -> B -> C -> Prop) (f : A -> mem B) (g : A -> res C) :
  (forall M M' a b, grows M M' -> R M a b -> R M' a b) ->
  (forall M a, msim M (f a) (g a) R) ->
  forall M l, msim M (mmapR f l) (mapR g l) (fun M' => Forall2 (R M')).
Proof.
  intros HR Hf M l. revert M. induction l as [|a l IH]; intros M; cbn [mmapR mapR]; [apply msim_ret; constructor|].
  eapply msim_bind; [apply Hf|]. intros M1 b c G1 _ H1. eapply msim_bind; [apply IH|]. intros M2 bs cs G2 _ H2.
  apply msim_ret. constructor; [by eapply HR|done].
Qed.
Lemma node_at M a nd : shows_node M a nd -> exists c, m_nodes M !! a = Some c /\ cn_weight c = n_weight nd.
Proof. destruct nd. rewrite shows_node_eq. intros (b & i & H & _). eauto. Qed.
Lemma sort_refs_sim M refs nodes : Forall2 (shows_node M) refs nodes ->
  exists refs', sort_refs refs M = (M, Done refs') /\
    Forall2 (shows_node M) refs' (sort_by (fun a b => reverse_ord (node_cmp a b)) nodes).
Proof.
  intros H. eexists. split.
  - unfold sort_refs. assert (exists l, mapR (fun a => deref (m_nodes M !! a)) refs = Done l) as [l ->].
    { clear -H. induction H as [|a nd refs nodes H _ [l IH]]; cbn [mapR]; [eauto|].
      apply node_at in H as (c & -> & _). rewrite IH. cbn. eauto. }
    reflexivity.
  - apply (Forall2_sort_by (shows_node M)); [|done]. intros a a' b b' H1 H2.
    apply node_at in H1 as (c & H1 & W1). apply node_at in H2 as (c' & H2 & W2).
    unfold weight_at. rewrite H1, H2, W1, W2. done.
Qed.
Lemma freeze_sim o h fuel : forall M a parent,
  msim M (mimmutalize o h fuel a parent) (immutalize o h fuel a parent) shows_node.
Proof.
  induction fuel as [|fuel IH]; intros M a parent; [by apply msim_lift|].
  cbn [mimmutalize immutalize]. apply msim_step. intros me _.
  eapply msim_bind; [apply (mmapR_sim shows_node)|].
  - intros M1 M2 x nd G. by apply shows_node_grows.
  - intros M1 [k v]. apply IH.
  - intros M1 refs nodes G1 _ H. destruct (sort_refs_sim M1 refs nodes H) as (refs' & E & H').
    destruct (items_sim M1 refs' _ H') as (items & E2 & H2). destruct (msim_alloc_node M1
      (CNode (m_item me) (occurances_to_weight parent (m_occ me)) refs' items)) as [E3 G3].
    eexists _, _. split; [unfold andthen; by rewrite E, E2, E3|]. split; [done|]. unfold same_end.
    rewrite shows_node_eq. exists refs', items. cbn [m_nodes]. split; [|split; [|done]].
    + by rewrite lookup_app_r, Nat.sub_diag by lia.
    + eapply Forall2_impl; [exact H'|]. intros x nd. by apply shows_node_grows.
Qed.

(** ** How much is allocated *)
Definition weigh (m : gmap N node) : nat := list_sum (map (fun e => node_count e.2) (map_to_list m)).
Lemma weigh_trie m : weigh m = trie_nodes m.
Proof. unfold weigh, trie_nodes. f_equal. apply map_ext. by intros []. Qed.
Lemma sum_perm (l k : list nat) : l ≡ₚ k -> list_sum l = list_sum k.
Proof. unfold list_sum. induction 1; simpl; lia. Qed.
Lemma weigh_insert m k nd : m !! k = None -> weigh (<[k := nd]> m) = node_count nd + weigh m.
Proof.
  intros H. unfold weigh. rewrite (sum_perm _ (map (fun e => node_count e.2) ((k, nd) :: map_to_list m))); [done|].
  apply Permutation_map. by apply map_to_list_insert.
Qed.
Lemma weigh_delete m k : weigh (delete k m) <= weigh m.
Proof.
  destruct (m !! k) as [nd|] eqn:E; [|by rewrite delete_notin].
  rewrite <- (insert_delete m k nd E) at 2. rewrite weigh_insert by apply lookup_delete. lia.
Qed.
Lemma weigh_entries entries : weigh (foldl (fun m '(k, v) => <[k := v]> m) ∅ entries) <= list_sum (map (fun e => node_count e.2) entries).
Proof.
  induction entries as [|[k nd] l IH] using rev_ind; [done|]. rewrite foldl_app, map_app, list_sum_app. cbn [foldl].
  rewrite <- insert_delete_insert, weigh_insert by apply lookup_delete.
  pose proof (weigh_delete (foldl (fun m '(k, v) => <[k := v]> m) ∅ l) k). cbn. lia.
Qed.
Lemma entries_size (entries : list (N * node)) : size (foldl (fun m '(k, v) => <[k := v]> m) (∅ : gmap N node) entries) <= length entries.
Proof.
  induction entries as [|[k nd] l IH] using rev_ind; [done|]. rewrite foldl_app, app_length. cbn [foldl length].
  rewrite map_size_insert. destruct (_ !! k); unfold id; lia.
Qed.
Lemma weigh_distinct entries : size (foldl (fun m '(k, v) => <[k := v]> m) (∅ : gmap N node) entries) = length entries ->
  weigh (foldl (fun m '(k, v) => <[k := v]> m) ∅ entries) = list_sum (map (fun e => node_count e.2) entries).
Proof.
  induction entries as [|[k nd] l IH] using rev_ind; [done|]. rewrite foldl_app, app_length, map_app, list_sum_app. cbn [foldl length].
  pose proof (entries_size l). rewrite map_size_insert. destruct (_ !! k) eqn:E; unfold id; [lia|]. intros Hs.
  rewrite weigh_insert by done. rewrite IH by lia. cbn. lia.
Qed.

Lemma load_adds P n input M v : deserialize_all P n input = Done v ->
  exists M' c, mdeserialize_all P n input M = (M', Done c) /\
    length (m_super M') = length (m_super M) + 2 /\
    length (m_nodes M) + trie_nodes (gi_roots v.1) <= length (m_nodes M').
Proof.
  intros E. destruct (all_sim P n M input) as (M' & r & Em & G & S). rewrite E in S. destruct r as [c| | |]; try done.
  exists M', c. split; [done|]. destruct S as (_ & S2 & entries & i1 & ct & i2 & _ & _ & Er & Ec). split; [done|].
  rewrite Ec, Er, <- weigh_trie. pose proof (weigh_entries entries). lia.
Qed.
Lemma written_adds P n o gi cl rest M : valid_ser_order o -> gram_index_ok P n gi ->
  classic_ok P (c_products (gi_container gi)) cl ->
  exists M' c, mdeserialize_all P n (serialize_all o gi cl ++ rest) M = (M', Done c) /\
    length (m_super M') = length (m_super M) + 2 /\
    length (m_nodes M') = length (m_nodes M) + trie_nodes (gi_roots gi).
Proof.
  intros Ho Hg Hc. pose proof (file_roundtrip P n o gi cl rest Ho Hg Hc) as E.
  destruct (all_sim P n M (serialize_all o gi cl ++ rest)) as (M' & r & Em & G & S). rewrite E in S. destruct r as [c| | |]; try done.
  exists M', c. split; [done|]. destruct S as (_ & S2 & entries & i1 & ct & i2 & E1 & E2 & Er & Ec). split; [done|].
  rewrite Ec. f_equal. cbn [fst stored_gram_index gi_roots] in Er. rewrite Er, <- weigh_trie. symmetry. apply weigh_distinct.
  rewrite <- Er. unfold serialize_all, enc_gram_index in E1. rewrite <- !app_assoc in E1.
  destruct Ho as (Ho1 & Ho2 & Ho3 & _). destruct Hg as (Hk & Hrl & _).
  rewrite (rt_container P) in E1 by done. injection E1 as <- <-.
  unfold enc_map in E2. rewrite <- app_assoc in E2. rewrite (rt_usize_ok P) in E2 by apply Hrl. injection E2 as _ E2.
  unfold lenN in E2. lia.
Qed.
Lemma loads_add P files M : Forall (fun f => exists v, deserialize_all P ngram_index_size f = Done v) files ->
  length (m_super (load_all P files M)) = length (m_super M) + 2 * length files.
Proof.
  intros H. revert M. induction H as [|f files [v E] _ IH]; intros M; cbn [load_all length]; [lia|].
  destruct (load_adds P _ f M v E) as (M' & c & Em & E2 & _). rewrite IH, Em. cbn [fst]. lia.
Qed.
Lemma loads_hold P o gi cl M k : valid_ser_order o -> gram_index_ok P ngram_index_size gi ->
  classic_ok P (c_products (gi_container gi)) cl ->
  length (m_nodes (load_all P (replicate k (serialize_all o gi cl)) M)) = length (m_nodes M) + k * trie_nodes (gi_roots gi) /\
  length (m_super (load_all P (replicate k (serialize_all o gi cl)) M)) = length (m_super M) + 2 * k.
Proof.
  intros Ho Hg Hc. revert M. induction k as [|k IH]; intros M; cbn [replicate load_all]; [lia|].
  destruct (written_adds P _ o gi cl [] M Ho Hg Hc) as (M' & c & Em & E2 & E3). rewrite app_nil_r in Em. rewrite Em. cbn [fst].
  destruct (IH M') as [-> ->]. lia.
Qed.
Lemma loads_grow P files : forall M, grows M (load_all P files M).
Proof.
  induction files as [|f files IH]; intros M; cbn [load_all]; [apply grows_refl|].
  destruct (load_shows P ngram_index_size f M) as (M' & r & E & G & _). rewrite E. by eapply grows_trans.
Qed.
Lemma shows_later P files M c v : shows_all M c v -> shows_all (load_all P files M) c v.
Proof. apply shows_all_grows. apply loads_grow. Qed.
Lemma freeze_shows o h fuel M a parent : exists M' r, mimmutalize o h fuel a parent M = (M', r) /\ grows M M' /\
  same_end (shows_node M') r (immutalize o h fuel a parent).
Proof. exact (freeze_sim o h fuel M a parent). Qed.
