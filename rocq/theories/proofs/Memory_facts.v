(** Programs that allocate simulate the programs on values. *)
From Verif.model Require Import Base F32 Utf8 Prim Coll Data Gram Indexer Nodes Classic Lib Memory.
From Verif.spec Require Import Memory_spec Spec Gram_spec Cost_spec.
From Verif.proofs Require Import Base_facts Sort_facts File_facts.
From Coq Require Import Lia.
Local Open Scope nat_scope.

(** ** Growing *)
Lemma box_grows_refl b : box_grows b b.
Proof. destruct b; simpl; [done|done]. Qed.
Lemma grows_refl M : grows M M.
Proof. split; [done|]. intros i b Hb. exists b. split; [done|]. apply box_grows_refl. Qed.
Lemma box_grows_trans a b c : box_grows a b -> box_grows b c -> box_grows a c.
Proof. destruct a, b, c; simpl; try done; [by etrans|congruence]. Qed.
Lemma grows_trans M1 M2 M3 : grows M1 M2 -> grows M2 M3 -> grows M1 M3.
Proof.
  intros [N1 S1] [N2 S2]. split; [by etrans|]. intros i b Hb.
  destruct (S1 i b Hb) as (b' & Hb' & G1). destruct (S2 i b' Hb') as (b'' & Hb'' & G2).
  exists b''. split; [done|]. by eapply box_grows_trans.
Qed.
Lemma grows_node M M' a nd : grows M M' -> m_nodes M !! a = Some nd -> m_nodes M' !! a = Some nd.
Proof. intros [N _] H. by eapply prefix_lookup. Qed.
Lemma grows_container M M' i c : grows M M' -> m_super M !! i = Some (BContainer c) -> m_super M' !! i = Some (BContainer c).
Proof. intros [_ S] H. destruct (S _ _ H) as (b & Hb & G). destruct b; [done|]. simpl in G. by subst. Qed.

(** ** What references show stays *)
Definition all_nodes (M : memory) := fix all (refs : list node_ref) (l : list node) {struct l} : Prop :=
  match l, refs with
  | [], [] => True
  | c :: l', r :: refs' => shows_node M r c /\ all refs' l'
  | _, _ => False
  end.
Lemma all_nodes_Forall2 M refs l : all_nodes M refs l <-> Forall2 (shows_node M) refs l.
Proof.
  revert refs. induction l as [|c l IH]; intros [|r refs]; simpl; split; try done.
  - by intros H%Forall2_nil_inv_r.
  - by intros H%Forall2_nil_inv_l.
  - intros [H1 H2]. constructor; [done|]. by apply IH.
  - intros H. inversion H; subst. split; [done|]. by apply IH.
Qed.
Definition same_items (by_occurances : list node_ref) (items : gmap N node_ref) (children : list node) : Prop :=
  forall g, match items !! g, items_of children !! g with
            | None, None => True
            | Some r, Some child => exists i, by_occurances !! i = Some r /\ children !! i = Some child
            | _, _ => False
            end.
Lemma shows_node_eq M a item weight children : shows_node M a (Node item weight children) <->
  exists by_occurances items, m_nodes M !! a = Some (CNode item weight by_occurances items) /\
    Forall2 (shows_node M) by_occurances children /\ same_items by_occurances items children.
Proof.
  split.
  - intros (b & i & H1 & H2 & H3). exists b, i. split; [done|]. split; [|done]. by apply all_nodes_Forall2.
  - intros (b & i & H1 & H2 & H3). exists b, i. split; [done|]. split; [|done]. by apply all_nodes_Forall2.
Qed.
Lemma shows_node_grows M M' nd : grows M M' -> forall a, shows_node M a nd -> shows_node M' a nd.
Proof.
  intros G. induction nd as [item weight children IH] using node_ind'. intros a.
  rewrite !shows_node_eq. intros (b & i & H1 & H2 & H3). exists b, i. split; [by eapply grows_node|]. split; [|done].
  clear -IH H2. induction H2 as [|r c b l H _ IHl]; constructor; apply Forall_cons in IH as [IH1 IH2]; auto.
Qed.
Lemma shows_vendor_grows M M' r v : grows M M' -> shows_vendor M r v -> shows_vendor M' r v.
Proof.
  intros [_ S] (l & H1 & H2). destruct (S _ _ H1) as (b & Hb & G). destruct b as [l'|]; [|done].
  exists l'. split; [done|]. by eapply prefix_lookup.
Qed.
Lemma option_Forall2_mono {A B} (R R' : A -> B -> Prop) x y : (forall a b, R a b -> R' a b) ->
  option_Forall2 R x y -> option_Forall2 R' x y.
Proof. intros H []; constructor; auto. Qed.
Lemma shows_vendors_grows M M' c v : grows M M' -> shows_vendors M c v -> shows_vendors M' c v.
Proof.
  intros G [H1 H2]. split.
  - intros k. eapply option_Forall2_mono; [|apply H1]. intros a b. by apply shows_vendor_grows.
  - eapply Forall2_impl; [exact H2|]. intros a b. by apply shows_vendor_grows.
Qed.
Lemma shows_product_grows M M' c p : grows M M' -> shows_product M c p -> shows_product M' c p.
Proof. intros G (? & ? & H & ? & ?). repeat split; try done. by eapply shows_vendor_grows. Qed.
Lemma shows_container_grows M M' c v : grows M M' -> shows_container M c v -> shows_container M' c v.
Proof.
  intros G (H1 & H2 & H3). split; [|split; [|done]].
  - eapply Forall2_impl; [exact H1|]. intros a b. by apply shows_product_grows.
  - by eapply shows_vendors_grows.
Qed.
Lemma shows_product_ref_grows M M' i r p : grows M M' -> shows_product_ref M i r p -> shows_product_ref M' i r p.
Proof.
  intros G (H & c & cp & H1 & H2 & H3). split; [done|]. exists c, cp. split; [by eapply grows_container|].
  split; [done|]. by eapply shows_product_grows.
Qed.
Lemma shows_refs_grows M M' i l k : grows M M' -> Forall2 (shows_product_ref M i) l k -> Forall2 (shows_product_ref M' i) l k.
Proof. intros G H. eapply Forall2_impl; [exact H|]. intros a b. by apply shows_product_ref_grows. Qed.
Lemma shows_index_grows M M' c gi : grows M M' -> shows_index M c gi -> shows_index M' c gi.
Proof.
  intros G ((cc & H1 & H2) & H3 & H4). split; [|split].
  - exists cc. split; [by eapply grows_container|by eapply shows_container_grows].
  - intros g. eapply option_Forall2_mono; [|apply H3]. intros a nd. by apply shows_node_grows.
  - intros w. eapply option_Forall2_mono; [|apply H4]. intros a b. by apply shows_refs_grows.
Qed.
Lemma shows_option_grows M M' i c o : grows M M' -> shows_option M i c o -> shows_option M' i c o.
Proof. intros G (? & ? & H & ?). repeat split; try done. by eapply shows_refs_grows. Qed.
Lemma shows_category_grows M M' i c o : grows M M' -> shows_category M i c o -> shows_category M' i c o.
Proof. intros G (? & H & ?). repeat split; try done. eapply Forall2_impl; [exact H|]. intros a b. by apply shows_option_grows. Qed.
Lemma shows_tag_grows M M' i c o : grows M M' -> shows_tag M i c o -> shows_tag M' i c o.
Proof. intros G (? & H & ? & ?). repeat split; try done. by eapply shows_refs_grows. Qed.
Lemma shows_classic_grows M M' i c v : grows M M' -> shows_classic M i c v -> shows_classic M' i c v.
Proof.
  intros G (H1 & H2 & H3). split; [|split; [|done]].
  - eapply Forall2_impl; [exact H1|]. intros a b. by apply shows_category_grows.
  - eapply Forall2_impl; [exact H2|]. intros a b. by apply shows_tag_grows.
Qed.
Lemma shows_all_grows M M' c v : grows M M' -> shows_all M c v -> shows_all M' c v.
Proof. intros G [H1 H2]. split; [by eapply shows_index_grows|by eapply shows_classic_grows]. Qed.

(** ** Simulation *)
Definition msim {A B} (M : memory) (m : mem A) (r : res B) (R : memory -> A -> B -> Prop) : Prop :=
  exists M' x, m M = (M', x) /\ grows M M' /\ same_end (R M') x r.
Lemma msim_ret {A B} M (a : A) (b : B) (R : memory -> A -> B -> Prop) : R M a b -> msim M (lift (Done a)) (Done b) R.
Proof. intros H. exists M, (Done a). split; [done|]. split; [apply grows_refl|done]. Qed.
Lemma msim_lift {A B} M (r : res A) (r' : res B) (R : memory -> A -> B -> Prop) : same_end (R M) r r' -> msim M (lift r) r' R.
Proof. intros H. exists M, r. split; [done|]. split; [apply grows_refl|done]. Qed.
Lemma msim_same {A} M (r : res A) : msim M (lift r) r (fun M' a b => M' = M /\ a = b).
Proof. apply msim_lift. by destruct r. Qed.
Lemma msim_mono {A B} M (m : mem A) (r : res B) (R R' : memory -> A -> B -> Prop) :
  (forall M' a b, grows M M' -> R M' a b -> R' M' a b) -> msim M m r R -> msim M m r R'.
Proof.
  intros H (M' & x & E & G & S). exists M', x. split; [done|]. split; [done|]. destruct x, r; try done. by apply H.
Qed.
Lemma msim_bind {A B A' B'} M (m : mem A) (r : res B) (f : A -> mem A') (g : B -> res B') R R' :
  msim M m r R -> (forall M' a b, grows M M' -> r = Done b -> R M' a b -> msim M' (f a) (g b) R') ->
  msim M (andthen m f) (r ≫= g) R'.
Proof.
  intros (M1 & x & E & G & S) H. destruct x as [a| | |] eqn:Ex, r as [b| | |] eqn:Er; try done.
  - destruct (H M1 a b G eq_refl S) as (M2 & y & E2 & G2 & S2). exists M2, y.
    split; [unfold andthen; by rewrite E|]. split; [by eapply grows_trans|done].
  - exists M1, Nope. split; [unfold andthen; by rewrite E|]. done.
  - exists M1, Panic. split; [unfold andthen; by rewrite E|]. done.
  - exists M1, Stuck. split; [unfold andthen; by rewrite E|]. done.
Qed.
(** The same pure step on both sides. *)
Lemma msim_step {A A' B'} M (r : res A) (f : A -> mem A') (g : A -> res B') R' :
  (forall a, r = Done a -> msim M (f a) (g a) R') -> msim M (andthen (lift r) f) (r ≫= g) R'.
Proof.
  intros H. eapply msim_bind; [apply msim_same|]. intros M' a b _ E [-> ->]. by apply H.
Qed.
Lemma mrep_nat_add {S} (f : S -> mem S) m n s M : mrep_nat (m + n) f s M = andthen (mrep_nat m f s) (mrep_nat n f) M.
Proof.
  revert s M. induction m as [|m IH]; intros s M; simpl; [done|].
  unfold andthen at 1 2. unfold andthen. destruct (f s M) as [M' [s'| | |]]; try done. rewrite IH. done.
Qed.
Lemma mrep_pos_nat {S} (f : S -> mem S) p : forall s M, mrep_pos p f s M = mrep_nat (Pos.to_nat p) f s M.
Proof.
  induction p as [p IH|p IH|]; intros s M.
  - rewrite Pos2Nat.inj_xI. simpl. unfold andthen at 1. unfold andthen at 2.
    destruct (f s M) as [M0 [s0| | |]]; try done.
    replace (Pos.to_nat p + (Pos.to_nat p + 0)) with (Pos.to_nat p + Pos.to_nat p) by lia.
    rewrite mrep_nat_add. unfold andthen. rewrite IH. destruct (mrep_nat (Pos.to_nat p) f s0 M0) as [M1 [s1| | |]]; try done.
  - rewrite Pos2Nat.inj_xO. simpl.
    replace (Pos.to_nat p + (Pos.to_nat p + 0)) with (Pos.to_nat p + Pos.to_nat p) by lia.
    rewrite mrep_nat_add. unfold andthen. rewrite IH. destruct (mrep_nat (Pos.to_nat p) f s M) as [M1 [s1| | |]]; try done.
  - change (Pos.to_nat 1) with 1. simpl. unfold andthen. destruct (f s M) as [M1 [s1| | |]]; done.
Qed.
Lemma mrep_N_nat {S} (f : S -> mem S) n s M : mrep_N n f s M = mrep_nat (N.to_nat n) f s M.
Proof. destruct n as [|p]; [done|]. apply mrep_pos_nat. Qed.
Lemma msim_rep {S T} M0 (f : S -> mem S) (g : T -> res T) (Inv : nat -> memory -> S -> T -> Prop) n :
  (forall i M s t, grows M0 M -> Inv i M s t -> msim M (f s) (g t) (Inv (Datatypes.S i))) ->
  forall s t, Inv 0 M0 s t -> msim M0 (mrep_N n f s) (rep_N n g t) (Inv (N.to_nat n)).
Proof.
  intros H s t H0. rewrite rep_N_nat. unfold msim. setoid_rewrite mrep_N_nat. fold (msim M0 (mrep_nat (N.to_nat n) f s) (rep_nat (N.to_nat n) g t) (Inv (N.to_nat n))).
  assert (Hall : forall k i M s t, grows M0 M -> Inv i M s t -> msim M (mrep_nat k f s) (rep_nat k g t) (Inv (i + k))).
  { clear s t H0. induction k as [|k IH]; intros i M s t G Hi; simpl.
    - apply msim_ret. by rewrite Nat.add_0_r.
    - eapply msim_bind; [by apply H|]. intros M' s' t' G' _ Hi'.
      replace (i + Datatypes.S k) with (Datatypes.S i + k) by lia. apply IH; [by eapply grows_trans|done]. }
  apply (Hall (N.to_nat n) 0 M0 s t); [apply grows_refl|done].
Qed.

(** ** Allocation *)
Lemma msim_alloc_node M nd : alloc_node nd M = (Memory (m_nodes M ++ [nd]) (m_super M), Done (length (m_nodes M))) /\
  grows M (Memory (m_nodes M ++ [nd]) (m_super M)).
Proof.
  split; [done|]. split; [by exists [nd]|]. intros i b Hb. exists b. split; [done|]. apply box_grows_refl.
Qed.
Lemma super_alloc_eq M t b : type_of b = t ->
  super_alloc t b M = (Memory (m_nodes M) (m_super M ++ [b]), Done (length (m_super M))) /\
  grows M (Memory (m_nodes M) (m_super M ++ [b])).
Proof.
  intros <-. split.
  - unfold super_alloc. cbn [m_super]. rewrite lookup_app_r, Nat.sub_diag by lia. by destruct b.
  - split; [done|]. intros i b' Hb. exists b'. split; [|apply box_grows_refl]. cbn [m_super]. by apply lookup_app_l_Some.
Qed.
Lemma alloc_vendor_eq M arena l v : m_super M !! arena = Some (BVendors l) ->
  alloc_vendor arena v M =
    (Memory (m_nodes M) (<[arena := BVendors (l ++ [v])]> (m_super M)), Done (VendorRef arena (length l))) /\
  grows M (Memory (m_nodes M) (<[arena := BVendors (l ++ [v])]> (m_super M))).
Proof.
  intros H. split; [unfold alloc_vendor; by rewrite H|]. split; [done|]. intros i b Hb. cbn [m_super].
  destruct (decide (i = arena)) as [->|Hne].
  - rewrite H in Hb. injection Hb as <-. rewrite list_lookup_insert by (by eapply lookup_lt_Some).
    eexists. split; [done|]. by exists [v].
  - rewrite list_lookup_insert_ne by done. exists b. split; [done|]. apply box_grows_refl.
Qed.

(** ** Trees *)
Lemma items_sim M refs children : Forall2 (shows_node M) refs children ->
  exists items, items_by_item refs M = (M, Done items) /\ same_items refs items children.
Proof.
  intros H. unfold items_by_item.
  enough (exists items, foldM (fun map item => nd ← deref (m_nodes M !! item); Done (<[cn_item nd := item]> map)) refs ∅
    = Done items /\ same_items refs items children) as (items & -> & S) by eauto.
  revert children H. induction refs as [|r refs IH] using rev_ind; intros children H.
  - apply Forall2_nil_inv_l in H as ->. exists ∅. split; [done|]. intros g. by rewrite lookup_empty.
  - apply Forall2_app_inv_l in H as (l & k & H1 & H2 & ->).
    apply Forall2_cons_inv_l in H2 as ([item weight kids] & k' & Hr & Hn & ->). apply Forall2_nil_inv_l in Hn as ->.
    destruct (IH l H1) as (items & E & S). pose proof Hr as Hr'. apply shows_node_eq in Hr' as (b & i & Hb & _).
    rewrite foldM_app, E. cbn [foldM mbind res_bind]. rewrite Hb. cbn [deref mbind res_bind cn_item].
    eexists. split; [done|]. intros g. unfold items_of. rewrite foldl_app. simpl. fold (items_of l). specialize (S g).
    pose proof (Forall2_length _ _ _ H1) as Hl.
    destruct (decide (item = g)) as [->|Hne].
    + rewrite !lookup_insert. exists (length refs). rewrite lookup_app_r, Nat.sub_diag by lia. split; [done|].
      by rewrite Hl, lookup_app_r, Nat.sub_diag by lia.
    + rewrite !lookup_insert_ne by done. destruct (items !! g), (items_of l !! g); try done.
      destruct S as (j & S1 & S2). exists j. split; by apply lookup_app_l_Some.
Qed.

(** A decoder that fills the node arena only: the nodes it adds are those of the value. *)
Definition adds_nodes (M M' : memory) (k : nat) : Prop :=
  length (m_nodes M') = length (m_nodes M) + k /\ m_super M' = m_super M.
Lemma adds_nodes_trans M1 M2 M3 j k : adds_nodes M1 M2 j -> adds_nodes M2 M3 k -> adds_nodes M1 M3 (j + k).
Proof. intros [H1 H2] [H3 H4]. split; [lia|congruence]. Qed.
Lemma vec_sim {A B} P kd (pd : mdecoder A) (d : decoder B) (R : memory -> A -> B -> Prop) (w : B -> nat) :
  (forall M M' a b, grows M M' -> R M a b -> R M' a b) ->
  (forall M input, msim M (pd input) (d input) (fun M' a b => a.1 = b.1 /\ R M' a.2 b.2 /\ adds_nodes M M' (w b.2))) ->
  forall M input, msim M (mdec_vec P kd pd input) (dec_vec P kd d input)
    (fun M' a b => a.1 = b.1 /\ Forall2 (R M') a.2 b.2 /\ adds_nodes M M' (list_sum (map w b.2))).
Proof.
  intros HR Hd M input. unfold mdec_vec, dec_vec. apply msim_step. intros [input1 len] _. apply msim_step. intros _ _.
  apply (msim_rep M _ _ (fun _ M' a b => a.1 = b.1 /\ Forall2 (R M') a.2 b.2 /\ adds_nodes M M' (list_sum (map w b.2)))).
  - intros _ M1 [i1 out] [i1' out'] G (E & F & W). simpl in E, F, W. subst i1'.
    eapply msim_bind; [apply Hd|]. intros M2 [i2 a] [i2' b] G2 _ (E & H & W2). simpl in E, H, W2. subst i2'.
    apply msim_ret. simpl. split; [done|]. split.
    + apply Forall2_app; [|by constructor]. eapply Forall2_impl; [exact F|]. intros x y. by apply HR.
    + rewrite map_app, list_sum_app. simpl. rewrite Nat.add_0_r. by eapply adds_nodes_trans.
  - simpl. split; [done|]. split; [constructor|]. split; [simpl; lia|done].
Qed.
Lemma node_fuel_sim P fuel : forall M input, msim M (mdec_node_fuel P fuel input) (dec_node_fuel P fuel input)
  (fun M' a b => a.1 = b.1 /\ shows_node M' a.2 b.2 /\ adds_nodes M M' (node_count b.2)).
Proof.
  induction fuel as [|fuel IH]; intros M input.
  - apply msim_lift. done.
  - cbn [mdec_node_fuel dec_node_fuel]. apply msim_step. intros [i1 item] _. apply msim_step. intros [i2 weight] _.
    eapply msim_bind; [apply (vec_sim P KNodeRefs _ _ shows_node node_count); [intros; by eapply shows_node_grows|exact IH]|].
    intros M1 [i3 refs] [i3' children] G1 _ (E & F & W). simpl in E, F, W. subst i3'.
    destruct (items_sim M1 refs children F) as (items & E & S).
    destruct (msim_alloc_node M1 (CNode item weight refs items)) as [E2 G2].
    eexists _, _. split.
    { unfold andthen. rewrite E, E2. unfold lift. done. }
    split; [done|]. cbn [same_end fst snd]. split; [done|]. split.
    + apply shows_node_eq. exists refs, items. cbn [m_nodes]. split.
      { by rewrite lookup_app_r, Nat.sub_diag by lia. }
      split; [|done]. eapply Forall2_impl; [exact F|]. intros a nd. by apply shows_node_grows.
    + destruct W as [W1 W2]. split; cbn [m_nodes m_super]; [|done]. rewrite app_length. simpl. rewrite W1. lia.
Qed.
Lemma node_sim P M input : msim M (mdec_node P input) (dec_node P input)
  (fun M' a b => a.1 = b.1 /\ shows_node M' a.2 b.2 /\ adds_nodes M M' (node_count b.2)).
Proof. apply node_fuel_sim. Qed.

(** ** Maps *)
Lemma map_sim `{Countable K} {A B} P kd (deck : decoder K) (pd : mdecoder A) (d : decoder B)
    (R : memory -> A -> B -> Prop) (w : B -> nat) M0 :
  (forall M M' a b, grows M M' -> R M a b -> R M' a b) ->
  (forall M input, grows M0 M -> msim M (pd input) (d input) (fun M' a b => a.1 = b.1 /\ R M' a.2 b.2 /\ adds_nodes M M' (w b.2))) ->
  forall input, msim M0 (mdec_map P kd deck pd input) (dec_map P kd deck d input)
    (fun M' a b => a.1 = b.1 /\ (forall k, option_Forall2 (R M') (a.2 !! k) (b.2 !! k)) /\
       exists entries rest, b.2 = foldl (fun m '(k, v) => <[k := v]> m) ∅ entries /\
         dec_usize P input = Done (rest, lenN entries) /\ adds_nodes M0 M' (list_sum (map (fun e => w e.2) entries))).
Proof.
  intros HR Hd input. unfold mdec_map, dec_map. apply msim_step. intros [input1 len] El. apply msim_step. intros _ _.
  apply (msim_mono _ _ _ (fun M' a b => a.1 = b.1 /\ (forall k, option_Forall2 (R M') (a.2 !! k) (b.2 !! k)) /\
    exists entries, length entries = N.to_nat len /\ b.2 = foldl (fun m '(k, v) => <[k := v]> m) ∅ entries /\
      adds_nodes M0 M' (list_sum (map (fun e => w e.2) entries)))).
  { intros M' a b G (E & F & entries & L & Eb & W). split; [done|]. split; [done|]. exists entries, input1.
    split; [done|]. split; [|done]. rewrite El. do 2 f_equal. unfold lenN. rewrite L. lia. }
  apply (msim_rep M0 _ _ (fun i M' a b => a.1 = b.1 /\ (forall k, option_Forall2 (R M') (a.2 !! k) (b.2 !! k)) /\
    exists entries, length entries = i /\ b.2 = foldl (fun m '(k, v) => <[k := v]> m) ∅ entries /\
      adds_nodes M0 M' (list_sum (map (fun e => w e.2) entries)))).
  - intros i M1 [i1 out] [i1' out'] G (E & F & entries & L & Eo & W). simpl in E, F, Eo, W. subst i1'.
    apply msim_step. intros [i2 key] _.
    eapply msim_bind; [by apply Hd|]. intros M2 [i3 a] [i3' b] G2 _ (E & Hab & W2). simpl in E, Hab, W2. subst i3'.
    apply msim_ret. simpl. split; [done|]. split.
    + intros k. destruct (decide (key = k)) as [->|Hne].
      * rewrite !lookup_insert. by constructor.
      * rewrite !lookup_insert_ne by done. eapply option_Forall2_mono; [|apply F]. intros x y. by apply HR.
    + exists (entries ++ [(key, b)]). split; [rewrite app_length; simpl; lia|]. split.
      * rewrite foldl_app. simpl. by rewrite Eo.
      * rewrite map_app, list_sum_app. simpl. rewrite Nat.add_0_r. by eapply adds_nodes_trans.
  - simpl. split; [done|]. split; [intros k; rewrite !lookup_empty; constructor|]. exists []. split; [done|].
    split; [done|]. split; [simpl; lia|done].
Qed.

(** ** Pure steps that differ in the references only *)
Lemma same_end_bind {A B A' B'} (R : A -> B -> Prop) (R' : A' -> B' -> Prop) r r' f g :
  same_end R r r' -> (forall a b, r' = Done b -> R a b -> same_end R' (f a) (g b)) -> same_end R' (r ≫= f) (r' ≫= g).
Proof. intros H Hf. destruct r, r'; try done. by apply Hf. Qed.
Lemma same_end_step {A A' B'} (R' : A' -> B' -> Prop) (r : res A) f g :
  (forall a, r = Done a -> same_end R' (f a) (g a)) -> same_end R' (r ≫= f) (r ≫= g).
Proof. intros H. destruct r; try done. by apply H. Qed.
Lemma same_end_rep {S T} (f : S -> res S) (g : T -> res T) (Inv : S -> T -> Prop) n :
  (forall s t, Inv s t -> same_end Inv (f s) (g t)) -> forall s t, Inv s t -> same_end Inv (rep_N n f s) (rep_N n g t).
Proof.
  intros H s t H0. rewrite !rep_N_nat. revert s t H0. induction (N.to_nat n) as [|k IH]; intros s t H0; simpl; [done|].
  eapply same_end_bind; [by apply H|]. intros a b _ Hab. by apply IH.
Qed.
Lemma Forall2_getN {A B} (R : A -> B -> Prop) l k i : Forall2 R l k -> option_Forall2 R (getN l i) (getN k i).
Proof.
  intros H. unfold getN. rewrite (Forall2_length _ _ _ H). destruct (N.ltb _ _); [|constructor].
  by apply Forall2_lookup.
Qed.

(** ** Vendors *)
Definition same_nodes (M M' : memory) : Prop := m_nodes M' = m_nodes M /\ length (m_super M') = length (m_super M).
Lemma same_nodes_refl M : same_nodes M M.
Proof. done. Qed.
Lemma same_nodes_trans M1 M2 M3 : same_nodes M1 M2 -> same_nodes M2 M3 -> same_nodes M1 M3.
Proof. intros [H1 H2] [H3 H4]. split; congruence. Qed.
Lemma vendors_sim P M arena l input : m_super M !! arena = Some (BVendors l) ->
  msim M (mdec_vendors P arena input) (dec_vendors P input)
    (fun M' a b => a.1 = b.1 /\ shows_vendors M' a.2 b.2 /\ same_nodes M M').
Proof.
  intros Ha. unfold mdec_vendors, dec_vendors. apply msim_step. intros [i1 len] _. apply msim_step. intros _ _.
  apply msim_step. intros _ _.
  eapply msim_bind.
  - apply (msim_rep M _ _ (fun _ M' a b => a.1.1 = b.1.1 /\ a.2 = b.2 /\ shows_vendors M' a.1.2 b.1.2 /\ same_nodes M M' /\
      exists l, m_super M' !! arena = Some (BVendors l))).
    + intros _ M1 [[i2 vm] id] [[i2' vm'] id'] G (E1 & E2 & F & W & l1 & Hl). simpl in *. subst i2' id'.
      apply msim_step. intros [i3 name] _. destruct (alloc_vendor_eq M1 arena l1 (Vendor name id) Hl) as [E G1].
      eexists _, _. split; [unfold andthen; by rewrite E|]. split; [done|]. cbn [same_end fst snd].
      split; [done|]. split; [done|].
      assert (Hv : shows_vendor (Memory (m_nodes M1) (<[arena:=BVendors (l1 ++ [Vendor name id])]> (m_super M1)))
        (VendorRef arena (length l1)) (Vendor name id)).
      { exists (l1 ++ [Vendor name id]). cbn [m_super vr_arena vr_at]. rewrite list_lookup_insert by (by eapply lookup_lt_Some).
        split; [done|]. by rewrite lookup_app_r, Nat.sub_diag by lia. }
      split; [|split].
      * destruct (shows_vendors_grows _ _ _ _ G1 F) as [F1 F2]. split; cbn [cv_tags cv_by_id vm_tags vm_by_id].
        -- intros k. destruct (decide (name = k)) as [->|Hne].
           ++ rewrite !lookup_insert. by constructor.
           ++ rewrite !lookup_insert_ne by done. apply F1.
        -- apply Forall2_app; [done|]. by constructor.
      * destruct W as [W1 W2]. split; cbn [m_nodes m_super]; [done|]. by rewrite insert_length.
      * cbn [m_super]. rewrite list_lookup_insert by (by eapply lookup_lt_Some). eauto.
    + simpl. split; [done|]. split; [done|]. split; [|split; [done|eauto]].
      split; simpl; [|constructor]. intros k. rewrite !lookup_empty. constructor.
  - intros M' [[i2 vm] id] [[i2' vm'] id'] G _ (E1 & E2 & F & W & _). simpl in *. subst. by apply msim_ret.
Qed.

(** ** Products *)
Lemma product_sim P M sid cvm vm input : shows_vendors M cvm vm ->
  same_end (fun a b => a.1 = b.1 /\ shows_product M a.2 b.2) (mdec_product P sid cvm input) (dec_product P sid vm input).
Proof.
  intros [_ F]. unfold mdec_product, dec_product. do 4 (apply same_end_step; intros [? ?] _).
  pose proof (Forall2_getN _ _ _ n F) as H. destruct H as [vr v H|]; [|done]. simpl. done.
Qed.
Lemma container_sim P M input : msim M (mdec_container P input) (dec_container P input)
  (fun M' a b => a.1 = b.1 /\ shows_container M' a.2 b.2 /\
     m_nodes M' = m_nodes M /\ length (m_super M') = S (length (m_super M))).
Proof.
  unfold mdec_container, dec_container.
  destruct (super_alloc_eq M TVendors (BVendors []) eq_refl) as [E G].
  set (M1 := Memory (m_nodes M) (m_super M ++ [BVendors []])) in *.
  match goal with |- msim M (andthen _ ?f) ?r _ => assert (msim M1 (f (length (m_super M))) r
    (fun M' a b => a.1 = b.1 /\ shows_container M' a.2 b.2 /\ same_nodes M1 M')) as S end.
  - assert (Ha : m_super M1 !! length (m_super M) = Some (BVendors [])).
    { unfold M1. cbn [m_super]. by rewrite lookup_app_r, Nat.sub_diag by lia. }
    eapply msim_bind; [by apply (vendors_sim P M1 _ [])|]. intros M2 [i1 cvm] [i1' vm] G2 _ (E2 & F & W). simpl in *. subst i1'.
    apply msim_step. intros [i2 count] _.
    eapply msim_bind.
    { apply (msim_lift M2 _ _ (fun M' a b => M' = M2 /\ a.1.1 = b.1.1 /\ a.2 = b.2 /\ Forall2 (shows_product M2) a.1.2 b.1.2)).
      apply (same_end_rep _ _ (fun a b => M2 = M2 /\ a.1.1 = b.1.1 /\ a.2 = b.2 /\ Forall2 (shows_product M2) a.1.2 b.1.2)); [|by repeat constructor].
      intros [[i3 ps] id] [[i3' ps'] id'] (_ & E3 & E4 & F3). simpl in *. subst i3' id'.
      eapply same_end_bind; [by apply product_sim|]. intros [i4 p] [i4' p'] _ [E4 F4]. simpl in *. subst i4'.
      split; [done|]. split; [done|]. split; [done|]. apply Forall2_app; [done|]. by constructor. }
    intros M3 [[i3 ps] id] [[i3' ps'] id'] G3 _ (-> & E3 & E4 & F3). simpl in *. subst i3' id'.
    apply msim_step. intros [i4 fs] _. by apply msim_ret.
  - destruct S as (M' & x & Ex & G' & S). exists M', x. split; [unfold andthen; by rewrite E|].
    split; [by eapply grows_trans|]. destruct x, (dec_vendors P input ≫= _); try done. destruct S as (S1 & S2 & S3 & S4).
    split; [done|]. split; [done|]. split; [done|]. rewrite S4. unfold M1. cbn [m_super]. rewrite app_length. simpl. lia.
Qed.

(** ** References to products *)
Lemma product_refs_sim P M i cc v input : m_super M !! i = Some (BContainer cc) -> shows_container M cc v ->
  msim M (mdec_product_refs P i input) (dec_product_refs P (c_products v) input)
    (fun M' a b => M' = M /\ a.1 = b.1 /\ Forall2 (shows_product_ref M i) a.2.1 b.2.1 /\ a.2.2 = b.2.2).
Proof.
  intros Hi (F & _ & _).
  match goal with |- msim _ _ ?r ?R => enough (same_end (R M) (snd (mdec_product_refs P i input M)) r) as S
    by (eexists M, _; split; [done|]; split; [apply grows_refl|exact S]) end.
  unfold mdec_product_refs, dec_product_refs. cbn [snd]. apply same_end_step. intros [i1 ids] _.
  apply same_end_step. intros _ _. unfold products_of. rewrite Hi. cbn [deref mbind res_bind].
  assert (S : same_end (Forall2 (shows_product_ref M i))
    (mapR (fun id => _ ← of_opt (getN (cc_products cc) id); Done (ProductRef i (N.to_nat id))) ids)
    (mapR (fun id => of_opt (getN (c_products v) id)) ids)).
  { induction ids as [|id ids IH]; cbn [mapR]; [constructor|].
    assert (H : option_Forall2 (shows_product M) (getN (cc_products cc) id) (getN (c_products v) id)) by by apply Forall2_getN.
    destruct (getN (cc_products cc) id) as [cp|] eqn:E, (getN (c_products v) id) as [p|] eqn:E'; inversion H; subst; [|done].
    cbn [of_opt mbind res_bind]. eapply same_end_bind; [exact IH|]. intros a b _ Hab. constructor; [|done].
    split; [done|]. exists cc, cp. split; [done|]. split; [|done]. cbn [pr_at]. unfold getN in E. by destruct (N.ltb _ _). }
  eapply same_end_bind; [exact S|]. intros a b _ Hab. done.
Qed.

(** ** The n-gram index *)
Lemma index_sim P n M input : msim M (mdec_gram_index P n input) (dec_gram_index P n input)
  (fun M' a b => a.1 = b.1 /\ shows_index M' a.2 b.2 /\ length (m_super M') = length (m_super M) + 2 /\
     exists entries i1 c i2, dec_container P input = Done (i1, c) /\ dec_usize P i1 = Done (i2, lenN entries) /\
       gi_roots b.2 = foldl (fun m '(k, v) => <[k := v]> m) ∅ entries /\
       length (m_nodes M') = length (m_nodes M) + list_sum (map (fun e => node_count e.2) entries)).
Proof.
  unfold mdec_gram_index, dec_gram_index.
  eapply msim_bind; [apply container_sim|]. intros M1 [i1 cc] [i1' c] G1 Ec (E & F & N1 & S1). simpl in E, F. subst i1'.
  destruct (super_alloc_eq M1 TContainer (BContainer cc) eq_refl) as [E2 G2].
  set (M2 := Memory (m_nodes M1) (m_super M1 ++ [BContainer cc])) in *.
  set (at_ := length (m_super M1)) in *.
  assert (H2 : m_super M2 !! at_ = Some (BContainer cc)).
  { unfold M2, at_. cbn [m_super]. by rewrite lookup_app_r, Nat.sub_diag by lia. }
  assert (F2 : shows_container M2 cc c) by by eapply shows_container_grows.
  match goal with |- msim M1 (andthen _ ?f) ?r ?R => enough (msim M2 (f at_) r R) as S end.
  { destruct S as (M' & x & Ex & G' & S). exists M', x. split; [unfold andthen; by rewrite E2|].
    split; [by eapply grows_trans|done]. }
  eapply msim_bind.
  { apply (map_sim P KRootMap dec_char (mdec_node P) (dec_node P) shows_node node_count M2).
    - intros; by eapply shows_node_grows.
    - intros. apply node_sim. }
  intros M3 [i3 croots] [i3' roots] G3 _ (E3 & F3 & entries & i2 & Er & El & W3). simpl in E3, F3, Er, W3. subst i3'.
  eapply msim_bind.
  { apply (map_sim P KDataMap (dec_array P n dec_char) _ _ (fun M' => Forall2 (shows_product_ref M' at_)) (fun _ => 0) M3).
    - intros M5 M6 a b G. by apply shows_refs_grows.
    - intros M5 input5 G5. eapply msim_bind.
      { apply (product_refs_sim P M5 at_ cc c).
        - eapply grows_container; [|exact H2]. by eapply grows_trans.
        - eapply shows_container_grows; [|exact F2]. by eapply grows_trans. }
      intros M6 [i6 [a ids]] [i6' [b ids']] G6 _ (-> & E6 & F6 & E7). simpl in *. subst. apply msim_ret. simpl.
      split; [done|]. split; [done|]. split; [lia|done]. }
  intros M4 [i4 cdata] [i4' data] G4 _ (E4 & F4 & entries4 & i5 & _ & _ & W4). simpl in E4, F4, W4. subst i4'.
  apply msim_ret. cbn [fst snd]. split; [done|].
  assert (G24 : grows M2 M4) by by eapply grows_trans. split; [|split].
  - split; [|split]; cbn [cg_container cg_roots cg_data gi_container gi_roots gi_data].
    + exists cc. split; [by eapply grows_container|by eapply shows_container_grows].
    + intros g. eapply option_Forall2_mono; [|apply F3]. intros a nd. by apply shows_node_grows.
    + done.
  - destruct W3 as [_ W3], W4 as [_ W4]. rewrite W4, W3. unfold M2. cbn [m_super]. rewrite app_length. fold at_. cbn [length]. lia.
  - exists entries, i1, c, i2. split; [done|]. split; [done|]. split; [done|].
    destruct W3 as [W3 _], W4 as [W4 _]. rewrite W4, W3. unfold M2. cbn [m_nodes]. rewrite N1.
    assert (list_sum (map (fun _ : list N * list product => 0) entries4) = 0) as -> by (clear; induction entries4; simpl; auto).
    lia.
Qed.

(** ** Categories, tags and orders *)
Section classic.
Context (P : platform) (i : nat) (cc : ccontainer) (v : container) (M : memory).
Context (Hi : m_super M !! i = Some (BContainer cc)) (Hv : shows_container M cc v).
Lemma category_sim next_id input : msim M (mdec_category P i next_id input) (dec_category P (c_products v) next_id input)
  (fun M' a b => M' = M /\ a.1 = b.1 /\ shows_category M i a.2.1 b.2.1 /\ a.2.2 = b.2.2).
Proof.
  unfold mdec_category, dec_category. apply msim_step. intros [i1 exclusive] _. apply msim_step. intros [i2 name] _.
  apply msim_step. intros [i3 len] _. apply msim_step. intros _ _.
  eapply msim_bind.
  - apply (msim_rep M _ _ (fun _ M' a b => M' = M /\ a.1.1 = b.1.1 /\ a.2 = b.2 /\ Forall2 (shows_option M i) a.1.2 b.1.2)); [|by repeat constructor].
    intros _ M1 [[i4 os] id] [[i4' os'] id'] G (-> & E1 & E2 & F). simpl in *. subst i4' id'.
    apply msim_step. intros [i5 oname] _.
    eapply msim_bind; [by apply (product_refs_sim P M i cc v)|].
    intros M2 [i6 [a ids]] [i6' [b ids']] G2 _ (-> & E3 & F2 & E4). simpl in *. subst i6' ids'. apply msim_ret. simpl.
    split; [done|]. split; [done|]. split; [done|]. apply Forall2_app; [done|]. by constructor.
  - intros M1 [[i4 os] id] [[i4' os'] id'] G _ (-> & E1 & E2 & F). simpl in *. subst i4' id'. by apply msim_ret.
Qed.
Lemma categories_sim input : msim M (mdec_categories P i input) (dec_categories P (c_products v) input)
  (fun M' a b => M' = M /\ a.1 = b.1 /\ Forall2 (shows_category M i) a.2 b.2).
Proof.
  unfold mdec_categories, dec_categories. apply msim_step. intros [i1 len] _. apply msim_step. intros _ _.
  eapply msim_bind.
  - apply (msim_rep M _ _ (fun _ M' a b => M' = M /\ a.1.1 = b.1.1 /\ a.2 = b.2 /\ Forall2 (shows_category M i) a.1.2 b.1.2)); [|by repeat constructor].
    intros _ M1 [[i4 os] id] [[i4' os'] id'] G (-> & E1 & E2 & F). simpl in *. subst i4' id'.
    eapply msim_bind; [apply category_sim|].
    intros M2 [i6 [a ids]] [i6' [b ids']] G2 _ (-> & E3 & F2 & E4). simpl in *. subst i6' ids'. apply msim_ret. simpl.
    split; [done|]. split; [done|]. split; [done|]. apply Forall2_app; [done|]. by constructor.
  - intros M1 [[i4 os] id] [[i4' os'] id'] G _ (-> & E1 & E2 & F). simpl in *. subst i4' id'. by apply msim_ret.
Qed.
Lemma tags_sim input : msim M (mdec_tags P i input) (dec_tags P (c_products v) input)
  (fun M' a b => M' = M /\ a.1 = b.1 /\ Forall2 (shows_tag M i) a.2 b.2).
Proof.
  unfold mdec_tags, dec_tags. apply msim_step. intros [i1 len] _. apply msim_step. intros _ _.
  eapply msim_bind.
  - apply (msim_rep M _ _ (fun _ M' a b => M' = M /\ a.1.1 = b.1.1 /\ a.2 = b.2 /\ Forall2 (shows_tag M i) a.1.2 b.1.2)); [|by repeat constructor].
    intros _ M1 [[i4 os] id] [[i4' os'] id'] G (-> & E1 & E2 & F). simpl in *. subst i4' id'.
    apply msim_step. intros [i5 oname] _.
    eapply msim_bind; [by apply (product_refs_sim P M i cc v)|].
    intros M2 [i6 [a ids]] [i6' [b ids']] G2 _ (-> & E3 & F2 & E4). simpl in *. subst i6' ids'. apply msim_ret. simpl.
    split; [done|]. split; [done|]. split; [done|]. apply Forall2_app; [done|]. by constructor.
  - intros M1 [[i4 os] id] [[i4' os'] id'] G _ (-> & E1 & E2 & F). simpl in *. subst i4' id'. by apply msim_ret.
Qed.
Lemma classic_sim input : msim M (mdec_classic P i input) (dec_classic P v input)
  (fun M' a b => M' = M /\ a.1 = b.1 /\ shows_classic M i a.2 b.2).
Proof.
  unfold mdec_classic, dec_classic.
  eapply msim_bind; [apply categories_sim|]. intros M1 [i1 a] [i1' a'] _ _ (-> & E1 & F1). simpl in *. subst i1'.
  eapply msim_bind; [apply tags_sim|]. intros M1 [i2 b] [i2' b'] _ _ (-> & E2 & F2). simpl in *. subst i2'.
  apply msim_step. intros [i3 order] _. by apply msim_ret.
Qed.
End classic.

Lemma all_sim P n M input : msim M (mdeserialize_all P n input) (deserialize_all P n input)
  (fun M' a b => shows_all M' a b /\ length (m_super M') = length (m_super M) + 2 /\
     exists entries i1 c i2, dec_container P input = Done (i1, c) /\ dec_usize P i1 = Done (i2, lenN entries) /\
       gi_roots b.1 = foldl (fun m '(k, v) => <[k := v]> m) ∅ entries /\
       length (m_nodes M') = length (m_nodes M) + list_sum (map (fun e => node_count e.2) entries)).
Proof.
  unfold mdeserialize_all, deserialize_all.
  eapply msim_bind; [apply index_sim|]. intros M1 [i1 cgi] [i1' gi] G1 _ (E1 & F1 & S1 & C1). simpl in E1, F1, C1. subst i1'.
  pose proof F1 as ((cc & H1 & H2) & _).
  eapply msim_bind; [by apply (classic_sim P _ cc)|]. intros M2 [i2 ccl] [i2' cl] _ _ (-> & E2 & F2). simpl in E2, F2. subst i2'.
  apply msim_ret. split; [by split|]. split; [done|]. exact C1.
Qed.
