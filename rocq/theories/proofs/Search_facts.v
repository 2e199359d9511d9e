(** Searching a trie. *)
From Verif.model Require Import Base F32 Utf8 Prim Coll Data Gram Indexer.
From Verif.spec Require Import Spec Gram_spec.
From Verif.proofs Require Import Base_facts Sort_facts Float_facts Indexer_facts Trie_facts.
From Coq Require Import ZifyBool ZifyNat ZifyN.
Ltac Zify.zify_post_hook ::= Z.div_mod_to_equations.

(** ** Children by label *)
Lemma items_of_snoc l x : items_of (l ++ [x]) = <[n_item x := x]> (items_of l).
Proof. unfold items_of. by rewrite foldl_app. Qed.
Lemma items_of_Some l g child : items_of l !! g = Some child -> child ∈ l /\ n_item child = g.
Proof.
  induction l as [|x l IH] using rev_ind; [done|]. rewrite items_of_snoc.
  intros [[<- <-]|[Hne H]]%lookup_insert_Some.
  - split; [|done]. apply elem_of_app. right. left.
  - destruct (IH H). split; [|done]. apply elem_of_app. by left.
Qed.
Lemma items_of_elem l child : child ∈ l -> exists child', items_of l !! n_item child = Some child'.
Proof.
  induction l as [|x l IH] using rev_ind; intros H; [by apply elem_of_nil in H|].
  rewrite items_of_snoc. destruct (decide (n_item x = n_item child)) as [E|E].
  - rewrite E, lookup_insert. eauto.
  - rewrite lookup_insert_ne by done. apply IH. apply elem_of_app in H as [H|H]; [done|].
    apply elem_of_list_singleton in H as ->. done.
Qed.
Lemma node_items_Some nd g child : node_items nd !! g = Some child ->
  child ∈ n_children nd /\ n_item child = g.
Proof. apply items_of_Some. Qed.
Lemma node_items_unique nd child : NoDup (map n_item (n_children nd)) -> child ∈ n_children nd ->
  node_items nd !! n_item child = Some child.
Proof.
  intros Hnd Hc. destruct (items_of_elem _ _ Hc) as (child' & E). unfold node_items. rewrite E.
  apply items_of_Some in E as [Hc' E]. f_equal. by eapply (nodup_map_inj n_item (n_children nd)).
Qed.

(** ** One step of the recursion *)
Section step.
Context (n L : nat).
Notation rs := (recursive_search n L).

Definition try_child (k : nat) (nd : node) (input : list N) (ch : nat) (cw : f32) (pi : list N)
    (best : option candidate) (child : node) : option candidate :=
  let pi := <[(n - S k)%nat := n_item child]> pi in
  let weight := f32_mul cw (n_weight child) in
  best_result (best_result (rs k (tail input) child (Some nd) (S ch) weight pi)
                           (rs k input child (Some nd) (S (S ch)) weight pi)) best.

Definition entered (nd : node) (input : list N) : option node :=
  gram ← head input; node_items nd !! gram.
Definition others (nd : node) (input : list N) : list node :=
  filter (fun potential => Some (n_item potential) <> n_item <$> entered nd input) (n_children nd).

Definition first_try (k : nat) (input : list N) (nd : node) (ch : nat) (cw : f32)
    (pi : list N) : option candidate :=
  match entered nd input with
  | Some ue => rs k (tail input) ue (Some nd) ch (f32_mul cw (n_weight ue)) (<[(n - S k)%nat := n_item ue]> pi)
  | None => None
  end.
Definition last_try (k : nat) (input : list N) (prev : option node) (ch : nat) (cw : f32)
    (pi : list N) : option candidate :=
  match input with
  | [] => None
  | x :: rest =>
    match prev ≫= (fun p => node_items p !! x) with
    | Some last => rs (S k) rest last None (S ch) cw (<[(n - S k - 1)%nat := n_item last]> pi)
    | None => None
    end
  end.

Lemma best_result_None_r a : best_result a None = a.
Proof. by destruct a. Qed.
Lemma best_result_None_l a : best_result None a = a.
Proof. by destruct a. Qed.

Lemma recursive_search_S k input nd prev ch cw pi :
  rs (S k) input nd prev ch cw pi =
  if Nat.ltb ch L then
    best_result (last_try k input prev ch cw pi)
      (foldl (try_child k nd input ch cw pi) (first_try k input nd ch cw pi) (others nd input))
  else first_try k input nd ch cw pi.
Proof.
  assert (E : forall (m : option candidate) (u : option node)
     (f : node -> option candidate),
     match u with Some ue => best_result (f ue) None | None => None end =
     match u with Some ue => f ue | None => None end).
  { intros m [u|] f; [|done]. apply best_result_None_r. }
  unfold first_try, last_try, others, entered, try_child.
  destruct input as [|x rest]; cbn [recursive_search head tail mbind option_bind fmap option_fmap option_map].
  - destruct (Nat.ltb ch L); [|done]. by rewrite best_result_None_l.
  - rewrite (E None). destruct (Nat.ltb ch L); [|done].
    destruct prev as [p|]; cbn [mbind option_bind].
    + destruct (node_items p !! x) as [last|]; [done|]. by rewrite best_result_None_l.
    + by rewrite best_result_None_l.
Qed.

Lemma best_result_cases a b r : best_result a b = Some r -> a = Some r \/ b = Some r.
Proof.
  unfold best_result. destruct a as [a|], b as [b|]; try (by auto); try done.
  destruct (f32_gt a.2 b.2); auto.
Qed.
Lemma fold_cases (f : node -> option candidate) : forall l init r,
  foldl (fun best x => best_result (f x) best) init l = Some r ->
  init = Some r \/ exists x, x ∈ l /\ f x = Some r.
Proof.
  induction l as [|x l IH]; intros init r H; simpl in H; [by left|].
  apply IH in H as [H|(y & Hy & H)].
  - apply best_result_cases in H as [H|H]; [|by left]. right. exists x. split; [left|done].
  - right. exists y. split; [by right|done].
Qed.

(** Where a result can come from. *)
Inductive from_step (k : nat) (input : list N) (nd : node) (prev : option node) (ch : nat) (cw : f32)
    (pi : list N) (r : candidate) : Prop :=
| from_keep x rest child :
    input = x :: rest -> child ∈ n_children nd -> n_item child = x ->
    rs k rest child (Some nd) ch (f32_mul cw (n_weight child)) (<[(n - S k)%nat := n_item child]> pi) = Some r ->
    from_step k input nd prev ch cw pi r
| from_replace child :
    (ch < L)%nat -> child ∈ n_children nd ->
    rs k (tail input) child (Some nd) (S ch) (f32_mul cw (n_weight child))
      (<[(n - S k)%nat := n_item child]> pi) = Some r ->
    from_step k input nd prev ch cw pi r
| from_insert child :
    (ch < L)%nat -> child ∈ n_children nd ->
    rs k input child (Some nd) (S (S ch)) (f32_mul cw (n_weight child))
      (<[(n - S k)%nat := n_item child]> pi) = Some r ->
    from_step k input nd prev ch cw pi r
| from_drop x rest p last :
    (ch < L)%nat -> input = x :: rest -> prev = Some p -> last ∈ n_children p -> n_item last = x ->
    rs (S k) rest last None (S ch) cw (<[(n - S k - 1)%nat := n_item last]> pi) = Some r ->
    from_step k input nd prev ch cw pi r.

Lemma step_cases k input nd prev ch cw pi r :
  rs (S k) input nd prev ch cw pi = Some r -> from_step k input nd prev ch cw pi r.
Proof.
  rewrite recursive_search_S. intros H.
  assert (Hfirst : first_try k input nd ch cw pi = Some r -> from_step k input nd prev ch cw pi r).
  { unfold first_try, entered. destruct input as [|x rest]; [done|]. cbn [head mbind option_bind].
    destruct (node_items nd !! x) as [ue|] eqn:E; [|done]. apply node_items_Some in E as [Hc Hi].
    intros Hr. by eapply from_keep. }
  destruct (Nat.ltb_spec ch L) as [Hlt|]; [|by apply Hfirst].
  apply best_result_cases in H as [H|H].
  - unfold last_try in H. destruct input as [|x rest]; [done|].
    destruct prev as [p|]; [|done]. cbn [mbind option_bind] in H.
    destruct (node_items p !! x) as [last|] eqn:E; [|done]. apply node_items_Some in E as [Hc Hi].
    by eapply from_drop.
  - apply (fold_cases (fun child =>
       best_result (rs k (tail input) child (Some nd) (S ch) (f32_mul cw (n_weight child)) (<[(n - S k)%nat := n_item child]> pi))
                   (rs k input child (Some nd) (S (S ch)) (f32_mul cw (n_weight child)) (<[(n - S k)%nat := n_item child]> pi))))
      in H as [H|(child & Hc & H)]; [by apply Hfirst|].
    unfold others in Hc. apply elem_of_list_filter in Hc as [_ Hc].
    apply best_result_cases in H as [H|H]; [by eapply from_replace|by eapply from_insert].
Qed.
End step.

(** ** Every result is a path of the trie, reached by few corrections *)
Section index.
Context (roots : gmap N node) (n : nat).
Lemma at_path_child w nd child : at_path roots w nd -> child ∈ n_children nd ->
  at_path roots (w ++ [n_item child]) child.
Proof. apply (at_path_down (GramIndex roots ∅ (Container [] vm_new ∅))). Qed.

Lemma take_insert_snoc {A} (l : list A) (i : nat) x : (i < length l)%nat ->
  take (S i) (<[i := x]> l) = take i l ++ [x].
Proof.
  intros Hi. rewrite (take_S_r _ _ x) by by apply list_lookup_insert.
  f_equal. by rewrite take_insert by lia.
Qed.

Context (L : nat) (query : list N) (q0 : N).
(** The matched grams [m] together with corrections for the rest explain the query. *)
Definition explains (w rest : list N) (s c : nat) : Prop :=
  forall m s' c', edit rest m s' c' -> exists s2 c2, edit query (w ++ m) s2 c2 /\
    (s2 <= s + s')%nat /\ (c2 <= c + c')%nat.

Definition good (r : candidate) : Prop :=
  length r.1 = n /\ (exists nd, at_path roots r.1 nd) /\
  exists m s c, r.1 = q0 :: m /\ edit query m s c /\ (s <= L)%nat /\ (c <= S L)%nat.

Lemma search_good : forall k input nd prev ch cw pi w s r,
  (S (length w) + k = n)%nat -> length pi = n -> take (S (length w)) pi = q0 :: w ->
  at_path roots (q0 :: w) nd ->
  match prev with
  | None => True
  | Some p => exists w' z, w = w' ++ [z] /\ at_path roots (q0 :: w') p /\ explains w' input (S s) (S ch)
  end ->
  explains w input s ch -> (s <= ch)%nat -> (s <= L)%nat -> (ch <= S L)%nat ->
  recursive_search n L k input nd prev ch cw pi = Some r -> good r.
Proof.
  induction k as [|k IHk].
  { intros input nd prev ch cw pi w s r Hn Hpi Hw Hat Hprev Hexp Hs HsL Hch H.
    cbn in H. assert (E : r = (pi, cw)) by (destruct input; by injection H as <-).
    rewrite Nat.add_0_r in Hn. rewrite Hn, take_ge in Hw by lia. subst r. rewrite Hw.
    unfold good; cbn [fst snd]. split; [simpl; lia|]. split; [eauto|].
    destruct (Hexp [] 0%nat 0%nat (edit_end input)) as (s2 & c2 & He & Hs2 & Hc2).
    rewrite app_nil_r in He. exists w, s2, c2. split; [done|]. split; [done|]. lia. }
  induction input as [input IHin] using (induction_ltof1 _ (@length N)). unfold ltof in IHin.
  intros nd prev ch cw pi w s r Hn Hpi Hw Hat Hprev Hexp Hs HsL Hch H.
  assert (Hidx : (n - S k = S (length w))%nat) by lia.
  apply step_cases in H.
  assert (Hnext : forall child, take (S (length (w ++ [n_item child])))
                     (<[(n - S k)%nat := n_item child]> pi) = q0 :: w ++ [n_item child]).
  { intros child. rewrite Hidx, app_length. simpl length. rewrite Nat.add_1_r.
    rewrite take_insert_snoc by lia. by rewrite Hw. }
  assert (Hlen : forall child, length (<[(n - S k)%nat := n_item child]> pi) = n)
    by (intros; by rewrite insert_length).
  assert (Hw1 : forall child : node, (S (length (w ++ [n_item child])) + k = n)%nat)
    by (intros; rewrite app_length; simpl; lia).
  assert (Hdown : forall child, child ∈ n_children nd -> at_path roots (q0 :: w ++ [n_item child]) child).
  { intros child Hc. apply (at_path_child _ _ child Hat Hc). }
  destruct H as [x rest child -> Hc Hx H|child Hlt Hc H|child Hlt Hc H|x rest p last Hlt -> -> Hc Hx H].
  - refine (IHk rest child (Some nd) ch _ _ (w ++ [n_item child]) s _ (Hw1 child) (Hlen child) (Hnext child) (Hdown child Hc) _ _ Hs HsL Hch H).
    + exists w, (n_item child). split; [done|]. split; [done|].
      intros m s' c' He. destruct (Hexp m (S s') (S c')) as (s2 & c2 & H2 & ? & ?).
      { by constructor. } exists s2, c2. split; [done|]. lia.
    + intros m s' c' He. destruct (Hexp (x :: m) s' c') as (s2 & c2 & H2 & ? & ?).
      { by constructor. } exists s2, c2. rewrite <- app_assoc, Hx. done.
  - refine (IHk (tail input) child (Some nd) (S ch) _ _ (w ++ [n_item child]) (S s) _ (Hw1 child) (Hlen child) (Hnext child) (Hdown child Hc) _ _ _ _ _ H); [| |lia..].
    + exists w, (n_item child). split; [done|]. split; [done|].
      intros m s' c' He. destruct input as [|x rest]; cbn [tail] in He.
      * destruct (Hexp m s' c' He) as (s2 & c2 & H2 & ? & ?). exists s2, c2. split; [done|]. lia.
      * destruct (Hexp m (S s') (S c')) as (s2 & c2 & H2 & ? & ?).
        { by constructor. } exists s2, c2. split; [done|]. lia.
    + intros m s' c' He. rewrite <- app_assoc.
      destruct (Hexp (n_item child :: m) (S s') (S c')) as (s2 & c2 & H2 & ? & ?).
      { destruct input; by constructor. } exists s2, c2. split; [done|]. lia.
  - refine (IHk input child (Some nd) (S (S ch)) _ _ (w ++ [n_item child]) (S s) _ (Hw1 child) (Hlen child) (Hnext child) (Hdown child Hc) _ _ _ _ _ H); [| |lia..].
    + exists w, (n_item child). split; [done|]. split; [done|].
      intros m s' c' He. destruct (Hexp m s' c' He) as (s2 & c2 & H2 & ? & ?).
      exists s2, c2. split; [done|]. lia.
    + intros m s' c' He. rewrite <- app_assoc.
      destruct (Hexp (n_item child :: m) (S s') (S (S c'))) as (s2 & c2 & H2 & ? & ?).
      { by constructor. } exists s2, c2. split; [done|]. lia.
  - destruct Hprev as (w' & z & -> & Hp & Hexp').
    refine (IHin rest ltac:(simpl; lia) last None (S ch) cw _ (w' ++ [n_item last]) (S s) _ _ _ _ _ I _ _ _ _ H); [| | | | |lia..].
    + rewrite app_length in *. simpl in *. lia.
    + by rewrite insert_length.
    + rewrite app_length in *. simpl length in *. rewrite Nat.add_1_r in *.
      replace (n - S k - 1)%nat with (S (length w')) by lia.
      rewrite take_insert_snoc by lia.
      assert (E : take (S (length w')) pi = q0 :: w').
      { apply (f_equal (take (S (length w')))) in Hw. rewrite take_take in Hw.
        replace (Nat.min (S (length w')) (S (S (length w')))) with (S (length w')) in Hw by lia.
        rewrite Hw. simpl. by rewrite take_app. }
      by rewrite E.
    + by apply (at_path_child _ _ last Hp).
    + intros m s' c' He. rewrite <- app_assoc. destruct (Hexp' (x :: m) s' c') as (s2 & c2 & H2 & ? & ?).
      { by constructor. } exists s2, c2. rewrite Hx. split; [done|]. lia.
Qed.
End index.

(** ** What a query adds to the ranker *)
Definition add_hit (r : ranker) (hit : product * f32) : ranker := rank_add r hit.1 hit.2.

Lemma search_gram_total n gi q : (n <= 764)%nat -> exists r, search_gram n gi q = Done r.
Proof.
  intros Hn. unfold search_gram. destruct q as [|q0 q]; [eauto|].
  destruct (gi_roots gi !! q0); [|eauto].
  assert (E : Nat.leb (n / 3) 255 = true).
  { apply Nat.leb_le. lia. }
  rewrite E. eauto.
Qed.
Lemma search_step_hits n gi w r g : (1 <= n <= 764)%nat ->
  search_step n gi (w, r) g = Done (shift_in w g, foldl add_hit r (window_hits n gi (shift_in w g))).
Proof.
  intros Hn. unfold search_step, window_hits. destruct n as [|n']; [lia|].
  destruct (search_gram_total (S n') gi (shift_in w g)) as (r' & E); [lia|]. rewrite E.
  cbn [mbind res_bind]. destruct r' as [[m x]|]; [|done].
  destruct (gi_data gi !! m) as [l|]; [|done]. f_equal. f_equal. clear E. revert r.
  induction l as [|p l IH]; intros r; simpl; [done|]. by rewrite IH.
Qed.
Lemma foldM_search n gi input : (1 <= n <= 764)%nat ->
  foldM (search_step n gi) input (replicate n gram_default, ∅) =
  Done (lookback_of n input, foldl add_hit ∅ (query_hits n gi input)).
Proof.
  intros Hn. induction input as [|g input IH] using rev_ind.
  - unfold lookback_of. simpl. by rewrite app_nil_r.
  - rewrite foldM_app, IH. cbn [mbind res_bind foldM]. rewrite search_step_hits by done.
    cbn [mbind res_bind]. rewrite lookback_snoc by lia. unfold query_hits.
    rewrite windows_snoc, map_app, concat_app, foldl_app. simpl. by rewrite app_nil_r.
Qed.
Lemma gram_search_hits n o gi input : (1 <= n <= 764)%nat ->
  gram_search n o gi input = Done (rank_export o (foldl add_hit ∅ (query_hits n gi input))).
Proof. intros Hn. unfold gram_search. by rewrite foldM_search. Qed.

(** ** The ranker *)
Definition tally (id : rstr) (hits : list (product * f32)) : option (product * f32) :=
  match hits_of id hits with
  | [] => None
  | (p, c) :: rest => Some (p, foldl f32_add c (map snd rest))
  end.
Lemma hits_of_snoc id hits h :
  hits_of id (hits ++ [h]) = hits_of id hits ++ (if decide (p_id h.1 = id) then [h] else []).
Proof. unfold hits_of. rewrite filter_app, filter_cons. by case_decide. Qed.
Lemma add_hits_lookup hits id : foldl add_hit ∅ hits !! id = tally id hits.
Proof.
  induction hits as [|h hits IH] using rev_ind; [done|].
  rewrite foldl_app. cbn [foldl]. unfold add_hit at 1, rank_add, tally.
  rewrite hits_of_snoc. destruct (decide (p_id h.1 = id)) as [<-|Hne].
  - rewrite IH. unfold tally. destruct (hits_of (p_id h.1) hits) as [|[p c] rest]; simpl.
    + etrans; [apply lookup_insert|]. by destruct h.
    + etrans; [apply lookup_insert|]. by rewrite map_app, foldl_app.
  - rewrite app_nil_r. fold (tally id hits). rewrite <- IH.
    destruct (foldl add_hit ∅ hits !! p_id h.1) as [[d cur]|]; (etrans; [by apply lookup_insert_ne|done]).
Qed.
Lemma tally_id id hits p x : tally id hits = Some (p, x) -> p_id p = id.
Proof.
  unfold tally. destruct (hits_of id hits) as [|[q c] rest] eqn:E; [done|]. intros [= <- _].
  assert (H : (q, c) ∈ hits_of id hits) by (rewrite E; left).
  unfold hits_of in H. by apply elem_of_list_filter in H as [H _].
Qed.
Lemma export_totals o hits : valid_order o -> totals hits (rank_export o (foldl add_hit ∅ hits)).
Proof.
  intros Ho. unfold rank_export. set (m := foldl add_hit ∅ hits).
  assert (Hp : sort_by rank_cmp (map snd (o (map_to_list m))) ≡ₚ map snd (map_to_list m)).
  { rewrite sort_by_perm. apply Permutation_map, Ho. }
  assert (Hkey : forall k v, (k, v) ∈ map_to_list m -> p_id v.1 = k).
  { intros k [p x] Hk. apply elem_of_map_to_list in Hk. unfold m in Hk. rewrite add_hits_lookup in Hk.
    by apply tally_id in Hk. }
  split.
  - rewrite (Permutation_map (fun r => p_id r.1) Hp), map_map.
    assert (E : map (fun x => p_id x.2.1) (map_to_list m) = map fst (map_to_list m)).
    { apply map_ext_in. intros [k v] Hk%elem_of_list_In. simpl. by apply Hkey. }
    rewrite E. apply NoDup_fst_map_to_list.
  - intros p x. rewrite Hp, elem_of_list_fmap. split.
    + intros ([k v] & Ev & Hk). simpl in Ev. subst v. pose proof (Hkey _ _ Hk) as Hid. simpl in Hid.
      apply elem_of_map_to_list in Hk. unfold m in Hk. rewrite add_hits_lookup in Hk.
      rewrite Hid. unfold tally in Hk. destruct (hits_of k hits) as [|[q c] rest]; [done|].
      injection Hk as <- <-. eauto.
    + intros (c & rest & E & ->). exists (p_id p, (p, foldl f32_add c (map snd rest))).
      split; [done|]. apply elem_of_map_to_list. unfold m. rewrite add_hits_lookup.
      unfold tally. by rewrite E.
Qed.
