(** Which gram is chosen for a window. *)
From Verif.model Require Import Base F32 Utf8 Prim Coll Data Gram Indexer.
From Verif.spec Require Import Spec Gram_spec.
From Verif.proofs Require Import Base_facts Sort_facts Float_facts Indexer_facts Trie_facts Search_facts.
From Coq Require Import ZifyBool ZifyNat ZifyN.
Ltac Zify.zify_post_hook ::= Z.div_mod_to_equations.

(** ** Without corrections left, the input must be long enough *)
Lemma search_short n L : forall k input nd prev ch cw pi, (L <= ch)%nat -> (length input < k)%nat ->
  recursive_search n L k input nd prev ch cw pi = None.
Proof.
  induction k as [|k IH]; intros input nd prev ch cw pi Hch Hl; [lia|].
  rewrite recursive_search_S. destruct (Nat.ltb_spec ch L) as [|_]; [lia|].
  unfold first_try, entered. destruct input as [|x rest]; [done|]. cbn [head mbind option_bind tail].
  destruct (node_items nd !! x); [|done]. apply IH; [done|]. simpl in Hl. lia.
Qed.

(** ** The skip branch contributes nothing for limits up to 1 *)
Lemma without_skip n L : (L <= 1)%nat -> forall k input nd prev ch cw pi,
  (ch = 0%nat -> length input = k) ->
  recursive_search n L k input nd prev ch cw pi = search_without_skip n L k input nd ch cw pi.
Proof.
  intros HL. induction k as [|k IH]; intros input nd prev ch cw pi Hch.
  { by destruct input. }
  rewrite recursive_search_S. cbn [search_without_skip].
  assert (Hfirst : first_try n L k input nd ch cw pi =
    (head input ≫= (fun gram => node_items nd !! gram)) ≫= (fun child =>
       search_without_skip n L k (tail input) child ch (f32_mul cw (n_weight child))
         (<[(n - S k)%nat := n_item child]> pi))).
  { unfold first_try, entered. destruct (head input ≫= _) as [ue|]; [|done]. cbn [mbind option_bind].
    apply IH. intros E. specialize (Hch E). destruct input; simpl in *; lia. }
  destruct (Nat.ltb_spec ch L) as [Hlt|Hge]; [|done].
  assert (Elast : last_try n L k input prev ch cw pi = None).
  { unfold last_try. destruct input as [|x rest]; [done|]. destruct (prev ≫= _); [|done].
    apply search_short; [lia|]. assert (ch = 0)%nat by lia. specialize (Hch H). simpl in Hch. lia. }
  rewrite Elast, best_result_None_l, Hfirst. unfold others, entered.
  generalize (filter (fun potential => Some (n_item potential) <>
     n_item <$> (head input ≫= (fun gram => node_items nd !! gram))) (n_children nd)).
  generalize ((head input ≫= (fun gram => node_items nd !! gram)) ≫= (fun child =>
       search_without_skip n L k (tail input) child ch (f32_mul cw (n_weight child))
         (<[(n - S k)%nat := n_item child]> pi))).
  intros init l. revert init. induction l as [|child l IHl]; intros init; [done|]. cbn [foldl].
  rewrite <- IHl. f_equal. unfold try_child. by rewrite !IH by lia.
Qed.
Lemma search_gram_without n gi query r : (n <= 5)%nat -> length query = n ->
  search_gram n gi query = Done r <-> search_gram_without_skip n gi query = r.
Proof.
  intros Hn Hl. unfold search_gram, search_gram_without_skip.
  destruct query as [|q0 query]; [split; congruence|].
  destruct (gi_roots gi !! q0) as [root|]; [|split; congruence].
  assert (E : Nat.leb (n / 3) 255 = true) by (apply Nat.leb_le; lia). rewrite E.
  rewrite (without_skip n (n / 3)); [|lia|simpl in Hl; intros; lia].
  unfold gram_default. split; congruence.
Qed.

(** ** Confidences *)
Section index.
Context (roots : gmap N node) (n : nat).
Context (W : forall w nd, at_path roots w nd -> f32_unit (n_weight nd)).
Context (U : forall w nd, at_path roots w nd -> NoDup (map n_item (n_children nd))).
Definition in_trie (nd : node) : Prop := exists w, at_path roots w nd.
Lemma in_trie_child nd child : in_trie nd -> child ∈ n_children nd -> in_trie child.
Proof. intros [w Hw] Hc. exists (w ++ [n_item child]). by eapply at_path_child. Qed.
Lemma in_trie_weight nd : in_trie nd -> f32_unit (n_weight nd).
Proof. intros [w Hw]. by eapply W. Qed.
Context (L : nat).
Notation rs := (recursive_search n L).

Lemma search_unit : forall k input nd prev ch cw pi r,
  in_trie nd -> (forall p, prev = Some p -> in_trie p) -> f32_unit cw ->
  rs k input nd prev ch cw pi = Some r -> f32_unit r.2.
Proof.
  induction k as [|k IHk].
  { intros input nd prev ch cw pi r Hnd Hp Hcw H. destruct input; cbn in H; by injection H as <-. }
  induction input as [input IHin] using (induction_ltof1 _ (@length N)). unfold ltof in IHin.
  intros nd prev ch cw pi r Hnd Hp Hcw H.
  assert (Hchild : forall child, child ∈ n_children nd -> f32_unit (f32_mul cw (n_weight child))).
  { intros child Hc. apply f32_mul_unit; [done|]. eapply in_trie_weight, in_trie_child; eauto. }
  assert (Hnd' : forall p, Some nd = Some p -> in_trie p) by (by intros p [= <-]).
  apply step_cases in H.
  destruct H as [x rest child -> Hc Hx H|child Hlt Hc H|child Hlt Hc H|x rest p last Hlt -> -> Hc Hx H].
  - apply (IHk _ _ _ _ _ _ _ (in_trie_child _ _ Hnd Hc) Hnd' (Hchild _ Hc) H).
  - apply (IHk _ _ _ _ _ _ _ (in_trie_child _ _ Hnd Hc) Hnd' (Hchild _ Hc) H).
  - apply (IHk _ _ _ _ _ _ _ (in_trie_child _ _ Hnd Hc) Hnd' (Hchild _ Hc) H).
  - eapply (IHin rest ltac:(simpl; lia) last None); [| |exact Hcw|exact H].
    + eapply in_trie_child; [by apply Hp|done].
    + done.
Qed.

(** [a] offers at least confidence [e]. *)
Definition offers (e : f32) (a : option candidate) : Prop := exists r, a = Some r /\ f32_le e r.2.
Definition unit_or_none (a : option candidate) : Prop := forall r, a = Some r -> f32_unit r.2.
Lemma best_offers_r e a b : valid_f32 e -> unit_or_none a -> unit_or_none b -> offers e b -> offers e (best_result a b).
Proof.
  intros Ve Ha Hb (x & -> & He). destruct a as [a|]; simpl; [|by exists x].
  destruct (f32_gt a.2 x.2) eqn:E; [|by exists x]. exists a. split; [done|].
  pose proof (Ha a eq_refl) as Ua. pose proof (Hb x eq_refl) as Ux.
  eapply (f32_le_trans _ x.2); [done|apply Ux|apply Ua|done|]. by apply f32_lt_le, f32_gt_iff.
Qed.
Lemma best_offers_l e a b : valid_f32 e -> unit_or_none a -> unit_or_none b -> offers e a -> offers e (best_result a b).
Proof.
  intros Ve Ha Hb (x & -> & He). destruct b as [b|]; simpl; [|by exists x].
  destruct (f32_gt x.2 b.2) eqn:E; [by exists x|]. exists b. split; [done|].
  pose proof (Hb b eq_refl) as Ub. pose proof (Ha x eq_refl) as Ux.
  eapply (f32_le_trans _ x.2); [done|apply Ux|apply Ub|done|].
  apply f32_gt_false in E; [done|by apply f32_unit_number..].
Qed.
Lemma best_unit a b : unit_or_none a -> unit_or_none b -> unit_or_none (best_result a b).
Proof. intros Ha Hb r H. apply best_result_cases in H as [H|H]; auto. Qed.

Section here.
Context (k : nat) (input : list N) (nd : node) (prev : option node) (ch : nat) (cw : f32) (pi : list N).
Context (Hnd : in_trie nd) (Hprev : forall p, prev = Some p -> in_trie p) (Hcw : f32_unit cw).
Lemma child_unit child input' ch' pi' : child ∈ n_children nd ->
  unit_or_none (rs k input' child (Some nd) ch' (f32_mul cw (n_weight child)) pi').
Proof.
  intros Hc r. apply search_unit.
  - by eapply in_trie_child.
  - by intros p [= <-].
  - apply f32_mul_unit; [done|]. eapply in_trie_weight, in_trie_child; eauto.
Qed.
Lemma first_unit : unit_or_none (first_try n L k input nd ch cw pi).
Proof.
  unfold first_try, entered. destruct input as [|x rest]; [done|]. cbn [head mbind option_bind].
  destruct (node_items nd !! x) as [ue|] eqn:E; [|done]. apply node_items_Some in E as [Hc _].
  by apply child_unit.
Qed.
Lemma last_unit : unit_or_none (last_try n L k input prev ch cw pi).
Proof.
  unfold last_try. destruct input as [|x rest]; [done|]. destruct prev as [p|]; [|done].
  cbn [mbind option_bind]. destruct (node_items p !! x) as [last|] eqn:E; [|done].
  apply node_items_Some in E as [Hc _]. intros r. apply search_unit; [|done|done].
  eapply in_trie_child; [|done]. by apply Hprev.
Qed.
Lemma try_unit best child : child ∈ n_children nd -> unit_or_none best ->
  unit_or_none (try_child n L k nd input ch cw pi best child).
Proof. intros Hc Hb. unfold try_child. apply best_unit; [|done]. apply best_unit; by apply child_unit. Qed.
Lemma fold_unit l init : (forall child, child ∈ l -> child ∈ n_children nd) -> unit_or_none init ->
  unit_or_none (foldl (try_child n L k nd input ch cw pi) init l).
Proof.
  revert init. induction l as [|x l IH]; intros init Hl Hi; [done|]. simpl. apply IH.
  - intros child Hc. apply Hl. by right.
  - apply try_unit; [apply Hl; left|done].
Qed.
Lemma fold_offers_init e l init : valid_f32 e -> (forall child, child ∈ l -> child ∈ n_children nd) ->
  unit_or_none init -> offers e init ->
  offers e (foldl (try_child n L k nd input ch cw pi) init l).
Proof.
  intros Ve. revert init. induction l as [|x l IH]; intros init Hl Hi Ho; [done|]. simpl. apply IH.
  - intros child Hc. apply Hl. by right.
  - apply try_unit; [apply Hl; left|done].
  - unfold try_child. assert (x ∈ n_children nd) by (apply Hl; left).
    apply best_offers_r; [done| |done|done]. apply best_unit; by apply child_unit.
Qed.
Lemma fold_offers_elem e l init child : valid_f32 e -> (forall child, child ∈ l -> child ∈ n_children nd) ->
  unit_or_none init -> child ∈ l ->
  (offers e (rs k (tail input) child (Some nd) (S ch) (f32_mul cw (n_weight child)) (<[(n - S k)%nat := n_item child]> pi))
   \/ offers e (rs k input child (Some nd) (S (S ch)) (f32_mul cw (n_weight child)) (<[(n - S k)%nat := n_item child]> pi))) ->
  offers e (foldl (try_child n L k nd input ch cw pi) init l).
Proof.
  intros Ve. revert init. induction l as [|x l IH]; intros init Hl Hi Hc Ho; [by apply elem_of_nil in Hc|].
  assert (Hx : x ∈ n_children nd) by (apply Hl; left).
  assert (Hl' : forall child, child ∈ l -> child ∈ n_children nd) by (intros; apply Hl; by right).
  assert (Hi' : unit_or_none (try_child n L k nd input ch cw pi init x)) by by apply try_unit.
  simpl. apply elem_of_cons in Hc as [->|Hc]; [|by apply IH].
  apply fold_offers_init; [done..|]. unfold try_child.
  assert (U1 := child_unit x (tail input) (S ch) (<[(n - S k)%nat := n_item x]> pi) Hx).
  assert (U2 := child_unit x input (S (S ch)) (<[(n - S k)%nat := n_item x]> pi) Hx).
  apply best_offers_l; [done|by apply best_unit|done|].
  destruct Ho as [Ho|Ho]; [by apply best_offers_l|by apply best_offers_r].
Qed.
Lemma others_children child : child ∈ others nd input -> child ∈ n_children nd.
Proof. unfold others. by intros [_ H]%elem_of_list_filter. Qed.
(** Keeping the typed gram, replacing it and inserting before it are all considered. *)
Lemma offers_keep e x rest child : valid_f32 e -> input = x :: rest -> child ∈ n_children nd -> n_item child = x ->
  NoDup (map n_item (n_children nd)) ->
  offers e (rs k rest child (Some nd) ch (f32_mul cw (n_weight child)) (<[(n - S k)%nat := n_item child]> pi)) ->
  offers e (rs (S k) input nd prev ch cw pi).
Proof.
  intros Ve Ei Hc Hx Hnd' Ho. rewrite recursive_search_S.
  assert (Hf : offers e (first_try n L k input nd ch cw pi)).
  { unfold first_try, entered. rewrite Ei. cbn [head mbind option_bind tail].
    rewrite <- Hx, node_items_unique by done. done. }
  destruct (Nat.ltb_spec ch L); [|done].
  apply best_offers_r; [done|apply last_unit| |].
  - apply fold_unit; [apply others_children|apply first_unit].
  - apply fold_offers_init; [done|apply others_children|apply first_unit|done].
Qed.
Lemma offers_other e child : valid_f32 e -> (ch < L)%nat -> child ∈ n_children nd ->
  head input <> Some (n_item child) ->
  (offers e (rs k (tail input) child (Some nd) (S ch) (f32_mul cw (n_weight child)) (<[(n - S k)%nat := n_item child]> pi))
   \/ offers e (rs k input child (Some nd) (S (S ch)) (f32_mul cw (n_weight child)) (<[(n - S k)%nat := n_item child]> pi))) ->
  offers e (rs (S k) input nd prev ch cw pi).
Proof.
  intros Ve Hlt Hc Hh Ho. rewrite recursive_search_S. destruct (Nat.ltb_spec ch L); [|lia].
  apply best_offers_r; [done|apply last_unit| |].
  - apply fold_unit; [apply others_children|apply first_unit].
  - apply (fold_offers_elem e _ _ child); [done|apply others_children|apply first_unit| |done].
    unfold others. apply elem_of_list_filter. split; [|done].
    unfold entered. destruct input as [|x rest]; [done|]. cbn [head mbind option_bind].
    destruct (node_items nd !! x) as [ue|] eqn:E; [|done]. apply node_items_Some in E as [_ E].
    cbn [fmap option_fmap option_map]. rewrite E. simpl in Hh. congruence.
Qed.
End here.

Lemma exact_valid nd m cw e : exact_confidence nd m cw e -> in_trie nd -> f32_unit cw -> f32_unit e.
Proof.
  induction 1 as [nd x|nd child w x y Hc H IH]; intros Hnd Hcw; [done|].
  apply IH; [by eapply in_trie_child|].
  apply f32_mul_unit; [done|]. eapply in_trie_weight, in_trie_child; eauto.
Qed.
(** A path that differs from the input in at most the remaining number of places is considered. *)
Lemma offers_replaced : forall k m input nd prev ch cw pi e,
  in_trie nd -> (forall p, prev = Some p -> in_trie p) -> f32_unit cw ->
  length m = k -> (k <= length input)%nat -> (ch + differences m input <= L \/ differences m input = 0)%nat ->
  exact_confidence nd m cw e -> offers e (rs k input nd prev ch cw pi).
Proof.
  induction k as [|k IH]; intros m input nd prev ch cw pi e Hnd Hp Hcw Hm Hl Hd He.
  - destruct m; [|done]. inversion He; subst. exists (pi, e). split; [by destruct input|].
    simpl. apply f32_le_refl. by apply f32_unit_number.
  - pose proof (exact_valid _ _ _ _ He Hnd Hcw) as Ue.
    inversion He as [|? child w ? ? Hc He' E1 E2]; subst; [done|]. clear He.
    destruct input as [|x rest]; [simpl in Hl; lia|]. cbn [length] in *.
    assert (Hchild := in_trie_child _ _ Hnd Hc).
    assert (Hcw' : f32_unit (f32_mul cw (n_weight child))).
    { apply f32_mul_unit; [done|]. by apply in_trie_weight. }
    assert (Hnd' : forall p, Some nd = Some p -> in_trie p) by (by intros p [= <-]).
    simpl in Hd. destruct (decide (n_item child = x)) as [Ex|Ex].
    + destruct Hnd as [v Hv]. eapply (offers_keep k (x :: rest)); [by exists v|done|done|apply Ue|done|done|done|by eapply U|].
      apply (IH w); try done; lia.
    + eapply (offers_other k (x :: rest)); [done|done|done|apply Ue|lia|done|simpl; congruence|].
      left. cbn [tail]. apply (IH w); try done; lia.
Qed.
Lemma differences_refl a : forall b, differences a (a ++ b) = 0%nat.
Proof. induction a as [|x a IH]; intros b; simpl; [done|]. rewrite decide_True by done. by rewrite IH. Qed.
(** So is one inserted gram. *)
Lemma offers_inserted_here : forall b z y nd prev ch cw pi e,
  in_trie nd -> (forall p, prev = Some p -> in_trie p) -> f32_unit cw -> (ch < L)%nat ->
  exact_confidence nd (y :: b) cw e -> offers e (rs (S (length b)) (b ++ [z]) nd prev ch cw pi).
Proof.
  induction b as [|x b IH]; intros z y nd prev ch cw pi e Hnd Hp Hcw Hch He;
    pose proof (exact_valid _ _ _ _ He Hnd Hcw) as Ue;
    inversion He as [|? child w ? ? Hc He' E1 E2]; subst;
    assert (Hchild := in_trie_child _ _ Hnd Hc);
    assert (Hcw' : f32_unit (f32_mul cw (n_weight child))) by
      (apply f32_mul_unit; [done|]; by apply in_trie_weight);
    assert (Hnd' : forall p, Some nd = Some p -> in_trie p) by (by intros p [= <-]).
  - simpl app. destruct (decide (n_item child = z)) as [Ez|Ez].
    + destruct Hnd as [v Hv]. eapply (offers_keep 0 [z]); [by exists v|done|done|apply Ue|done|done|done|by eapply U|].
      apply (offers_replaced 0 []); try done; simpl; lia.
    + eapply (offers_other 0 [z]); [done|done|done|apply Ue|done|done|simpl; congruence|].
      left. apply (offers_replaced 0 []); try done; simpl; lia.
  - destruct (decide (n_item child = x)) as [Ex|Ex].
    + destruct Hnd as [v Hv].
      eapply (offers_keep _ ((x :: b) ++ [z])); [by exists v|done|done|apply Ue|done|done|done|by eapply U|].
      subst x. simpl. apply (IH z (n_item child)); done.
    + eapply (offers_other _ ((x :: b) ++ [z])); [done|done|done|apply Ue|done|done|simpl; congruence|].
      right. apply (offers_replaced _ (x :: b)); try done.
      * rewrite app_length. simpl. lia.
      * right. apply differences_refl.
Qed.
Lemma offers_inserted : forall a b z y nd prev ch cw pi e,
  in_trie nd -> (forall p, prev = Some p -> in_trie p) -> f32_unit cw -> (ch < L)%nat ->
  exact_confidence nd (a ++ y :: b) cw e ->
  offers e (rs (length (a ++ y :: b)) (a ++ b ++ [z]) nd prev ch cw pi).
Proof.
  induction a as [|x a IH]; intros b z y nd prev ch cw pi e Hnd Hp Hcw Hch He.
  - simpl. by apply (offers_inserted_here b z y).
  - pose proof (exact_valid _ _ _ _ He Hnd Hcw) as Ue.
    inversion He as [|? child w ? ? Hc He' E1 E2]; subst.
    assert (Hchild := in_trie_child _ _ Hnd Hc).
    assert (Hcw' : f32_unit (f32_mul cw (n_weight child))) by
      (apply f32_mul_unit; [done|]; by apply in_trie_weight).
    destruct Hnd as [v Hv]. cbn [app length].
    eapply (offers_keep _ (n_item child :: a ++ b ++ [z])); [by exists v|done|done|apply Ue|done|done|done|by eapply U|].
    apply (IH b z y); try done. intros p [= <-]. by exists v.
Qed.

End index.

(** Without the skip branch the confidence of a result is the product of its own weights. *)
Lemma without_skip_confidence n L root q0 : forall k input nd ch cw pi w r,
  (S (length w) + k = n)%nat -> length pi = n -> take (S (length w)) pi = q0 :: w ->
  (forall m e, exact_confidence nd m cw e -> exact_confidence root (w ++ m) f32_one e) ->
  search_without_skip n L k input nd ch cw pi = Some r ->
  exists m, r.1 = q0 :: m /\ exact_confidence root m f32_one r.2.
Proof.
  induction k as [|k IH]; intros input nd ch cw pi w r Hn Hpi Hw Hex H.
  - cbn in H. injection H as <-. cbn [fst snd]. exists w. rewrite Nat.add_0_r in Hn.
    rewrite Hn, take_ge in Hw by lia. split; [done|].
    specialize (Hex [] cw (exact_here nd cw)). by rewrite app_nil_r in Hex.
  - assert (Hdown : forall input' ch' child, child ∈ n_children nd ->
      search_without_skip n L k input' child ch' (f32_mul cw (n_weight child))
        (<[(n - S k)%nat := n_item child]> pi) = Some r ->
      exists m, r.1 = q0 :: m /\ exact_confidence root m f32_one r.2).
    { intros input' ch' child Hc. apply (IH _ _ _ _ _ (w ++ [n_item child])).
      - rewrite app_length. simpl. lia.
      - by rewrite insert_length.
      - rewrite app_length. simpl length. rewrite Nat.add_1_r.
        replace (n - S k)%nat with (S (length w)) by lia. rewrite take_insert_snoc by lia. by rewrite Hw.
      - intros m e He. rewrite <- app_assoc. apply Hex. by constructor. }
    cbn [search_without_skip] in H.
    assert (Hexact : (gram ← head input; node_items nd !! gram) ≫= (fun child =>
        search_without_skip n L k (tail input) child ch (f32_mul cw (n_weight child))
        (<[(n - S k)%nat := n_item child]> pi)) = Some r ->
        exists m, r.1 = q0 :: m /\ exact_confidence root m f32_one r.2).
    { destruct input as [|x rest]; [done|]. cbn [head mbind option_bind].
      destruct (node_items nd !! x) as [ue|] eqn:E; [|done]. cbn [mbind option_bind].
      apply node_items_Some in E as [Hc _]. by apply Hdown. }
    destruct (Nat.ltb ch L); [|by apply Hexact].
    apply (fold_cases (fun child => best_result
        (search_without_skip n L k (tail input) child (S ch) (f32_mul cw (n_weight child))
          (<[(n - S k)%nat := n_item child]> pi))
        (search_without_skip n L k input child (S (S ch)) (f32_mul cw (n_weight child))
          (<[(n - S k)%nat := n_item child]> pi)))) in H as [H|(child & Hc & H)]; [by apply Hexact|].
    apply elem_of_list_filter in Hc as [_ Hc].
    apply best_result_cases in H as [H|H]; by eapply Hdown.
Qed.
