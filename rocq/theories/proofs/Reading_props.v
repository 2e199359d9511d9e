(** C119, C120: readings. *)
From Verif.model Require Import Base F32 Utf8 Prim Coll Data Gram Indexer.
From Verif.spec Require Import Spec Data_spec Gram_spec Choice_spec Reorder_spec Reading_spec.
From Verif.proofs Require Import Base_facts Sort_facts Float_facts Cutoff_facts File_facts Indexer_facts Trie_facts Search_facts
  Search_more Trie_props Search_props Ties_props Reorder_props End_props Choice_props.
From Coq Require Import Lia.

Section step.
Context (n L : nat).
Notation rs := (recursive_search n L).
(** Like [from_step], but only grams other than the typed one are put in its place. *)
Inductive from_step' (k : nat) (input : list N) (nd : node) (prev : option node) (ch : nat) (cw : f32)
    (pi : list N) (r : candidate) : Prop :=
| from_keep' x rest child :
    input = x :: rest -> child ∈ n_children nd -> n_item child = x ->
    rs k rest child (Some nd) ch (f32_mul cw (n_weight child)) (<[(n - S k)%nat := n_item child]> pi) = Some r ->
    from_step' k input nd prev ch cw pi r
| from_replace' child :
    (ch < L)%nat -> child ∈ n_children nd -> head input <> Some (n_item child) ->
    rs k (tail input) child (Some nd) (S ch) (f32_mul cw (n_weight child))
      (<[(n - S k)%nat := n_item child]> pi) = Some r ->
    from_step' k input nd prev ch cw pi r
| from_insert' child :
    (ch < L)%nat -> child ∈ n_children nd -> head input <> Some (n_item child) ->
    rs k input child (Some nd) (S (S ch)) (f32_mul cw (n_weight child))
      (<[(n - S k)%nat := n_item child]> pi) = Some r ->
    from_step' k input nd prev ch cw pi r
| from_drop' x rest p last :
    (ch < L)%nat -> input = x :: rest -> prev = Some p -> last ∈ n_children p -> n_item last = x ->
    rs (S k) rest last None (S ch) cw (<[(n - S k - 1)%nat := n_item last]> pi) = Some r ->
    from_step' k input nd prev ch cw pi r.
Lemma others_differ nd input child : child ∈ others nd input -> head input <> Some (n_item child).
Proof.
  unfold others. intros [Hne Hc]%elem_of_list_filter Hh. apply Hne.
  unfold entered. rewrite Hh. cbn [mbind option_bind]. unfold node_items.
  destruct (items_of_elem _ _ Hc) as (child' & E). rewrite E.
  apply items_of_Some in E as [_ E]. cbn [fmap option_fmap option_map]. by rewrite E.
Qed.
Lemma step_cases' k input nd prev ch cw pi r :
  rs (S k) input nd prev ch cw pi = Some r -> from_step' k input nd prev ch cw pi r.
Proof.
  rewrite recursive_search_S. intros H.
  assert (Hfirst : first_try n L k input nd ch cw pi = Some r -> from_step' k input nd prev ch cw pi r).
  { unfold first_try, entered. destruct input as [|x rest]; [done|]. cbn [head mbind option_bind].
    destruct (node_items nd !! x) as [ue|] eqn:E; [|done]. apply node_items_Some in E as [Hc Hi].
    intros Hr. by eapply from_keep'. }
  destruct (Nat.ltb_spec ch L) as [Hlt|]; [|by apply Hfirst].
  apply best_result_cases in H as [H|H].
  - unfold last_try in H. destruct input as [|x rest]; [done|].
    destruct prev as [p|]; [|done]. cbn [mbind option_bind] in H.
    destruct (node_items p !! x) as [last|] eqn:E; [|done]. apply node_items_Some in E as [Hc Hi].
    by eapply from_drop'.
  - apply (fold_cases (fun child =>
       best_result (rs k (tail input) child (Some nd) (S ch) (f32_mul cw (n_weight child)) (<[(n - S k)%nat := n_item child]> pi))
                   (rs k input child (Some nd) (S (S ch)) (f32_mul cw (n_weight child)) (<[(n - S k)%nat := n_item child]> pi))))
      in H as [H|(child & Hc & H)]; [by apply Hfirst|].
    pose proof (others_differ _ _ _ Hc) as Hd.
    unfold others in Hc. apply elem_of_list_filter in Hc as [_ Hc].
    apply best_result_cases in H as [H|H]; [by eapply from_replace'|by eapply from_insert'].
Qed.
End step.

Section built.
Context (P : platform) (n : nat) (o : build_order) (source : list (product * list N)) (pc : container)
  (gi : gram_index).
Context (Hn : (1 <= n)%nat) (Ho : valid_build_order o)
  (Hlim : total_grams (map snd source) < 2 ^ 32) (H : index_from P n o source pc = Done gi).
Notation roots := (gi_roots gi).
Notation texts := (map snd source).
Notation L := (n / 3)%nat.
Notation rs := (recursive_search n L).

Lemma path_in_texts w nd : at_path roots w nd -> in_texts texts w.
Proof.
  intros Hw. apply in_texts_source.
  apply (proj1 (trie_paths P n o source pc gi Hn Ho Hlim H)). by exists nd.
Qed.
Lemma in_texts_path w : w <> [] -> (length w <= n)%nat -> in_texts texts w -> exists nd, at_path roots w nd.
Proof.
  intros Hw Hl Hin%in_texts_source. by apply (proj1 (trie_paths P n o source pc gi Hn Ho Hlim H)).
Qed.
Lemma path_nonempty w nd : at_path roots w nd -> w <> [].
Proof. by intros (g & w' & root & -> & _). Qed.
Lemma child_share w nd child : at_path roots w nd -> child ∈ n_children nd ->
  n_weight child = share texts w (n_item child).
Proof.
  intros Hw Hc. pose proof (at_path_child _ _ _ _ Hw Hc) as Hc'.
  pose proof (trie_weights P n o source pc gi Hn Ho Hlim H _ _ Hc') as (_ & Hwt & _).
  rewrite Hwt. unfold share. f_equal. f_equal. unfold parent_occurrences.
  destruct Hw as (g & w' & root & -> & _).
  rewrite removelast_last. destruct w'; done.
Qed.
Lemma reaches_snoc_inv : forall nd v nd', reaches nd v nd' -> forall w g, v = w ++ [g] ->
  exists mid, reaches nd w mid /\ nd' ∈ n_children mid /\ n_item nd' = g.
Proof.
  induction 1 as [nd|nd child v nd' Hc Hr IH]; intros w g E.
  - by destruct w.
  - destruct w as [|y w]; cbn [app] in E.
    + injection E as <- ->. inversion Hr; subst. exists nd. split; [constructor|]. done.
    + injection E as <- ->. destruct (IH w g eq_refl) as (mid & Hm & Hc' & Hi).
      exists mid. split; [by constructor|done].
Qed.
Lemma in_texts_child w nd g : at_path roots w nd -> (length w < n)%nat -> in_texts texts (w ++ [g]) ->
  exists child, child ∈ n_children nd /\ n_item child = g.
Proof.
  intros Hw Hl Hin. destruct (in_texts_path (w ++ [g])) as (nd' & Hp); [by destruct w|rewrite app_length; simpl; lia|done|].
  destruct Hw as (a & w' & root & -> & Hr & Hreach). destruct Hp as (a' & v & root' & E & Hr' & Hreach').
  cbn [app] in E. injection E as <- <-. rewrite Hr in Hr'. injection Hr' as <-.
  destruct (reaches_snoc_inv _ _ _ Hreach' w' g eq_refl) as (mid & Hm & Hc & Hi).
  exists nd'. split; [|done].
  assert (mid = nd) as <-; [|done].
  eapply (proj2 (trie_paths P n o source pc gi Hn Ho Hlim H) (a :: w')).
  - exists a, w', root. done.
  - exists a, w', root. done.
Qed.

(** Whatever is found is a reading. *)
Lemma found_reading : forall k input nd prev ch cw pi w r,
  (length w + k = n)%nat -> length pi = n -> take (length w) pi = w -> at_path roots w nd ->
  match prev with
  | None => True
  | Some p => exists w' z, w = w' ++ [z] /\ at_path roots w' p
  end ->
  rs k input nd prev ch cw pi = Some r ->
  reading n texts w (match prev with Some _ => true | None => false end) input ch cw r.
Proof.
  induction k as [|k IHk].
  { intros input nd prev ch cw pi w r Hl Hpi Hw Hat Hprev Hr.
    cbn in Hr. assert (E : r = (pi, cw)) by (destruct input; by injection Hr as <-).
    rewrite Nat.add_0_r in Hl. rewrite Hl, take_ge in Hw by lia. subst r pi. by apply read_end. }
  induction input as [input IHin] using (induction_ltof1 _ (@length N)). unfold ltof in IHin.
  intros nd prev ch cw pi w r Hl Hpi Hw Hat Hprev Hr.
  assert (Hidx : (n - S k = length w)%nat) by lia.
  apply step_cases' in Hr.
  assert (Hnext : forall child, take (length (w ++ [n_item child]))
                     (<[(n - S k)%nat := n_item child]> pi) = w ++ [n_item child]).
  { intros child. rewrite Hidx, app_length. simpl length. rewrite Nat.add_1_r.
    rewrite take_insert_snoc by lia. by rewrite Hw. }
  assert (Hlen : forall child, length (<[(n - S k)%nat := n_item child]> pi) = n)
    by (intros; by rewrite insert_length).
  assert (Hw1 : forall child : node, (length (w ++ [n_item child]) + k = n)%nat)
    by (intros; rewrite app_length; simpl; lia).
  assert (Hdown : forall child, child ∈ n_children nd -> at_path roots (w ++ [n_item child]) child).
  { intros child Hc. apply (at_path_child _ _ _ child Hat Hc). }
  assert (Hp' : forall child : node, exists w' z, w ++ [n_item child] = w' ++ [z] /\ at_path roots w' nd) by eauto.
  assert (Hin : forall child, child ∈ n_children nd -> in_texts texts (w ++ [n_item child])).
  { intros child Hc. eapply path_in_texts, Hdown, Hc. }
  destruct Hr as [x rest child -> Hc Hx Hr|child Hlt Hc Hne Hr|child Hlt Hc Hne Hr|x rest p last Hlt -> -> Hc Hx Hr].
  - subst x. apply read_keep; [lia|by apply Hin|]. rewrite <- (child_share w nd child Hat Hc).
    exact (IHk rest child (Some nd) ch _ _ _ _ (Hw1 child) (Hlen child) (Hnext child) (Hdown child Hc) (Hp' child) Hr).
  - apply read_replace with (n_item child); [lia|done|by apply Hin|done|]. rewrite <- (child_share w nd child Hat Hc).
    exact (IHk _ child (Some nd) _ _ _ _ _ (Hw1 child) (Hlen child) (Hnext child) (Hdown child Hc) (Hp' child) Hr).
  - apply read_insert with (n_item child); [lia|done|by apply Hin|done|]. rewrite <- (child_share w nd child Hat Hc).
    exact (IHk _ child (Some nd) _ _ _ _ _ (Hw1 child) (Hlen child) (Hnext child) (Hdown child Hc) (Hp' child) Hr).
  - destruct Hprev as (w' & z & -> & Hp). subst x.
    pose proof (at_path_child _ _ _ last Hp Hc) as Hat'.
    apply read_skip; [lia|done|by eapply path_in_texts|].
    rewrite app_length in Hl, Hw, Hidx. simpl length in Hl, Hw, Hidx. rewrite Nat.add_1_r in Hl, Hw, Hidx.
    refine (IHin rest ltac:(simpl; lia) last None (S ch) cw _ (w' ++ [n_item last]) _ _ _ _ _ I Hr).
    + rewrite app_length. simpl. lia.
    + by rewrite insert_length.
    + rewrite app_length. simpl length. rewrite Nat.add_1_r.
      replace (n - S k - 1)%nat with (length w') by lia.
      rewrite take_insert_snoc by lia.
      assert (E : take (length w') pi = w').
      { apply (f_equal (take (length w'))) in Hw. rewrite take_take in Hw.
        replace (Nat.min (length w') (S (length w'))) with (length w') in Hw by lia.
        rewrite Hw. by rewrite take_app. }
      by rewrite E.
    + exact Hat'.
Qed.

Lemma offers_last k input nd p ch cw pi e x rest last :
  in_trie roots nd -> in_trie roots p -> f32_unit cw -> valid_f32 e -> (ch < L)%nat ->
  input = x :: rest -> last ∈ n_children p -> n_item last = x -> NoDup (map n_item (n_children p)) ->
  offers e (rs (S k) rest last None (S ch) cw (<[(n - S k - 1)%nat := n_item last]> pi)) ->
  offers e (rs (S k) input nd (Some p) ch cw pi).
Proof.
  intros Hnd Hp Hcw Ve Hlt -> Hc Hx ND Hof.
  pose proof (weights_unit P n o source pc gi Hn Ho Hlim H) as W.
  pose proof (children_nodup P n o source pc gi Hn Ho Hlim H) as U.
  rewrite recursive_search_S. destruct (Nat.ltb_spec ch L); [|lia].
  apply best_offers_l; [done| | |].
  - apply (last_unit roots n W U L); [|done]. by intros ? [= <-].
  - apply (fold_unit roots n W U L); [done|done| |].
    + intros child. apply others_children.
    + by apply (first_unit roots n W U L).
  - unfold last_try. cbn [mbind option_bind]. rewrite <- Hx, node_items_unique by done. by rewrite Hx in Hof |- *.
Qed.

(** Every reading was considered. *)
Lemma reading_unit w fresh q c x r : reading n texts w fresh q c x r -> w <> [] -> f32_unit x -> f32_unit r.2.
Proof.
  assert (Hs : forall w g, w <> [] -> (length w < n)%nat -> in_texts texts (w ++ [g]) -> f32_unit (share texts w g)).
  { clear w fresh q c x r. intros w g Hne Hl Hin.
    destruct (in_texts_path w) as (nd & Hat); [done|lia| |].
    { destruct Hin as (t & Ht & a & b & ->). exists (a ++ (w ++ [g]) ++ b). split; [done|].
      exists a, ([g] ++ b). by rewrite !app_assoc. }
    destruct (in_texts_child w nd g Hat Hl Hin) as (child & Hc & <-).
    rewrite <- (child_share w nd child Hat Hc).
    eapply (weights_unit P n o source pc gi Hn Ho Hlim H), at_path_child; done. }
  assert (Hap : forall (v : list N) g, v ++ [g] <> []) by (by intros [|]).
  induction 1 as [|w fresh g q c x r Hl Hin _ IH|w fresh g q c x r Hl Hlt Hin Hne _ IH|w fresh g q c x r Hl Hlt Hin Hne _ IH|w z g q c x r Hl Hlt Hin _ IH];
    intros Hw Hx; [done|..].
  - apply IH; [apply Hap|]. apply f32_mul_unit; auto.
  - apply IH; [apply Hap|]. apply f32_mul_unit; auto.
  - apply IH; [apply Hap|]. apply f32_mul_unit; auto.
  - apply IH; [apply Hap|done].
Qed.
Lemma reading_offered w fresh q c x r : reading n texts w fresh q c x r ->
  forall k nd prev pi, (length w + k = n)%nat -> at_path roots w nd ->
  (if fresh then exists p w' z, prev = Some p /\ w = w' ++ [z] /\ at_path roots w' p else prev = None) ->
  f32_unit x -> offers r.2 (rs k q nd prev c x pi).
Proof.
  pose proof (weights_unit P n o source pc gi Hn Ho Hlim H) as W.
  pose proof (children_nodup P n o source pc gi Hn Ho Hlim H) as U.
  assert (Hone : forall w fresh q c x r k nd prev, reading n texts w fresh q c x r -> (length w + k = n)%nat ->
    (length w < n)%nat -> at_path roots w nd ->
    (if fresh : bool then exists p w' z, prev = Some p /\ w = w' ++ [z] /\ at_path roots w' p else prev = None) ->
    f32_unit x -> exists k', k = S k' /\ in_trie roots nd /\ (forall p, prev = Some p -> in_trie roots p) /\ valid_f32 r.2).
  { clear w fresh q c x r. intros w fresh q c x r k nd prev Hr Hl Hlt Hat Hprev Hx.
    destruct k as [|k]; [lia|]. exists k. split; [done|]. split; [by exists w|]. split.
    - intros p ->. destruct fresh; [|done]. destruct Hprev as (p' & w' & z & [= <-] & _ & Hp). by exists w'.
    - eapply reading_unit; [exact Hr|by eapply path_nonempty|done]. }
  assert (Hdown : forall w nd child, at_path roots w nd -> child ∈ n_children nd -> forall x, f32_unit x ->
     f32_unit (f32_mul x (n_weight child))).
  { intros v nd child Hv Hc y Hy. apply f32_mul_unit; [done|]. eapply W, at_path_child; done. }
  induction 1 as [w fresh q c x Hl|w fresh g q c x r Hl Hin Hr IH|w fresh g q c x r Hl Hlt Hin Hne Hr IH|w fresh g q c x r Hl Hlt Hin Hne Hr IH|w z g q c x r Hl Hlt Hin Hr IH];
    intros k nd prev pi Hk Hat Hprev Hx.
  - assert (k = 0%nat) as -> by lia. exists (pi, x). split; [by destruct q|]. simpl. apply f32_le_refl.
    by apply f32_unit_number.
  - edestruct (Hone _ _ _ _ _ _ k nd prev (read_keep n texts w fresh g q c x r Hl Hin Hr)) as (k' & -> & Hnd & Hp & Ve); [done..|].
    destruct (in_texts_child w nd g Hat Hl Hin) as (child & Hc & <-).
    eapply (offers_keep roots n W U L k'); try done; [by eapply U|].
    rewrite (child_share w nd child Hat Hc). apply IH.
    + rewrite app_length. simpl. lia.
    + by apply (at_path_child _ _ _ _ Hat Hc).
    + by exists nd, w, (n_item child).
    + rewrite <- (child_share w nd child Hat Hc). eapply Hdown; done.
  - edestruct (Hone _ _ _ _ _ _ k nd prev (read_replace n texts w fresh g q c x r Hl Hlt Hin Hne Hr)) as (k' & -> & Hnd & Hp & Ve); [done..|].
    destruct (in_texts_child w nd g Hat Hl Hin) as (child & Hc & <-).
    apply (offers_other roots n W U L k' q nd prev c x pi Hnd Hp Hx _ child); try done. left.
    rewrite (child_share w nd child Hat Hc). apply IH.
    + rewrite app_length. simpl. lia.
    + by apply (at_path_child _ _ _ _ Hat Hc).
    + by exists nd, w, (n_item child).
    + rewrite <- (child_share w nd child Hat Hc). eapply Hdown; done.
  - edestruct (Hone _ _ _ _ _ _ k nd prev (read_insert n texts w fresh g q c x r Hl Hlt Hin Hne Hr)) as (k' & -> & Hnd & Hp & Ve); [done..|].
    destruct (in_texts_child w nd g Hat Hl Hin) as (child & Hc & <-).
    apply (offers_other roots n W U L k' q nd prev c x pi Hnd Hp Hx _ child); try done. right.
    rewrite (child_share w nd child Hat Hc). apply IH.
    + rewrite app_length. simpl. lia.
    + by apply (at_path_child _ _ _ _ Hat Hc).
    + by exists nd, w, (n_item child).
    + rewrite <- (child_share w nd child Hat Hc). eapply Hdown; done.
  - edestruct (Hone _ _ _ _ _ _ k nd prev (read_skip n texts w z g q c x r Hl Hlt Hin Hr)) as (k' & -> & Hnd & Hp & Ve); [done..|].
    destruct Hprev as (p & w' & z' & -> & E & Hat'). apply app_inj_tail in E as [<- <-].
    rewrite app_length in Hl, Hk. simpl in Hl, Hk.
    destruct (in_texts_child w p g Hat' ltac:(lia) Hin) as (child & Hc & <-).
    eapply (offers_last k' _ nd p); try done; [by exists w|by eapply U|].
    apply IH.
    + rewrite app_length. simpl. lia.
    + by apply (at_path_child _ _ _ _ Hat' Hc).
    + done.
    + done.
Qed.

Lemma found_reading_of q r : length q = n -> search_gram n gi q = Done (Some r) -> reading_of n texts q r.
Proof.
  intros Hl Hs. unfold search_gram in Hs. destruct q as [|q0 q']; [done|].
  destruct (roots !! q0) as [root|] eqn:Hr; [|done]. destruct (Nat.leb (n / 3) 255); [|done].
  injection Hs as Hs. exists q0, q'. split; [done|]. pose proof (root_at gi _ _ Hr) as Hat.
  split; [by eapply path_in_texts|].
  eapply (found_reading (n - 1) q' root None 0 f32_one); [simpl; lia| | |done|exact I|exact Hs].
  - simpl. rewrite replicate_length. simpl in Hl. lia.
  - done.
Qed.
Lemma reading_of_offered q r : (n <= 764)%nat -> length q = n -> reading_of n texts q r ->
  exists g c, search_gram n gi q = Done (Some (g, c)) /\ f32_le r.2 c.
Proof.
  intros Hn' Hl (q0 & q' & -> & Hin & Hr).
  destruct (in_texts_path [q0]) as (nd & Hat); [done|simpl; lia|done|].
  assert (E : roots !! q0 = Some nd).
  { destruct Hat as (a & w' & root & [= <- <-] & Hroot & Hre). inversion Hre; subst. done. }
  eapply (search_offers n source gi Hn Hlim); [done|done|]. intros pi.
  eapply reading_offered; [exact Hr|simpl; lia|done|done|apply one_unit].
Qed.
Lemma chosen_surest q : (n <= 764)%nat -> length q = n ->
  exists r, search_gram n gi q = Done r /\ surest n texts q r.
Proof.
  intros Hn' Hl. destruct (search_gram_total n gi q ltac:(lia)) as (r & Hr). exists r. split; [done|].
  destruct r as [r|]; simpl.
  - split; [by apply found_reading_of|]. intros r' Hr'.
    destruct (reading_of_offered q r' Hn' Hl Hr') as (g & c & Hs & Hle). rewrite Hr in Hs. injection Hs as ->. done.
  - intros r' Hr'. destruct (reading_of_offered q r' Hn' Hl Hr') as (g & c & Hs & Hle). congruence.
Qed.
Lemma reading_of_unit q r : reading_of n texts q r -> f32_unit r.2.
Proof. intros (q0 & q' & -> & Hin & Hr). eapply reading_unit; [exact Hr|done|apply one_unit]. Qed.
Lemma clearly_chosen_surest q r : (n <= 764)%nat -> length q = n -> clearly_surest n texts q r -> search_gram n gi q = Done r.
Proof.
  intros Hn' Hl [Hr Hclear]. destruct (chosen_surest q Hn' Hl) as (r' & Hs & Hr'). rewrite Hs. f_equal.
  destruct r' as [r'|], r as [r|]; simpl in Hr, Hr'; try done.
  - destruct Hr as (Hg & Hbest), Hr' as (Hg' & Hbest').
    destruct (decide ((r' : list N * f32) = r)) as [->|Hne]; [done|]. exfalso.
    specialize (Hclear r r' eq_refl Hg' Hne). specialize (Hbest' r Hg).
    pose proof (reading_of_unit _ _ Hg) as U%f32_unit_number.
    pose proof (reading_of_unit _ _ Hg') as U'%f32_unit_number.
    apply f32_gt_iff in Hclear. apply f32_gt_false in Hbest'; [|done..]. by rewrite Hclear in Hbest'.
  - destruct Hr' as (Hg' & _). by apply Hr in Hg'.
  - destruct Hr as (Hg & _). by apply Hr' in Hg.
Qed.
End built.
Lemma chosen_from_readings P n o source pc gi : (1 <= n <= 764)%nat -> valid_build_order o ->
  total_grams (map snd source) < 2 ^ 32 -> index_from P n o source pc = Done gi ->
  forall q, length q = n ->
  (exists r, search_gram n gi q = Done r /\ surest n (map snd source) q r) /\
  (forall r, clearly_surest n (map snd source) q r -> search_gram n gi q = Done r).
Proof.
  intros Hn Ho Hlim H q Hl. split.
  - apply (chosen_surest P n o source pc gi (proj1 Hn) Ho Hlim H q (proj2 Hn) Hl).
  - intros r. apply (clearly_chosen_surest P n o source pc gi (proj1 Hn) Ho Hlim H q r (proj2 Hn) Hl).
Qed.
Lemma search_from_readings P n o source pc gi : (1 <= n <= 764)%nat -> valid_build_order o ->
  total_grams (map snd source) < 2 ^ 32 -> index_from P n o source pc = Done gi ->
  lenN (c_products pc) < 2 ^ 64 -> lenN (c_products pc) <= usize_max P ->
  NoDup (map (fun s => p_id s.1) source) ->
  forall os input res, valid_order os -> gram_search n os gi input = Done res ->
  exists limit choice, cutoff_for (lenN (c_products pc)) limit /\
  (forall w, length w = n -> surest n (map snd source) w (choice w)) /\
  (forall w r, length w = n -> clearly_surest n (map snd source) w r -> choice w = r) /\
  NoDup (map fst res) /\ ranked res /\
  forall p x, (p, x) ∈ res <->
    exists t c rest, (p, t) ∈ source /\
      points n (map snd source) limit choice input t = c :: rest /\ x = foldl f32_add c rest.
Proof.
  intros Hn Ho Hlim H Hs HP ND os input res Hos Hr.
  exists (maximum_product_amount P (lenN (c_products pc))), (found_for n gi).
  split; [by apply cutoff_spec|]. split; [|split].
  - intros w Hw. destruct (chosen_surest P n o source pc gi (proj1 Hn) Ho Hlim H w (proj2 Hn) Hw) as (r & Er & Hsr).
    unfold found_for. by rewrite Er.
  - intros w r Hw Hc. unfold found_for.
    by rewrite (clearly_chosen_surest P n o source pc gi (proj1 Hn) Ho Hlim H w r (proj2 Hn) Hw Hc).
  - apply (search_points P n o source pc gi (proj1 Hn) Ho Hlim H os input res (proj2 Hn) Hos ND Hr).
Qed.
(** ** C120 *)
Lemma matched_likelihood P n o source pc gi : (1 <= n <= 5)%nat -> valid_build_order o ->
  total_grams (map snd source) < 2 ^ 32 -> index_from P n o source pc = Done gi ->
  forall q g c, length q = n -> search_gram n gi q = Done (Some (g, c)) -> c = likelihood (map snd source) g.
Proof.
  intros Hn Ho Hlim H q g c Hl Hs.
  by apply (chosen_candidate P n o source pc gi (proj1 Hn) Ho Hlim H q g c (proj2 Hn) Hl Hs).
Qed.
