(** C139: the search with machine integers and checked accesses. *)
From Verif.model Require Import Base F32 Utf8 Prim Coll Data Gram Machine.
From Verif.spec Require Import Spec.
From Verif.proofs Require Import Base_facts.
From Coq Require Import Lia.

Lemma setN_in {A} (l : list A) i x : (i < length l)%nat -> setN l (N.of_nat i) x = Done (<[i := x]> l).
Proof. intros H. unfold setN. rewrite (proj2 (N.ltb_lt _ _)) by lia. by rewrite Nat2N.id. Qed.
Lemma setN_before {A} (l : list A) i x : (1 <= i <= length l)%nat -> setN l (N.of_nat i - 1) x = Done (<[(i - 1)%nat := x]> l).
Proof. intros H. replace (N.of_nat i - 1) with (N.of_nat (i - 1)) by lia. apply setN_in. lia. Qed.
Lemma foldM_foldl {A S} (f : S -> A -> res S) (g : S -> A -> S) l s :
  (forall s x, x ∈ l -> f s x = Done (g s x)) -> foldM f l s = Done (foldl g s l).
Proof.
  revert s. induction l as [|x l IH]; intros s H; [done|]. cbn [foldM foldl]. rewrite H by left. cbn [mbind res_bind].
  apply IH. intros s' y Hy. apply H. by right.
Qed.

Section same.
  Context (P : platform) (n limit : nat) (Hl : (limit <= 254)%nat).

  Lemma count_on c : (c <= 254)%nat -> add_bits P 8 (N.of_nat c) 1 = Done (N.of_nat (S c)).
  Proof.
    intros H. unfold add_bits. rewrite (proj2 (N.ltb_lt _ _)) by (change (2 ^ 8) with 256; lia). f_equal. lia.
  Qed.
  Lemma same_search k : (k < n)%nat -> forall input nd prev changes w previous, (changes <= limit + 1)%nat -> length previous = n ->
    recursive_search8 P n (N.of_nat limit) k input nd prev (N.of_nat changes) w previous =
    Done (recursive_search n limit k input nd prev changes w previous).
  Proof.
    induction k as [|k IHk]; intros Hk input; [done|].
    assert (IH := IHk ltac:(lia)). clear IHk.
    assert (Loop : forall input next nd changes w previous l s, (changes < limit)%nat -> length previous = n ->
      foldM (fun most_likely next_node =>
            previous_input ← setN previous (N.of_nat (n - S k)) (n_item next_node);
            let weight := f32_mul w (n_weight next_node) in
            found ← recursive_search8 P n (N.of_nat limit) k next next_node (Some nd) (N.of_nat (S changes)) weight previous_input;
            changes ← add_bits P 8 (N.of_nat (S changes)) 1;
            repeat_found ← recursive_search8 P n (N.of_nat limit) k input next_node (Some nd) changes weight previous_input;
            Done (best_result (best_result found repeat_found) most_likely)) l s =
      Done (foldl (fun most_likely next_node =>
            let previous_input := <[(n - S k)%nat := n_item next_node]> previous in
            let weight := f32_mul w (n_weight next_node) in
            let found := recursive_search n limit k next next_node (Some nd) (S changes) weight previous_input in
            let repeat_found := recursive_search n limit k input next_node (Some nd) (S (S changes)) weight previous_input in
            best_result (best_result found repeat_found) most_likely) s l)).
    { intros inp next nd changes w previous l s L Hp. apply foldM_foldl. intros s' x _. rewrite setN_in by lia. cbn [mbind res_bind].
      rewrite IH by (rewrite ?insert_length; lia). cbn [mbind res_bind].
      rewrite count_on by lia. cbn [mbind res_bind]. rewrite IH by (rewrite ?insert_length; lia). done. }
    induction input as [|c input IHi]; intros nd prev changes w previous Hc Hp; cbn [recursive_search8 recursive_search].
    - cbn [head mbind option_bind fmap option_fmap option_map tail res_bind].
      destruct (Nat.ltb_spec changes limit) as [L|L].
      2: { by rewrite (proj2 (N.ltb_ge _ _)) by lia. }
      rewrite (proj2 (N.ltb_lt _ _)) by lia. rewrite count_on by lia. cbn [mbind res_bind].
      rewrite Loop by done. done.
    - cbn [head mbind option_bind tail].
      assert (E : match node_items nd !! c with
        | Some ue =>
          previous_input ← setN previous (N.of_nat (n - S k)) (n_item ue);
          found ← recursive_search8 P n (N.of_nat limit) k input ue (Some nd) (N.of_nat changes) (f32_mul w (n_weight ue)) previous_input;
          Done (best_result found None)
        | None => Done None
        end = Done (match node_items nd !! c with
        | Some ue => best_result (recursive_search n limit k input ue (Some nd) changes (f32_mul w (n_weight ue)) (<[(n - S k)%nat := n_item ue]> previous)) None
        | None => None end)).
      { destruct (node_items nd !! c) as [ue|]; [|done]. rewrite setN_in by lia. cbn [mbind res_bind].
        rewrite IH by (rewrite ?insert_length; lia). done. }
      cbn [mbind res_bind] in E |- *. rewrite E. clear E.
      destruct (Nat.ltb_spec changes limit) as [L|L].
      2: { by rewrite (proj2 (N.ltb_ge _ _)) by lia. }
      rewrite (proj2 (N.ltb_lt _ _)) by lia. rewrite count_on by lia.
      specialize (Loop (c :: input) input nd changes w previous
        (filter (λ potential : node, Some (n_item potential) ≠ n_item <$> node_items nd !! c) (n_children nd))).
      cbn [mbind res_bind] in Loop |- *. rewrite Loop by done. clear Loop.
      destruct prev as [p|]; cbn [mbind option_bind]; [|done].
      destruct (node_items p !! c) as [last|]; [|done].
      rewrite setN_before by lia.
      specialize (IHi last None (S changes) w (<[(n - S k - 1)%nat := n_item last]> previous) ltac:(lia) ltac:(by rewrite insert_length)).
      set (R := recursive_search n limit (S k) input last None (S changes) w (<[(n - S k - 1)%nat := n_item last]> previous)) in IHi.
      refine (eq_trans (y := res_bind _ _ (fun found => Done (best_result found _))
        (recursive_search8 P n (N.of_nat limit) (S k) input last None (N.of_nat (S changes)) w (<[(n - S k - 1)%nat := n_item last]> previous))) _ _);
        [reflexivity|]. rewrite IHi. reflexivity.
  Qed.
End same.

Lemma same_gram P n gi query : (1 <= n <= 764)%nat -> length query = n -> search_gram8 P n gi query = search_gram n gi query.
Proof.
  intros Hn Hq. unfold search_gram8, search_gram. destruct query as [|q0 query]; [done|].
  destruct (gi_roots gi !! q0) as [root|]; [|done].
  assert (L : (n / 3 <= 254)%nat) by (apply Nat.lt_succ_r, Nat.div_lt_upper_bound; lia).
  rewrite (proj2 (Nat.leb_le _ _)) by lia.
  change 0 with (N.of_nat 0). rewrite setN_in by (rewrite replicate_length; lia). cbn [mbind res_bind].
  replace (N.of_nat n / 3) with (N.of_nat (n / 3)) by (rewrite Nat2N.inj_div; done).
  rewrite (proj2 (N.ltb_lt _ _)) by (change (2 ^ 8) with 256; lia).
  rewrite (same_search P n (n / 3) L (n - 1)) by (rewrite ?insert_length, ?replicate_length; lia).
  f_equal. destruct n as [|n]; [lia|]. cbn [replicate]. replace (S n - 1)%nat with n by lia. done.
Qed.

Lemma shift_steps m : forall (a b : list N) x, length b = m ->
  foldM (fun ngram i => x ← unwrap (getN ngram (N.of_nat i)); setN ngram (N.of_nat i - 1) x) (seq (S (length a)) m) (a ++ x :: b)
  = Done (a ++ b ++ [List.last (x :: b) x]).
Proof.
  induction m as [|m IH]; intros a b x Hb; [by destruct b|]. destruct b as [|y b]; [done|]. injection Hb as Hb.
  cbn [seq foldM].
  assert (E : getN (a ++ x :: y :: b) (N.of_nat (S (length a))) = Some y).
  { rewrite getN_of_nat, lookup_app_r by lia. replace (S (length a) - length a)%nat with 1%nat by lia. done. }
  rewrite E. cbn [unwrap mbind res_bind]. rewrite setN_before by (rewrite app_length; cbn [length]; lia).
  replace (S (length a) - 1)%nat with (length a + 0)%nat by lia. rewrite insert_app_r. cbn [list_insert insert mbind res_bind].
  specialize (IH (a ++ [y]) b y Hb). rewrite app_length in IH. cbn [length] in IH. rewrite Nat.add_1_r, <- app_assoc in IH.
  cbn [app] in IH. etransitivity; [exact IH|]. rewrite <- app_assoc. cbn [app]. do 4 f_equal.
  destruct b as [|z b]; [done|]. cbn [List.last]. clear. revert z. induction b as [|z' b IH]; intros z; [done|]. apply IH.
Qed.
Lemma same_shift n ngram gram : (1 <= n)%nat -> length ngram = n ->
  (ngram ← shift_loop n ngram; setN ngram (N.of_nat n - 1) gram) = Done (shift_in ngram gram).
Proof.
  intros Hn Hl. destruct ngram as [|x b]; [cbn in Hl; lia|]. unfold shift_loop. cbn [length] in Hl.
  pose proof (shift_steps (n - 1) [] b x ltac:(lia)) as E. cbn [length app] in E. rewrite E. cbn [mbind res_bind].
  rewrite setN_before by (rewrite app_length; cbn [length]; lia). unfold shift_in. cbn [tail]. f_equal.
  replace (n - 1)%nat with (length b + 0)%nat by lia. rewrite insert_app_r. done.
Qed.
Lemma same_step P n gi st gram : (1 <= n <= 764)%nat -> length st.1 = n -> search_step8 P n gi st gram = search_step n gi st gram.
Proof.
  intros Hn Hl. destruct st as [ngram results]. cbn [fst] in Hl. unfold search_step8, search_step.
  pose proof (same_shift n ngram gram ltac:(lia) Hl) as E. destruct n as [|n']; [lia|]. set (n := S n') in *.
  destruct (shift_loop n ngram) as [ng| | |]; try discriminate. cbn [mbind res_bind] in E |- *. rewrite E. cbn [mbind res_bind].
  rewrite same_gram; [done|done|]. unfold shift_in. rewrite app_length. cbn [length]. destruct ngram; [done|]. cbn [tail length] in *. lia.
Qed.
Lemma step_length n gi st gram st' : (1 <= n)%nat -> length st.1 = n -> search_step n gi st gram = Done st' -> length st'.1 = n.
Proof.
  intros Hn Hl. destruct st as [ngram results]. cbn [fst] in Hl. unfold search_step. destruct n as [|n']; [lia|]. set (n := S n') in *.
  assert (E : length (shift_in ngram gram) = n).
  { unfold shift_in. rewrite app_length. cbn [length]. destruct ngram; [done|]. cbn [tail length] in *. lia. }
  destruct (search_gram n gi (shift_in ngram gram)) as [[[g c]|]| | |]; cbn [mbind res_bind]; try done; [|by intros [= <-]].
  destruct (gi_data gi !! g); by intros [= <-].
Qed.
Lemma same_gram_search P n o gi input : (1 <= n <= 764)%nat -> gram_search8 P n o gi input = gram_search n o gi input.
Proof.
  intros Hn. unfold gram_search8, gram_search.
  assert (E : forall st, length st.1 = n -> foldM (search_step8 P n gi) input st = foldM (search_step n gi) input st).
  { induction input as [|c input IH]; intros st Hs; [done|]. cbn [foldM]. rewrite same_step by done.
    destruct (search_step n gi st c) as [st'| | |] eqn:Es; cbn [mbind res_bind]; [|done..].
    apply IH. eapply step_length; [|exact Hs|exact Es]. lia. }
  rewrite E; [done|]. apply replicate_length.
Qed.
