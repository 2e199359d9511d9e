(** C130: comparisons. *)
From Coq Require Import Reals.
From Verif.model Require Import Base F32 Utf8 Prim Coll Data Gram Indexer Nodes Classic Lit Raw Js Lib Access Equal.
From Verif.spec Require Import Spec Data_spec Samples Contract_spec Equal_spec.
From Verif.proofs Require Import Base_facts Data_facts Data_more File_facts Float_facts Equal_facts.
From Coq Require Import Lia Lra.
Local Open Scope N_scope.

Lemma products_cmp : cmp_contract (fun _ => True) product_cmp.
Proof.
  split; unfold product_cmp.
  - intros a b _ _. apply N.compare_antisym.
  - intros a b c r _ _ _ H1 H2. destruct r.
    + apply N.compare_eq in H1, H2. apply N.compare_eq_iff. congruence.
    + rewrite N.compare_lt_iff in *. lia.
    + rewrite N.compare_gt_iff in *. lia.
Qed.
Lemma same_place ps p q : positions ps -> p ∈ ps -> q ∈ ps -> product_cmp p q = Eq -> p = q.
Proof.
  intros W Hp Hq H. apply N.compare_eq in H. apply elem_of_list_lookup in Hp as (i & Hi). apply elem_of_list_lookup in Hq as (j & Hj).
  rewrite (W _ _ Hi), (W _ _ Hj) in H. apply Nat2N.inj in H as ->. congruence.
Qed.
Lemma products_contract ps : positions ps -> ord_contract (fun p => p ∈ ps) product_eqb product_cmp product_partial_cmp.
Proof.
  intros W. destruct products_cmp as [C1 C2].
  assert (S : forall p q, product_eqb p q = true -> product_cmp p q = Eq).
  { intros p q H. unfold product_eqb in H. apply andb_true_iff in H as [_ H]. apply N.eqb_eq in H. unfold product_cmp. by apply N.compare_eq_iff. }
  assert (R : forall p, product_eqb p p = true) by apply product_eqb_refl.
  split; [|split; [|split]].
  - split; [by intros|]. split.
    + intros a b Ha Hb H. rewrite <- (same_place ps a b W Ha Hb (S _ _ H)) . done.
    + intros a b c Ha Hb Hc H1 H2. by rewrite (same_place ps a b W Ha Hb (S _ _ H1)).
  - split; [intros; by apply C1|intros a b c r Ha Hb Hc; by apply C2].
  - intros a b Ha Hb. split; [|apply S]. intros H. by rewrite (same_place ps a b W Ha Hb H).
  - done.
Qed.
Lemma nan_equal a b : n_weight a = S754_nan -> node_cmp a b = Eq /\ node_cmp b a = Eq.
Proof. intros E. unfold node_cmp. rewrite E. split; [done|]. by destruct (n_weight b) as [[]|[]| |[]]. Qed.
Lemma number_cmp a b : f32_number (n_weight a) -> f32_number (n_weight b) ->
  node_cmp a b = Raux.Rcompare (key32 (n_weight a)) (key32 (n_weight b)).
Proof. intros Ha Hb. unfold node_cmp. by rewrite f32_cmp_key. Qed.
Lemma nodes_contract l : Forall (fun a => valid_f32 (n_weight a)) l ->
  cmp_contract (fun a => a ∈ l) node_cmp <->
  Forall (fun a => is_nan (n_weight a) = false) l \/ (forall a b, a ∈ l -> b ∈ l -> node_cmp a b = Eq).
Proof.
  intros V. pose proof (proj1 (Forall_forall _ _) V) as V'. split.
  - intros [_ T].
    destruct (decide (Exists (fun a => is_nan (n_weight a) = true) l)) as [X|X].
    + right. apply Exists_exists in X as (z & Hz & Nz). assert (Ez : n_weight z = S754_nan) by (by destruct (n_weight z)).
      intros a b Ha Hb. destruct (nan_equal z a Ez) as [_ H1]. destruct (nan_equal z b Ez) as [H2 _]. by apply (T a z b).
    + left. apply Forall_forall. intros a Ha. destruct (is_nan (n_weight a)) eqn:E; [|done]. exfalso. apply X. apply Exists_exists. by exists a.
  - intros [F|F].
    + assert (Nm : forall a, a ∈ l -> f32_number (n_weight a)).
      { intros a Ha. split; [by apply V'|]. intros E. pose proof (proj1 (Forall_forall _ _) F a Ha) as X. simpl in X. by rewrite E in X. }
      split.
      * intros a b Ha Hb. rewrite !number_cmp by (by apply Nm). 
        destruct (Raux.Rcompare_spec (key32 (n_weight a)) (key32 (n_weight b))) as [C|C|C]; cbn [CompOpp];
          [apply Raux.Rcompare_Gt|apply Raux.Rcompare_Eq|apply Raux.Rcompare_Lt]; lra.
      * intros a b c r Ha Hb Hc. rewrite !number_cmp by (by apply Nm). intros H1 H2. destruct r.
        -- apply Raux.Rcompare_Eq_inv in H1, H2. apply Raux.Rcompare_Eq. lra.
        -- apply Raux.Rcompare_Lt_inv in H1, H2. apply Raux.Rcompare_Lt. lra.
        -- apply Raux.Rcompare_Gt_inv in H1, H2. apply Raux.Rcompare_Gt. lra.
    + split.
      * intros a b Ha Hb. by rewrite (F a b Ha Hb), (F b a Hb Ha).
      * intros a b c r Ha Hb Hc <- _. by rewrite (F a b), (F a c).
Qed.
