(** The stable sort: permutation, sortedness, stability, uniqueness. *)
From Verif.model Require Import Base.
From Verif.spec Require Export Spec.
From Coq Require Import Sorting.Sorted.

(** [cmp]-sorted lists. *)
Definition le_cmp {A} (cmp : A -> A -> comparison) (x y : A) : Prop := cmp x y <> Gt.

Section sort.
  Context {A : Type} (cmp : A -> A -> comparison).

  Lemma insert_by_perm x l : insert_by cmp x l ≡ₚ x :: l.
  Proof.
    induction l as [|y l IH]; simpl; [done|].
    destruct (cmp x y); try done.
    rewrite IH. apply Permutation_swap.
  Qed.
  Lemma sort_by_perm l : sort_by cmp l ≡ₚ l.
  Proof. induction l as [|x l IH]; simpl; [done|]. rewrite insert_by_perm. by rewrite IH. Qed.
  Lemma sort_by_length l : length (sort_by cmp l) = length l.
  Proof. by rewrite sort_by_perm. Qed.
  Lemma sort_by_elem x l : x ∈ sort_by cmp l <-> x ∈ l.
  Proof. by rewrite sort_by_perm. Qed.

  (** Sorting an already sorted list changes nothing (no assumption on [cmp]). *)
  Lemma sort_by_sorted_id l : StronglySorted (le_cmp cmp) l -> sort_by cmp l = l.
  Proof.
    induction 1 as [|x l Hl IH Hx]; simpl; [done|]. rewrite IH.
    destruct l as [|y l]; simpl; [done|].
    inversion Hx as [|y' l' Hxy _]; subst. unfold le_cmp in Hxy.
    destruct (cmp x y); done.
  Qed.

  Context (Hcmp : forall x y, cmp x y = Gt -> cmp y x <> Gt)
          (Htrans : forall x y z, cmp x y <> Gt -> cmp y z <> Gt -> cmp x z <> Gt).

  Lemma insert_by_sorted x l :
    StronglySorted (le_cmp cmp) l -> StronglySorted (le_cmp cmp) (insert_by cmp x l).
  Proof.
    induction 1 as [|y l Hl IH Hy]; simpl; [by repeat constructor|].
    destruct (cmp x y) eqn:E.
    1,2: constructor; [by constructor|]; constructor; [unfold le_cmp; congruence|];
      eapply Forall_impl; [exact Hy|]; intros z Hz; unfold le_cmp in *; eapply Htrans; [|exact Hz]; congruence.
    constructor; [done|]. rewrite insert_by_perm. constructor; [by apply Hcmp|done].
  Qed.
  Lemma sort_by_sorted l : StronglySorted (le_cmp cmp) (sort_by cmp l).
  Proof. induction l; simpl; [constructor|]. by apply insert_by_sorted. Qed.
End sort.

Lemma total_cmp_gt {A} (cmp : A -> A -> comparison) : total_cmp cmp ->
  forall x y, cmp x y = Gt -> cmp y x <> Gt.
Proof. intros H x y E. rewrite (tc_sym _ H), E. done. Qed.

Lemma sort_by_total_sorted {A} (cmp : A -> A -> comparison) l :
  total_cmp cmp -> StronglySorted (le_cmp cmp) (sort_by cmp l).
Proof. intros H. apply sort_by_sorted; [by apply total_cmp_gt|apply (tc_trans _ H)]. Qed.

Lemma tc_eq_trans {A} (cmp : A -> A -> comparison) x y z : total_cmp cmp ->
  cmp x y = Eq -> cmp y z = Eq -> cmp x z = Eq.
Proof.
  intros H Hxy Hyz.
  assert (cmp x z <> Gt) by (eapply (tc_trans _ H); [rewrite Hxy|rewrite Hyz]; done).
  assert (cmp z x <> Gt) by (eapply (tc_trans _ H _ y); rewrite (tc_sym _ H); [rewrite Hyz|rewrite Hxy]; done).
  rewrite (tc_sym _ H) in H1. by destruct (cmp x z).
Qed.
Lemma tc_eq_l {A} (cmp : A -> A -> comparison) x y z : total_cmp cmp ->
  cmp x y = Eq -> cmp x z = cmp y z.
Proof.
  intros H Hxy.
  assert (Hyx : cmp y x = Eq) by (rewrite (tc_sym _ H), Hxy; done).
  destruct (cmp y z) eqn:E1.
  - by apply (tc_eq_trans _ _ y).
  - assert (cmp x z <> Gt) by (eapply (tc_trans _ H _ y); congruence).
    destruct (cmp x z) eqn:E2; try done.
    rewrite (tc_eq_trans cmp y x z) in E1; done.
  - destruct (cmp x z) eqn:E2; try done.
    + rewrite (tc_eq_trans cmp y x z) in E1; done.
    + exfalso. apply (tc_trans _ H y x z); congruence.
Qed.

(** ** Stability: elements equivalent to [a] keep their relative order. *)
Definition class {A} (cmp : A -> A -> comparison) (a : A) (l : list A) : list A :=
  List.filter (fun x => match cmp a x with Eq => true | _ => false end) l.

(** [l'] is a stable sort of [l]: sorted, and every equivalence class appears in
    the original order. *)
Definition stable_sort_of {A} (cmp : A -> A -> comparison) (l l' : list A) : Prop :=
  l' ≡ₚ l /\ StronglySorted (le_cmp cmp) l' /\ forall a, class cmp a l' = class cmp a l.

Lemma class_insert {A} (cmp : A -> A -> comparison) a x l : total_cmp cmp ->
  class cmp a (insert_by cmp x l) = class cmp a (x :: l).
Proof.
  intros H. induction l as [|y l IH]; simpl; [done|].
  destruct (cmp x y) eqn:E; simpl; try done.
  unfold class in *. simpl. rewrite IH. simpl.
  destruct (cmp a y) eqn:Ey, (cmp a x) eqn:Ex; try done.
  exfalso. rewrite <- (tc_eq_l cmp a x y H Ex) in E. congruence.
Qed.
Lemma class_sort {A} (cmp : A -> A -> comparison) a l : total_cmp cmp ->
  class cmp a (sort_by cmp l) = class cmp a l.
Proof.
  intros H. induction l as [|x l IH]; simpl; [done|].
  rewrite class_insert by done. unfold class in *. simpl. by rewrite IH.
Qed.
Lemma sort_by_stable {A} (cmp : A -> A -> comparison) l : total_cmp cmp ->
  stable_sort_of cmp l (sort_by cmp l).
Proof.
  intros H. split; [apply sort_by_perm|]. split; [by apply sort_by_total_sorted|].
  intros a. by apply class_sort.
Qed.

(** Two sorted lists with the same classes are equal. *)
Lemma sorted_classes_eq {A} (cmp : A -> A -> comparison) l1 l2 : total_cmp cmp ->
  StronglySorted (le_cmp cmp) l1 -> StronglySorted (le_cmp cmp) l2 ->
  (forall a, class cmp a l1 = class cmp a l2) -> l1 = l2.
Proof.
  intros H. revert l2. induction l1 as [|x l1 IH]; intros l2 H1 H2 Hc.
  - destruct l2 as [|y l2]; [done|]. specialize (Hc y). simpl in Hc.
    rewrite (tc_refl _ H) in Hc. done.
  - destruct l2 as [|y l2].
    { specialize (Hc x). simpl in Hc. rewrite (tc_refl _ H) in Hc. done. }
    inversion H1 as [|x' l1' Hs1 Hx]; subst. inversion H2 as [|y' l2' Hs2 Hy]; subst.
    assert (Hxy : cmp x y = Eq).
    { assert (Hy_in : y ∈ x :: l1).
      { pose proof (Hc y) as Hcy. simpl in Hcy. rewrite (tc_refl _ H) in Hcy.
        assert (y ∈ class cmp y (x :: l1)) as Hin by (simpl; rewrite Hcy; left).
        apply elem_of_list_In in Hin. apply List.filter_In in Hin. apply elem_of_list_In. tauto. }
      assert (Hx_in : x ∈ y :: l2).
      { pose proof (Hc x) as Hcx. simpl in Hcx. rewrite (tc_refl _ H) in Hcx.
        assert (x ∈ class cmp x (y :: l2)) as Hin by (simpl; rewrite <- Hcx; left).
        apply elem_of_list_In in Hin. apply List.filter_In in Hin. apply elem_of_list_In. tauto. }
      assert (cmp x y <> Gt) as L1.
      { apply elem_of_cons in Hy_in as [->|Hin]; [by rewrite (tc_refl _ H)|].
        rewrite Forall_forall in Hx. by apply (Hx y Hin). }
      assert (cmp y x <> Gt) as L2.
      { apply elem_of_cons in Hx_in as [->|Hin]; [by rewrite (tc_refl _ H)|].
        rewrite Forall_forall in Hy. by apply (Hy x Hin). }
      rewrite (tc_sym _ H) in L2. by destruct (cmp x y). }
    assert (x = y) as ->.
    { pose proof (Hc x) as Hcx. simpl in Hcx. rewrite (tc_refl _ H), Hxy in Hcx. congruence. }
    f_equal. apply IH; auto. intros a. pose proof (Hc a) as Hca. simpl in Hca.
    destruct (cmp a y); congruence.
Qed.
(** Every stable sort returns the model's list. *)
Lemma stable_sort_unique {A} (cmp : A -> A -> comparison) l l' : total_cmp cmp ->
  stable_sort_of cmp l l' -> l' = sort_by cmp l.
Proof.
  intros H (Hp & Hs & Hc). apply (sorted_classes_eq cmp); auto.
  - by apply sort_by_total_sorted.
  - intros a. rewrite Hc. symmetry. by apply class_sort.
Qed.

(** ** Antisymmetric comparisons: sorting only depends on the multiset. *)
Lemma sorted_perm_eq {A} (R : A -> A -> Prop) l1 l2 :
  (forall x y, R x y -> R y x -> x = y) ->
  StronglySorted R l1 -> StronglySorted R l2 -> l1 ≡ₚ l2 -> l1 = l2.
Proof.
  intros Hanti. revert l2. induction l1 as [|x l1 IH]; intros l2 H1 H2 Hp.
  - symmetry. apply Permutation_nil. by rewrite Hp.
  - destruct l2 as [|y l2]; [by apply Permutation_length in Hp|].
    inversion H1 as [|? ? Hs1 Hx]; subst. inversion H2 as [|? ? Hs2 Hy]; subst.
    assert (x = y) as ->.
    { assert (y ∈ x :: l1) as Hy1 by (rewrite Hp; left).
      assert (x ∈ y :: l2) as Hx1 by (rewrite <- Hp; left).
      apply elem_of_cons in Hy1 as [->|Hy1]; [done|].
      apply elem_of_cons in Hx1 as [->|Hx1]; [done|].
      rewrite Forall_forall in Hx, Hy. auto. }
    f_equal. apply IH; auto. by apply Permutation_cons_inv in Hp.
Qed.

Lemma N_compare_total : total_cmp N.compare.
Proof.
  split.
  - apply N.compare_refl.
  - intros. apply N.compare_antisym.
  - intros x y z. rewrite !N.compare_le_iff. apply N.le_trans.
Qed.
Lemma total_cmp_on {A B} (f : A -> B) cmp : total_cmp cmp -> total_cmp (fun a b => cmp (f a) (f b)).
Proof. intros H. split; intros; [apply (tc_refl _ H)|apply (tc_sym _ H)|eapply (tc_trans _ H); eauto]. Qed.
Lemma total_cmp_reverse {A} (cmp : A -> A -> comparison) :
  total_cmp cmp -> total_cmp (fun a b => reverse_ord (cmp a b)).
Proof.
  intros H. unfold reverse_ord. split.
  - intros. by rewrite (tc_refl _ H).
  - intros x y. by rewrite (tc_sym _ H x y).
  - intros x y z Hxy Hyz Hxz. rewrite <- (tc_sym _ H) in Hxy, Hyz, Hxz.
    by eapply (tc_trans _ H z y x).
Qed.

(** Sorting only looks at comparisons between elements of the list. *)
Lemma insert_by_ext {A} (cmp1 cmp2 : A -> A -> comparison) x l :
  (forall y, y ∈ l -> cmp1 x y = cmp2 x y) -> insert_by cmp1 x l = insert_by cmp2 x l.
Proof.
  induction l as [|y l IH]; intros H; simpl; [done|].
  rewrite <- (H y) by left. rewrite IH; [done|]. intros z Hz. apply H. by right.
Qed.
Lemma sort_by_ext {A} (cmp1 cmp2 : A -> A -> comparison) l :
  (forall x y, x ∈ l -> y ∈ l -> cmp1 x y = cmp2 x y) -> sort_by cmp1 l = sort_by cmp2 l.
Proof.
  induction l as [|x l IH]; intros H; simpl; [done|].
  rewrite IH by (intros; apply H; by right). apply insert_by_ext.
  intros y Hy%sort_by_elem. apply H; [left|by right].
Qed.
