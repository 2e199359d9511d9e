(** Lemmas about the outcome monad, loops, indexing and lists. *)
From Verif.model Require Import Base.
From Coq Require Import ZifyBool ZifyNat ZifyN.
Ltac Zify.zify_post_hook ::= Z.div_mod_to_equations.
Global Arguments N.add : simpl never.
Global Arguments N.mul : simpl never.
Global Arguments N.sub : simpl never.
Global Arguments N.div : simpl never.
Global Arguments N.modulo : simpl never.
Global Arguments N.pow : simpl never.
Global Arguments N.shiftl : simpl never.
Global Arguments N.shiftr : simpl never.
Global Arguments N.land : simpl never.
Global Arguments N.lor : simpl never.
Global Arguments N.eqb : simpl never.
Global Arguments N.leb : simpl never.
Global Arguments N.ltb : simpl never.
Global Arguments N.max : simpl never.
Global Arguments N.min : simpl never.

Lemma bind_Done {A B} (m : res A) (f : A -> res B) b :
  m ≫= f = Done b -> exists a, m = Done a /\ f a = Done b.
Proof. destruct m; simpl; try discriminate; eauto. Qed.

(** Take apart a hypothesis [x ← m; f x = Done v]. *)
Ltac inv_bind H :=
  let a := fresh "x" in let E := fresh "E" in
  apply bind_Done in H; destruct H as [a [E H]].
Ltac inv_bind_as H a E :=
  apply bind_Done in H; destruct H as [a [E H]].

Lemma bind_assoc_res {A B C} (m : res A) (f : A -> res B) (g : B -> res C) :
  (m ≫= f) ≫= g = m ≫= (fun a => f a ≫= g).
Proof. by destruct m. Qed.
Lemma bind_ret_r {A} (m : res A) : m ≫= (fun a => Done a) = m.
Proof. by destruct m. Qed.
Lemma bind_ext {A B} (m : res A) (f g : A -> res B) :
  (forall a, m = Done a -> f a = g a) -> m ≫= f = m ≫= g.
Proof. destruct m; simpl; auto. Qed.

Lemma of_opt_Done {A} (o : option A) a : of_opt o = Done a <-> o = Some a.
Proof. destruct o; simpl; split; congruence. Qed.
Lemma unwrap_Done {A} (o : option A) a : unwrap o = Done a <-> o = Some a.
Proof. destruct o; simpl; split; congruence. Qed.

(** ** Loops *)

Lemma rep_nat_add {S} (f : S -> res S) m n s :
  rep_nat (m + n) f s = rep_nat m f s ≫= rep_nat n f.
Proof.
  revert s. induction m as [|m IH]; intros s; simpl; [done|].
  destruct (f s); simpl; auto.
Qed.

Lemma rep_pos_nat {S} (f : S -> res S) p s : rep_pos p f s = rep_nat (Pos.to_nat p) f s.
Proof.
  revert s. induction p as [p IH|p IH|]; intros s.
  - rewrite Pos2Nat.inj_xI. simpl. destruct (f s) as [s0| | |]; simpl; auto.
    replace (Pos.to_nat p + (Pos.to_nat p + 0))%nat with (Pos.to_nat p + Pos.to_nat p)%nat by lia.
    rewrite rep_nat_add, IH. destruct (rep_nat (Pos.to_nat p) f s0); simpl; auto.
  - rewrite Pos2Nat.inj_xO. simpl.
    replace (Pos.to_nat p + (Pos.to_nat p + 0))%nat with (Pos.to_nat p + Pos.to_nat p)%nat by lia.
    rewrite rep_nat_add, IH. destruct (rep_nat (Pos.to_nat p) f s); simpl; auto.
  - simpl. change (Pos.to_nat 1) with 1%nat. simpl. symmetry. apply bind_ret_r.
Qed.

Lemma rep_N_nat {S} (f : S -> res S) n s : rep_N n f s = rep_nat (N.to_nat n) f s.
Proof. destruct n as [|p]; [done|]. simpl. apply rep_pos_nat. Qed.

Lemma rep_N_length {A S} (f : S -> res S) (l : list A) s : rep_N (lenN l) f s = rep_nat (length l) f s.
Proof. rewrite rep_N_nat. unfold lenN. by rewrite Nat2N.id. Qed.

(** Invariant rule for successful loops. *)
Lemma rep_nat_inv {S} (f : S -> res S) (I : nat -> S -> Prop) n s s' :
  I O s -> (forall i s s', (i < n)%nat -> I i s -> f s = Done s' -> I (Datatypes.S i) s') ->
  rep_nat n f s = Done s' -> I n s'.
Proof.
  intros H0 Hstep. revert s s' I H0 Hstep.
  induction n as [|n IH]; intros s s' I H0 Hstep H; simpl in *.
  - injection H as <-. done.
  - inv_bind H. apply (IH x s' (fun i => I (Datatypes.S i))); auto.
    + eapply Hstep; eauto. lia.
    + intros i t t' Hi. apply Hstep. lia.
Qed.
Lemma rep_N_inv {S} (f : S -> res S) (I : nat -> S -> Prop) n s s' :
  I O s -> (forall i s s', (i < N.to_nat n)%nat -> I i s -> f s = Done s' -> I (Datatypes.S i) s') ->
  rep_N n f s = Done s' -> I (N.to_nat n) s'.
Proof. rewrite rep_N_nat. apply rep_nat_inv. Qed.

(** Loops of a never-[Stuck] body are never [Stuck]. *)
Lemma rep_nat_not_stuck {S} (f : S -> res S) n s :
  (forall s, f s <> Stuck) -> rep_nat n f s <> Stuck.
Proof.
  intros Hf. revert s. induction n as [|n IH]; intros s; simpl; [done|].
  destruct (f s) eqn:E; simpl; auto. by destruct (Hf s).
Qed.

Lemma foldM_app {A S} (f : S -> A -> res S) l1 l2 s :
  foldM f (l1 ++ l2) s = foldM f l1 s ≫= foldM f l2.
Proof.
  revert s. induction l1 as [|x l1 IH]; intros s; simpl; [done|].
  destruct (f s x); simpl; auto.
Qed.

(** Invariant rule for successful folds: [I] relates the processed prefix to the state. *)
Lemma foldM_inv {A S} (f : S -> A -> res S) (I : list A -> S -> Prop) l s s' :
  I [] s ->
  (forall pre x post s s', l = pre ++ x :: post -> I pre s -> f s x = Done s' -> I (pre ++ [x]) s') ->
  foldM f l s = Done s' -> I l s'.
Proof.
  intros H0 Hstep.
  enough (forall post pre s s', l = pre ++ post -> I pre s -> foldM f post s = Done s' ->
    I (pre ++ post) s') as H by (intros; apply (H l [] s); auto).
  clear H0 s s'. induction post as [|x post IH]; intros pre s s' Hl HI H; simpl in H.
  - injection H as <-. by rewrite app_nil_r.
  - inv_bind H. rewrite cons_middle, app_assoc. eapply IH; [|eapply Hstep; eauto|done].
    by rewrite <- app_assoc.
Qed.

Lemma foldM_Done {A S} (f : S -> A -> res S) (g : S -> A -> S) l s :
  (forall s x, x ∈ l -> f s x = Done (g s x)) -> foldM f l s = Done (foldl g s l).
Proof.
  revert s. induction l as [|x l IH]; intros s H; simpl; [done|].
  rewrite H by left. simpl. apply IH. intros. apply H. by right.
Qed.

Lemma foldl_inv {A S} (g : S -> A -> S) (I : list A -> S -> Prop) l s :
  I [] s ->
  (forall pre x post s, l = pre ++ x :: post -> I pre s -> I (pre ++ [x]) (g s x)) ->
  I l (foldl g s l).
Proof.
  intros H0 Hstep.
  enough (forall post pre s, l = pre ++ post -> I pre s -> I (pre ++ post) (foldl g s post)) as H
    by (apply (H l [] s); auto).
  clear H0 s. induction post as [|x post IH]; intros pre s Hl HI; simpl.
  - by rewrite app_nil_r.
  - rewrite cons_middle, app_assoc. eapply IH; [|eapply Hstep; eauto]. by rewrite <- app_assoc.
Qed.

Lemma mapR_Done {A B} (f : A -> res B) l ys :
  mapR f l = Done ys <-> Forall2 (fun x y => f x = Done y) l ys.
Proof.
  revert ys. induction l as [|x l IH]; intros ys; simpl; split.
  - intros [= <-]. constructor.
  - intros H. inversion H. done.
  - intros H. inv_bind H. inv_bind H. injection H as <-. constructor; auto. by apply IH.
  - intros H. inversion H as [|x' y' l' ys' Hxy Hl]; subst. rewrite Hxy. simpl.
    apply IH in Hl. rewrite Hl. done.
Qed.
Lemma mapR_pure {A B} (f : A -> res B) (g : A -> B) l :
  (forall x, x ∈ l -> f x = Done (g x)) -> mapR f l = Done (map g l).
Proof.
  induction l as [|x l IH]; intros H; simpl; [done|].
  rewrite H by left. simpl. rewrite IH; [done|]. intros. apply H. by right.
Qed.
Lemma mapR_not_stuck {A B} (f : A -> res B) l :
  (forall x, x ∈ l -> f x <> Stuck) -> mapR f l <> Stuck.
Proof.
  induction l as [|x l IH]; intros H; simpl; [done|].
  pose proof (H x ltac:(left)) as Hx.
  assert (mapR f l <> Stuck) by (apply IH; intros; apply H; by right).
  destruct (f x); simpl; try done. by destruct (mapR f l).
Qed.
Lemma mapR_length {A B} (f : A -> res B) l ys : mapR f l = Done ys -> length ys = length l.
Proof. intros H. apply mapR_Done in H. symmetry. by eapply Forall2_length. Qed.

(** ** Indexing *)

Lemma getN_lookup {A} (l : list A) i : getN l i = l !! N.to_nat i.
Proof.
  unfold getN. destruct (N.ltb_spec i (N.of_nat (length l))); [done|].
  symmetry. apply lookup_ge_None. lia.
Qed.
Lemma getN_of_nat {A} (l : list A) i : getN l (N.of_nat i) = l !! i.
Proof. by rewrite getN_lookup, Nat2N.id. Qed.
Lemma getN_Some {A} (l : list A) i x : getN l i = Some x -> i < lenN l.
Proof. rewrite getN_lookup. intros H%lookup_lt_Some. unfold lenN. lia. Qed.
Lemma getN_None {A} (l : list A) i : getN l i = None <-> lenN l <= i.
Proof. rewrite getN_lookup, lookup_ge_None. unfold lenN. lia. Qed.
Lemma getN_is_Some {A} (l : list A) i : i < lenN l -> exists x, getN l i = Some x.
Proof. intros H. destruct (getN l i) eqn:E; eauto. apply getN_None in E. lia. Qed.

Lemma setN_Done {A} (l : list A) i x : i < lenN l -> setN l i x = Done (<[N.to_nat i := x]> l).
Proof. unfold setN, lenN. intros H. destruct (N.ltb_spec i (N.of_nat (length l))); [done|lia]. Qed.

Lemma lenN_app {A} (l k : list A) : lenN (l ++ k) = lenN l + lenN k.
Proof. unfold lenN. rewrite app_length. lia. Qed.
Lemma lenN_cons {A} (x : A) l : lenN (x :: l) = 1 + lenN l.
Proof. unfold lenN. simpl. lia. Qed.
Lemma lenN_nil {A} : lenN (@nil A) = 0.
Proof. done. Qed.
Lemma lenN_map {A B} (f : A -> B) l : lenN (map f l) = lenN l.
Proof. unfold lenN. by rewrite map_length. Qed.

(** A suffix relation in terms of [drop]. *)
Lemma drop_lenN_app {A} (l k : list A) : drop (N.to_nat (lenN l)) (l ++ k) = k.
Proof. unfold lenN. rewrite Nat2N.id. apply drop_app. Qed.
Lemma take_lenN_app {A} (l k : list A) : take (N.to_nat (lenN l)) (l ++ k) = l.
Proof. unfold lenN. rewrite Nat2N.id. apply take_app. Qed.
