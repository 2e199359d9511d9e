(** The work of a search. *)
From Verif.model Require Import Base F32 Utf8 Prim Coll Data Gram Indexer.
From Verif.spec Require Import Spec Gram_spec Cost_spec.
From Verif.proofs Require Import Base_facts Sort_facts Indexer_facts Trie_facts Search_facts.
From Coq Require Import ZifyBool ZifyNat ZifyN Arith.
Ltac Zify.zify_post_hook ::= Z.div_mod_to_equations.

(** ** Counted values *)
Lemma value_free {A} (a : A) : value (free a) = a.
Proof. done. Qed.
Lemma value_call {A} (x : counted A) : value (call x) = value x.
Proof. by destruct x as [a [c d]]. Qed.
Lemma value_then {A B} (x : counted A) (f : A -> counted B) : value (and_then x f) = value (f (value x)).
Proof. destruct x as [a [c d]]. unfold and_then, value. cbn [fst]. by destruct (f a) as [b [c' d']]. Qed.
Lemma calls_free {A} (a : A) : calls (free a) = 0%nat.
Proof. done. Qed.
Lemma calls_call {A} (x : counted A) : calls (call x) = S (calls x).
Proof. by destruct x as [a [c d]]. Qed.
Lemma calls_then {A B} (x : counted A) (f : A -> counted B) :
  calls (and_then x f) = (calls x + calls (f (value x)))%nat.
Proof. destruct x as [a [c d]]. unfold and_then, value, calls. cbn [fst snd]. by destruct (f a) as [b [c' d']]. Qed.
Lemma depth_free {A} (a : A) : depth (free a) = 0%nat.
Proof. done. Qed.
Lemma depth_call {A} (x : counted A) : depth (call x) = S (depth x).
Proof. by destruct x as [a [c d]]. Qed.
Lemma depth_then {A B} (x : counted A) (f : A -> counted B) :
  depth (and_then x f) = Nat.max (depth x) (depth (f (value x))).
Proof. destruct x as [a [c d]]. unfold and_then, value, depth. cbn [fst snd]. by destruct (f a) as [b [c' d']]. Qed.

(** ** One step *)
Section step.
Context (n L : nat).
Notation cs := (counted_search n L).
Notation rs := (recursive_search n L).

Definition down (k : nat) (nd : node) (cw : f32) (pi : list N) (input : list N) (ch : nat) (child : node) :=
  cs k input child (Some nd) ch (f32_mul cw (n_weight child)) (<[(n - S k)%nat := n_item child]> pi).
Definition step_first (k : nat) (input : list N) (nd : node) (ch : nat) (cw : f32) (pi : list N) :=
  match entered nd input with Some child => down k nd cw pi (tail input) ch child | None => free None end.
Definition step_child (k : nat) (input : list N) (nd : node) (ch : nat) (cw : f32) (pi : list N)
    (acc : counted (option candidate)) (child : node) :=
  and_then acc (fun best =>
  and_then (down k nd cw pi (tail input) (S ch) child) (fun replaced =>
  and_then (down k nd cw pi input (S (S ch)) child) (fun inserted =>
  free (best_result (best_result replaced inserted) best)))).
Definition step_last (k : nat) (input : list N) (prev : option node) (ch : nat) (cw : f32) (pi : list N)
    (corrected : option candidate) :=
  match input with
  | [] => free corrected
  | x :: rest =>
    match prev ≫= (fun p => node_items p !! x) with
    | Some last =>
      and_then (cs (S k) rest last None (S ch) cw (<[(n - S k - 1)%nat := n_item last]> pi))
        (fun skipped => free (best_result skipped corrected))
    | None => free corrected
    end
  end.
Lemma counted_search_S k input nd prev ch cw pi :
  cs (S k) input nd prev ch cw pi =
  call (and_then (step_first k input nd ch cw pi) (fun exact =>
    if Nat.ltb ch L then
      and_then (foldl (step_child k input nd ch cw pi) (free exact) (others nd input))
        (step_last k input prev ch cw pi)
    else free exact)).
Proof. destruct input; reflexivity. Qed.

Lemma value_fold k input nd ch cw pi : forall l acc,
  value (foldl (step_child k input nd ch cw pi) acc l) =
  foldl (fun best child => best_result (best_result (value (down k nd cw pi (tail input) (S ch) child))
                                          (value (down k nd cw pi input (S (S ch)) child))) best) (value acc) l.
Proof.
  induction l as [|child l IH]; intros acc; [done|]. cbn [foldl]. rewrite IH. f_equal.
  unfold step_child. by rewrite !value_then.
Qed.

Lemma counted_value : forall k input nd prev ch cw pi,
  value (cs k input nd prev ch cw pi) = rs k input nd prev ch cw pi.
Proof.
  induction k as [|k IHk]; [by destruct input|].
  assert (E : forall input nd ch cw pi,
    value (step_first k input nd ch cw pi) = first_try n L k input nd ch cw pi).
  { intros. unfold step_first, first_try. destruct (entered nd input); [apply IHk|done]. }
  assert (F : forall input nd ch cw pi l best, value (foldl (step_child k input nd ch cw pi) (free best) l) =
                foldl (try_child n L k nd input ch cw pi) best l).
  { intros input nd ch cw pi l best. rewrite value_fold. cbn [value free fst]. revert best.
    induction l as [|child l IHl]; intros best; [done|]. cbn [foldl]. rewrite IHl. f_equal.
    unfold try_child, down. by rewrite !IHk. }
  induction input as [|x rest IHi]; intros nd prev ch cw pi;
    rewrite counted_search_S, recursive_search_S, value_call, value_then, E;
    (destruct (Nat.ltb ch L); [|done]); rewrite value_then, F; cbn [step_last last_try].
  - by rewrite best_result_None_l.
  - destruct (prev ≫= (fun p => node_items p !! x)) as [last|]; [|by rewrite best_result_None_l].
    rewrite value_then. cbn [value free fst]. f_equal. apply IHi.
Qed.

(** ** Nesting *)
Lemma depth_fold k input nd ch cw pi m : forall l acc, (depth acc <= m)%nat ->
  (forall input' ch' child, (S ch <= ch')%nat -> (depth (down k nd cw pi input' ch' child) <= m)%nat) ->
  (depth (foldl (step_child k input nd ch cw pi) acc l) <= m)%nat.
Proof.
  induction l as [|child l IH]; intros acc Hacc H; [done|]. cbn [foldl]. apply IH; [|done].
  unfold step_child. rewrite !depth_then, depth_free.
  pose proof (H (tail input) (S ch) child ltac:(lia)). pose proof (H input (S (S ch)) child ltac:(lia)). lia.
Qed.
Lemma counted_depth : forall k input nd prev ch cw pi,
  (depth (cs k input nd prev ch cw pi) <= 1 + k + (L - ch))%nat.
Proof.
  induction k as [|k IHk]; [destruct input; cbn; lia|].
  assert (E : forall input nd ch cw pi, (depth (step_first k input nd ch cw pi) <= 1 + k + (L - ch))%nat).
  { intros. unfold step_first. destruct (entered nd input); [apply IHk|rewrite depth_free; lia]. }
  assert (F : forall input nd ch cw pi l best,
    (depth (foldl (step_child k input nd ch cw pi) (free best) l) <= 1 + k + (L - ch))%nat).
  { intros. apply depth_fold; [rewrite depth_free; lia|]. intros input' ch' child Hch. unfold down.
    etrans; [apply IHk|lia]. }
  induction input as [|x rest IHi]; intros nd prev ch cw pi; rewrite counted_search_S, depth_call, depth_then.
  - pose proof (E [] nd ch cw pi). destruct (Nat.ltb_spec ch L) as [Hlt|]; [|rewrite depth_free; lia].
    rewrite depth_then. pose proof (F [] nd ch cw pi (others nd []) (value (step_first k [] nd ch cw pi))).
    cbn [step_last]. rewrite depth_free. lia.
  - pose proof (E (x :: rest) nd ch cw pi). destruct (Nat.ltb_spec ch L) as [Hlt|]; [|rewrite depth_free; lia].
    rewrite depth_then. pose proof (F (x :: rest) nd ch cw pi (others nd (x :: rest)) (value (step_first k (x :: rest) nd ch cw pi))).
    cbn [step_last]. destruct (prev ≫= (fun p => node_items p !! x)) as [last|]; [|rewrite depth_free; lia].
    rewrite depth_then, depth_free.
    pose proof (IHi last None (S ch) cw (<[(n - S k - 1)%nat := n_item last]> pi)). lia.
Qed.

(** ** Calls *)
Definition wide (B : nat) (nd : node) : Prop :=
  forall w nd', reaches nd w nd' -> (length (n_children nd') <= B)%nat.
Lemma wide_child B nd child : wide B nd -> child ∈ n_children nd -> wide B child.
Proof. intros H Hc w nd' Hr. eapply H, reaches_down; eauto. Qed.
Lemma entered_child nd input child : entered nd input = Some child -> child ∈ n_children nd.
Proof.
  unfold entered. destruct input as [|x rest]; [done|]. cbn [head mbind option_bind].
  intros E. by apply node_items_Some in E as [].
Qed.
Lemma calls_fold k input nd ch cw pi m : forall l acc,
  (forall input' ch' child, (S ch <= ch')%nat -> child ∈ l -> (calls (down k nd cw pi input' ch' child) <= m)%nat) ->
  (calls (foldl (step_child k input nd ch cw pi) acc l) <= calls acc + length l * (2 * m))%nat.
Proof.
  induction l as [|child l IH]; intros acc H; [cbn; lia|]. cbn [foldl length].
  etrans; [apply IH; intros; apply H; [done|by right]|].
  unfold step_child. rewrite !calls_then, calls_free.
  pose proof (H (tail input) (S ch) child ltac:(lia) ltac:(left)).
  pose proof (H input (S (S ch)) child ltac:(lia) ltac:(left)). lia.
Qed.

(** With [d] corrections left and at most [K] grams to go. *)
Fixpoint calls_bound (B K d : nat) : nat :=
  match d with O => S K | S d' => S K * ((2 * B + 2) * calls_bound B K d') end.
Lemma calls_bound_pos B K d : (1 <= calls_bound B K d)%nat.
Proof. induction d as [|d IH]; cbn [calls_bound]; [lia|]. nia. Qed.
Lemma calls_bound_mono B K d d' : (d <= d')%nat -> (calls_bound B K d <= calls_bound B K d')%nat.
Proof.
  induction 1 as [|d' _ IH]; [done|]. cbn [calls_bound]. pose proof (calls_bound_pos B K d'). nia.
Qed.
Lemma counted_calls B K : forall d k input nd prev ch cw pi, (k <= K)%nat -> (L - ch <= d)%nat ->
  wide B nd -> (forall p, prev = Some p -> wide B p) ->
  (calls (cs k input nd prev ch cw pi) <=
   match d with O => S k | S d' => S k * ((2 * B + 2) * calls_bound B K d') end)%nat.
Proof.
  induction d as [d IHd] using lt_wf_ind.
  assert (Hless : forall d' k input nd prev ch cw pi, (d' < d)%nat -> (k <= K)%nat -> (L - ch <= d')%nat ->
    wide B nd -> (forall p, prev = Some p -> wide B p) ->
    (calls (cs k input nd prev ch cw pi) <= calls_bound B K d')%nat).
  { intros d' k input nd prev ch cw pi Hd Hk Hch Hw Hp. etrans; [by apply (IHd d')|].
    destruct d' as [|d']; cbn [calls_bound]; [lia|]. apply Nat.mul_le_mono_r. lia. }
  induction k as [|k IHk]; intros input nd prev ch cw pi HK Hd Hw Hp.
  { replace (calls (cs 0 input nd prev ch cw pi)) with 1%nat by (by destruct input).
    destruct d as [|d]; [lia|]. pose proof (calls_bound_pos B K d). nia. }
  rewrite counted_search_S, calls_call, calls_then.
  assert (E : (calls (step_first k input nd ch cw pi) <=
               match d with O => S k | S d' => S k * ((2 * B + 2) * calls_bound B K d') end)%nat).
  { unfold step_first. destruct (entered nd input) as [child|] eqn:Hc; [|rewrite calls_free; lia].
    apply entered_child in Hc. unfold down. apply IHk; [lia|done|by eapply wide_child|].
    by intros p [= <-]. }
  destruct (Nat.ltb_spec ch L) as [Hlt|]; [|rewrite calls_free; destruct d as [|d]; [lia|];
    pose proof (calls_bound_pos B K d); nia].
  destruct d as [|d]; [lia|]. rewrite calls_then.
  set (M := calls_bound B K d) in *.
  assert (F : forall best, (calls (foldl (step_child k input nd ch cw pi) (free best) (others nd input)) <= B * (2 * M))%nat).
  { intros best. etrans; [apply (calls_fold k input nd ch cw pi M)|].
    - intros input' ch' child Hch Hc. unfold down. apply Hless; [lia|lia|lia| |by intros p [= <-]].
      eapply wide_child; [done|]. unfold others in Hc. by apply elem_of_list_filter in Hc as [].
    - rewrite calls_free. apply Nat.mul_le_mono_r.
      etrans; [apply (filter_length (fun potential => Some (n_item potential) <> n_item <$> entered nd input))|].
      apply (Hw []). constructor. }
  match goal with |- context [foldl _ (free ?best) ?l] => pose proof (F best) as F1; set (folded := foldl _ _ _) in * end.
  assert (G : (calls (step_last k input prev ch cw pi (value folded)) <= M)%nat).
  { unfold step_last. destruct input as [|x rest]; [rewrite calls_free; lia|].
    destruct (prev ≫= (fun p => node_items p !! x)) as [last|] eqn:Hl; [|rewrite calls_free; lia].
    rewrite calls_then, calls_free. rewrite Nat.add_0_r. apply Hless; [lia|lia|lia| |done].
    destruct prev as [p|]; [|done]. cbn [mbind option_bind] in Hl. apply node_items_Some in Hl as [Hl _].
    eapply wide_child; [by apply Hp|done]. }
  pose proof (calls_bound_pos B K d : (1 <= M)%nat).
  assert (((2 * B + 2) * M = B * (2 * M) + 2 * M)%nat) by ring.
  set (X := ((2 * B + 2) * M)%nat) in *.
  replace (S (S k) * X)%nat with (S k * X + X)%nat by ring. lia.
Qed.
Lemma calls_bound_pow B K : forall d, calls_bound B K d = (S K * (S K * (2 * B + 2)) ^ d)%nat.
Proof. induction d as [|d IH]; cbn [calls_bound Nat.pow]; [lia|]. rewrite IH. ring. Qed.
End step.
