(** C134: a slip of the finger leaves a window that is similar to one that was meant. *)
From Verif.model Require Import Base F32 Utf8 Prim Coll Data Gram Indexer Nodes Classic Lit Raw Js Lib.
From Verif.spec Require Import Spec Data_spec Gram_spec Classic_spec Raw_spec Js_spec Lib_spec End_spec Reorder_spec Choice_spec
  Slip_spec.
From Verif.proofs Require Import Base_facts Search_props Choice_props Choice_end.
From Coq Require Import Lia.

Lemma occurs_refl w : occurs w w.
Proof. exists [], []. by rewrite app_nil_r. Qed.
Lemma occurs_trans u v w : occurs u v -> occurs v w -> occurs u w.
Proof. intros (a & b & ->) (c & d & ->). exists (c ++ a), (b ++ d). by rewrite !app_assoc. Qed.
Lemma occurs_window n v t : (1 <= n)%nat -> length v = n -> occurs v t -> v ∈ windows n t.
Proof.
  intros Hn Hv (a & b & ->). unfold windows. apply elem_of_list_fmap. exists (length a + n - 1)%nat. split.
  2: { apply elem_of_seq. rewrite !app_length. lia. }
  unfold window. replace (S (length a + n - 1)) with (length (replicate n 0 ++ a)) by (rewrite app_length, replicate_length; lia).
  rewrite app_assoc, drop_app, <- Hv. by rewrite take_app.
Qed.
Lemma differences_refl l : differences l l = 0%nat.
Proof. induction l as [|x l IH]; [done|]. simpl. by rewrite decide_True, IH. Qed.
Lemma differences_one a x y b : (differences (a ++ x :: b) (a ++ y :: b) <= 1)%nat.
Proof.
  induction a as [|z a IH]; simpl.
  - rewrite differences_refl. destruct (decide (x = y)); lia.
  - rewrite decide_True by done. lia.
Qed.

(** Some [n] typed chars in a row that are similar to [n] chars that were meant. *)
Definition near_window (n : nat) (w q : list N) : Prop :=
  exists v g, length v = n /\ occurs v q /\ similar n v g /\ occurs g w.
Lemma near_same n v w q : (1 <= n)%nat -> length v = n -> occurs v q -> occurs v w -> near_window n w q.
Proof.
  intros Hn Hv Hq Hw. exists v, v. do 2 (split; [done|]). split; [|done].
  destruct v as [|x v]; [simpl in Hv; lia|]. exists x, v, v. do 3 (split; [done|]). left. rewrite differences_refl. lia.
Qed.
Lemma near_long n v w q : (1 <= n <= length v)%nat -> occurs v q -> occurs v w -> near_window n w q.
Proof.
  intros Hn Hq Hw. assert (T : occurs (take n v) v) by (exists [], (drop n v); simpl; by rewrite take_drop).
  apply (near_same n (take n v)); [lia|rewrite take_length; lia|by eapply occurs_trans..].
Qed.
Lemma near_wrong n a x y b w q : (3 <= n)%nat -> a <> [] -> length (a ++ y :: b) = n ->
  occurs (a ++ y :: b) q -> occurs (a ++ x :: b) w -> near_window n w q.
Proof.
  intros Hn Ha Hl Hq Hw. exists (a ++ y :: b), (a ++ x :: b). do 2 (split; [done|]). split; [|done].
  destruct a as [|c a]; [done|]. exists c, (a ++ y :: b), (a ++ x :: b). do 2 (split; [done|]).
  split; [by rewrite !app_length|]. left. etrans; [apply differences_one|]. apply (Nat.div_le_mono 3 n 3) in Hn; [|lia]. exact Hn.
Qed.
Lemma near_left_out n a x b z w q : (3 <= n)%nat -> a <> [] -> length (a ++ b ++ [z]) = n ->
  occurs (a ++ b ++ [z]) q -> occurs (a ++ x :: b) w -> near_window n w q.
Proof.
  intros Hn Ha Hl Hq Hw. exists (a ++ b ++ [z]), (a ++ x :: b). do 2 (split; [done|]). split; [|done].
  destruct a as [|c a]; [done|]. exists c, (a ++ b ++ [z]), (a ++ x :: b). do 2 (split; [done|]).
  split; [rewrite !app_length; simpl; lia|]. right. split; [lia|]. by exists a, x, b, z.
Qed.
Lemma snoc_of {A} (l : list A) k : length l = S k -> exists l' z, l = l' ++ [z] /\ length l' = k.
Proof.
  intros H. destruct (exists_last (l := l)) as (l' & z & ->); [by intros ->|]. exists l', z. split; [done|].
  rewrite app_length in H. simpl in H. lia.
Qed.
Lemma occurs_mid u v w : occurs v (u ++ v ++ w).
Proof. by exists u, w. Qed.

Lemma slip_near n w q : (3 <= n)%nat -> slip n w q -> near_window n w q.
Proof.
  intros Hn [a x y b H|a x b H|a y b H|a x y b H]; rewrite app_length in H.
  - destruct (decide (a = [])) as [->|Ha].
    { apply (near_long n b); [simpl in H; lia|exists [y], []|exists [x], []]; by rewrite app_nil_r. }
    set (k := (length a - (n - 1))%nat). set (a2 := drop k a). set (b1 := take (n - 1 - length a2) b).
    assert (La : length a2 = (length a - k)%nat) by (subst a2; apply drop_length).
    assert (0 < length a)%nat by (destruct a; [done|simpl; lia]).
    apply (near_wrong n a2 x y b1); [done|by intros E; rewrite E in La; simpl in La; subst k; lia| | |].
    + rewrite app_length. simpl. subst b1. rewrite take_length. subst k. lia.
    + exists (take k a), (drop (n - 1 - length a2) b). rewrite <- (take_drop k a) at 1. fold a2.
      rewrite <- (take_drop (n - 1 - length a2) b) at 1. fold b1. by rewrite <- !app_assoc.
    + exists (take k a), (drop (n - 1 - length a2) b). rewrite <- (take_drop k a) at 1. fold a2.
      rewrite <- (take_drop (n - 1 - length a2) b) at 1. fold b1. by rewrite <- !app_assoc.
  - destruct (decide (a = [])) as [->|Ha].
    { apply (near_long n b); [simpl in H; lia|exists [], []|exists [x], []]; by rewrite app_nil_r. }
    destruct (decide (n <= length a)%nat).
    { apply (near_long n a); [lia|exists [], b; done|exists [], (x :: b); done]. }
    destruct (snoc_of (take (n - length a) b) (n - length a - 1)) as (b1 & z & E & L1); [rewrite take_length; lia|].
    pose proof (take_drop (n - length a) b) as B. rewrite E in B.
    apply (near_left_out n a x b1 z); [done|done| | |].
    + rewrite !app_length. simpl. lia.
    + exists [], (drop (n - length a) b). simpl. rewrite <- B at 1. by rewrite <- !app_assoc.
    + exists [], ([z] ++ drop (n - length a) b). simpl. rewrite <- B at 1. by rewrite <- !app_assoc.
  - destruct (decide (n <= length a)%nat).
    { apply (near_long n a); [lia|exists [], (y :: b); done|exists [], b; done]. }
    destruct (decide (n <= length b)%nat).
    { apply (near_long n b); [lia|exists (a ++ [y]), []|exists a, []]; rewrite app_nil_r; [by rewrite <- app_assoc|done]. }
    assert (length a = (n - 1)%nat) by lia. destruct b as [|x b]; [simpl in *; lia|].
    apply (near_wrong n a x y []); [done|by intros ->; simpl in *; lia| | |].
    + rewrite app_length. simpl. lia.
    + exists [], (x :: b). simpl. by rewrite <- app_assoc.
    + exists [], b. simpl. by rewrite <- app_assoc.
  - destruct (decide (n - 2 <= length a)%nat).
    + set (k := (length a - (n - 2))%nat). set (a2 := drop k a).
      assert (La : length a2 = (n - 2)%nat) by (subst a2 k; rewrite drop_length; lia).
      apply (near_left_out n a2 x [y] x); [done|by intros E; rewrite E in La; simpl in La; lia| | |].
      * rewrite app_length. simpl. lia.
      * exists (take k a), b. rewrite <- (take_drop k a) at 1. fold a2. by rewrite <- !app_assoc.
      * exists (take k a), b. rewrite <- (take_drop k a) at 1. fold a2. by rewrite <- !app_assoc.
    + destruct (snoc_of (take (n - 1) b) (n - 2)) as (b1 & z & E & L1); [rewrite take_length; lia|].
      pose proof (take_drop (n - 1) b) as B. rewrite E in B.
      apply (near_left_out n [x] y b1 z); [done|done| | |].
      * rewrite !app_length. simpl. lia.
      * exists (a ++ [y]), (drop (n - 1) b). rewrite <- B at 1. by rewrite <- !app_assoc.
      * exists a, ([z] ++ drop (n - 1) b). rewrite <- B at 1. by rewrite <- !app_assoc.
Qed.

Lemma points_some n texts limit choice input t v g : (1 <= n)%nat ->
  (forall w, length w = n -> likeliest n texts w (choice w)) ->
  length v = n -> occurs v input -> candidate_for n texts v g ->
  (forall g, candidate_for n texts v g -> occurs g t /\ uses n texts g < limit) ->
  exists c rest, points n texts limit choice input t = c :: rest.
Proof.
  intros Hn Hc Hv Ho Hg Hall. specialize (Hc v Hv).
  destruct (choice v) as [[g1 c1]|] eqn:E; [|by apply Hc in Hg].
  destruct Hc as (C1 & _ & _). destruct (Hall g1 C1) as [O1 U1].
  assert (Hin : c1 ∈ points n texts limit choice input t).
  { unfold points. apply elem_of_list_In, in_concat. eexists. split.
    - apply in_map_iff. exists v. split; [reflexivity|]. apply elem_of_list_In. by apply occurs_window.
    - rewrite E, bool_decide_eq_true_2 by done. apply elem_of_list_In, elem_of_replicate. split; [done|].
      assert (L1 : length g1 = n). { destruct C1 as [(? & ? & ? & -> & -> & L & _) _]. simpl in *. lia. }
      assert (M : g1 ∈ filter (fun w' => w' = g1) (windows n t)).
      { apply elem_of_list_filter. split; [done|]. by apply occurs_window. }
      intros Z. apply nil_length_inv in Z. rewrite Z in M. by apply elem_of_nil in M. }
  destruct (points n texts limit choice input t) as [|c rest]; [by apply elem_of_nil in Hin|]. by exists c, rest.
Qed.
Lemma slip_points n texts limit choice input t w q : (3 <= n)%nat ->
  (forall w, length w = n -> likeliest n texts w (choice w)) ->
  slip n w q -> t ∈ texts -> occurs w t -> occurs q input -> unmistakable n texts limit t q ->
  exists c rest, points n texts limit choice input t = c :: rest.
Proof.
  intros Hn Hc S Ht Hw Hq U. destruct (slip_near n w q Hn S) as (v & g & Hv & Ov & Sg & Og).
  apply (points_some n texts limit choice input t v g); [lia|done|done|by eapply occurs_trans| |].
  - split; [done|]. exists t. split; [done|]. by eapply occurs_trans.
  - intros g' C. by apply (U v g' Hv Ov C).
Qed.
Lemma right_points n texts limit choice input t w : (1 <= n)%nat ->
  (forall w, length w = n -> likeliest n texts w (choice w)) ->
  (n <= length w)%nat -> t ∈ texts -> occurs w t -> occurs w input -> unmistakable n texts limit t w ->
  exists c rest, points n texts limit choice input t = c :: rest.
Proof.
  intros Hn Hc Hl Ht Hw Hq U. destruct (near_long n w w w ltac:(lia) (occurs_refl w) (occurs_refl w)) as (v & g & Hv & Ov & Sg & Og).
  apply (points_some n texts limit choice input t v g); [lia|done|done|by eapply occurs_trans| |].
  - split; [done|]. exists t. split; [done|]. by eapply occurs_trans.
  - intros g' C. by apply (U v g' Hv Ov C).
Qed.

Lemma slip_found P n o source pc gi : (3 <= n <= 5)%nat -> valid_build_order o ->
  total_grams (map snd source) < 2 ^ 32 -> index_from P n o source pc = Done gi ->
  lenN (c_products pc) < 2 ^ 64 -> lenN (c_products pc) <= usize_max P ->
  NoDup (map (fun s => p_id s.1) source) ->
  forall os input res p t w q, valid_order os -> gram_search n os gi input = Done res ->
  (p, t) ∈ source -> occurs w t -> slip n w q -> occurs q input ->
  (forall limit, cutoff_for (lenN (c_products pc)) limit -> unmistakable n (map snd source) limit t q) ->
  exists x, (p, x) ∈ res.
Proof.
  intros Hn Ho Hg E H1 H2 ND os input res p t w q Hos S Hp Hw Hs Hq U.
  destruct (search_from_texts_any P n o source pc gi ltac:(lia) Ho Hg E H1 H2 ND os input res Hos S)
    as (limit & choice & Hl & Hc & _ & _ & _ & R).
  destruct (slip_points n (map snd source) limit choice input t w q) as (c & rest & Ep); [lia|done|done| |done|done|by apply U|].
  { apply elem_of_list_fmap. by exists (p, t). }
  exists (foldl f32_add c rest). apply R. by exists t, c, rest.
Qed.
