(** Order tables: ranks by a comparison, titles in code point order. *)
From Verif.model Require Import Base F32 Utf8 Prim Coll Data Gram Nodes Classic.
From Verif.spec Require Import Spec Data_spec Classic_spec.
From Verif.proofs Require Import Base_facts Sort_facts Utf8_facts Data_facts.
From Coq Require Import Sorting.Sorted.

(** ** UTF-8 keeps the order of code points *)
Lemma bytes_cmp_common l x y : bytes_cmp (l ++ x) (l ++ y) = bytes_cmp x y.
Proof. induction l as [|b l IH]; [done|]. simpl. by rewrite N.compare_refl. Qed.

Ltac Zify.zify_post_hook ::= Z.to_euclidean_division_equations.
Lemma bytes_cmp_char c d x y : is_scalar c = true -> is_scalar d = true -> c < d ->
  bytes_cmp (utf8_char c ++ x) (utf8_char d ++ y) = Lt.
Proof.
  unfold is_scalar, utf8_char. intros Hc Hd L.
  repeat match goal with |- context [if ?a <? ?b then _ else _] => destruct (N.ltb_spec a b) end; cbn [app bytes_cmp];
  repeat match goal with |- context [match ?a ?= ?b with _ => _ end] => destruct (N.compare_spec a b) end; try done; exfalso; lia.
Qed.

Lemma utf8_char_cons c : exists b l, utf8_char c = b :: l.
Proof. unfold utf8_char. repeat case_match; eauto. Qed.
Lemma title_before_cmp s t : valid_str s -> valid_str t -> title_before s t -> str_cmp s t = Lt.
Proof.
  intros Hs Ht H. revert Hs Ht. induction H as [c s|c d s t H|c s t _ IH]; intros Hs Ht; unfold str_cmp, utf8 in *; cbn [map concat].
  - destruct (utf8_char_cons c) as (b & l & ->). done.
  - apply bytes_cmp_char; [by inversion Hs|by inversion Ht|done].
  - rewrite bytes_cmp_common. apply IH; [by inversion Hs|by inversion Ht].
Qed.
Lemma title_before_total s t : s = t \/ title_before s t \/ title_before t s.
Proof.
  revert t. induction s as [|c s IH]; intros [|d t]; [by left|right; left; constructor|right; right; constructor|].
  destruct (N.lt_trichotomy c d) as [H|[->|H]]; [right; left; by constructor| |right; right; by constructor].
  destruct (IH t) as [->|[H|H]]; [by left|right; left; by constructor|right; right; by constructor].
Qed.
Lemma bytes_cmp_refl l : bytes_cmp l l = Eq.
Proof. induction l; simpl; [done|]. by rewrite N.compare_refl. Qed.
Lemma bytes_cmp_sym l k : bytes_cmp k l = CompOpp (bytes_cmp l k).
Proof.
  revert k. induction l as [|x l IH]; intros [|y k]; simpl; try done.
  rewrite (N.compare_antisym x y). destruct (x ?= y); simpl; auto.
Qed.
Lemma bytes_cmp_trans l k m : bytes_cmp l k <> Gt -> bytes_cmp k m <> Gt -> bytes_cmp l m <> Gt.
Proof.
  revert k m. induction l as [|x l IH]; intros [|y k] [|z m]; simpl; try done.
  destruct (N.compare_spec x y), (N.compare_spec y z); try done; subst.
  - rewrite N.compare_refl. apply IH.
  - intros _ _. by rewrite (proj2 (N.compare_lt_iff _ _)) by done.
  - intros _ _. by rewrite (proj2 (N.compare_lt_iff _ _)) by done.
  - intros _ _. by rewrite (proj2 (N.compare_lt_iff _ _)) by lia.
Qed.
Lemma str_cmp_total : total_cmp str_cmp.
Proof.
  split; intros; [apply bytes_cmp_refl|apply bytes_cmp_sym|eapply bytes_cmp_trans; eauto].
Qed.
Lemma str_cmp_before s t : valid_str s -> valid_str t -> str_cmp s t = Lt <-> title_before s t.
Proof.
  intros Hs Ht. split; [|by apply title_before_cmp]. intros E.
  destruct (title_before_total s t) as [->|[H|H]]; [|done|].
  - unfold str_cmp in E. by rewrite bytes_cmp_refl in E.
  - apply title_before_cmp in H; [|done..]. rewrite (tc_sym _ str_cmp_total), H in E. done.
Qed.

(** ** Ranks *)
Section ranks.
  Context {T : Type} (cmp : T -> T -> comparison) (Hc : total_cmp cmp).
  Definition in_front (a b : T * N) : Prop := cmp a.1 b.1 = Lt \/ (cmp a.1 b.1 = Eq /\ a.2 < b.2).
  Lemma in_front_trans a b c : in_front a b -> in_front b c -> in_front a c.
  Proof.
    unfold in_front. intros [H|[H L]] [H'|[H' L']].
    - left. destruct (cmp a.1 c.1) eqn:E; [|done|].
      + rewrite (tc_eq_l _ _ _ b.1 Hc E) in H. rewrite (tc_sym _ Hc), H' in H. done.
      + destruct (tc_trans _ Hc a.1 b.1 c.1); congruence.
    - left. rewrite (tc_sym _ Hc). rewrite <- (tc_eq_l _ _ _ a.1 Hc H'). by rewrite (tc_sym _ Hc), H.
    - left. by rewrite (tc_eq_l _ _ _ _ Hc H).
    - right. split; [by eapply tc_eq_trans|lia].
  Qed.
  Lemma sort_in_front l : StronglySorted (fun a b : T * N => a.2 < b.2) l ->
    StronglySorted in_front (sort_by (fun a b => cmp a.1 b.1) l).
  Proof.
    induction l as [|x l IH]; intros S; [constructor|]. inversion S as [|? ? S' F]; subst.
    specialize (IH S'). simpl.
    assert (F' : Forall (fun b => x.2 < b.2) (sort_by (fun a b => cmp a.1 b.1) l)) by by rewrite sort_by_perm.
    clear S S' F. induction IH as [|y k Sk IHk Fk]; simpl; [by repeat constructor|].
    inversion F' as [|? ? F1 F2]; subst. destruct (cmp x.1 y.1) eqn:E.
    - assert (in_front x y) by (right; done). constructor; [by constructor|]. constructor; [done|].
      eapply Forall_impl; [exact Fk|]. intros z. by apply in_front_trans.
    - assert (in_front x y) by (left; done). constructor; [by constructor|]. constructor; [done|].
      eapply Forall_impl; [exact Fk|]. intros z. by apply in_front_trans.
    - constructor; [by apply IHk|]. rewrite insert_by_perm. constructor; [|done].
      left. by rewrite (tc_sym _ Hc), E.
  Qed.
End ranks.

Lemma StronglySorted_lookup {A} (R : A -> A -> Prop) l i j x y : StronglySorted R l -> (i < j)%nat ->
  l !! i = Some x -> l !! j = Some y -> R x y.
Proof.
  intros S. revert i j. induction S as [|z l S IH F]; intros i j L Hi Hj; [done|].
  destruct j as [|j]; [lia|]. destruct i as [|i]; simpl in *; [|apply (IH i j); [lia|done..]].
  injection Hi as ->. rewrite Forall_forall in F. apply F. by eapply elem_of_list_lookup_2.
Qed.

(** The table filled in by [add_custom_cmp]. *)
Lemma fill_ranks {T} (l : list (T * N)) p0 order : NoDup (map snd l) -> Forall (fun x => x.2 < lenN order) l ->
  exists order', foldM (fun '(order_position, order) '(_, serialization_id) =>
      order ← setN order serialization_id order_position;
      Done (order_position + 1, order)) l (p0, order) = Done (p0 + lenN l, order') /\
    length order' = length order /\
    (forall j x, l !! j = Some x -> order' !! N.to_nat x.2 = Some (p0 + N.of_nat j)) /\
    (forall i, N.of_nat i ∉ map snd l -> order' !! i = order !! i).
Proof.
  revert p0 order. induction l as [|[k sid] l IH]; intros p0 order ND F.
  { exists order. split; [simpl; by rewrite N.add_0_r|]. split; [done|]. split; [done|]. done. }
  inversion F as [|? ? F1 F2]; subst. simpl in F1. simpl in ND. apply NoDup_cons in ND as [N1 N2].
  cbn [foldM]. rewrite setN_Done by done. cbn [mbind res_bind].
  destruct (IH (p0 + 1) (<[N.to_nat sid := p0]> order)) as (order' & E & L & H1 & H2); [done| |].
  { eapply Forall_impl; [exact F2|]. intros x. unfold lenN. by rewrite insert_length. }
  exists order'. rewrite E. split; [by rewrite lenN_cons, N.add_assoc|]. split; [by rewrite L, insert_length|]. split.
  - intros [|j] x Hx; simpl in Hx.
    + injection Hx as <-. simpl. rewrite H2 by by rewrite N2Nat.id. rewrite list_lookup_insert; [by rewrite N.add_0_r|].
      unfold lenN in F1. lia.
    + rewrite (H1 _ _ Hx). f_equal. lia.
  - intros i Hi. simpl in Hi. apply not_elem_of_cons in Hi as [Hi1 Hi2]. rewrite H2 by done.
    apply list_lookup_insert_ne. lia.
Qed.

Lemma order_add_any {T} oi c (maker : product -> feature_set -> res T) cmp key keys :
  positions (c_products c) ->
  Forall2 (fun p k => maker p (c_features c) = Done k) (c_products c) keys ->
  exists ranks, order_add_custom_cmp oi c maker cmp key = Done (<[key := ranks]> oi) /\
    ranks ≡ₚ map N.of_nat (seq 0 (length keys)) /\
    forall i k r, keys !! i = Some k -> ranks !! i = Some r ->
      sort_by (fun a b => cmp a.1 b.1) (imap (fun i k => (k, N.of_nat i)) keys) !! N.to_nat r = Some (k, N.of_nat i).
Proof.
  intros W H. unfold order_add_custom_cmp.
  set (l := imap (fun i k => (k, N.of_nat i)) keys).
  assert (El : mapR (fun prod => v ← maker prod (c_features c); Done (v, p_sid prod)) (c_products c) = Done l).
  { apply mapR_Done. apply Forall2_same_length_lookup_2.
    - unfold l. rewrite imap_length. by eapply Forall2_length.
    - intros i p y Hp Hy. unfold l in Hy. rewrite list_lookup_imap in Hy. apply fmap_Some in Hy as (k & Hk & ->).
      rewrite (Forall2_lookup_lr _ _ _ _ _ _ H Hp Hk). simpl. by rewrite (W _ _ Hp). }
  rewrite El. cbn [mbind res_bind]. set (s := sort_by _ l).
  assert (Ls : length s = length keys) by (unfold s; rewrite sort_by_length; unfold l; apply imap_length).
  assert (Es : s ≡ₚ l) by apply sort_by_perm.
  assert (Hl : forall i x, l !! i = Some x <-> exists k, keys !! i = Some k /\ x = (k, N.of_nat i)).
  { intros i x. unfold l. rewrite list_lookup_imap. rewrite fmap_Some. done. }
  assert (Esnd : map snd l = map N.of_nat (seq 0 (length keys))).
  { apply list_eq. intros i. rewrite !list_lookup_fmap. unfold l. rewrite list_lookup_imap.
    destruct (decide (i < length keys)%nat).
    - destruct (lookup_lt_is_Some_2 keys i) as [k ->]; [done|]. rewrite lookup_seq_lt by done. done.
    - rewrite lookup_ge_None_2 by lia. rewrite lookup_seq_ge by lia. done. }
  assert (NDl : NoDup (map snd l)).
  { rewrite Esnd. apply NoDup_fmap_2; [intros ?? ?; lia|apply NoDup_seq]. }
  destruct (fill_ranks s 0 (replicate (length s) 0)) as (ranks & E & Lr & R & _).
  { by rewrite Es. }
  { rewrite Es. apply Forall_forall. intros x Hx. apply elem_of_list_lookup in Hx as [i Hx]. apply Hl in Hx as (k & Hk & ->).
    unfold lenN. rewrite replicate_length, Ls. apply lookup_lt_Some in Hk. simpl. lia. }
  rewrite replicate_length, Ls in Lr.
  exists ranks. rewrite E. split; [done|].
  assert (Pos : forall i k r, keys !! i = Some k -> ranks !! i = Some r -> s !! N.to_nat r = Some (k, N.of_nat i)).
  { intros i k r Hk Hr. assert ((k, N.of_nat i) ∈ s) as Hin.
    { rewrite Es. apply elem_of_list_lookup. exists i. apply Hl. eauto. }
    apply elem_of_list_lookup in Hin as [j Hj]. pose proof (R _ _ Hj) as A. simpl in A. rewrite Nat2N.id in A.
    rewrite Hr in A. injection A as ->. replace (N.to_nat (0 + N.of_nat j)) with j by lia. done. }
  assert (Bd : forall i r, ranks !! i = Some r -> (N.to_nat r < length keys)%nat).
  { intros i r Hr. destruct (lookup_lt_is_Some_2 keys i) as [k Hk]; [apply lookup_lt_Some in Hr; lia|].
    pose proof (Pos _ _ _ Hk Hr) as A. apply lookup_lt_Some in A. lia. }
  split; [|done].
  apply submseteq_Permutation_length_le; [rewrite map_length, seq_length; lia|].
  apply NoDup_submseteq.
  + apply NoDup_alt. intros i j r Hi Hj.
    destruct (lookup_lt_is_Some_2 keys i) as [k Hk]; [apply lookup_lt_Some in Hi; lia|].
    destruct (lookup_lt_is_Some_2 keys j) as [k' Hk']; [apply lookup_lt_Some in Hj; lia|].
    pose proof (Pos _ _ _ Hk Hi) as A. rewrite (Pos _ _ _ Hk' Hj) in A. injection A as _ A. lia.
  + intros r Hr. apply elem_of_list_lookup in Hr as [i Hr]. apply elem_of_list_fmap. exists (N.to_nat r).
    split; [lia|]. apply elem_of_seq. pose proof (Bd _ _ Hr). lia.
Qed.
(** Only the comparison of the keys that occur matters. *)
Lemma order_add_ranks {T} oi c (maker : product -> feature_set -> res T) cmp cmp' key keys :
  total_cmp cmp -> (forall x y, x ∈ keys -> y ∈ keys -> cmp' x y = cmp x y) -> positions (c_products c) ->
  Forall2 (fun p k => maker p (c_features c) = Done k) (c_products c) keys ->
  exists ranks, order_add_custom_cmp oi c maker cmp' key = Done (<[key := ranks]> oi) /\
    rank_table (fun x y => cmp x y = Lt) keys ranks.
Proof.
  intros Hc Ext W H. destruct (order_add_any oi c maker cmp' key keys W H) as (ranks & E & P & Pos).
  exists ranks. split; [done|]. split; [done|].
  intros i j x y ri rj Hx Hy Hi Hj. clear H E P W.
  pose proof (Pos _ _ _ Hx Hi) as A. pose proof (Pos _ _ _ Hy Hj) as B. clear Pos.
  set (l := imap (fun i k => (k, N.of_nat i)) keys) in *.
  assert (S : sort_by (fun a b => cmp' a.1 b.1) l = sort_by (fun a b => cmp a.1 b.1) l).
  { apply sort_by_ext. intros a b Ha Hb. apply elem_of_list_lookup in Ha as [ia Ha], Hb as [ib Hb].
    unfold l in Ha, Hb. rewrite list_lookup_imap in Ha, Hb. apply fmap_Some in Ha as (ka & Ha & ->), Hb as (kb & Hb & ->).
    apply Ext; by eapply elem_of_list_lookup_2. }
  rewrite S in A, B. clear S.
  assert (S : StronglySorted (in_front cmp) (sort_by (fun a b => cmp a.1 b.1) l)).
  { apply sort_in_front; [done|]. unfold l. clear.
    assert (A : forall f : nat -> nat, (forall m, (f m < f (S m))%nat) ->
      StronglySorted (fun a b : T * N => a.2 < b.2) (imap (fun i k => (k, N.of_nat (f i))) keys)).
    2: { apply (A (fun i => i)). lia. }
    induction keys as [|k keys IH]; intros f Hf; [constructor|]. simpl.
    constructor; [apply (IH (fun i => f (S i))); intros; apply Hf|].
    apply Forall_forall. intros q Hq. apply elem_of_list_lookup in Hq as [m Hq].
    rewrite list_lookup_imap in Hq. apply fmap_Some in Hq as (k' & _ & ->). simpl.
    induction m as [|m IHm]; [specialize (Hf 0%nat)|specialize (Hf (S m))]; simpl in *; lia. }
  assert (X : forall a b, ~ (in_front cmp a b /\ in_front cmp b a)).
  { intros a b [[H1|[H1 L1]] [H2|[H2 L2]]]; rewrite (tc_sym _ Hc), H1 in H2; try done. lia. }
  assert (Y : ri < rj <-> in_front cmp (x, N.of_nat i) (y, N.of_nat j)).
  { split.
    - intros L. eapply StronglySorted_lookup; [exact S| |exact A|exact B]. lia.
    - intros F. destruct (N.lt_trichotomy ri rj) as [L|[->|L]]; [done| |].
      + rewrite A in B. injection B as -> Eij. exfalso. apply (X (y, N.of_nat i) (y, N.of_nat i)). split; by rewrite Eij in *.
      + exfalso. apply (X (x, N.of_nat i) (y, N.of_nat j)). split; [done|].
        eapply StronglySorted_lookup; [exact S| |exact B|exact A]. lia. }
  rewrite Y. unfold in_front. simpl. rewrite (tc_sym _ Hc x y).
  destruct (cmp x y); simpl; split; intros; try naive_solver lia.
Qed.
