(** Which searches panic (C125). *)
From Verif.model Require Import Base F32 Utf8 Prim Coll Data Gram Indexer Nodes Classic Lit Raw Js Lib.
From Verif.spec Require Import Spec Data_spec Gram_spec Classic_spec Raw_spec Js_spec Lib_spec Panics_spec.
From Verif.proofs Require Import Base_facts Sort_facts Order_facts Data_facts File_facts Search_props Js_facts Raw_facts Lib_facts.

Definition calm {A} (r : res A) : Prop := (exists x, r = Done x) \/ r = Panic.

Lemma filterR_calm {A} (f : A -> res bool) l : (forall x, calm (f x)) ->
  (filterR f l = Panic <-> exists x, x ∈ l /\ f x = Panic) /\ calm (filterR f l).
Proof.
  intros C. induction l as [|x l [IH1 IH2]].
  - split; [|left; eexists; done]. split; [done|]. intros (x & Hx & _). by apply elem_of_nil in Hx.
  - cbn [filterR]. destruct (C x) as [[b E]|E]; rewrite E; cbn [mbind res_bind].
    + destruct IH2 as [[l' E']|E']; rewrite E'; cbn [mbind res_bind].
      * split; [|left; eexists; done]. split; [done|]. intros (y & Hy & Py). apply elem_of_cons in Hy as [->|Hy]; [congruence|].
        exfalso. assert (filterR f l = Panic) by (apply IH1; eauto). congruence.
      * split; [|by right]. split; [|done]. intros _. destruct (proj1 IH1 E') as (y & Hy & Py). exists y. split; [by right|done].
    + split; [|by right]. split; [|done]. intros _. exists x. split; [left|done].
Qed.

Section tests.
  Context {K : Type} (test : K -> res bool) (C : forall k, calm (test k)).
  Lemma all_contain_calm keys : calm (all_contain test keys).
  Proof.
    induction keys as [|k keys IH]; [left; eexists; done|]. cbn [all_contain].
    destruct (C k) as [[b E]|E]; rewrite E; cbn [mbind res_bind]; [|by right]. destruct b; [done|left; eexists; done].
  Qed.
  Lemma all_contain_panic keys : all_contain test keys = Panic -> exists k, k ∈ keys /\ test k = Panic.
  Proof.
    induction keys as [|k keys IH]; [done|]. cbn [all_contain].
    destruct (C k) as [[b E]|E]; rewrite E; cbn [mbind res_bind]; [|intros _; exists k; split; [left|done]].
    destruct b; [|done]. intros H. destruct (IH H) as (k' & Hk & P). exists k'. split; [by right|done].
  Qed.
  Lemma all_contain_must keys k : k ∈ keys -> test k = Panic -> (forall k', k' ∈ keys -> test k' <> Done false) ->
    all_contain test keys = Panic.
  Proof.
    induction keys as [|k' keys IH]; intros Hk P T; [by apply elem_of_nil in Hk|]. cbn [all_contain].
    destruct (C k') as [[b E]|E]; rewrite E; cbn [mbind res_bind]; [|done].
    destruct b. 2: { exfalso. apply (T k'); [left|done]. }
    apply elem_of_cons in Hk as [->|Hk]; [congruence|]. apply IH; [done..|]. intros k'' H. apply T. by right.
  Qed.
  Lemma all_contain_true keys : all_contain test keys = Done true -> forall k, k ∈ keys -> test k = Done true.
  Proof.
    induction keys as [|k' keys IH]; intros H k Hk; [by apply elem_of_nil in Hk|]. cbn [all_contain] in H.
    destruct (C k') as [[b E]|E]; rewrite E in H; cbn [mbind res_bind] in H; [|done]. destruct b; [|done].
    apply elem_of_cons in Hk as [->|Hk]; [done|]. by apply IH.
  Qed.
  (** With the panicking keys last. *)
  Lemma all_contain_last (bad : K -> Prop) `{forall k, Decision (bad k)} keys :
    (forall k, bad k <-> test k = Panic) ->
    all_contain test (filter (fun k => ~ bad k) keys ++ filter bad keys) = Panic ->
    forall k, k ∈ keys -> test k <> Done false.
  Proof.
    intros B. induction keys as [|k keys IH]; intros E k' Hk'; [by apply elem_of_nil in Hk'|].
    destruct (decide (bad k)) as [Hb|Hb].
    - rewrite filter_cons_False in E by tauto. rewrite filter_cons_True in E by done.
      assert (G : forall k, k ∈ keys -> test k <> Done false).
      { clear -E B C Hb. intros k0 Hk0 F. assert (k0 ∈ filter (fun k => ~ bad k) keys) as Hin.
        { apply elem_of_list_filter. split; [|done]. rewrite B. congruence. }
        assert (Hg : Forall (fun k => ~ bad k) (filter (fun k => ~ bad k) keys)).
        { apply Forall_forall. intros x Hx. by apply elem_of_list_filter in Hx as [Hx _]. }
        revert Hg Hin E. generalize (filter (fun k => ~ bad k) keys) (k :: filter bad keys). intros l1 l2.
        induction l1 as [|x l1 IH]; intros Hg Hin E; [by apply elem_of_nil in Hin|].
        apply Forall_cons in Hg as [Hx Hg]. cbn [all_contain app] in E. destruct (C x) as [[b Ex]|Ex]; [|by apply B in Ex].
        rewrite Ex in E. cbn [mbind res_bind] in E. destruct b; [|done].
        apply elem_of_cons in Hin as [->|Hin]; [congruence|]. by apply IH. }
      apply elem_of_cons in Hk' as [->|Hk']; [apply B in Hb; congruence|by apply G].
    - rewrite filter_cons_True in E by done. rewrite filter_cons_False in E by done. cbn [app all_contain] in E.
      destruct (C k) as [[b Ex]|Ex]; [|by apply B in Ex]. rewrite Ex in E. cbn [mbind res_bind] in E. destruct b; [|done].
      apply elem_of_cons in Hk' as [->|Hk']; [congruence|by apply IH].
  Qed.
End tests.

(** Orders that take some keys first. *)
Definition first_of {K} (P : K -> Prop) `{forall k, Decision (P k)} : order_of K :=
  fun l => filter P l ++ filter (fun k => ~ P k) l.
Definition last_of {K} (P : K -> Prop) `{forall k, Decision (P k)} : order_of K :=
  fun l => filter (fun k => ~ P k) l ++ filter P l.
Lemma first_of_valid {K} (P : K -> Prop) `{forall k, Decision (P k)} : valid_order (first_of P).
Proof.
  intros l. unfold first_of. induction l as [|k l IH]; [done|]. destruct (decide (P k)) as [Hk|Hk].
  - rewrite filter_cons_True by done. rewrite filter_cons_False by tauto. simpl. by rewrite IH.
  - rewrite filter_cons_False by done. rewrite filter_cons_True by done. by rewrite <- Permutation_middle, IH.
Qed.
Lemma last_of_valid {K} (P : K -> Prop) `{forall k, Decision (P k)} : valid_order (last_of P).
Proof. intros l. unfold last_of. rewrite (comm (++)). apply (first_of_valid P l). Qed.

(** ** The handlers *)
Definition opt_test (h : cat_handler) (p : product) : N * N -> res bool := fun '(category, option) =>
  category ← unwrap (getN (cl_categories (ch_handle h)) category);
  option ← unwrap (getN (cat_options category) option);
  Done (option_contains option p).
Definition tag_test (h : tag_handler) (p : product) : N -> res bool := fun id =>
  tag ← unwrap (getN (cl_tags (th_handle h)) id); Done (tag_contains tag p).
Definition opt_gone (h : cat_handler) (key : N * N) : Prop :=
  (cat ← (cl_categories (ch_handle h) : list category) !! N.to_nat key.1; cat_options cat !! N.to_nat key.2) = None.
Definition tag_gone (h : tag_handler) (id : N) : Prop := (cl_tags (th_handle h) : list tag) !! N.to_nat id = None.
#[local] Instance opt_gone_dec h key : Decision (opt_gone h key).
Proof.
  unfold opt_gone. destruct (_ ≫= _) as [x|]; [right|left]; [discriminate|reflexivity].
Defined.
#[local] Instance tag_gone_dec h id : Decision (tag_gone h id).
Proof.
  unfold tag_gone. destruct (_ !! _) as [x|]; [right|left]; [discriminate|reflexivity].
Defined.

Lemma opt_test_at h p key cat opt : option_at (ch_handle h) key cat opt ->
  opt_test h p key = Done (bool_decide (p_sid p ∈ o_ids opt)).
Proof.
  destruct key as [k v]. intros [Hc Ho]. unfold opt_test. simpl in Hc, Ho.
  assert (getN (cl_categories (ch_handle h)) k = Some cat) as -> by (rewrite getN_lookup; exact Hc).
  cbn [unwrap mbind res_bind]. rewrite getN_lookup, Ho. done.
Qed.
Lemma opt_gone_no h key : opt_gone h key <-> forall cat opt, ~ option_at (ch_handle h) key cat opt.
Proof.
  unfold opt_gone, option_at. destruct ((cl_categories (ch_handle h) : list category) !! N.to_nat key.1) as [cat|] eqn:E1; simpl.
  - destruct (cat_options cat !! N.to_nat key.2) as [opt|] eqn:E2.
    + split; [done|]. intros H. exfalso. by apply (H cat opt).
    + split; [|done]. intros _ cat' opt [[= <-] H]. congruence.
  - split; [|done]. intros _ cat' opt [H _]. congruence.
Qed.
Lemma opt_test_gone h p key : opt_gone h key <-> opt_test h p key = Panic.
Proof.
  split.
  - destruct key as [k v]. unfold opt_gone, opt_test. rewrite getN_lookup. simpl.
    destruct ((cl_categories (ch_handle h) : list category) !! N.to_nat k) as [cat|] eqn:E1; cbn [mbind option_bind]; intros H.
    + replace (list_lookup _ _) with (Some cat) by (symmetry; exact E1). cbn [unwrap mbind res_bind]. rewrite getN_lookup, H. done.
    + replace (list_lookup _ _) with (@None category) by (symmetry; exact E1). done.
  - intros H. apply opt_gone_no. intros cat opt Hat. by rewrite (opt_test_at _ _ _ _ _ Hat) in H.
Qed.
Lemma opt_found h key : ~ opt_gone h key -> exists cat opt, option_at (ch_handle h) key cat opt.
Proof.
  unfold opt_gone, option_at. destruct ((cl_categories (ch_handle h) : list category) !! N.to_nat key.1) as [cat|]; [simpl|done].
  destruct (cat_options cat !! N.to_nat key.2) as [opt|] eqn:E; [|done]. intros _. by exists cat, opt.
Qed.
Lemma opt_calm h p key : calm (opt_test h p key).
Proof.
  destruct (decide (opt_gone h key)) as [G|G]; [right; by apply opt_test_gone|].
  destruct (opt_found _ _ G) as (cat & opt & Hat). left. eexists. by eapply opt_test_at.
Qed.
Lemma opt_not_false h p : (forall key, key ∈ ch_active h -> opt_test h p key <> Done false) <-> has_options h (p_sid p).
Proof.
  split.
  - intros H key cat opt Hk Hat. specialize (H _ Hk). rewrite (opt_test_at _ _ _ _ _ Hat) in H.
    destruct (bool_decide _) eqn:E; [by apply bool_decide_eq_true in E|done].
  - intros H key Hk E. destruct (decide (opt_gone h key)) as [G|G]; [apply (opt_test_gone h p) in G; congruence|].
    destruct (opt_found _ _ G) as (cat & opt & Hat). rewrite (opt_test_at _ _ _ _ _ Hat) in E.
    rewrite bool_decide_eq_true_2 in E; [done|by eapply H].
Qed.

Lemma tag_test_at h p id t : tag_at (th_handle h) id t -> tag_test h p id = Done (bool_decide (p_sid p ∈ t_ids t)).
Proof.
  intros Hat. unfold tag_test.
  assert (getN (cl_tags (th_handle h)) id = Some t) as -> by (rewrite getN_lookup; exact Hat). done.
Qed.
Lemma tag_gone_no h id : tag_gone h id <-> forall t, ~ tag_at (th_handle h) id t.
Proof.
  unfold tag_gone, tag_at. destruct ((cl_tags (th_handle h) : list tag) !! N.to_nat id) as [t|] eqn:E.
  - split; [done|]. intros H. exfalso. by apply (H t).
  - split; [|done]. intros _ t H. congruence.
Qed.
Lemma tag_test_gone h p id : tag_gone h id <-> tag_test h p id = Panic.
Proof.
  split.
  - unfold tag_gone, tag_test. intros H.
    assert (getN (cl_tags (th_handle h)) id = None) as -> by (rewrite getN_lookup; exact H). done.
  - intros H. apply tag_gone_no. intros t Hat. by rewrite (tag_test_at _ _ _ _ Hat) in H.
Qed.
Lemma tag_found h id : ~ tag_gone h id -> exists t, tag_at (th_handle h) id t.
Proof.
  unfold tag_gone, tag_at. destruct ((cl_tags (th_handle h) : list tag) !! N.to_nat id) as [t|]; [|done]. intros _. by exists t.
Qed.
Lemma tag_calm h p id : calm (tag_test h p id).
Proof.
  destruct (decide (tag_gone h id)) as [G|G]; [right; by apply tag_test_gone|].
  destruct (tag_found _ _ G) as (t & Hat). left. eexists. by eapply tag_test_at.
Qed.
Lemma tag_not_false h p : (forall id, id ∈ th_active h -> tag_test h p id <> Done false) <-> has_tags h (p_sid p).
Proof.
  split.
  - intros H id t Hk Hat. specialize (H _ Hk). rewrite (tag_test_at _ _ _ _ Hat) in H.
    destruct (bool_decide _) eqn:E; [by apply bool_decide_eq_true in E|done].
  - intros H id Hk E. destruct (decide (tag_gone h id)) as [G|G]; [apply (tag_test_gone h p) in G; congruence|].
    destruct (tag_found _ _ G) as (t & Hat). rewrite (tag_test_at _ _ _ _ Hat) in E.
    rewrite bool_decide_eq_true_2 in E; [done|by eapply H].
Qed.

Lemma option_missing_gone h : option_missing h <-> exists key, key ∈ ch_active h /\ opt_gone h key.
Proof. unfold option_missing. by setoid_rewrite opt_gone_no. Qed.
Lemma tag_missing_gone h : tag_missing h <-> exists id, id ∈ th_active h /\ tag_gone h id.
Proof. unfold tag_missing. by setoid_rewrite tag_gone_no. Qed.

Lemma ch_test o h p : ch_is_valid o h p = all_contain (opt_test h p) (o (elements (ch_active h))).
Proof. reflexivity. Qed.
Lemma th_test o h p : th_is_valid o h p = all_contain (tag_test h p) (o (elements (th_active h))).
Proof. reflexivity. Qed.
Lemma ordered_elem {K} `{Countable K} (o : order_of K) (s : gset K) k : valid_order o -> k ∈ o (elements s) <-> k ∈ s.
Proof. intros Ho. rewrite (Ho (elements s)). apply elem_of_elements. Qed.

Lemma both_calm o cats tags p : calm (both_valid o cats tags p).
Proof.
  unfold both_valid. destruct (all_contain_calm _ (opt_calm cats p) (se_categories o (elements (ch_active cats)))) as [[b E]|E];
    rewrite ch_test, E; cbn [mbind res_bind]; [|by right].
  destruct b; [|left; eexists; done]. rewrite th_test. apply all_contain_calm, tag_calm.
Qed.
(** What a panic means. *)
Lemma both_panic o cats tags p : valid_search_order o -> both_valid o cats tags p = Panic ->
  option_missing cats \/ tag_missing tags /\ has_options cats (p_sid p).
Proof.
  intros (_ & Hc & Ht). unfold both_valid. rewrite ch_test.
  destruct (all_contain_calm _ (opt_calm cats p) (se_categories o (elements (ch_active cats)))) as [[b E]|E];
    rewrite E; cbn [mbind res_bind].
  - destruct b; [|done]. intros P. right. rewrite th_test in P. apply (all_contain_panic _ (tag_calm tags p)) in P as (id & Hid & P).
    split.
    + apply tag_missing_gone. exists id. split; [by apply (ordered_elem _ _ _ Ht)|by eapply tag_test_gone].
    + apply opt_not_false. intros key Hk F. apply (ordered_elem _ _ _ Hc) in Hk.
      rewrite (all_contain_true _ (opt_calm cats p) _ E _ Hk) in F. done.
  - intros _. left. apply (all_contain_panic _ (opt_calm cats p)) in E as (key & Hk & P). apply option_missing_gone.
    exists key. split; [by apply (ordered_elem _ _ _ Hc)|by eapply opt_test_gone].
Qed.
(** A panic that no order avoids. *)
Lemma both_must o cats tags p : valid_search_order o -> has_options cats (p_sid p) ->
  option_missing cats \/ tag_missing tags /\ has_tags tags (p_sid p) -> both_valid o cats tags p = Panic.
Proof.
  intros (_ & Hc & Ht) Ho Hm. unfold both_valid. rewrite ch_test.
  destruct (all_contain_calm _ (opt_calm cats p) (se_categories o (elements (ch_active cats)))) as [[b E]|E];
    rewrite E; cbn [mbind res_bind]; [|done].
  assert (A : forall key, key ∈ se_categories o (elements (ch_active cats)) -> opt_test cats p key <> Done false).
  { intros key Hk. apply (opt_not_false cats p); [done|]. by apply (ordered_elem _ _ _ Hc). }
  destruct Hm as [Hm|[Hm Hh]].
  - apply option_missing_gone in Hm as (key & Hk & G). apply (ordered_elem _ _ key Hc) in Hk. apply (opt_test_gone _ p) in G.
    rewrite (all_contain_must _ (opt_calm cats p) _ _ Hk G A) in E. done.
  - assert (b = true) as ->.
    { destruct b; [done|]. exfalso. clear -E A. revert E A. induction (se_categories o _) as [|k l IH]; [done|].
      cbn [all_contain]. intros E A. destruct (opt_calm cats p k) as [[b Ek]|Ek]; rewrite Ek in E; cbn [mbind res_bind] in E; [|done].
      destruct b; [|by apply (A k); [left|]]. apply IH; [done|]. intros k' Hk'. apply A. by right. }
    apply tag_missing_gone in Hm as (id & Hk & G). apply (ordered_elem _ _ id Ht) in Hk. apply (tag_test_gone _ p) in G.
    rewrite th_test. apply (all_contain_must _ (tag_calm tags p) _ _ Hk G).
    intros id' Hk'. apply (tag_not_false tags p); [done|]. by apply (ordered_elem _ _ _ Ht).
Qed.
(** The orders with the missing ones first, resp. last. *)
Definition bad_first (o : search_order) (cats : cat_handler) (tags : tag_handler) : search_order :=
  SearchOrder (se_rank o) (first_of (opt_gone cats)) (first_of (tag_gone tags)).
Definition bad_last (o : search_order) (cats : cat_handler) (tags : tag_handler) : search_order :=
  SearchOrder (se_rank o) (last_of (opt_gone cats)) (last_of (tag_gone tags)).
Lemma bad_first_valid o cats tags : valid_search_order o -> valid_search_order (bad_first o cats tags).
Proof. intros (H & _). split; [done|]. split; apply first_of_valid. Qed.
Lemma bad_last_valid o cats tags : valid_search_order o -> valid_search_order (bad_last o cats tags).
Proof. intros (H & _). split; [done|]. split; apply last_of_valid. Qed.
Lemma first_panics {K} (test : K -> res bool) (bad : K -> Prop) `{forall k, Decision (bad k)} keys k :
  (forall k, bad k <-> test k = Panic) -> k ∈ keys -> bad k -> all_contain test (first_of bad keys) = Panic.
Proof.
  intros B Hk Hb. unfold first_of. destruct (filter bad keys) as [|k' l] eqn:E.
  - exfalso. assert (k ∈ filter bad keys) as F by by apply elem_of_list_filter. rewrite E in F. by apply elem_of_nil in F.
  - assert (k' ∈ filter bad keys) as F by (rewrite E; left). apply elem_of_list_filter in F as [F _]. apply B in F.
    cbn [app all_contain]. by rewrite F.
Qed.
Lemma both_first o cats tags p : valid_search_order o ->
  option_missing cats \/ tag_missing tags /\ has_options cats (p_sid p) ->
  both_valid (bad_first o cats tags) cats tags p = Panic.
Proof.
  intros Hv Hm. unfold both_valid. rewrite ch_test. cbn [bad_first se_categories se_tags].
  destruct Hm as [Hm|[Hm Hh]].
  - apply option_missing_gone in Hm as (key & Hk & G). apply elem_of_elements in Hk.
    by rewrite (first_panics _ (opt_gone cats) _ key (fun k => opt_test_gone cats p k) Hk G).
  - destruct (all_contain_calm _ (opt_calm cats p) (first_of (opt_gone cats) (elements (ch_active cats)))) as [[b E]|E];
      rewrite E; cbn [mbind res_bind]; [|done].
    assert (A : forall key, key ∈ first_of (opt_gone cats) (elements (ch_active cats)) -> opt_test cats p key <> Done false).
    { intros key Hk. apply (opt_not_false cats p); [done|]. by apply (ordered_elem _ _ _ (first_of_valid _)) in Hk. }
    assert (b = true) as ->.
    { destruct b; [done|]. exfalso. clear -E A. revert E A. induction (first_of _ _) as [|k l IH]; [done|].
      cbn [all_contain]. intros E A. destruct (opt_calm cats p k) as [[b Ek]|Ek]; rewrite Ek in E; cbn [mbind res_bind] in E; [|done].
      destruct b; [|by apply (A k); [left|]]. apply IH; [done|]. intros k' Hk'. apply A. by right. }
    apply tag_missing_gone in Hm as (id & Hk & G). apply elem_of_elements in Hk. rewrite th_test. cbn [se_tags].
    by rewrite (first_panics _ (tag_gone tags) _ id (fun k => tag_test_gone tags p k) Hk G).
Qed.
Lemma both_last o cats tags p : valid_search_order o -> both_valid (bad_last o cats tags) cats tags p = Panic ->
  has_options cats (p_sid p) /\ (option_missing cats \/ tag_missing tags /\ has_tags tags (p_sid p)).
Proof.
  intros Hv P. pose proof (both_panic _ _ _ _ (bad_last_valid _ cats tags Hv) P) as M. revert P.
  unfold both_valid. rewrite ch_test. cbn [bad_last se_categories se_tags].
  destruct (all_contain_calm _ (opt_calm cats p) (last_of (opt_gone cats) (elements (ch_active cats)))) as [[b E]|E];
    rewrite E; cbn [mbind res_bind].
  - destruct b; [|done]. rewrite th_test. cbn [se_tags]. intros P.
    assert (T := all_contain_true _ (opt_calm cats p) _ E).
    assert (G : forall key, key ∈ ch_active cats -> opt_test cats p key = Done true).
    { intros key Hk. apply T. by apply (ordered_elem _ _ _ (last_of_valid _)). }
    split; [apply opt_not_false; intros key Hk; rewrite (G key Hk); discriminate|]. right.
    split.
    + destruct M as [M|[M _]]; [|done]. apply option_missing_gone in M as (key & Hk & M). apply (opt_test_gone _ p) in M.
      rewrite (G key Hk) in M. done.
    + apply tag_not_false. intros id Hid. apply elem_of_elements in Hid.
      apply (all_contain_last _ (tag_calm tags p) (tag_gone tags) _ (fun k => tag_test_gone tags p k) P _ Hid).
  - intros _. split.
    + apply opt_not_false. intros key Hk. apply elem_of_elements in Hk.
      apply (all_contain_last _ (opt_calm cats p) (opt_gone cats) _ (fun k => opt_test_gone cats p k) E _ Hk).
    + left. apply (all_contain_panic _ (opt_calm cats p)) in E as (key & Hk & P). apply option_missing_gone. exists key.
      split; [by apply (ordered_elem _ _ _ (last_of_valid (opt_gone cats))) in Hk|by eapply opt_test_gone].
Qed.

(** ** The search *)
(** What is found before any filter. *)
Lemma fresh_ok cl : handlers_ok (ch_new cl) (th_new cl).
Proof. split; intros k Hk; by apply elem_of_empty in Hk. Qed.
Lemma fresh_finds low u o gi cl input : valid_search_order o ->
  exists res, gram_search ngram_index_size (se_rank o) gi (lower low input) = Done res /\
    finds (search low u o (loaded gi cl) input (ch_new cl) (th_new cl) None []) gi (map p_sid (map fst res)).
Proof.
  intros Hv. destruct (filtered_spec low o gi input (ch_new cl) (th_new cl) [] Hv (fresh_ok cl)) as (res & ok & E & I & F).
  exists res. split; [done|]. unfold finds, search. cbn [parse_filters lock_ok loaded s_index_dead s_index]. rewrite F. cbn [snd].
  assert (G : forall l : list product, filter (fun p => ok p = true) l = l); [|by rewrite G].
  induction l as [|p l IH]; [done|]. rewrite filter_cons_True; [by rewrite IH|].
  apply I. split; [intros key cat opt Hk; by apply elem_of_empty in Hk|]. split; [intros id t Hk; by apply elem_of_empty in Hk|]. intros f Hf. by apply elem_of_nil in Hf.
Qed.
Lemma pp_new_inj c l l' : pp_new c l = pp_new c l' -> l = l'.
Proof. by intros [= ->]. Qed.
Lemma search_plain_panic low u o gi cl input cats tags entries filters res : parse_filters entries = Some filters ->
  gram_search ngram_index_size (se_rank o) gi (lower low input) = Done res ->
  (search low u o (loaded gi cl) input cats tags None entries).2 = Panic <->
  exists p, p ∈ map fst res /\ both_valid o cats tags p = Panic.
Proof.
  intros Hp E. unfold search. rewrite Hp. cbn [lock_ok loaded s_index_dead s_index]. unfold search_filtered. rewrite E.
  cbn [mbind res_bind]. destruct (filterR_calm (both_valid o cats tags) (map fst res) (both_calm o cats tags)) as [F C].
  rewrite <- F. destruct C as [[l C]|C]; rewrite C; cbn [mbind res_bind snd]; done.
Qed.
Lemma may_panic low u o gi cl input cats tags entries filters ids : valid_search_order o ->
  parse_filters entries = Some filters ->
  finds (search low u o (loaded gi cl) input (ch_new cl) (th_new cl) None []) gi ids ->
  (exists o', valid_search_order o' /\ se_rank o' = se_rank o /\
     (search low u o' (loaded gi cl) input cats tags None entries).2 = Panic) <->
  exists sid, sid ∈ ids /\ (option_missing cats \/ tag_missing tags /\ has_options cats sid).
Proof.
  intros Hv Hp Hf. destruct (fresh_finds low u o gi cl input Hv) as (res & E & F). unfold finds in *. rewrite F in Hf.
  assert (ids = map p_sid (map fst res)) as -> by (symmetry; apply (pp_new_inj (gi_container gi)); congruence). clear Hf F. split.
  - intros (o' & Hv' & R & P). rewrite <- R in E. apply (search_plain_panic _ _ _ _ _ _ _ _ _ _ _ Hp E) in P as (p & Hin & P).
    exists (p_sid p). split; [by apply elem_of_list_fmap_1|]. by eapply both_panic.
  - intros (sid & Hs & M). apply elem_of_list_fmap in Hs as (p & -> & Hin). exists (bad_first o cats tags).
    split; [by apply bad_first_valid|]. split; [done|]. apply (search_plain_panic _ _ _ _ _ _ _ _ _ _ res Hp); [done|].
    exists p. split; [done|]. by apply both_first.
Qed.
Lemma must_panic low u o gi cl input cats tags entries filters ids : valid_search_order o ->
  parse_filters entries = Some filters ->
  finds (search low u o (loaded gi cl) input (ch_new cl) (th_new cl) None []) gi ids ->
  (forall o', valid_search_order o' -> se_rank o' = se_rank o ->
     (search low u o' (loaded gi cl) input cats tags None entries).2 = Panic) <->
  exists sid, sid ∈ ids /\ has_options cats sid /\ (option_missing cats \/ tag_missing tags /\ has_tags tags sid).
Proof.
  intros Hv Hp Hf. destruct (fresh_finds low u o gi cl input Hv) as (res & E & F). unfold finds in *. rewrite F in Hf.
  assert (ids = map p_sid (map fst res)) as -> by (symmetry; apply (pp_new_inj (gi_container gi)); congruence). clear Hf F. split.
  - intros H. specialize (H _ (bad_last_valid _ cats tags Hv) eq_refl).
    apply (search_plain_panic _ _ _ _ _ _ _ _ _ _ res Hp) in H; [|done]. destruct H as (p & Hin & P).
    exists (p_sid p). split; [by apply elem_of_list_fmap_1|]. by eapply both_last.
  - intros (sid & Hs & Ho & M) o' Hv' R. apply elem_of_list_fmap in Hs as (p & -> & Hin). rewrite <- R in E.
    apply (search_plain_panic _ _ _ _ _ _ _ _ _ _ res Hp E). exists p. split; [done|]. by apply both_must.
Qed.

(** With an order. *)
Lemma sort_panics table l : sort_by_order table l = Panic <-> not_ranked table l.
Proof.
  unfold not_ranked. destruct l as [|a [|b l]].
  - split; [done|]. intros [H _]. simpl in H. lia.
  - split; [done|]. intros [H _]. simpl in H. lia.
  - set (l0 := a :: b :: l). assert (2 <= length l0)%nat as L by (simpl; lia).
    assert (E : sort_by_order table l0 =
      (keyed ← mapR (fun v => k ← unwrap (getN table v); Done (k, v)) l0;
       Done (map snd (sort_by (fun a b => N.compare a.1 b.1) keyed)))) by reflexivity.
    rewrite E. clear E.
    assert (M : forall l1, (mapR (fun v => k ← unwrap (getN table v); Done (k, v)) l1 = Panic <->
        exists sid, sid ∈ l1 /\ (length table <= N.to_nat sid)%nat) /\
      calm (mapR (fun v => k ← unwrap (getN table v); Done (k, v)) l1)).
    { induction l1 as [|x l1 [IH1 IH2]].
      - split; [|left; eexists; done]. split; [done|]. intros (s & Hs & _). by apply elem_of_nil in Hs.
      - cbn [mapR]. rewrite getN_lookup. destruct (table !! N.to_nat x) as [k|] eqn:K; cbn [unwrap mbind res_bind].
        + destruct IH2 as [[l' E']|E']; rewrite E'; cbn [mbind res_bind].
          * split; [|left; eexists; done]. split; [done|]. intros (s & Hs & Ls). apply elem_of_cons in Hs as [->|Hs].
            { apply lookup_lt_Some in K. lia. }
            exfalso. assert (Done l' = @Panic (list (N * N))); [|done]. rewrite <- E'. apply IH1. eauto.
          * split; [|by right]. split; [|done]. intros _. destruct (proj1 IH1 E') as (s & Hs & Ls). exists s. split; [by right|done].
        + split; [|by right]. split; [|done]. intros _. exists x. split; [left|]. by apply lookup_ge_None. }
    destruct (M l0) as [M1 M2]. split.
    + intros P. split; [done|]. apply M1. destruct M2 as [[k E]|E]; [|done]. rewrite E in P. done.
    + intros [_ H]. apply M1 in H. by rewrite H.
Qed.
Lemma ordered_panic low u o gi cl input cats tags key entries :
  (search low u o (loaded gi cl) input cats tags (Some key) entries).2 = Panic <->
  (search low u o (loaded gi cl) input cats tags None entries).2 = Panic \/
  exists table ids, get_orders (cl_order cl) key = Some table /\
    finds (search low u o (loaded gi cl) input cats tags None entries) gi ids /\ not_ranked table ids.
Proof.
  unfold finds, search. destruct (parse_filters entries) as [filters|].
  2: { split; [done|]. intros [H|(t & i & _ & H & _)]; done. }
  cbn [lock_ok loaded s_index_dead s_index s_classic_dead s_classic].
  destruct (search_filtered low o gi input cats tags filters) as [l| | |]; cbn [snd].
  - cbn [mbind option_bind]. destruct (get_orders (cl_order cl) key) as [table|] eqn:K.
    + pose proof (sort_panics table l) as S. split.
      * intros H. right. exists table, l. split; [done|]. split; [done|]. apply S.
        destruct (sort_by_order table l); done.
      * intros [H|(t & ids & [= <-] & H & N)]; [done|]. assert (ids = l) as -> by (apply (pp_new_inj (gi_container gi)); congruence).
        apply S in N. by rewrite N.
    + split; [done|]. intros [H|(t & i & H & _)]; done.
  - split; [done|]. intros [H|(t & i & _ & H & _)]; done.
  - split; [by left|done].
  - split; [done|]. intros [H|(t & i & _ & H & _)]; done.
Qed.
Lemma ok_no_panic low u o gi cl input cats tags entries : valid_search_order o -> handlers_ok cats tags ->
  (search low u o (loaded gi cl) input cats tags None entries).2 <> Panic.
Proof.
  intros Hv Hok. destruct (parse_filters entries) as [filters|] eqn:Hp.
  - destruct (search_unordered low u o gi cl input cats tags entries filters Hp Hv Hok) as (l & _ & ->). discriminate.
  - unfold search. rewrite Hp. discriminate.
Qed.
Lemma ordered_panic_ok low u o gi cl input cats tags key entries : valid_search_order o -> handlers_ok cats tags ->
  (search low u o (loaded gi cl) input cats tags (Some key) entries).2 = Panic <->
  exists table ids, get_orders (cl_order cl) key = Some table /\
    finds (search low u o (loaded gi cl) input cats tags None entries) gi ids /\ not_ranked table ids.
Proof.
  intros Hv Hok. rewrite ordered_panic. split; [|by right]. intros [H|H]; [|done]. exfalso. by eapply ok_no_panic.
Qed.
