(** How indexing ends, whatever the input: no [RefCell] panics and the counters overflow exactly
    when the texts have 2^32 grams or more. *)
From Verif.model Require Import Base F32 Utf8 Prim Coll Data Gram Indexer.
From Verif.spec Require Import Spec Data_spec Gram_spec Outcome_spec.
From Verif.proofs Require Import Base_facts Sort_facts Float_facts Data_facts Indexer_facts.
From Coq Require Import ZifyBool ZifyNat ZifyN.
Ltac Zify.zify_post_hook ::= Z.div_mod_to_equations.

(** ** Without overflow checks *)
Lemma add_unchecked P x y : overflow_checks P = false -> exists z, add_bits P 32 x y = Done z.
Proof. intros H. unfold add_bits. destruct (N.ltb _ _); [eauto|]. rewrite H. eauto. Qed.
Lemma fold_unchecked P l : overflow_checks P = false -> forall acc,
  exists z, foldM (fun a b => add_bits P 32 a b) l acc = Done z.
Proof.
  intros H. induction l as [|x l IH]; intros acc; cbn [foldM]; [eauto|].
  destruct (add_unchecked P acc x H) as (z & ->). cbn [mbind res_bind]. apply IH.
Qed.
Lemma mapR_total {A B} (f : A -> res B) l : (forall x, x ∈ l -> exists y, f x = Done y) -> exists k, mapR f l = Done k.
Proof.
  induction l as [|x l IH]; intros H; cbn [mapR]; [eauto|].
  destruct (H x) as (y & ->); [left|]. cbn [mbind res_bind].
  destruct IH as (k & ->); [intros z Hz; apply H; by right|]. cbn [mbind res_bind]. eauto.
Qed.

Section freeze.
Context (o : addr -> order_of (N * addr)) (Ho : forall a, valid_order (o a)).
Context (n : nat) (texts : list (list N)) (h : heap) (root : gmap N addr) (loc : list N -> option addr).
Context (R : trie_rep h root loc (counts n texts)).
Lemma immutalize_total : forall fuel w a parent, loc w = Some a -> (n < length w + fuel)%nat ->
  exists nd, immutalize o h fuel a parent = Done nd.
Proof.
  induction fuel as [|fuel IH]; intros w a parent Ha Hf.
  - destruct (loc_pos _ _ _ _ _ w a R Ha). lia.
  - destruct (tr_node _ _ _ _ R w a Ha) as (nd & Hn & _ & _ & Hi).
    cbn [immutalize]. rewrite Hn. cbn [unwrap mbind res_bind].
    destruct (mapR_total (fun '(_, v) => immutalize o h fuel v (m_occ nd)) (o a (map_to_list (m_items nd)))) as (k & ->).
    + intros [g v] Hgv. rewrite (Ho a) in Hgv. apply elem_of_map_to_list in Hgv. rewrite Hi in Hgv.
      apply (IH (w ++ [g])); [done|]. rewrite app_length. simpl. lia.
    + cbn [mbind res_bind]. eauto.
Qed.
End freeze.

(** After the loop over the feeds: the sum of the roots, and then freezing cannot fail. *)
Lemma finish n o source st : (1 <= n)%nat -> valid_build_order o -> done_inv n source st ->
  exists occs, mapR (fun '(_, a) => nd ← unwrap (h_nodes (i_heap st) !! a); Done (m_occ nd))
      (bo_root o (map_to_list (i_root st))) = Done occs /\
    ((forall w, counts n (map snd source) w < 2 ^ 32) -> sum_N occs = total_grams (map snd source)) /\
    (forall total, exists roots, mapR (fun '(k, v) => nd ← immutalize (bo_children o) (i_heap st) (S n) v total; Done (k, nd))
      (bo_root o (map_to_list (i_root st))) = Done roots).
Proof.
  intros Hn (Hoc & Hor & _) [(loc & R & C) _].
  set (texts := map snd source) in *. set (cnt := counts n texts) in *.
  set (rl := bo_root o (map_to_list (i_root st))).
  assert (Hrl : forall g a, (g, a) ∈ rl <-> loc [g] = Some a).
  { intros g a. unfold rl. rewrite (Hor _), elem_of_map_to_list. by rewrite (tr_root _ _ _ _ R). }
  exists (map (fun '(g, _) => cnt [g] mod 2 ^ 32) rl). split; [|split].
  - apply (mapR_pure _ (fun '(g, _) => cnt [g] mod 2 ^ 32)).
    intros [g a] Hga%Hrl. destruct (tr_node _ _ _ _ R _ _ Hga) as (nd & Hnd & _ & Ho & _).
    rewrite Hnd. cbn [unwrap mbind res_bind]. by rewrite Ho.
  - intros Hs. rewrite <- (total_roots n texts (map fst rl)); [|done| |].
    + rewrite map_map. f_equal. apply map_ext. intros [g a]. simpl. by apply N.mod_small.
    + unfold rl. rewrite (Hor _). apply NoDup_fst_map_to_list.
    + intros g. rewrite elem_of_list_fmap. split.
      * intros ([g' a] & -> & Hga%Hrl). simpl. by eapply loc_pos.
      * intros Hg. destruct (loc [g]) as [a|] eqn:Ha.
        -- exists (g, a). split; [done|]. by apply Hrl.
        -- apply (tr_count _ _ _ _ R) in Ha. fold cnt in Hg. lia.
  - intros total. apply mapR_total. intros [g a] Hga%Hrl.
    destruct (immutalize_total (bo_children o) Hoc n texts _ _ loc R (S n) [g] a total) as (nd & ->); [done|simpl; lia|].
    cbn [mbind res_bind]. eauto.
Qed.
Lemma index_unchecked P n o source pc : overflow_checks P = false -> (1 <= n)%nat -> valid_build_order o ->
  exists gi, index_from P n o source pc = Done gi.
Proof.
  intros Hp Hn Ho. unfold index_from.
  destruct (index_feeds_spec P n source [] istate_init Hn (done_init n)) as (st & -> & D); [by left|].
  cbn [mbind res_bind]. destruct (finish n o source st Hn Ho D) as (occs & -> & _ & F). cbn [mbind res_bind].
  destruct (fold_unchecked P occs Hp 0) as (total & ->). cbn [mbind res_bind].
  destruct (F total) as (roots & ->). cbn [mbind res_bind]. eauto.
Qed.

(** ** With overflow checks *)
Section checked.
Context (P : platform) (HP : overflow_checks P = true).
Lemma bump_full borrowed h root loc c w a : a ∉ borrowed -> trie_rep h root loc c -> loc w = Some a -> c w < 2 ^ 32 ->
  bump P borrowed h a = Panic \/ c w + 1 < 2 ^ 32.
Proof.
  intros Hb R Ha Hc. destruct (N.lt_ge_cases (c w + 1) (2 ^ 32)) as [L|L]; [by right|left].
  unfold bump, borrow_mut. rewrite bool_decide_false by done. cbn [mbind res_bind].
  destruct (tr_node _ _ _ _ R w a Ha) as (nd & Hn & _ & Ho & _). rewrite Hn. cbn [unwrap mbind res_bind].
  rewrite Ho, N.mod_small by done. unfold add_bits. destruct (N.ltb_spec (c w + 1) (2 ^ 32)); [lia|]. by rewrite HP.
Qed.
Lemma touch_root_full h root loc c g : trie_rep h root loc c -> (forall w, c w < 2 ^ 32) ->
  touch_root P h root g = Panic \/ c [g] + 1 < 2 ^ 32.
Proof.
  intros R Hc. unfold touch_root. rewrite (tr_root _ _ _ _ R). destruct (loc [g]) as [a|] eqn:Ha.
  - destruct (bump_full [] h root loc c [g] a) as [-> | L]; [apply not_elem_of_nil|done..|by left|by right].
  - apply (tr_count _ _ _ _ R) in Ha. right. rewrite Ha. done.
Qed.
Lemma touch_child_full h root loc c w parent g : trie_rep h root loc c -> loc w = Some parent -> (forall w, c w < 2 ^ 32) ->
  touch_child P h parent g = Panic \/ c (w ++ [g]) + 1 < 2 ^ 32.
Proof.
  intros R Hw Hc. unfold touch_child, borrow_mut at 1. rewrite bool_decide_false by apply not_elem_of_nil.
  cbn [mbind res_bind]. destruct (tr_node _ _ _ _ R w parent Hw) as (nd & Hn & _ & _ & Hi).
  rewrite Hn. cbn [unwrap mbind res_bind]. rewrite Hi. destruct (loc (w ++ [g])) as [a|] eqn:Ha.
  - destruct (bump_full [parent] h root loc c (w ++ [g]) a) as [-> | L]; [|done..|by left|by right].
    intros ->%elem_of_list_singleton. pose proof (tr_inj _ _ _ _ R _ _ _ Ha Hw) as E.
    apply (f_equal length) in E. rewrite app_length in E. simpl in E. lia.
  - apply (tr_count _ _ _ _ R) in Ha. right. rewrite Ha. done.
Qed.
Lemma bump_one c w : (forall v, c v < 2 ^ 32) -> c w + 1 < 2 ^ 32 -> forall v, bumps c [w] v < 2 ^ 32.
Proof.
  intros H L v. unfold bumps. rewrite count_cons, count_nil. specialize (H v).
  destruct (decide (w = v)) as [<-|]; lia.
Qed.
Lemma advance_full root g : forall queue ws h loc c, trie_rep h root loc c -> closed loc ->
  Forall2 (fun w a => loc w = Some a) ws queue -> (forall w, c w < 2 ^ 32) ->
  advance P h queue g = Panic \/ (forall w, bumps c (map (fun w => w ++ [g]) ws) w < 2 ^ 32).
Proof.
  induction queue as [|q queue IH]; intros ws h loc c R C F B.
  - apply Forall2_nil_inv_r in F as ->. right. intros w. unfold bumps. simpl. rewrite count_nil. specialize (B w). lia.
  - apply Forall2_cons_inv_r in F as (w & ws' & Hq & F & ->). cbn [map advance].
    destruct (touch_child_full h root loc c w q g R Hq B) as [-> | L]; [by left|].
    destruct (touch_child_spec P h root loc c w q g) as (h1 & a & loc1 & E1 & R1 & C1 & X1 & L1); [done..|by right|].
    rewrite E1. cbn [mbind res_bind].
    destruct (IH ws' h1 loc1 (bumps c [w ++ [g]])) as [-> | G]; [done|done| |by apply bump_one|by left|].
    + eapply Forall2_impl; [exact F|]. intros v b Hv. by apply X1.
    + right. intros v. rewrite bumps_cons. apply G.
Qed.
Lemma index_gram_full n source p t st g : (1 <= n)%nat -> feed_inv n source p t st ->
  (forall w, counts n (map snd source ++ [t]) w < 2 ^ 32) ->
  index_gram P n p st g = Panic \/ (forall w, counts n (map snd source ++ [t ++ [g]]) w < 2 ^ 32).
Proof.
  intros Hn [(loc & R & C & Q) HL HD] B. unfold index_gram.
  destruct (touch_root_full _ _ loc _ g R B) as [-> | L]; [by left|].
  destruct (touch_root_spec P _ _ loc _ g R C) as (h1 & root1 & a & loc1 & E1 & R1 & C1 & X1 & L1); [by right|].
  rewrite E1. cbn [mbind res_bind].
  destruct (advance_full root1 g (i_queue st) (qpaths n t) h1 loc1 _ R1 C1) as [-> | G].
  { eapply Forall2_impl; [exact Q|]. intros w b Hb. by apply X1. }
  { by apply bump_one. }
  - by left.
  - right. intros w. rewrite counts_snoc by done. unfold touched. rewrite bumps_cons. apply G.
Qed.
Lemma index_grams_full n source p : forall grams t st, (1 <= n)%nat -> feed_inv n source p t st ->
  (forall w, counts n (map snd source ++ [t]) w < 2 ^ 32) ->
  foldM (index_gram P n p) grams st = Panic \/ (forall w, counts n (map snd source ++ [t ++ grams]) w < 2 ^ 32).
Proof.
  induction grams as [|g grams IH]; intros t st Hn I B.
  - right. by rewrite app_nil_r.
  - cbn [foldM]. destruct (index_gram_full n source p t st g Hn I B) as [-> | B1]; [by left|].
    destruct (index_gram_spec P n source p t st g Hn I) as (st1 & E1 & I1); [by right|].
    rewrite E1. cbn [mbind res_bind].
    destruct (IH (t ++ [g]) st1 Hn I1 B1) as [-> | B2]; [by left|]. right. by rewrite <- app_assoc in B2.
Qed.
Lemma index_feed_full n source p grams st : (1 <= n)%nat -> done_inv n source st ->
  (forall w, counts n (map snd source) w < 2 ^ 32) ->
  index_feed P n st (p, grams) = Panic \/ (forall w, counts n (map snd source ++ [grams]) w < 2 ^ 32).
Proof.
  intros Hn [(loc & R & C) HD] B. unfold index_feed.
  apply (index_grams_full n source p grams []); [done| |intros w; rewrite counts_nil_text; apply B].
  split.
  - exists loc. split; [|split; [done|]].
    + eapply trie_rep_ext; [|exact R]. intros w. symmetry. apply counts_nil_text.
    + unfold qpaths. simpl. rewrite Nat.min_0_r. constructor.
  - unfold lookback_of. simpl. rewrite app_nil_r. done.
  - intros key. rewrite owners_snoc. simpl. rewrite app_nil_r. apply HD.
Qed.
Lemma index_feeds_full n : forall todo source st, (1 <= n)%nat -> done_inv n source st ->
  (forall w, counts n (map snd source) w < 2 ^ 32) ->
  foldM (index_feed P n) todo st = Panic \/ (forall w, counts n (map snd (source ++ todo)) w < 2 ^ 32).
Proof.
  induction todo as [|[p grams] todo IH]; intros source st Hn I B.
  - right. by rewrite app_nil_r.
  - cbn [foldM]. destruct (index_feed_full n source p grams st Hn I B) as [-> | B1]; [by left|].
    destruct (index_feed_spec P n source p grams st Hn I) as (st1 & E1 & I1); [by right|].
    rewrite E1. cbn [mbind res_bind].
    destruct (IH (source ++ [(p, grams)]) st1 Hn I1) as [-> | B2].
    + by rewrite map_app.
    + by left.
    + right. by rewrite <- app_assoc in B2.
Qed.
Lemma fold_full l : forall acc, acc < 2 ^ 32 -> 2 ^ 32 <= acc + sum_N l -> foldM (fun a b => add_bits P 32 a b) l acc = Panic.
Proof.
  induction l as [|x l IH]; intros acc Ha Hs; unfold sum_N in *; cbn [foldM foldr] in *; [lia|].
  assert (add_bits P 32 acc x = if acc + x <? 2 ^ 32 then Done (acc + x) else Panic) as ->
    by (unfold add_bits; by rewrite HP).
  destruct (N.ltb_spec (acc + x) (2 ^ 32)) as [L|L]; cbn [mbind res_bind]; [apply IH; lia|done].
Qed.
Lemma index_overflow n o source pc : (1 <= n)%nat -> valid_build_order o -> 2 ^ 32 <= total_grams (map snd source) ->
  index_from P n o source pc = Panic.
Proof.
  intros Hn Ho Hlim. unfold index_from.
  destruct (index_feeds_full n source [] istate_init Hn (done_init n)) as [-> | B].
  { intros w. unfold counts. case_bool_decide; done. }
  { done. }
  destruct (index_feeds_spec P n source [] istate_init Hn (done_init n)) as (st & -> & D); [by right|].
  cbn [mbind res_bind app] in *. destruct (finish n o source st Hn Ho D) as (occs & -> & S & F). cbn [mbind res_bind].
  rewrite fold_full; [done|done|]. rewrite (S B). lia.
Qed.
End checked.

(** ** Both, and the gram size zero *)
Lemma index_outcomes P n o source pc : (1 <= n)%nat -> valid_build_order o ->
  (overflows P (map snd source) -> index_from P n o source pc = Panic) /\
  (~ overflows P (map snd source) -> exists gi, index_from P n o source pc = Done gi).
Proof.
  intros Hn Ho. split.
  - intros [HP H]. by apply index_overflow.
  - intros H. destruct (overflow_checks P) eqn:HP; [|by apply index_unchecked].
    destruct (index_from_spec P n o source pc Hn Ho) as (gi & E & _); [|eauto].
    apply N.nle_gt. intros L. by apply H.
Qed.
Lemma empty_feeds P source : Forall (fun s => snd s = []) source -> forall st, i_heap st = Heap ∅ 0 -> i_root st = ∅ -> i_data st = ∅ ->
  exists st', foldM (index_feed P 0) source st = Done st' /\ i_heap st' = Heap ∅ 0 /\ i_root st' = ∅ /\ i_data st' = ∅.
Proof.
  induction 1 as [|[p t] source Ht _ IH]; intros st H1 H2 H3; cbn [foldM]; [eauto|].
  simpl in Ht. subst t.
  assert (index_feed P 0 st (p, []) = Done (IState (i_heap st) (i_root st) (i_data st) [] [])) as -> by done.
  cbn [mbind res_bind]. by apply IH.
Qed.
Lemma index_zero P o source pc : valid_build_order o ->
  ((exists p t, (p, t) ∈ source /\ t <> []) -> index_from P 0 o source pc = Panic) /\
  (~ (exists p t, (p, t) ∈ source /\ t <> []) -> index_from P 0 o source pc = Done (GramIndex ∅ ∅ pc)).
Proof.
  intros (_ & Ho & _). unfold index_from.
  assert (Hi : i_heap istate_init = Heap ∅ 0 /\ i_root istate_init = ∅ /\ i_data istate_init = ∅) by done. split.
  - intros (p & t & Hin & Ht).
    assert (foldM (index_feed P 0) source istate_init = Panic) as ->; [|done].
    revert Hin Hi. generalize istate_init. induction source as [|[p' t'] source IH]; intros st Hin (H1 & H2 & H3).
    { by apply elem_of_nil in Hin. }
    cbn [foldM]. destruct t' as [|g t'].
    + apply elem_of_cons in Hin as [[= -> ->]|Hin]; [done|].
      assert (index_feed P 0 st (p', []) = Done (IState (i_heap st) (i_root st) (i_data st) [] [])) as -> by done.
      cbn [mbind res_bind]. by apply IH.
    + assert (index_feed P 0 st (p', g :: t') = Panic) as ->; [|done].
      unfold index_feed. cbn [foldM]. unfold index_gram, touch_root. cbn [i_heap i_root i_queue].
      rewrite H1, H2, lookup_empty. done.
  - intros Hne. destruct (empty_feeds P source) with (st := istate_init) as (st & -> & H1 & H2 & H3); [|done..|].
    { apply Forall_forall. intros [p [|x t]] Hin; [done|]. exfalso. apply Hne. by exists p, (x :: t). }
    cbn [mbind res_bind]. rewrite H1, H2, H3, map_to_list_empty.
    assert (bo_root o [] = []) as -> by (apply Permutation_nil; symmetry; apply Ho).
    cbn [mapR mbind res_bind foldM]. by rewrite map_filter_empty, fmap_empty.
Qed.
