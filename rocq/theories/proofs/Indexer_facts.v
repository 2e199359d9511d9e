(** The trie and the posting lists built by [index_from]. *)
From Verif.model Require Import Base F32 Utf8 Prim Coll Data Gram Indexer.
From Verif.spec Require Import Spec Gram_spec.
From Verif.proofs Require Import Base_facts Sort_facts Float_facts.

(** ** Occurrences *)
Lemma occurrences_snoc w t g : w <> [] ->
  occurrences w (t ++ [g]) =
  occurrences w t + (if bool_decide (w `suffix_of` t ++ [g]) then 1 else 0).
Proof.
  intros Hw. induction t as [|x t IH].
  - simpl. rewrite N.add_0_r.
    rewrite (bool_decide_ext (w `prefix_of` [g]) (w `suffix_of` [g])); [done|].
    split.
    + intros [k Hk]. destruct w as [|y w]; [done|]. injection Hk as -> Hk.
      symmetry in Hk. apply app_eq_nil in Hk as [-> ->]. by exists [].
    + intros [k Hk]. destruct k as [|y k].
      * exists []. by rewrite app_nil_r.
      * exfalso. injection Hk as -> Hk. symmetry in Hk. apply app_eq_nil in Hk as [_ ->]. done.
  - cbn [occurrences app] in *. rewrite IH.
    assert (A : w `prefix_of` x :: t ++ [g] <-> w `prefix_of` x :: t \/ w = x :: t ++ [g]).
    { split.
      - intros [k Hk]. destruct k as [|z k _] using rev_ind.
        + right. by rewrite app_nil_r in Hk.
        + left. rewrite app_assoc in Hk. rewrite app_comm_cons in Hk.
          apply app_inj_tail in Hk as [Hk _]. by exists k.
      - intros [[k Hk]| ->]; [|done]. exists (k ++ [g]). by rewrite app_comm_cons, Hk, app_assoc. }
    assert (B : w `suffix_of` x :: t ++ [g] <-> w `suffix_of` t ++ [g] \/ w = x :: t ++ [g]).
    { split.
      - intros [k Hk]. destruct k as [|z k]; [by right|]. left. injection Hk as _ Hk. by exists k.
      - intros [[k Hk]| ->]; [|done]. exists (x :: k). by rewrite Hk. }
    assert (NA : ~ (w `prefix_of` x :: t /\ w = x :: t ++ [g])).
    { intros [[k Hk] ->]. apply (f_equal length) in Hk. simpl in Hk.
      rewrite !app_length in Hk. simpl in Hk. lia. }
    assert (NB : ~ (w `suffix_of` t ++ [g] /\ w = x :: t ++ [g])).
    { intros [[k Hk] ->]. apply (f_equal length) in Hk. rewrite !app_length in Hk. simpl in Hk.
      rewrite app_length in Hk. simpl in Hk. lia. }
    repeat case_bool_decide; try lia; exfalso; tauto.
Qed.
Lemma occurrences_le w t : occurrences w t <= lenN t.
Proof.
  induction t as [|x t IH]; simpl; [done|]. rewrite lenN_cons. case_bool_decide; lia.
Qed.
Lemma occurrences_pos w t : w <> [] -> 0 < occurrences w t <-> occurs w t.
Proof.
  intros Hw. induction t as [|x t IH].
  - simpl. split; [lia|]. intros (u & v & E). symmetry in E.
    apply app_eq_nil in E as [_ E]. apply app_eq_nil in E as [E _]. done.
  - cbn [occurrences]. case_bool_decide as Hd.
    + split; [|lia]. intros _. destruct Hd as [k Hk]. by exists [], k.
    + rewrite N.add_0_l, IH. split.
      * intros (u & v & E). exists (x :: u), v. by rewrite E.
      * intros (u & v & E). destruct u as [|y u].
        -- destruct Hd. by exists v.
        -- injection E as _ E. by exists u, v.
Qed.
(** Dropping the last gram of a path can only make it more frequent. *)
Lemma occurrences_parent w g t : w <> [] -> occurrences (w ++ [g]) t <= occurrences w t.
Proof.
  intros Hw. induction t as [|x t IH]; simpl; [done|].
  repeat case_bool_decide; try lia. exfalso.
  match goal with H : ~ _ |- _ => apply H end.
  etransitivity; [|eassumption]. by exists [g].
Qed.
Lemma sum_N_app l1 l2 : sum_N (l1 ++ l2) = sum_N l1 + sum_N l2.
Proof. induction l1 as [|x l1 IH]; simpl; [done|]. unfold sum_N in *. simpl. lia. Qed.
Lemma sum_N_le {A} (f g : A -> N) l : (forall x, f x <= g x) -> sum_N (map f l) <= sum_N (map g l).
Proof.
  intros H. induction l as [|x l IH]; simpl; [done|]. unfold sum_N in *. simpl. pose proof (H x). lia.
Qed.
Lemma total_occurrences_le w texts : total_occurrences w texts <= total_grams texts.
Proof. apply sum_N_le. intros. apply occurrences_le. Qed.
Lemma sum_N_pos {A} (f : A -> N) l : 0 < sum_N (map f l) <-> exists x, x ∈ l /\ 0 < f x.
Proof.
  induction l as [|x l IH]; simpl.
  - split; [unfold sum_N; simpl; lia|]. intros (x & Hx & _). by apply elem_of_nil in Hx.
  - unfold sum_N in *. simpl. split.
    + intros H. destruct (N.eq_dec (f x) 0) as [E|E].
      * destruct (proj1 IH) as (y & Hy & Py); [lia|]. exists y. split; [by right|done].
      * exists x. split; [left|lia].
    + intros (y & [->|Hy]%elem_of_cons & Py); [lia|].
      assert (0 < foldr N.add 0 (map f l)) by (apply IH; eauto). lia.
Qed.
Lemma total_occurrences_pos w texts : w <> [] ->
  0 < total_occurrences w texts <-> exists t, t ∈ texts /\ occurs w t.
Proof.
  intros Hw. unfold total_occurrences. rewrite sum_N_pos.
  split; intros (t & Ht & H); exists t; (split; [done|]); by apply occurrences_pos.
Qed.

(** ** The heap as a trie *)
(** [loc w] is the address of the node at path [w], [c w] how often it was met; the counter may
    have wrapped around. *)
Record trie_rep (h : heap) (root : gmap N addr) (loc : list N -> option addr) (c : list N -> N)
  : Prop := {
  tr_nil : loc [] = None;
  tr_root : forall g, root !! g = loc [g];
  tr_node : forall w a, loc w = Some a -> exists nd, h_nodes h !! a = Some nd /\
    last w = Some (m_item nd) /\ m_occ nd = c w mod 2 ^ 32 /\ forall g, m_items nd !! g = loc (w ++ [g]);
  tr_inj : forall w w' a, loc w = Some a -> loc w' = Some a -> w = w';
  tr_fresh : forall w a, loc w = Some a -> a < h_next h;
  tr_count : forall w, loc w = None <-> c w = 0;
}.
Definition extends (loc loc' : list N -> option addr) : Prop :=
  forall w a, loc w = Some a -> loc' w = Some a.

(** Counters after touching the paths [ws]. *)
Definition count (w : list N) (ws : list (list N)) : N := lenN (filter (fun v => v = w) ws).
Definition bumps (c : list N -> N) (ws : list (list N)) : list N -> N := fun w => c w + count w ws.

Lemma count_nil w : count w [] = 0.
Proof. done. Qed.
Lemma count_cons w v ws : count w (v :: ws) = (if decide (v = w) then 1 else 0) + count w ws.
Proof. unfold count. rewrite filter_cons. destruct (decide (v = w)); rewrite ?lenN_cons; lia. Qed.
Lemma count_app w ws1 ws2 : count w (ws1 ++ ws2) = count w ws1 + count w ws2.
Proof. unfold count. by rewrite filter_app, lenN_app. Qed.
Lemma bumps_cons c w ws : forall v, bumps c (w :: ws) v = bumps (bumps c [w]) ws v.
Proof. intros v. unfold bumps. rewrite !count_cons, count_nil. lia. Qed.

Lemma trie_rep_ext h root loc c c' : (forall w, c w = c' w) -> trie_rep h root loc c -> trie_rep h root loc c'.
Proof.
  intros E [? ? N ? ? C]. split; try done.
  - intros w a Hw. rewrite <- E. by apply N.
  - intros w. rewrite <- E. apply C.
Qed.

Lemma add_wrap P x : overflow_checks P = false \/ x + 1 < 2 ^ 32 ->
  add_bits P 32 (x mod 2 ^ 32) 1 = Done ((x + 1) mod 2 ^ 32).
Proof.
  intros H. unfold add_bits. destruct (N.ltb_spec (x mod 2 ^ 32 + 1) (2 ^ 32)) as [L|L].
  - by rewrite <- N.add_mod_idemp_l, (N.mod_small (_ + 1)) by done.
  - destruct H as [->|H].
    + by rewrite N.add_mod_idemp_l.
    + rewrite N.mod_small in L by lia. lia.
Qed.
Lemma bump_spec P borrowed h root loc c w a : a ∉ borrowed ->
  trie_rep h root loc c -> loc w = Some a -> overflow_checks P = false \/ c w + 1 < 2 ^ 32 ->
  exists h', bump P borrowed h a = Done h' /\ trie_rep h' root loc (bumps c [w]).
Proof.
  intros Hb0 R Ha Hc. destruct (tr_node _ _ _ _ R w a Ha) as (nd & Hn & Hl & Ho & Hi).
  unfold bump, borrow_mut. rewrite bool_decide_eq_false_2 by done. cbn [mbind res_bind]. rewrite Hn. cbn [unwrap mbind res_bind]. rewrite Ho, add_wrap by done. cbn [mbind res_bind].
  eexists. split; [done|].
  assert (Hb : forall v, bumps c [w] v = c v + if decide (w = v) then 1 else 0).
  { intros v. unfold bumps. rewrite count_cons, count_nil. lia. }
  split.
  - apply R.
  - apply R.
  - intros v b Hv. destruct (decide (w = v)) as [<-|Hne].
    + rewrite Ha in Hv. injection Hv as <-. cbn [h_nodes]. rewrite lookup_insert.
      eexists. split; [done|]. cbn [m_item m_occ m_items]. split; [done|]. split; [|done].
      rewrite Hb, decide_True by done. done.
    + destruct (tr_node _ _ _ _ R v b Hv) as (nd' & Hn' & Hl' & Ho' & Hi').
      cbn [h_nodes]. rewrite lookup_insert_ne.
      * exists nd'. split; [done|]. split; [done|]. split; [|done].
        by rewrite Hb, decide_False, N.add_0_r by done.
      * intros <-. apply Hne. by eapply (tr_inj _ _ _ _ R).
  - apply R.
  - apply R.
  - intros v. rewrite Hb. destruct (decide (w = v)) as [<-|Hne].
    + rewrite Ha. split; [done|lia].
    + rewrite N.add_0_r. apply R.
Qed.

Definition loc_add (loc : list N -> option addr) (w : list N) (a : addr) : list N -> option addr :=
  fun v => if decide (v = w) then Some a else loc v.

Lemma extends_refl loc : extends loc loc.
Proof. by intros w a. Qed.
Lemma extends_trans l1 l2 l3 : extends l1 l2 -> extends l2 l3 -> extends l1 l3.
Proof. intros H1 H2 w a H. by apply H2, H1. Qed.
Lemma extends_add loc w a : loc w = None -> extends loc (loc_add loc w a).
Proof. intros H v b Hv. unfold loc_add. destruct (decide (v = w)) as [->|]; [congruence|done]. Qed.

(** A path whose parent exists and that is absent gets a fresh node. *)
Lemma single_bump c w v : bumps c [w] v = c v + if decide (w = v) then 1 else 0.
Proof. unfold bumps. rewrite count_cons, count_nil. lia. Qed.

Lemma no_child h root loc c w g : trie_rep h root loc c -> loc w = None -> w <> [] ->
  (forall v a, loc (v ++ [g]) = Some a -> v = [] \/ exists b, loc v = Some b) ->
  loc (w ++ [g]) = None.
Proof.
  intros R Hw Hne Hp. destruct (loc (w ++ [g])) as [a|] eqn:E; [|done].
  destruct (Hp w a E) as [->|[b Hb]]; [done|congruence].
Qed.

(** Every node but a root node has a parent. *)
Definition closed (loc : list N -> option addr) : Prop :=
  forall v g a, loc (v ++ [g]) = Some a -> v = [] \/ exists b, loc v = Some b.
Lemma closed_add loc w g a : closed loc -> (w = [] \/ exists b, loc w = Some b) ->
  closed (loc_add loc (w ++ [g]) a).
Proof.
  intros C Hw v g' b. unfold loc_add.
  destruct (decide (v ++ [g'] = w ++ [g])) as [E|E].
  - apply app_inj_tail in E as [-> ->]. intros _.
    destruct Hw as [->|[b' Hb']]; [by left|right].
    destruct (decide (w = w ++ [g])); eauto.
  - intros H. destruct (C v g' b H) as [->|[b' Hb']]; [by left|right].
    destruct (decide (v = w ++ [g])); eauto.
Qed.

Lemma touch_root_spec P h root loc c g :
  trie_rep h root loc c -> closed loc -> overflow_checks P = false \/ c [g] + 1 < 2 ^ 32 ->
  exists h' root' a loc', touch_root P h root g = Done (h', root', a) /\
    trie_rep h' root' loc' (bumps c [[g]]) /\ closed loc' /\ extends loc loc' /\ loc' [g] = Some a.
Proof.
  intros R C Hc. unfold touch_root. rewrite (tr_root _ _ _ _ R).
  destruct (loc [g]) as [a|] eqn:E.
  - destruct (bump_spec P [] h root loc c [g] a (not_elem_of_nil a) R E Hc) as (h' & -> & R').
    cbn [mbind res_bind]. exists h', root, a, loc. split; [done|]. split; [done|].
    split; [done|]. split; [apply extends_refl|done].
  - unfold mnode_new. set (a := h_next h).
    exists (Heap (<[a:=MNode g 1 ∅]> (h_nodes h)) (a + 1)), (<[g := a]> root), a, (loc_add loc [g] a).
    split; [done|].
    assert (Hfr : forall w b, loc w = Some b -> a <> b).
    { intros w b Hb. pose proof (tr_fresh _ _ _ _ R w b Hb). unfold a. lia. }
    split; [|split; [|split]].
    + split.
      * unfold loc_add. rewrite decide_False by done. apply R.
      * intros g'. unfold loc_add. destruct (decide ([g'] = [g])) as [[= ->]|Hne].
        -- by rewrite lookup_insert.
        -- rewrite lookup_insert_ne by congruence. apply R.
      * intros w b. unfold loc_add at 1. destruct (decide (w = [g])) as [->|Hne].
        -- intros [= <-]. cbn [h_nodes]. rewrite lookup_insert. eexists. split; [done|].
           cbn [m_item m_occ m_items]. split; [done|]. split.
           ++ rewrite single_bump, decide_True by done.
              apply (tr_count _ _ _ _ R) in E. lia.
           ++ intros g'. unfold loc_add. rewrite decide_False by done.
              rewrite lookup_empty. symmetry. eapply no_child; [done|done|done|].
              intros v b Hb. by eapply C.
        -- intros Hb. destruct (tr_node _ _ _ _ R w b Hb) as (nd & Hn & Hl & Ho & Hi).
           cbn [h_nodes]. rewrite lookup_insert_ne by by eapply Hfr.
           exists nd. split; [done|]. split; [done|]. split.
           ++ rewrite single_bump, decide_False by done. lia.
           ++ intros g'. rewrite Hi. unfold loc_add. rewrite decide_False; [done|].
              intros Heq. apply (f_equal length) in Heq. rewrite app_length in Heq. simpl in Heq.
              destruct w; [|simpl in Heq; lia]. rewrite (tr_nil _ _ _ _ R) in Hb. done.
      * intros w w' b. unfold loc_add.
        destruct (decide (w = [g])) as [->|], (decide (w' = [g])) as [->|]; intros H1 H2.
        -- done.
        -- injection H1 as <-. by destruct (Hfr _ _ H2).
        -- injection H2 as <-. by destruct (Hfr _ _ H1).
        -- by eapply (tr_inj _ _ _ _ R).
      * intros w b. unfold loc_add. cbn [h_next]. destruct (decide (w = [g])).
        -- intros [= <-]. lia.
        -- intros H. pose proof (tr_fresh _ _ _ _ R w b H). unfold a. lia.
      * intros w. unfold loc_add. rewrite single_bump. destruct (decide (w = [g])) as [->|Hne].
        -- rewrite decide_True by done. split; [done|lia].
        -- rewrite decide_False by done. rewrite N.add_0_r. apply R.
    + apply (closed_add loc [] g a C). by left.
    + by apply extends_add.
    + unfold loc_add. by rewrite decide_True.
Qed.

Lemma touch_child_spec P h root loc c w parent g :
  trie_rep h root loc c -> closed loc -> loc w = Some parent -> overflow_checks P = false \/ c (w ++ [g]) + 1 < 2 ^ 32 ->
  exists h' a loc', touch_child P h parent g = Done (h', a) /\
    trie_rep h' root loc' (bumps c [w ++ [g]]) /\ closed loc' /\ extends loc loc' /\
    loc' (w ++ [g]) = Some a.
Proof.
  intros R C Hw Hc. destruct (tr_node _ _ _ _ R w parent Hw) as (nd & Hn & Hl & Ho & Hi).
  unfold touch_child, borrow_mut at 1. rewrite bool_decide_eq_false_2 by apply not_elem_of_nil.
  cbn [mbind res_bind]. rewrite Hn. cbn [unwrap mbind res_bind]. rewrite Hi.
  assert (Hw0 : w <> []) by (intros ->; rewrite (tr_nil _ _ _ _ R) in Hw; done).
  destruct (loc (w ++ [g])) as [a|] eqn:E.
  - assert (Hpa : a ∉ [parent]).
    { intros ->%elem_of_list_singleton. pose proof (tr_inj _ _ _ _ R _ _ _ E Hw) as Heq.
      apply (f_equal length) in Heq. rewrite app_length in Heq. simpl in Heq. lia. }
    destruct (bump_spec P [parent] h root loc c (w ++ [g]) a Hpa R E Hc) as (h' & -> & R').
    cbn [mbind res_bind]. exists h', a, loc. split; [done|]. split; [done|].
    split; [done|]. split; [apply extends_refl|done].
  - unfold mnode_new. set (a := h_next h). cbn [h_nodes h_next].
    eexists _, a, (loc_add loc (w ++ [g]) a). split; [done|].
    assert (Hfr : forall v b, loc v = Some b -> a <> b).
    { intros v b Hb. pose proof (tr_fresh _ _ _ _ R v b Hb). unfold a. lia. }
    assert (Hwg : w ++ [g] <> w).
    { intros Heq. apply (f_equal length) in Heq. rewrite app_length in Heq. simpl in Heq. lia. }
    split; [|split; [|split]].
    + split.
      * unfold loc_add. rewrite decide_False; [apply R|]. intros Heq. symmetry in Heq.
        by apply app_eq_nil in Heq as [_ ?].
      * intros g'. unfold loc_add. rewrite decide_False; [apply R|].
        intros Heq. apply (f_equal length) in Heq. rewrite app_length in Heq. simpl in Heq.
        destruct w; [done|simpl in Heq; lia].
      * intros v b. unfold loc_add at 1. destruct (decide (v = w ++ [g])) as [->|Hne].
        -- intros [= <-]. cbn [h_nodes]. rewrite lookup_insert_ne by (apply not_eq_sym; by eapply Hfr).
           rewrite lookup_insert. eexists. split; [done|].
           cbn [m_item m_occ m_items]. split; [apply last_snoc|]. split.
           ++ rewrite single_bump, decide_True by done.
              apply (tr_count _ _ _ _ R) in E. lia.
           ++ intros g'. unfold loc_add. rewrite decide_False.
              ** rewrite lookup_empty. symmetry. eapply no_child; [done|done| |].
                 { intros Heq. by apply app_eq_nil in Heq as [_ ?]. }
                 intros v b Hb. by eapply C.
              ** intros Heq. apply (f_equal length) in Heq. rewrite !app_length in Heq. simpl in Heq. lia.
        -- intros Hb. cbn [h_nodes]. destruct (decide (v = w)) as [->|Hvw].
           ++ rewrite Hw in Hb. injection Hb as <-. rewrite lookup_insert.
              eexists. split; [done|]. cbn [m_item m_occ m_items]. split; [done|]. split.
              ** rewrite single_bump, decide_False by done. lia.
              ** intros g'. unfold loc_add. destruct (decide (w ++ [g'] = w ++ [g])) as [Heq|Hn'].
                 --- apply app_inj_tail in Heq as [_ ->]. by rewrite lookup_insert.
                 --- rewrite lookup_insert_ne by congruence. apply Hi.
           ++ destruct (tr_node _ _ _ _ R v b Hb) as (nd' & Hn' & Hl' & Ho' & Hi').
              rewrite lookup_insert_ne.
              2:{ intros <-. apply Hvw. by eapply (tr_inj _ _ _ _ R). }
              rewrite lookup_insert_ne by by eapply Hfr.
              exists nd'. split; [done|]. split; [done|]. split.
              ** rewrite single_bump, decide_False by done. lia.
              ** intros g'. rewrite Hi'. unfold loc_add. rewrite decide_False; [done|].
                 intros Heq. by apply app_inj_tail in Heq as [-> _].
      * intros v v' b. unfold loc_add.
        destruct (decide (v = w ++ [g])) as [->|], (decide (v' = w ++ [g])) as [->|]; intros H1 H2.
        -- done.
        -- injection H1 as <-. by destruct (Hfr _ _ H2).
        -- injection H2 as <-. by destruct (Hfr _ _ H1).
        -- by eapply (tr_inj _ _ _ _ R).
      * intros v b. unfold loc_add. cbn [h_next]. destruct (decide (v = w ++ [g])).
        -- intros [= <-]. lia.
        -- intros H. pose proof (tr_fresh _ _ _ _ R v b H). unfold a. lia.
      * intros v. unfold loc_add. rewrite single_bump. destruct (decide (v = w ++ [g])) as [->|Hne].
        -- rewrite decide_True by done. split; [done|lia].
        -- rewrite decide_False by done. rewrite N.add_0_r. apply R.
    + apply closed_add; [done|]. right. by exists parent.
    + by apply extends_add.
    + unfold loc_add. by rewrite decide_True.
Qed.

(** Moving the whole queue one gram on. *)
Lemma advance_spec P root g : forall queue ws h loc c,
  trie_rep h root loc c -> closed loc -> Forall2 (fun w a => loc w = Some a) ws queue ->
  overflow_checks P = false \/ (forall w, bumps c (map (fun w => w ++ [g]) ws) w < 2 ^ 32) ->
  exists h' queue' loc', advance P h queue g = Done (h', queue') /\
    trie_rep h' root loc' (bumps c (map (fun w => w ++ [g]) ws)) /\ closed loc' /\
    extends loc loc' /\ Forall2 (fun w a => loc' (w ++ [g]) = Some a) ws queue'.
Proof.
  induction queue as [|q queue IH]; intros ws h loc c R C F B.
  - apply Forall2_nil_inv_r in F as ->. exists h, [], loc. split; [done|]. split.
    { eapply trie_rep_ext; [|done]. intros w. unfold bumps. simpl. rewrite count_nil. lia. }
    split; [done|]. split; [apply extends_refl|constructor].
  - apply Forall2_cons_inv_r in F as (w & ws' & Hq & F & ->). cbn [map] in *.
    destruct (touch_child_spec P h root loc c w q g) as (h1 & a & loc1 & E1 & R1 & C1 & X1 & L1);
      [done..| |].
    { destruct B as [B|B]; [by left|right]. pose proof (B (w ++ [g])) as Bw. unfold bumps in Bw. rewrite count_cons, decide_True in Bw by done.
      lia. }
    simpl advance. rewrite E1. cbn [mbind res_bind].
    destruct (IH ws' h1 loc1 (bumps c [w ++ [g]])) as (h2 & queue2 & loc2 & E2 & R2 & C2 & X2 & F2);
      [done|done| | |].
    { eapply Forall2_impl; [exact F|]. intros v b Hv. by apply X1. }
    { destruct B as [B|B]; [by left|right]. intros v. rewrite <- bumps_cons. apply B. }
    rewrite E2. cbn [mbind res_bind]. exists h2, (a :: queue2), loc2. split; [done|]. split.
    { eapply trie_rep_ext; [|exact R2]. intros v. symmetry. apply bumps_cons. }
    split; [done|]. split; [by eapply extends_trans|]. constructor; [by apply X2|done].
Qed.

(** ** Reading one text *)
(** The paths of the queued nodes after reading [t]: the last 1, 2, ..., n-1 grams. *)
Definition qpaths (n : nat) (t : list N) : list (list N) :=
  map (fun k => drop (length t - k) t) (seq 1 (Nat.min (n - 1) (length t))).
(** The paths counted when [g] is read after [t]. *)
Definition touched (n : nat) (t : list N) (g : N) : list (list N) :=
  [g] :: map (fun w => w ++ [g]) (qpaths n t).

Lemma touched_eq n t g : touched n t g =
  map (fun k => drop (length (t ++ [g]) - k) (t ++ [g])) (seq 1 (S (Nat.min (n - 1) (length t)))).
Proof.
  unfold touched, qpaths. cbn [seq map]. rewrite app_length. cbn [length].
  f_equal.
  - replace (length t + 1 - 1)%nat with (length t) by lia. by rewrite drop_app.
  - rewrite <- (seq_shift _ 1), !map_map. apply map_ext_in. intros k Hk.
    apply in_seq in Hk. replace (length t + 1 - S k)%nat with (length t - k)%nat by lia.
    rewrite drop_app_le by lia. done.
Qed.
Lemma qpaths_snoc n t g : (1 <= n)%nat ->
  qpaths n (t ++ [g]) =
  (let q := touched n t g in if Nat.eqb (length q) n then removelast q else q).
Proof.
  intros Hn. cbv zeta. rewrite touched_eq, map_length, seq_length. unfold qpaths.
  rewrite app_length. cbn [length].
  destruct (Nat.eqb_spec (S (Nat.min (n - 1) (length t))) n) as [E|E].
  - replace (Nat.min (n - 1) (length t + 1)) with (Nat.min (n - 1) (length t)) by lia.
    rewrite seq_S, map_app. simpl map at 3. by rewrite removelast_last.
  - by replace (Nat.min (n - 1) (length t + 1)) with (S (Nat.min (n - 1) (length t))) by lia.
Qed.

Lemma drop_suffix (t : list N) k : drop k t `suffix_of` t.
Proof. exists (take k t). by rewrite take_drop. Qed.
Lemma suffix_drop (w t : list N) : w `suffix_of` t -> w = drop (length t - length w) t.
Proof.
  intros [k ->]. rewrite app_length. replace (length k + length w - length w)%nat with (length k) by lia.
  by rewrite drop_app.
Qed.
Lemma touched_elem n t g w : (1 <= n)%nat ->
  w ∈ touched n t g <-> w <> [] /\ (length w <= n)%nat /\ w `suffix_of` t ++ [g].
Proof.
  intros Hn. rewrite touched_eq, elem_of_list_fmap. split.
  - intros (k & -> & Hk). apply elem_of_seq in Hk. rewrite app_length. simpl.
    split; [|split].
    + intros E. apply (f_equal length) in E. rewrite drop_length, app_length in E. simpl in E. lia.
    + rewrite drop_length, app_length. simpl. lia.
    + apply drop_suffix.
  - intros (H0 & Hl & Hs). exists (length w). split; [by apply suffix_drop|].
    apply elem_of_seq. destruct w; [done|]. simpl in *.
    destruct Hs as [k Hk]. apply (f_equal length) in Hk. rewrite !app_length in Hk. simpl in Hk. lia.
Qed.
Lemma touched_NoDup n t g : NoDup (touched n t g).
Proof.
  rewrite touched_eq. apply NoDup_fmap_2_strong; [|apply NoDup_seq].
  intros x y Hx Hy E. apply elem_of_seq in Hx, Hy.
  apply (f_equal length) in E. rewrite !drop_length, app_length in E. simpl in E. lia.
Qed.
Lemma count_NoDup w ws : NoDup ws -> count w ws = if decide (w ∈ ws) then 1 else 0.
Proof.
  induction 1 as [|v ws Hv _ IH].
  - rewrite decide_False by apply not_elem_of_nil. done.
  - rewrite count_cons, IH. destruct (decide (v = w)) as [->|Hne].
    + rewrite decide_False by done. by rewrite decide_True by left.
    + destruct (decide (w ∈ ws)).
      * by rewrite decide_True by by right.
      * rewrite decide_False; [done|]. rewrite elem_of_cons. intros [->|?]; done.
Qed.

(** Counters of the paths of at most [n] grams. *)
Definition counts (n : nat) (texts : list (list N)) (w : list N) : N :=
  if bool_decide (w <> [] /\ (length w <= n)%nat) then total_occurrences w texts else 0.

Lemma total_occurrences_snoc w texts t :
  total_occurrences w (texts ++ [t]) = total_occurrences w texts + occurrences w t.
Proof. unfold total_occurrences. rewrite map_app, sum_N_app. unfold sum_N. simpl. lia. Qed.
Lemma total_grams_snoc texts t : total_grams (texts ++ [t]) = total_grams texts + lenN t.
Proof. unfold total_grams. rewrite map_app, sum_N_app. unfold sum_N. simpl. lia. Qed.
Lemma counts_snoc n texts t g w : (1 <= n)%nat ->
  counts n (texts ++ [t ++ [g]]) w = bumps (counts n (texts ++ [t])) (touched n t g) w.
Proof.
  intros Hn. unfold bumps. rewrite count_NoDup by apply touched_NoDup.
  rewrite (decide_ext _ _ _ _ (touched_elem n t g w Hn)).
  unfold counts. case_bool_decide as Hw.
  - rewrite !total_occurrences_snoc, occurrences_snoc by apply Hw.
    case_bool_decide; destruct (decide _); try lia; exfalso; tauto.
  - rewrite decide_False by tauto. done.
Qed.
Lemma counts_le n texts w : counts n texts w <= total_grams texts.
Proof. unfold counts. case_bool_decide; [apply total_occurrences_le|lia]. Qed.
(** No counter panics. *)
Definition fits (P : platform) (n : nat) (texts : list (list N)) : Prop :=
  overflow_checks P = false \/ forall w, counts n texts w < 2 ^ 32.
Lemma fits_total P n texts : total_grams texts < 2 ^ 32 -> fits P n texts.
Proof. intros H. right. intros w. pose proof (counts_le n texts w). lia. Qed.
Lemma occurrences_app w t u : w <> [] -> occurrences w t <= occurrences w (t ++ u).
Proof.
  intros Hw. induction u as [|g u IH] using rev_ind; [by rewrite app_nil_r|].
  rewrite app_assoc, occurrences_snoc by done. lia.
Qed.
Lemma fits_text P n texts t u : fits P n (texts ++ [t ++ u]) -> fits P n (texts ++ [t]).
Proof.
  intros [H|H]; [by left|right]. intros w. eapply N.le_lt_trans; [|exact (H w)]. unfold counts.
  case_bool_decide as Hw; [|done]. rewrite !total_occurrences_snoc. apply N.add_le_mono_l. apply occurrences_app. apply Hw.
Qed.
Lemma fits_texts P n texts more : fits P n (texts ++ more) -> fits P n texts.
Proof.
  intros [H|H]; [by left|right]. intros w. eapply N.le_lt_trans; [|exact (H w)]. unfold counts.
  case_bool_decide; [|done]. unfold total_occurrences. rewrite map_app, sum_N_app. lia.
Qed.

(** Windows. *)
Definition lookback_of (n : nat) (t : list N) : list N := drop (length t) (replicate n 0 ++ t).
Lemma lookback_length n t : length (lookback_of n t) = n.
Proof. unfold lookback_of. rewrite drop_length, app_length, replicate_length. lia. Qed.
Lemma lookback_snoc n t g : (1 <= n)%nat ->
  shift_in (lookback_of n t) g = lookback_of n (t ++ [g]).
Proof.
  intros Hn. unfold shift_in, lookback_of. rewrite app_length. simpl.
  replace (length t + 1)%nat with (S (length t)) by lia.
  rewrite app_assoc, (drop_app_le (replicate n 0 ++ t) [g]).
  - f_equal. rewrite <- Nat.add_1_r, <- drop_drop. by destruct (drop (length t) _).
  - rewrite app_length, replicate_length. lia.
Qed.
Lemma windows_snoc n t g : windows n (t ++ [g]) = windows n t ++ [lookback_of n (t ++ [g])].
Proof.
  unfold windows. rewrite app_length. simpl. rewrite Nat.add_1_r, seq_S, map_app. simpl.
  f_equal.
  - apply map_ext_in. intros j Hj. apply in_seq in Hj. unfold window.
    rewrite (app_assoc _ t [g]), drop_app_le by (rewrite app_length, replicate_length; lia).
    rewrite take_app_le; [done|]. rewrite drop_length, app_length, replicate_length. lia.
  - f_equal. unfold window, lookback_of. rewrite app_length. simpl. rewrite Nat.add_1_r.
    apply take_ge. rewrite drop_length, !app_length, replicate_length. simpl. lia.
Qed.

Definition some_list {A} (l : list A) : option (list A) := match l with [] => None | _ => Some l end.
Lemma owners_snoc n source p t key :
  owners n (source ++ [(p, t)]) key =
  owners n source key ++ replicate (length (filter (fun w => w = key) (windows n t))) p.
Proof. unfold owners. rewrite map_app, concat_app. simpl. by rewrite app_nil_r. Qed.

Record feed_inv (n : nat) (source : list (product * list N)) (p : product) (t : list N)
    (st : istate) : Prop := {
  fi_loc : exists loc, trie_rep (i_heap st) (i_root st) loc (counts n (map snd source ++ [t])) /\
    closed loc /\ Forall2 (fun w a => loc w = Some a) (qpaths n t) (i_queue st);
  fi_lookback : i_lookback st = lookback_of n t;
  fi_data : forall key, i_data st !! key = some_list (owners n (source ++ [(p, t)]) key)
}.

Lemma Forall2_removelast {A B} (Q : A -> B -> Prop) l k :
  Forall2 Q l k -> Forall2 Q (removelast l) (removelast k).
Proof.
  intros H. destruct l as [|x l _] using rev_ind.
  - apply Forall2_nil_inv_l in H as ->. constructor.
  - apply Forall2_app_inv_l in H as (k1 & k2 & H1 & H2 & ->).
    apply Forall2_cons_inv_l in H2 as (y & k3 & _ & H3 & ->). apply Forall2_nil_inv_l in H3 as ->.
    by rewrite !removelast_last.
Qed.

Lemma index_gram_spec P n source p t st g : (1 <= n)%nat ->
  feed_inv n source p t st -> fits P n (map snd source ++ [t ++ [g]]) ->
  exists st', index_gram P n p st g = Done st' /\ feed_inv n source p (t ++ [g]) st'.
Proof.
  intros Hn [ (loc & R & C & Q) HL HD ] Hlim.
  assert (B : overflow_checks P = false \/ forall w, bumps (counts n (map snd source ++ [t])) (touched n t g) w < 2 ^ 32).
  { destruct Hlim as [Hlim|Hlim]; [by left|right]. intros w. rewrite <- counts_snoc by done. apply Hlim. }
  unfold index_gram.
  destruct (touch_root_spec P _ _ loc _ g R C) as (h1 & root1 & a & loc1 & E1 & R1 & C1 & X1 & L1).
  { destruct B as [B|B]; [by left|right]. pose proof (B [g]) as Bg. unfold touched, bumps in Bg. rewrite count_cons, decide_True in Bg by done.
    lia. }
  rewrite E1. cbn [mbind res_bind].
  destruct (advance_spec P root1 g (i_queue st) (qpaths n t) h1 loc1 _ R1 C1)
    as (h2 & q2 & loc2 & E2 & R2 & C2 & X2 & F2).
  { eapply Forall2_impl; [exact Q|]. intros w b Hb. by apply X1. }
  { destruct B as [B|B]; [by left|right]. intros w. rewrite <- bumps_cons. apply B. }
  rewrite E2. cbn [mbind res_bind].
  destruct n as [|n']; [lia|]. set (n := S n') in *.
  eexists. split; [done|].
  assert (F3 : Forall2 (fun w a => loc2 w = Some a) (touched n t g) (a :: q2)).
  { constructor; [by apply X2|]. by apply Forall2_fmap_l. }
  split; cbn [i_heap i_root i_queue i_lookback i_data].
  - exists loc2. split; [|split; [done|]].
    + eapply trie_rep_ext; [|exact R2]. intros w. rewrite <- bumps_cons.
      by rewrite counts_snoc.
    + rewrite qpaths_snoc by done. cbv zeta. rewrite (Forall2_length _ _ _ F3).
      destruct (Nat.eqb _ _); [|done]. by apply Forall2_removelast.
  - rewrite HL. by apply lookback_snoc.
  - intros key. rewrite HL, lookback_snoc by done. unfold data_push.
    rewrite owners_snoc, windows_snoc, filter_app.
    specialize (HD key) as HDk. rewrite owners_snoc in HDk.
    rewrite app_length, replicate_add, app_assoc.
    destruct (decide (lookback_of n (t ++ [g]) = key)) as [E|E].
    + rewrite E, lookup_insert, HDk.
      rewrite filter_cons, decide_True by done. simpl.
      by destruct (owners n source key ++ replicate _ p).
    + rewrite lookup_insert_ne by done. rewrite HDk.
      rewrite filter_cons, decide_False by done. simpl. by rewrite app_nil_r.
Qed.

Lemma index_grams_spec P n source p : forall grams t st, (1 <= n)%nat ->
  feed_inv n source p t st -> fits P n (map snd source ++ [t ++ grams]) ->
  exists st', foldM (index_gram P n p) grams st = Done st' /\ feed_inv n source p (t ++ grams) st'.
Proof.
  induction grams as [|g grams IH]; intros t st Hn I Hlim.
  - exists st. rewrite app_nil_r. by split.
  - destruct (index_gram_spec P n source p t st g Hn I) as (st1 & E1 & I1).
    { apply (fits_text P n _ _ grams). by rewrite <- app_assoc. }
    cbn [foldM]. rewrite E1. cbn [mbind res_bind].
    destruct (IH (t ++ [g]) st1 Hn I1) as (st2 & E2 & I2); [by rewrite <- app_assoc|].
    exists st2. split; [done|]. by rewrite <- app_assoc in I2.
Qed.

(** Between feeds. *)
Record done_inv (n : nat) (source : list (product * list N)) (st : istate) : Prop := {
  di_loc : exists loc, trie_rep (i_heap st) (i_root st) loc (counts n (map snd source)) /\ closed loc;
  di_data : forall key, i_data st !! key = some_list (owners n source key)
}.
Lemma counts_nil_text n texts w : counts n (texts ++ [[]]) w = counts n texts w.
Proof. unfold counts. rewrite total_occurrences_snoc. simpl. by rewrite N.add_0_r. Qed.

Lemma index_feed_spec P n source p grams st : (1 <= n)%nat ->
  done_inv n source st -> fits P n (map snd source ++ [grams]) ->
  exists st', index_feed P n st (p, grams) = Done st' /\ done_inv n (source ++ [(p, grams)]) st'.
Proof.
  intros Hn [(loc & R & C) HD] Hlim. unfold index_feed.
  destruct (index_grams_spec P n source p grams []
    (IState (i_heap st) (i_root st) (i_data st) [] (replicate n gram_default)))
    as (st' & E & [(loc' & R' & C' & _) _ HD']); [done| |done|].
  - split.
    + exists loc. split; [|split; [done|]].
      * eapply trie_rep_ext; [|exact R]. intros w. symmetry. apply counts_nil_text.
      * unfold qpaths. simpl. rewrite Nat.min_0_r. constructor.
    + unfold lookback_of. simpl. rewrite app_nil_r. done.
    + intros key. rewrite owners_snoc. simpl. rewrite app_nil_r. apply HD.
  - exists st'. split; [done|]. split.
    + exists loc'. rewrite map_app. by split.
    + done.
Qed.

Lemma index_feeds_spec P n : forall todo source st, (1 <= n)%nat ->
  done_inv n source st -> fits P n (map snd (source ++ todo)) ->
  exists st', foldM (index_feed P n) todo st = Done st' /\ done_inv n (source ++ todo) st'.
Proof.
  induction todo as [|[p grams] todo IH]; intros source st Hn I Hlim.
  - exists st. rewrite app_nil_r. by split.
  - destruct (index_feed_spec P n source p grams st Hn I) as (st1 & E1 & I1).
    { apply (fits_texts P n _ (map snd todo)). rewrite <- app_assoc. by rewrite map_app in Hlim. }
    cbn [foldM]. rewrite E1. cbn [mbind res_bind].
    destruct (IH (source ++ [(p, grams)]) st1 Hn I1) as (st2 & E2 & I2);
      [by rewrite <- app_assoc|].
    exists st2. split; [done|]. by rewrite <- app_assoc in I2.
Qed.
Lemma done_init n : done_inv n [] istate_init.
Proof.
  split.
  - exists (fun _ => None). split; [|by intros v g a]. split; try done.
    intros w. unfold counts. case_bool_decide; done.
  - intros key. done.
Qed.

(** ** Freezing the trie *)
(** What the frozen node of path [w] looks like, [parent] being the count its weight is
    relative to. *)
Inductive built (c : list N -> N) : list N -> N -> node -> Prop :=
| Built w parent item children :
    last w = Some item ->
    (forall g, (exists child, child ∈ children /\ n_item child = g) <-> 0 < c (w ++ [g])) ->
    NoDup (map n_item children) ->
    descending children ->
    Forall (fun child => built c (w ++ [n_item child]) (c w) child) children ->
    built c w parent (Node item (occurances_to_weight parent (c w)) children).

Lemma weights_descending (l : list node) :
  (forall x, x ∈ l -> f32_number (n_weight x)) ->
  descending (sort_by (fun a b => reverse_ord (node_cmp a b)) l).
Proof.
  intros Hn. set (cmp2 := fun a b : node => reverse_ord (f32_total_cmp (n_weight a) (n_weight b))).
  assert (T : total_cmp cmp2).
  { apply (total_cmp_reverse (fun a b => f32_total_cmp (n_weight a) (n_weight b))).
    apply (total_cmp_on n_weight), f32_total. }
  rewrite (sort_by_ext _ cmp2).
  - assert (Hn' : forall x, x ∈ sort_by cmp2 l -> f32_number (n_weight x)).
    { intros x Hx%sort_by_elem. by apply Hn. }
    pose proof (sort_by_total_sorted cmp2 l T) as S.
    induction S as [|x k S IH F]; simpl; [done|]. split.
    + rewrite Forall_forall in F |- *. intros y Hy. specialize (F y Hy).
      unfold le_cmp, cmp2 in F. unfold reverse_ord in F.
      rewrite <- (tc_sym _ f32_total) in F.
      rewrite f32_total_cmp_agrees in F by (apply Hn'; [by right|left] || (apply Hn'; by right) || (apply Hn'; left)).
      apply f32_cmp_le in F; [done|apply Hn'; by right|apply Hn'; left].
    + apply IH. intros y Hy. apply Hn'. by right.
  - intros x y Hx Hy. unfold cmp2, node_cmp. rewrite f32_total_cmp_agrees; auto.
Qed.

Lemma counts_parent n texts w g : w <> [] -> counts n texts (w ++ [g]) <= counts n texts w.
Proof.
  intros Hw. unfold counts. case_bool_decide as H1; [|lia].
  rewrite app_length in H1. rewrite bool_decide_true by (split; [done|simpl in H1; lia]).
  apply sum_N_le. intros t. by apply occurrences_parent.
Qed.

Lemma loc_pos n texts h root loc w a : trie_rep h root loc (counts n texts) -> loc w = Some a ->
  0 < counts n texts w /\ w <> [] /\ (length w <= n)%nat.
Proof.
  intros R H. assert (Hc : counts n texts w <> 0).
  { intros E. apply (tr_count _ _ _ _ R) in E. congruence. }
  split; [lia|]. unfold counts in Hc. case_bool_decide as H1; [|done]. done.
Qed.
Section freeze.
Context (o : addr -> order_of (N * addr)) (Ho : forall a, valid_order (o a)).
Context (n : nat) (texts : list (list N)) (Hlim : total_grams texts < 2 ^ 32).
Context (h : heap) (root : gmap N addr) (loc : list N -> option addr).
Context (R : trie_rep h root loc (counts n texts)) (C : closed loc).
Notation c := (counts n texts).

Lemma immutalize_spec : forall fuel w a parent,
  loc w = Some a -> (n < length w + fuel)%nat ->
  exists nd, immutalize o h fuel a parent = Done nd /\ built c w parent nd.
Proof.
  induction fuel as [|fuel IH]; intros w a parent Ha Hf.
  - destruct (loc_pos _ _ _ _ _ w a R Ha). lia.
  - destruct (tr_node _ _ _ _ R w a Ha) as (nd & Hn & Hl & Hoc & Hi).
    rewrite N.mod_small in Hoc by (eapply N.le_lt_trans; [apply counts_le|done]).
    cbn [immutalize]. rewrite Hn. cbn [unwrap mbind res_bind].
    assert (exists kids,
      Forall2 (fun '(g, v) kid => immutalize o h fuel v (m_occ nd) = Done kid /\ n_item kid = g /\
                built c (w ++ [g]) (c w) kid)
        (o a (map_to_list (m_items nd))) kids) as (kids & F).
    { assert (Hall : forall gv, gv ∈ o a (map_to_list (m_items nd)) -> loc (w ++ [gv.1]) = Some gv.2).
      { intros [g v] Hgv. rewrite (Ho a) in Hgv. apply elem_of_map_to_list in Hgv. simpl. by rewrite <- Hi. }
      induction (o a (map_to_list (m_items nd))) as [|[g v] l IHl].
      - exists []. constructor.
      - destruct IHl as (kids & F). { intros gv Hgv. apply Hall. by right. }
        destruct (IH (w ++ [g]) v (m_occ nd)) as (kid & E & B).
        { apply (Hall (g, v)). left. }
        { rewrite app_length. simpl. lia. }
        exists (kid :: kids). constructor; [|done]. split; [done|].
        rewrite Hoc in B. split; [|done]. inversion B as [w' p' item ch Hlast]. subst.
        rewrite last_snoc in Hlast. injection Hlast as ->. done. }
    rewrite (proj2 (mapR_Done _ _ kids)).
    2:{ eapply Forall2_impl; [exact F|]. intros [g v] kid (E & _). exact E. }
    cbn [mbind res_bind]. eexists. split; [done|]. rewrite Hoc.
    assert (Hkeys : map n_item kids = map fst (o a (map_to_list (m_items nd)))).
    { clear -F. induction F as [|[g v] kid l kids (_ & E & _) F IH]; simpl; [done|]. by rewrite E, IH. }
    assert (Hkid : forall kid, kid ∈ kids -> exists g v, m_items nd !! g = Some v /\
               n_item kid = g /\ built c (w ++ [g]) (c w) kid).
    { intros kid Hk. apply elem_of_list_lookup in Hk as [i Hi'].
      destruct (Forall2_lookup_r _ _ _ _ _ F Hi') as ([g v] & Hgv & E & Hg & B).
      apply elem_of_list_lookup_2 in Hgv. rewrite (Ho a) in Hgv. apply elem_of_map_to_list in Hgv.
      eauto. }
    constructor.
    + done.
    + intros g. split.
      * intros (kid & Hk%sort_by_elem & <-). destruct (Hkid kid Hk) as (g & v & Hv & Hg & _).
        rewrite Hi in Hv. rewrite Hg. by destruct (loc_pos _ _ _ _ _ _ _ R Hv).
      * intros Hpos. destruct (loc (w ++ [g])) as [v|] eqn:Hv.
        2:{ apply (tr_count _ _ _ _ R) in Hv. lia. }
        rewrite <- Hi in Hv. apply elem_of_map_to_list in Hv. rewrite <- (Ho a) in Hv.
        apply elem_of_list_lookup in Hv as [i Hi'].
        destruct (Forall2_lookup_l _ _ _ _ _ F Hi') as (kid & Hk & _ & Hg & _).
        exists kid. split; [|done]. apply sort_by_elem. by eapply elem_of_list_lookup_2.
    + rewrite (sort_by_perm _ kids). rewrite Hkeys, (Ho a). apply NoDup_fst_map_to_list.
    + apply weights_descending. intros kid Hk. destruct (Hkid kid Hk) as (g & v & Hv & Hg & B).
      inversion B as [w' p' item ch Hlast]. subst. cbn [n_weight]. unfold occurances_to_weight.
      rewrite Hi in Hv. destruct (loc_pos _ _ _ _ _ _ _ R Hv) as (Hpos & _).
      destruct (loc_pos _ _ _ _ _ _ _ R Ha) as (_ & Hne & _).
      apply f32_unit_number, f32_ratio_unit. apply f32_div_ratio; [done|by apply counts_parent|].
      eapply N.le_lt_trans; [apply counts_le|done].
    + apply Forall_forall. intros kid Hk%sort_by_elem.
      destruct (Hkid kid Hk) as (g & v & Hv & <- & B). exact B.
Qed.
End freeze.

(** The frozen roots. *)
Lemma total_roots n texts l : (1 <= n)%nat ->
  NoDup l -> (forall g, g ∈ l <-> 0 < counts n texts [g]) ->
  sum_N (map (fun g => counts n texts [g]) l) = total_grams texts.
Proof.
  intros Hn Hnd Hl.
  assert (Hc : forall g, counts n texts [g] = total_occurrences [g] texts).
  { intros g. unfold counts. rewrite bool_decide_true; [done|]. split; [done|simpl; lia]. }
  rewrite (map_ext _ _ Hc).
  assert (Hl' : forall g, 0 < total_occurrences [g] texts -> g ∈ l) by (intros g; rewrite <- Hc; apply Hl).
  clear Hl Hc.
  assert (Hs : forall t, (forall g, 0 < occurrences [g] t -> g ∈ l) ->
    sum_N (map (fun g => occurrences [g] t) l) = lenN t).
  { induction t as [|x t IH]; intros Ht.
    - clear. induction l as [|g l IH]; simpl; [done|]. unfold sum_N in *. simpl. done.
    - cbn [occurrences] in *. rewrite lenN_cons, <- IH.
      2:{ intros g Hg. apply Ht. lia. }
      assert (Hx : x ∈ l).
      { apply Ht. rewrite bool_decide_true; [lia|]. by exists t. }
      clear -Hx Hnd.
      assert (E : forall g : N, [g] `prefix_of` x :: t <-> g = x).
      { intros g. split; [intros [k [= ->]]; done|intros ->; by exists t]. }
      assert (S : sum_N (map (fun g => (if bool_decide ([g] `prefix_of` x :: t) then 1 else 0)) l) = 1).
      { induction Hnd as [|g l Hg Hnd IH]; [by apply elem_of_nil in Hx|].
        simpl. unfold sum_N in *. simpl. destruct (decide (g = x)) as [->|Hne].
        - rewrite bool_decide_true by by apply E.
          assert (Z : foldr N.add 0 (map (fun g => if bool_decide ([g] `prefix_of` x :: t) then 1 else 0) l) = 0).
          { clear -Hg E. induction l as [|g l IH]; simpl; [done|].
            rewrite bool_decide_false.
            - rewrite IH; [done|]. intros ?. apply Hg. by right.
            - rewrite E. intros ->. apply Hg. left. }
          lia.
        - rewrite bool_decide_false by (rewrite E; done).
          apply elem_of_cons in Hx as [->|Hx]; [done|]. rewrite IH by done. lia. }
      rewrite <- S at 1. clear. induction l as [|g l IH]; simpl; [done|]. unfold sum_N in *. simpl. lia. }
  induction texts as [|t texts IH].
  - clear. unfold total_grams, total_occurrences. simpl.
    induction l as [|g l IH]; simpl; [done|]. unfold sum_N in *. simpl. done.
  - unfold total_grams in *. simpl. unfold total_occurrences in *. simpl in *.
    unfold sum_N in *. simpl in *. rewrite <- IH, <- Hs.
    + clear. induction l as [|g l IH]; simpl; [done|]. lia.
    + intros g Hg. apply Hl'. lia.
    + intros g Hg. apply Hl'. lia.
Qed.

Lemma total_fold P l : forall acc, acc + sum_N l < 2 ^ 32 ->
  foldM (fun a b => add_bits P 32 a b) l acc = Done (acc + sum_N l).
Proof.
  induction l as [|x l IH]; intros acc Hlim; simpl.
  - unfold sum_N. simpl. by rewrite N.add_0_r.
  - unfold sum_N in *. simpl in Hlim.
    assert (add_bits P 32 acc x = Done (acc + x)) as ->.
    { unfold add_bits. destruct (N.ltb_spec (acc + x) (2 ^ 32)) as [_|]; [done|lia]. }
    cbn [mbind res_bind]. rewrite IH by lia. simpl. f_equal. lia.
Qed.

(** Everything [index_from] guarantees. *)
Record index_built (P : platform) (n : nat) (source : list (product * list N)) (pc : container)
    (gi : gram_index) : Prop := {
  ib_container : gi_container gi = pc;
  ib_roots : forall g, (exists nd, gi_roots gi !! g = Some nd) <-> 0 < counts n (map snd source) [g];
  ib_root : forall g nd, gi_roots gi !! g = Some nd ->
    built (counts n (map snd source)) [g] (total_grams (map snd source)) nd;
  ib_data : forall key, gi_data gi !! key =
    let l := owners n source key in
    if bool_decide (l <> [] /\ lenN l < maximum_product_amount P (lenN (c_products pc)))
    then Some (sort_by product_cmp l) else None
}.

Theorem index_from_spec P n o source pc : (1 <= n)%nat -> valid_build_order o ->
  total_grams (map snd source) < 2 ^ 32 ->
  exists gi, index_from P n o source pc = Done gi /\ index_built P n source pc gi.
Proof.
  intros Hn (Hoc & Hor & _) Hlim. unfold index_from.
  destruct (index_feeds_spec P n source [] istate_init Hn (done_init n) (fits_total P n _ Hlim))
    as (st & E & [(loc & R & C) HD]).
  cbn [app] in *. rewrite E. cbn [mbind res_bind].
  set (texts := map snd source) in *. set (cnt := counts n texts) in *.
  set (rl := bo_root o (map_to_list (i_root st))).
  assert (Hrl : forall g a, (g, a) ∈ rl <-> loc [g] = Some a).
  { intros g a. unfold rl. rewrite (Hor _), elem_of_map_to_list. by rewrite (tr_root _ _ _ _ R). }
  rewrite (mapR_pure _ (fun '(g, _) => cnt [g])).
  2:{ intros [g a] Hga%Hrl. destruct (tr_node _ _ _ _ R _ _ Hga) as (nd & Hnd & _ & Ho & _).
      rewrite Hnd. cbn [unwrap mbind res_bind]. rewrite Ho, N.mod_small; [done|].
      eapply N.le_lt_trans; [apply counts_le|done]. }
  cbn [mbind res_bind].
  assert (Hsum : sum_N (map (fun '(g, _) => cnt [g]) rl) = total_grams texts).
  { rewrite <- (total_roots n texts (map fst rl)); [|done| |].
    - rewrite map_map. f_equal. apply map_ext. by intros [].
    - unfold rl. rewrite (Hor _). apply NoDup_fst_map_to_list.
    - intros g. rewrite elem_of_list_fmap. split.
      + intros ([g' a] & -> & Hga%Hrl). simpl. by eapply loc_pos.
      + intros Hg. destruct (loc [g]) as [a|] eqn:Ha.
        * exists (g, a). split; [done|]. by apply Hrl.
        * apply (tr_count _ _ _ _ R) in Ha. fold cnt in Hg. lia. }
  rewrite total_fold by (rewrite Hsum; lia). cbn [mbind res_bind]. rewrite N.add_0_l, Hsum.
  assert (exists roots,
    Forall2 (fun '(g, a) '(g', nd) => g' = g /\
       immutalize (bo_children o) (i_heap st) (S n) a (total_grams texts) = Done nd /\
       built cnt [g] (total_grams texts) nd) rl roots) as (roots & F).
  { assert (Hall : forall ga, ga ∈ rl -> loc [ga.1] = Some ga.2) by (intros [g a]; apply Hrl).
    clearbody rl. clear -Hall R C Hoc Hlim. induction rl as [|[g a] rl IH].
    - exists []. constructor.
    - destruct IH as (roots & F). { intros ga Hga. apply Hall. by right. }
      destruct (immutalize_spec (bo_children o) Hoc n texts Hlim (i_heap st) (i_root st) loc R
        (S n) [g] a (total_grams texts)) as (nd & E & B).
      { apply (Hall (g, a)). left. }
      { simpl. lia. }
      exists ((g, nd) :: roots). constructor; [|done]. done. }
  rewrite (proj2 (mapR_Done _ _ roots)).
  2:{ eapply Forall2_impl; [exact F|]. intros [g a] [g' nd] (-> & E' & _). rewrite E'. done. }
  cbn [mbind res_bind]. eexists. split; [done|].
  assert (Hkeys : map fst roots = map fst rl).
  { clear -F. induction F as [|[g a] [g' nd] l k (-> & _) F IH]; simpl; [done|]. by rewrite IH. }
  assert (Hnd : NoDup (map fst roots)).
  { rewrite Hkeys. unfold rl. rewrite (Hor _). apply NoDup_fst_map_to_list. }
  split; cbn [gi_container gi_roots gi_data].
  - done.
  - intros g. split.
    + intros (nd & Hg). apply elem_of_list_to_map in Hg; [|done].
      apply elem_of_list_lookup in Hg as [i Hi].
      destruct (Forall2_lookup_r _ _ _ _ _ F Hi) as ([g' a] & Hga & -> & _).
      apply elem_of_list_lookup_2, Hrl in Hga. by eapply loc_pos.
    + intros Hg. destruct (loc [g]) as [a|] eqn:Ha.
      2:{ apply (tr_count _ _ _ _ R) in Ha. fold texts cnt in Hg. lia. }
      apply Hrl in Ha. apply elem_of_list_lookup in Ha as [i Hi].
      destruct (Forall2_lookup_l _ _ _ _ _ F Hi) as ([g' nd] & Hgn & -> & _).
      exists nd. apply elem_of_list_to_map; [done|]. by eapply elem_of_list_lookup_2.
  - intros g nd Hg. apply elem_of_list_to_map in Hg; [|done].
    apply elem_of_list_lookup in Hg as [i Hi].
    destruct (Forall2_lookup_r _ _ _ _ _ F Hi) as ([g' a] & Hga & -> & _ & B). done.
  - intros key. rewrite lookup_fmap, map_filter_lookup, HD. cbv zeta.
    destruct (owners n source key) as [|p l] eqn:Ek; cbn [some_list].
    + rewrite bool_decide_false; [done|]. by intros [].
    + cbn [mbind option_bind].
      destruct (decide (lenN (p :: l) < maximum_product_amount P (lenN (c_products pc)))) as [H1|H1].
      * rewrite option_guard_True by done. rewrite bool_decide_true by done. done.
      * rewrite option_guard_False by done. rewrite bool_decide_false by tauto. done.
Qed.
