(** Facts about the entry points (model/Lib.v). *)
From Verif.model Require Import Base F32 Utf8 Prim Coll Data Gram Indexer Nodes Classic Lit Raw Js Lib.
From Verif.spec Require Import Spec Data_spec Gram_spec Classic_spec Raw_spec Js_spec Lib_spec.
From Verif.proofs Require Import Base_facts Sort_facts Order_facts Data_facts File_facts Search_props Js_facts Raw_facts.

(** ** Filtering *)
Lemma filterR_pure {A} (f : A -> res bool) (b : A -> bool) l :
  (forall x, x ∈ l -> f x = Done (b x)) -> filterR f l = Done (filter (fun x => b x = true) l).
Proof.
  induction l as [|x l IH]; intros H; [done|]. cbn [filterR]. rewrite (H x) by left. cbn [mbind res_bind].
  rewrite IH by (intros; apply H; by right). cbn [mbind res_bind]. f_equal. destruct (b x) eqn:E.
  - by rewrite filter_cons_True.
  - rewrite filter_cons_False; [done|]. by rewrite E.
Qed.
Lemma filters_fold fs filters : forall l,
  foldl (fun l f => filter_apply f fs l) l filters =
  filter (fun p => forallb (fun f => filter_accepts f fs p) filters = true) l.
Proof.
  induction filters as [|f filters IH]; intros l; cbn [foldl].
  - induction l as [|p l IH]; [done|]. rewrite filter_cons_True by done. by rewrite <- IH.
  - rewrite IH. unfold filter_apply. rewrite list_filter_filter. apply list_filter_iff. intros p.
    simpl. rewrite andb_true_iff. tauto.
Qed.
Lemma ch_valid_bool o h : valid_order o -> active_options_exist h ->
  exists b, forall p, ch_is_valid o h p = Done (b p) /\ (b p = true <-> has_options h (p_sid p)).
Proof.
  intros Ho Hex. exists (fun p => match ch_is_valid o h p with Done b => b | _ => false end).
  intros p. destruct (ch_valid_spec o h p Ho Hex) as (b & -> & I). done.
Qed.
Lemma th_valid_bool o h : valid_order o -> active_tags_exist h ->
  exists b, forall p, th_is_valid o h p = Done (b p) /\ (b p = true <-> has_tags h (p_sid p)).
Proof.
  intros Ho Hex. exists (fun p => match th_is_valid o h p with Done b => b | _ => false end).
  intros p. destruct (th_valid_spec o h p Ho Hex) as (b & -> & I). done.
Qed.
(** C52 *)
Lemma filtered_spec low o gi input categories tags filters : valid_search_order o -> handlers_ok categories tags ->
  exists res ok,
    gram_search ngram_index_size (se_rank o) gi (lower low input) = Done res /\
    (forall p, ok p = true <-> passes categories tags filters (c_features (gi_container gi)) p) /\
    search_filtered low o gi input categories tags filters =
      Done (map p_sid (filter (fun p => ok p = true) (map fst res))).
Proof.
  intros (Ho1 & Ho2 & Ho3) [Hc Ht].
  destruct (search_total ngram_index_size (se_rank o) gi (lower low input)) as [res E]; [unfold ngram_index_size; lia|].
  destruct (ch_valid_bool _ _ Ho2 Hc) as [b1 B1]. destruct (th_valid_bool _ _ Ho3 Ht) as [b2 B2].
  exists res, (fun p => (b1 p && b2 p) && forallb (fun f => filter_accepts f (c_features (gi_container gi)) p) filters).
  split; [done|]. split.
  - intros p. destruct (B1 p) as [_ I1], (B2 p) as [_ I2]. unfold passes. rewrite !andb_true_iff, I1, I2.
    rewrite forallb_forall. setoid_rewrite elem_of_list_In. tauto.
  - unfold search_filtered. rewrite E. cbn [mbind res_bind].
    rewrite (filterR_pure _ (fun p => b1 p && b2 p)).
    2: { intros p _. unfold both_valid. destruct (B1 p) as [-> _]. cbn [mbind res_bind].
         destruct (b1 p); [|done]. by destruct (B2 p) as [-> _]. }
    cbn [mbind res_bind]. rewrite filters_fold, list_filter_filter. do 2 f_equal.
    apply list_filter_iff. intros p. rewrite !andb_true_iff. tauto.
Qed.

Lemma size_range : (1 <= ngram_index_size <= 764)%nat.
Proof. unfold ngram_index_size. lia. Qed.
(** Results are products of the catalogue. *)
Lemma results_listed n o gi input res p x : (1 <= n <= 764)%nat -> valid_order o ->
  gram_search n o gi input = Done res -> (p, x) ∈ res ->
  exists g l, gi_data gi !! g = Some l /\ p ∈ l.
Proof.
  intros Hn Ho E Hin. destruct (totals_hit _ _ _ _ (search_totals _ _ _ _ _ Hn Ho E) Hin) as [c Hc].
  unfold query_hits in Hc. apply elem_of_list_In, in_concat in Hc as (hs & Hhs & Hc).
  apply in_map_iff in Hhs as (w & <- & _). unfold window_hits in Hc.
  destruct (search_gram n gi w) as [[[g y]|]| | |]; try done.
  destruct (gi_data gi !! g) as [l|] eqn:G; [|done]. apply in_map_iff in Hc as (q & [= -> ->] & Hq).
  exists g, l. split; [done|]. by apply elem_of_list_In.
Qed.
Lemma results_in_range low o gi input categories tags filters l :
  consistent_gram_index ngram_index_size gi -> valid_search_order o -> handlers_ok categories tags ->
  search_filtered low o gi input categories tags filters = Done l ->
  Forall (fun sid => N.to_nat sid < length (c_products (gi_container gi)))%nat l.
Proof.
  intros [(W & _) Con] Ho Hok E.
  destruct (filtered_spec low o gi input categories tags filters Ho Hok) as (res & ok & Er & _ & Ef).
  rewrite Ef in E. injection E as <-. apply Forall_forall. intros sid Hsid.
  apply elem_of_list_fmap in Hsid as (p & -> & Hp). apply elem_of_list_filter in Hp as [_ Hp].
  apply elem_of_list_fmap in Hp as ([q x] & -> & Hin). simpl.
  destruct (results_listed _ _ _ _ _ _ _ size_range (proj1 Ho) Er Hin) as (g & k & Hg & Hq).
  destruct (Con _ _ Hg) as (_ & _ & F). rewrite Forall_forall in F. apply F in Hq.
  apply elem_of_list_lookup in Hq as [i Hi]. rewrite (W _ _ Hi), Nat2N.id. by eapply lookup_lt_Some.
Qed.

(** ** Ordering *)
Lemma rank_cmp_total : total_cmp (fun a b : N * N => N.compare a.1 b.1).
Proof.
  split.
  - intros x. apply N.compare_refl.
  - intros x y. apply N.compare_antisym.
  - intros x y z. rewrite !N.compare_le_iff. lia.
Qed.
Lemma sort_by_order_spec table l : Forall (fun sid => N.to_nat sid < length table)%nat l ->
  exists l', sort_by_order table l = Done l' /\ l' ≡ₚ l /\ ranks_ascend table l'.
Proof.
  intros F. destruct l as [|a [|b l]].
  { exists []. split; [done|]. split; [done|]. intros i j x y rx ry _ [=]. }
  { exists [a]. split; [done|]. split; [done|]. intros [|i] [|j] x y rx ry Hij; try lia; done. }
  set (l0 := a :: b :: l) in *.
  assert (E : sort_by_order table l0 =
    (keyed ← mapR (fun v => k ← unwrap (getN table v); Done (k, v)) l0;
     Done (map snd (sort_by (fun a b => N.compare a.1 b.1) keyed)))) by done.
  rewrite E. clear E. clearbody l0.
  set (rank := fun v : N => default 0 (table !! N.to_nat v)).
  assert (R : forall v, v ∈ l0 -> table !! N.to_nat v = Some (rank v)).
  { intros v Hv. rewrite Forall_forall in F. destruct (lookup_lt_is_Some_2 _ _ (F _ Hv)) as [r Hr].
    unfold rank. by rewrite Hr. }
  rewrite (mapR_pure _ (fun v => (rank v, v))).
  2: { intros v Hv. by rewrite getN_lookup, (R v Hv). }
  cbn [mbind res_bind]. eexists. split; [reflexivity|].
  set (s := sort_by _ _). assert (Ps : s ≡ₚ map (fun v => (rank v, v)) l0) by apply sort_by_perm.
  split.
  - rewrite Ps. rewrite map_map. simpl. by rewrite map_id.
  - intros i j x y rx ry Hij Hi Hj Hx Hy.
    rewrite list_lookup_fmap in Hi, Hj.
    destruct (s !! i) as [[kx x']|] eqn:Si; [|done]. destruct (s !! j) as [[ky y']|] eqn:Sj; [|done].
    simpl in Hi, Hj. injection Hi as ->. injection Hj as ->.
    assert (K : forall i k v, s !! i = Some (k, v) -> table !! N.to_nat v = Some k).
    { intros i' k v Hs%elem_of_list_lookup_2. rewrite Ps in Hs. apply elem_of_list_fmap in Hs as (w & [= -> ->] & Hw). by apply R. }
    apply K in Si as Kx. apply K in Sj as Ky. rewrite Kx in Hx. injection Hx as ->. rewrite Ky in Hy. injection Hy as ->.
    assert (S := sort_by_total_sorted _ (map (fun v => (rank v, v)) l0) rank_cmp_total). fold s in S.
    pose proof (StronglySorted_lookup _ _ i j _ _ S Hij Si Sj) as L. unfold le_cmp in L. simpl in L.
    apply N.compare_le_iff. intros G. rewrite G in L. done.
Qed.

(** C46 *)
Lemma search_unordered low u o gi cl input categories tags entries filters :
  parse_filters entries = Some filters -> valid_search_order o -> handlers_ok categories tags ->
  exists l, search_filtered low o gi input categories tags filters = Done l /\
    search low u o (loaded gi cl) input categories tags None entries =
      (loaded gi cl, Done (pp_new (gi_container gi) l)).
Proof.
  intros Hp Ho Hok. destruct (filtered_spec low o gi input categories tags filters Ho Hok) as (res & ok & _ & _ & E).
  eexists. split; [exact E|]. unfold search. rewrite Hp. cbn [lock_ok loaded s_index_dead s_index]. by rewrite E.
Qed.
Lemma search_ordered low u o gi cl input categories tags key table entries filters :
  consistent_gram_index ngram_index_size gi ->
  parse_filters entries = Some filters -> valid_search_order o -> handlers_ok categories tags ->
  get_orders (cl_order cl) key = Some table -> (length (c_products (gi_container gi)) <= length table)%nat ->
  exists l l', search low u o (loaded gi cl) input categories tags None entries =
      (loaded gi cl, Done (pp_new (gi_container gi) l)) /\
    search low u o (loaded gi cl) input categories tags (Some key) entries =
      (loaded gi cl, Done (pp_new (gi_container gi) l')) /\
    l' ≡ₚ l /\ ranks_ascend table l'.
Proof.
  intros Con Hp Ho Hok Hk Hl.
  destruct (search_unordered low u o gi cl input categories tags entries filters Hp Ho Hok) as (l & E & S).
  pose proof (results_in_range low o gi input categories tags filters l Con Ho Hok E) as R.
  destruct (sort_by_order_spec table l) as (l' & E' & Pl & A).
  { eapply Forall_impl; [exact R|]. simpl. intros. lia. }
  exists l, l'. split; [done|]. split; [|done].
  unfold search. rewrite Hp. cbn [lock_ok loaded s_index_dead s_index s_classic_dead s_classic]. rewrite E.
  cbn [mbind option_bind]. rewrite Hk. by rewrite E'.
Qed.
Lemma search_unknown_order low u o gi cl input categories tags key entries :
  valid_search_order o -> handlers_ok categories tags -> get_orders (cl_order cl) key = None ->
  search low u o (loaded gi cl) input categories tags (Some key) entries = (loaded gi cl, Nope).
Proof.
  intros Ho Hok Hk. unfold search. destruct (parse_filters entries) as [filters|]; [|done].
  destruct (filtered_spec low o gi input categories tags filters Ho Hok) as (res & ok & _ & _ & E).
  cbn [lock_ok loaded s_index_dead s_index s_classic_dead s_classic]. rewrite E. cbn [mbind option_bind]. by rewrite Hk.
Qed.
(** Lists sorted by distinct ranks are determined by their elements. *)
Lemma ranks_ascend_tail table a l : ranks_ascend table (a :: l) -> ranks_ascend table l.
Proof. intros A i j x y rx ry Hij Hi Hj. apply (A (S i) (S j)); [lia|done..]. Qed.
Lemma ranks_unique table : NoDup table -> forall l1 l2, l1 ≡ₚ l2 ->
  Forall (fun sid => N.to_nat sid < length table)%nat l1 ->
  ranks_ascend table l1 -> ranks_ascend table l2 -> l1 = l2.
Proof.
  intros Nd l1. induction l1 as [|a l1 IH]; intros l2 Pl F A1 A2; [by apply Permutation_nil in Pl|].
  destruct l2 as [|b l2]; [by apply Permutation_sym, Permutation_nil in Pl|].
  assert (F2 : Forall (fun sid => N.to_nat sid < length table)%nat (b :: l2)) by (by rewrite <- Pl).
  destruct (lookup_lt_is_Some_2 table (N.to_nat a)) as [ra Ra]; [by inversion F|].
  destruct (lookup_lt_is_Some_2 table (N.to_nat b)) as [rb Rb]; [by inversion F2|].
  assert (Min : forall x l rx y ry, ranks_ascend table (x :: l) -> table !! N.to_nat x = Some rx ->
    y ∈ x :: l -> table !! N.to_nat y = Some ry -> rx <= ry).
  { intros x l rx y ry A Rx Hy Ry. apply elem_of_list_lookup in Hy as [[|j] Hj].
    - injection Hj as ->. rewrite Rx in Ry. injection Ry as ->. lia.
    - apply (A 0%nat (S j) x y); [lia|done..]. }
  assert (E : ra = rb).
  { apply N.le_antisymm.
    - apply (Min a l1 ra b rb A1 Ra); [|done]. rewrite Pl. left.
    - apply (Min b l2 rb a ra A2 Rb); [|done]. rewrite <- Pl. left. }
  subst rb. assert (E : N.to_nat a = N.to_nat b) by (eapply NoDup_lookup; done). apply N2Nat.inj in E as <-.
  f_equal. apply IH; [by apply Permutation_cons_inv in Pl|by inversion F|by eapply ranks_ascend_tail..].
Qed.
Lemma filtered_perm low o1 o2 gi input categories tags filters l1 l2 :
  valid_search_order o1 -> valid_search_order o2 -> handlers_ok categories tags ->
  search_filtered low o1 gi input categories tags filters = Done l1 ->
  search_filtered low o2 gi input categories tags filters = Done l2 -> l1 ≡ₚ l2.
Proof.
  intros H1 H2 Hok E1 E2.
  destruct (filtered_spec low o1 gi input categories tags filters H1 Hok) as (res1 & ok1 & R1 & O1 & F1).
  destruct (filtered_spec low o2 gi input categories tags filters H2 Hok) as (res2 & ok2 & R2 & O2 & F2).
  rewrite F1 in E1. injection E1 as <-. rewrite F2 in E2. injection E2 as <-.
  pose proof (order_irrelevant _ _ _ _ _ _ _ size_range (proj1 H1) (proj1 H2) R1 R2) as Pr.
  rewrite (list_filter_iff (fun p => ok1 p = true) (fun p => ok2 p = true)).
  2: { intros p. by rewrite O1, O2. }
  by rewrite Pr.
Qed.
(** C40, the part about requested orders *)
Lemma ordered_same low u1 u2 o1 o2 gi cl input categories tags key table entries filters :
  consistent_gram_index ngram_index_size gi ->
  parse_filters entries = Some filters -> valid_search_order o1 -> valid_search_order o2 -> handlers_ok categories tags ->
  get_orders (cl_order cl) key = Some table -> (length (c_products (gi_container gi)) <= length table)%nat -> NoDup table ->
  search low u1 o1 (loaded gi cl) input categories tags (Some key) entries =
  search low u2 o2 (loaded gi cl) input categories tags (Some key) entries.
Proof.
  intros Con Hp H1 H2 Hok Hk Hl Nd.
  destruct (search_ordered low u1 o1 gi cl input categories tags key table entries filters) as (l1 & l1' & S1 & O1 & P1 & A1); [done..|].
  destruct (search_ordered low u2 o2 gi cl input categories tags key table entries filters) as (l2 & l2' & S2 & O2 & P2 & A2); [done..|].
  rewrite O1, O2. do 3 f_equal.
  destruct (search_unordered low u1 o1 gi cl input categories tags entries filters Hp H1 Hok) as (k1 & E1 & T1).
  destruct (search_unordered low u2 o2 gi cl input categories tags entries filters Hp H2 Hok) as (k2 & E2 & T2).
  rewrite T1 in S1. injection S1 as <-. rewrite T2 in S2. injection S2 as <-.
  apply (ranks_unique table Nd); [|..|done|done].
  - rewrite P1, P2. exact (filtered_perm low o1 o2 gi input categories tags filters k1 k2 H1 H2 Hok E1 E2).
  - rewrite P1. eapply Forall_impl; [exact (results_in_range low o1 gi input categories tags filters k1 Con H1 Hok E1)|]. simpl. intros. lia.
Qed.

(** ** Histories *)
Section history.
Context (low : N -> list N) (u : bool) (P : platform).
(** A dead classic mutex was held by a thread that also held the index mutex; both cells are
    filled together. *)
Definition state_inv (st : lib_state) : Prop :=
  (s_classic_dead st = true -> s_index_dead st = true) /\ (s_index st = None <-> s_classic st = None).
Lemma init_inv : state_inv lib_init.
Proof. split; done. Qed.
Lemma initialize_cases st bytes : state_inv st ->
  (exists gi cl, (initialize P st bytes).2 = Done true /\ deserialize_all P ngram_index_size bytes = Done (gi, cl) /\
     s_index_dead st = false /\ s_classic_dead st = false /\ (initialize P st bytes).1 = loaded gi cl) \/
  (initialize P st bytes).2 = Panic /\ (initialize P st bytes).1 = st.
Proof.
  intros [I _]. unfold initialize. pose proof (load_terminates P ngram_index_size bytes) as T.
  destruct (deserialize_all P ngram_index_size bytes) as [[gi cl]| | |]; [|by right|by right|done].
  unfold lock_unwrap. destruct (s_index_dead st) eqn:D1; [by right|].
  destruct (s_classic_dead st) eqn:D2; [by specialize (I eq_refl)|].
  left. by exists gi, cl.
Qed.
Lemma search_state o st input categories tags order entries :
  let r := search low u o st input categories tags order entries in
  s_index r.1 = s_index st /\ s_classic r.1 = s_classic st /\
  (r.1 = st \/ r.2 = Panic /\ s_index_dead r.1 = true) /\ (s_index_dead st = true -> s_index_dead r.1 = true) /\
  (r.2 = Panic -> s_index_dead r.1 = true).
Proof.
  simpl. unfold search. destruct (parse_filters entries) as [filters|]; [|simpl; intuition done].
  unfold lock_ok. destruct (s_index_dead st) eqn:D.
  { destruct u; simpl; rewrite ?D; intuition done. }
  destruct (s_index st) as [gi|] eqn:I; [|simpl; rewrite ?I, ?D; intuition done].
  destruct (search_filtered _ _ _ _ _ _ _) as [l| | |]; [|simpl; rewrite ?I, ?D; intuition done..].
  destruct order as [key|]; [|simpl; rewrite ?I, ?D; intuition done].
  destruct (s_classic_dead st) eqn:D2.
  { destruct u; simpl; rewrite ?I, ?D; intuition done. }
  destruct (cl ← s_classic st; get_orders (cl_order cl) key) as [table|]; [|simpl; rewrite ?I, ?D; intuition done].
  destruct (sort_by_order table l); simpl; rewrite ?I, ?D; intuition done.
Qed.
Lemma search_classic_dead o st input categories tags order entries : state_inv st ->
  state_inv (search low u o st input categories tags order entries).1.
Proof.
  intros [I1 I2]. destruct (search_state o st input categories tags order entries) as (A & B & C & D & E). simpl in *. split.
  - destruct C as [->|[_ C]]; [done|]. by rewrite C.
  - by rewrite A, B.
Qed.
Lemma step_inv st op : state_inv st -> state_inv (lib_step low u P st op).
Proof.
  intros I. destruct op as [bytes|o input categories tags order entries]; simpl.
  - destruct (initialize_cases st bytes I) as [(gi & cl & _ & _ & _ & _ & ->)|[_ ->]]; done.
  - by apply search_classic_dead.
Qed.
Lemma run_inv st ops : state_inv st -> state_inv (lib_run low u P st ops).
Proof. revert st. induction ops as [|op ops IH]; intros st I; [done|]. apply IH. by apply step_inv. Qed.
(** An operation that loads nothing keeps the contents. *)
Lemma step_contents st op : state_inv st -> ~ loads P st op ->
  s_index (lib_step low u P st op) = s_index st /\ s_classic (lib_step low u P st op) = s_classic st.
Proof.
  intros I N. destruct op as [bytes|o input categories tags order entries]; simpl in *.
  - destruct (initialize_cases st bytes I) as [(gi & cl & L & _)|[_ ->]]; [by destruct N|done].
  - destruct (search_state o st input categories tags order entries) as (A & B & _). done.
Qed.
Lemma run_contents ops : forall st, state_inv st -> no_loads low u P st ops ->
  s_index (lib_run low u P st ops) = s_index st /\ s_classic (lib_run low u P st ops) = s_classic st.
Proof.
  induction ops as [|op ops IH]; intros st I N; [done|destruct N as [N Ns]].
  change (lib_run low u P st (op :: ops)) with (lib_run low u P (lib_step low u P st op) ops).
  destruct (IH _ (step_inv _ _ I) Ns) as [-> ->]. by apply step_contents.
Qed.
Lemma step_same st op : state_inv st -> ~ loads P st op -> ~ search_panics low u st op -> lib_step low u P st op = st.
Proof.
  intros I N Np. destruct op as [bytes|o input categories tags order entries]; simpl in *.
  - destruct (initialize_cases st bytes I) as [(gi & cl & L & _)|[_ ->]]; [by destruct N|done].
  - destruct (search_state o st input categories tags order entries) as (_ & _ & [E|[E _]] & _); [done|by destruct Np].
Qed.
Lemma run_same ops : forall st, state_inv st -> no_loads low u P st ops -> no_panics low u P st ops ->
  lib_run low u P st ops = st.
Proof.
  induction ops as [|op ops IH]; intros st I N Np; [done|destruct N as [N Ns], Np as [Np Nps]].
  change (lib_run low u P st (op :: ops)) with (lib_run low u P (lib_step low u P st op) ops).
  rewrite IH; [by apply step_same|by apply step_inv|done|done].
Qed.
(** C61 *)
Lemma nothing_loaded ops : no_loads low u P lib_init ops -> lib_run low u P lib_init ops = lib_init.
Proof.
  intros N. apply run_same; [apply init_inv|done|].
  assert (G : forall st, st = lib_init -> no_loads low u P st ops -> no_panics low u P st ops); [|by apply G].
  clear N. induction ops as [|op ops IH]; intros st E N; [done|destruct N as [N Ns]]. split.
  - subst. destruct op; simpl; [tauto|]. unfold search. by destruct (parse_filters entries).
  - apply IH; [|done]. rewrite step_same; [done|subst; apply init_inv|done|].
    subst. destruct op; simpl; [tauto|]. unfold search. by destruct (parse_filters entries).
Qed.
Lemma nothing_available ops : no_loads low u P lib_init ops ->
  let st := lib_run low u P lib_init ops in
  (forall o input categories tags order entries,
     search low u o st input categories tags order entries = (lib_init, Nope)) /\
  get_categories st = Nope /\ get_tags st = Nope /\ (forall o, lib_get_orders u o st = Nope) /\
  (forall query, tag_suggestion st query = Nope).
Proof.
  intros N. rewrite (nothing_loaded ops N). simpl. split; [|done].
  intros o input categories tags order entries. unfold search. by destruct (parse_filters entries).
Qed.
(** C62 *)
Lemma failed_initialize ops bytes : let st := lib_run low u P lib_init ops in
  (initialize P st bytes).2 <> Done true ->
  (initialize P st bytes).2 = Panic /\ (initialize P st bytes).1 = st.
Proof.
  intros st N. destruct (initialize_cases st bytes (run_inv _ ops init_inv)) as [(gi & cl & L & _)|H]; [done|done].
Qed.
(** C63 *)
Lemma last_loaded ops1 bytes ops2 : let st := lib_run low u P lib_init ops1 in
  loads P st (InitOp bytes) -> no_loads low u P (lib_step low u P st (InitOp bytes)) ops2 ->
  exists gi cl, deserialize_all P ngram_index_size bytes = Done (gi, cl) /\
    let st' := lib_run low u P lib_init (ops1 ++ InitOp bytes :: ops2) in
    s_index st' = Some gi /\ s_classic st' = Some cl /\
    (no_panics low u P (lib_step low u P st (InitOp bytes)) ops2 -> st' = loaded gi cl).
Proof.
  intros st L N. destruct (initialize_cases st bytes (run_inv _ ops1 init_inv)) as [(gi & cl & _ & E & _ & _ & S)|[Np _]].
  2: { simpl in L. rewrite Np in L. done. }
  exists gi, cl. split; [done|]. unfold lib_run. rewrite foldl_app. cbn [foldl].
  change (foldl (lib_step low u P) lib_init ops1) with st.
  change (foldl (lib_step low u P) (lib_step low u P st (InitOp bytes)) ops2)
    with (lib_run low u P (lib_step low u P st (InitOp bytes)) ops2).
  change (lib_step low u P st (InitOp bytes)) with ((initialize P st bytes).1) in *. rewrite S in *.
  assert (I : state_inv (loaded gi cl)) by done.
  destruct (run_contents ops2 _ I N) as [A B]. split; [done|]. split; [done|].
  intros Nps. by apply run_same.
Qed.
(** C77 *)
Lemma dead_stays ops : forall st, state_inv st -> s_index_dead st = true -> s_index_dead (lib_run low u P st ops) = true.
Proof.
  induction ops as [|op ops IH]; intros st I D; [done|]. apply IH; [by apply step_inv|].
  destruct op as [bytes|o input categories tags order entries]; simpl.
  - destruct (initialize_cases st bytes I) as [(gi & cl & _ & _ & D' & _)|[_ ->]]; [congruence|done].
  - destruct (search_state o st input categories tags order entries) as (_ & _ & _ & A & _). by apply A.
Qed.
Lemma dead_for_good ops1 op ops2 : let st := lib_run low u P lib_init ops1 in search_panics low u st op ->
  let st' := lib_run low u P lib_init (ops1 ++ op :: ops2) in
  (forall bytes, (initialize P st' bytes).2 = Panic) /\
  (forall o input categories tags order entries filters, parse_filters entries = Some filters ->
     (search low u o st' input categories tags order entries).2 = if u then Nope else Panic).
Proof.
  intros st Hp st'. assert (I : state_inv st) by apply run_inv, init_inv.
  assert (D : s_index_dead st' = true).
  { unfold st', lib_run. rewrite foldl_app. cbn [foldl]. apply dead_stays; [by apply step_inv|].
    destruct op as [|o input categories tags order entries]; [done|]. simpl in *.
    destruct (search_state o st input categories tags order entries) as (_ & _ & _ & _ & A). by apply A. }
  split.
  - intros bytes. destruct (initialize_cases st' bytes) as [(gi & cl & _ & _ & D' & _)|[-> _]]; [apply run_inv, init_inv|congruence|done].
  - intros o input categories tags order entries filters Hf. unfold search. rewrite Hf, D. by destruct u.
Qed.
End history.

(** ** The orders of a built index *)
Lemma built_orders parse o input c cl : optimize parse o input = Done (c, cl) ->
  (forall key, get_orders (cl_order cl) key = None <-> key ∉ [s_alphabetical; s_price_up; s_price_down]) /\
  (forall key table, get_orders (cl_order cl) key = Some table -> table ≡ₚ map N.of_nat (seq 0 (length input))) /\
  (forall u ho gi, valid_order ho -> exists l,
     lib_get_orders u ho (loaded gi cl) = Done l /\ l ≡ₚ [s_alphabetical; s_price_up; s_price_down]).
Proof.
  intros (a & up & d & E & F)%optimize_orders_perm.
  assert (D : s_alphabetical <> s_price_up /\ s_alphabetical <> s_price_down /\ s_price_up <> s_price_down) by done.
  destruct D as (D1 & D2 & D3).
  assert (L : forall key, get_orders (cl_order cl) key =
    if decide (key = s_price_down) then Some d else if decide (key = s_price_up) then Some up
    else if decide (key = s_alphabetical) then Some a else None).
  { intros key. unfold get_orders. rewrite E.
    destruct (decide (key = s_price_down)) as [->|]; [apply (lookup_insert (M := gmap rstr))|].
    etrans; [by apply (lookup_insert_ne (M := gmap rstr))|].
    destruct (decide (key = s_price_up)) as [->|]; [apply (lookup_insert (M := gmap rstr))|].
    etrans; [by apply (lookup_insert_ne (M := gmap rstr))|].
    destruct (decide (key = s_alphabetical)) as [->|]; [apply (lookup_insert (M := gmap rstr))|].
    etrans; [by apply (lookup_insert_ne (M := gmap rstr))|]. apply (lookup_empty (M := gmap rstr)). }
  split; [|split].
  - intros key. rewrite L. rewrite !not_elem_of_cons.
    destruct (decide _) as [->|]; [split; [done|intros (? & ? & ? & _); done]|].
    destruct (decide _) as [->|]; [split; [done|intros (? & ? & ? & _); done]|].
    destruct (decide _) as [->|]; [split; [done|intros (? & ? & ? & _); done]|].
    split; [|done]. intros _. repeat split; [done..|apply not_elem_of_nil].
  - rewrite !Forall_cons in F. destruct F as (F1 & F2 & F3 & _). intros key table. rewrite L.
    repeat destruct (decide _); intros [= <-]; done.
  - intros u ho gi Ho. eexists. split; [done|]. unfold order_options. rewrite (Ho _). clear E F.
    apply NoDup_Permutation; [apply NoDup_fst_map_to_list|repeat constructor; set_solver|].
    intros key. trans (is_Some (get_orders (cl_order cl) key)).
    + split.
      * intros ([k' v] & -> & Hk)%elem_of_list_fmap. apply elem_of_map_to_list in Hk. by exists v.
      * intros [v Hv]. apply elem_of_list_fmap. exists (key, v). split; [done|]. by apply elem_of_map_to_list.
    + rewrite L. rewrite !elem_of_cons, elem_of_nil.
      destruct (decide _) as [->|]; [split; [auto|by eexists]|].
      destruct (decide _) as [->|]; [split; [auto|by eexists]|].
      destruct (decide _) as [->|]; [split; [auto|by eexists]|].
      split; [by intros [? ?]|tauto].
Qed.

(** C51 *)
Lemma malformed_search low u o st input categories tags order entries :
  (exists feature v, (feature, v) ∈ entries /\ forall identity props, v <> JObj identity props) ->
  search low u o st input categories tags order entries = (st, Nope).
Proof. intros H. unfold search. by rewrite (parse_none _ H). Qed.

(** C57, C77: what a search delivers, from any loaded file *)
Lemma search_outcome low u o gi cl input categories tags order entries :
  consistent_gram_index ngram_index_size gi -> valid_search_order o -> handlers_ok categories tags ->
  (forall key table, get_orders (cl_order cl) key = Some table -> (length (c_products (gi_container gi)) <= length table)%nat) ->
  search low u o (loaded gi cl) input categories tags order entries = (loaded gi cl, Nope) \/
  exists ids, search low u o (loaded gi cl) input categories tags order entries =
      (loaded gi cl, Done (pp_new (gi_container gi) ids)) /\
    Forall (fun sid => N.to_nat sid < length (c_products (gi_container gi)))%nat ids.
Proof.
  intros Con Ho Hok Ht. destruct (parse_filters entries) as [filters|] eqn:Hp.
  2: { left. unfold search. by rewrite Hp. }
  destruct (search_unordered low u o gi cl input categories tags entries filters Hp Ho Hok) as (l & E & S).
  pose proof (results_in_range low o gi input categories tags filters l Con Ho Hok E) as R.
  destruct order as [key|]; [|right; by exists l].
  destruct (get_orders (cl_order cl) key) as [table|] eqn:K; [|left; by apply search_unknown_order].
  destruct (search_ordered low u o gi cl input categories tags key table entries filters) as (l1 & l' & S1 & S' & Pl & _); [done..|by eapply Ht|].
  right. exists l'. split; [done|]. rewrite S in S1. injection S1 as <-. by rewrite Pl.
Qed.
Lemma producer_range low u o st input categories tags order entries st' p :
  (forall gi, s_index st = Some gi -> consistent_gram_index ngram_index_size gi) -> valid_search_order o -> handlers_ok categories tags ->
  search low u o st input categories tags order entries = (st', Done p) ->
  exists gi ids, s_index st = Some gi /\ p = pp_new (gi_container gi) ids /\
    Forall (fun sid => N.to_nat sid < length (c_products (gi_container gi)))%nat ids.
Proof.
  intros Con Ho Hok. unfold search. destruct (parse_filters entries) as [filters|]; [|done].
  destruct (lock_ok u (s_index_dead st)) as [[]| | |]; try done.
  destruct (s_index st) as [gi|] eqn:I; [|done].
  destruct (search_filtered low o gi input categories tags filters) as [l| | |] eqn:E; try done.
  pose proof (results_in_range low o gi input categories tags filters l (Con _ eq_refl) Ho Hok E) as R.
  destruct order as [key|].
  2: { intros [= <- <-]. by exists gi, l. }
  destruct (lock_ok u (s_classic_dead st)) as [[]| | |]; try done.
  destruct (cl ← s_classic st; get_orders (cl_order cl) key) as [table|]; [|done].
  destruct (sort_by_order table l) as [l'| | |] eqn:S; try done. intros [= <- <-]. exists gi, l'. split; [done|]. split; [done|].
  assert (Pl : l' ≡ₚ l); [|by rewrite Pl].
  unfold sort_by_order in S. destruct l as [|a [|b l]]; [by injection S as <-|by injection S as <-|].
  destruct (mapR _ _) as [keyed| | |] eqn:M; try done. cbn [mbind res_bind] in S. injection S as <-.
  rewrite (sort_by_perm _ keyed). apply mapR_Done in M.
  assert (map snd keyed = a :: b :: l) as ->; [|done].
  clear -M. induction M as [|x y k k' H M IH]; [done|]. simpl. f_equal; [|done].
  destruct (getN table x); [|done]. simpl in H. by injection H as <-.
Qed.
Lemma reachable_consistent low u P ops gi : s_index (lib_run low u P lib_init ops) = Some gi ->
  consistent_gram_index ngram_index_size gi.
Proof.
  induction ops as [|op ops IH] using rev_ind; [done|]. unfold lib_run. rewrite foldl_app. cbn [foldl].
  change (foldl (lib_step low u P) lib_init ops) with (lib_run low u P lib_init ops).
  pose proof (run_inv low u P _ ops init_inv) as I. destruct op as [bytes|o input categories tags order entries]; simpl.
  - destruct (initialize_cases P _ bytes I) as [(gi' & cl & _ & E & _ & _ & ->)|[_ ->]]; [|exact IH].
    intros [= <-]. by apply load_consistent in E as [? _].
  - destruct (search_state low u o (lib_run low u P lib_init ops) input categories tags order entries) as (-> & _). exact IH.
Qed.
Lemma search_answers low u P ops o input categories tags order entries st' p n :
  valid_search_order o -> handlers_ok categories tags ->
  search low u o (lib_run low u P lib_init ops) input categories tags order entries = (st', Done p) ->
  exists c ids, p = pp_new c ids /\ calls pp_next n p = then_none n (map (JsProduct c) ids) /\
    forall sid, sid ∈ ids -> exists q, c_products c !! N.to_nat sid = Some q /\ jp_product (JsProduct c sid) = Done q.
Proof.
  intros Ho Hok S. apply producer_range in S as (gi & ids & I & -> & R); [|apply reachable_consistent|done|done].
  exists (gi_container gi), ids. split; [done|]. by apply producer_answers.
Qed.

(** C64 *)
Lemma same_options_has h h' sid : same_options h h' -> active_options_exist h -> active_options_exist h' ->
  has_options h sid <-> has_options h' sid.
Proof.
  intros [A S] E E'. split; intros H key cat opt Hk Ho.
  - rewrite <- A in Hk. destruct (E key Hk) as (cat0 & opt0 & Ho0). rewrite <- (S key cat0 opt0 cat opt Hk Ho0 Ho). by eapply H.
  - pose proof Hk as Hk'. rewrite A in Hk'. destruct (E' key Hk') as (cat0 & opt0 & Ho0). rewrite (S key cat opt cat0 opt0 Hk Ho Ho0). by eapply H.
Qed.
Lemma same_tags_has h h' sid : same_tags h h' -> active_tags_exist h -> active_tags_exist h' ->
  has_tags h sid <-> has_tags h' sid.
Proof.
  intros [A S] E E'. split; intros H id t Hk Ho.
  - rewrite <- A in Hk. destruct (E id Hk) as (t0 & Ho0). rewrite <- (S id t0 t Hk Ho0 Ho). by eapply H.
  - pose proof Hk as Hk'. rewrite A in Hk'. destruct (E' id Hk') as (t0 & Ho0). rewrite (S id t t0 Hk Ho Ho0). by eapply H.
Qed.
Lemma same_handlers low u o st input categories tags categories' tags' order entries :
  valid_search_order o -> handlers_ok categories tags -> handlers_ok categories' tags' ->
  same_options categories categories' -> same_tags tags tags' ->
  search low u o st input categories tags order entries = search low u o st input categories' tags' order entries.
Proof.
  intros Ho Hok Hok' Sc St. unfold search. destruct (parse_filters entries) as [filters|]; [|done].
  destruct (lock_ok u (s_index_dead st)) as [[]| | |]; try done.
  destruct (s_index st) as [gi|]; [|done].
  assert (search_filtered low o gi input categories tags filters = search_filtered low o gi input categories' tags' filters) as ->; [|done].
  destruct (filtered_spec low o gi input categories tags filters Ho Hok) as (res1 & ok1 & R1 & O1 & ->).
  destruct (filtered_spec low o gi input categories' tags' filters Ho Hok') as (res2 & ok2 & R2 & O2 & ->).
  rewrite R1 in R2. injection R2 as <-. do 2 f_equal. apply list_filter_iff. intros p. rewrite O1, O2. unfold passes.
  rewrite (same_options_has _ _ _ Sc), (same_tags_has _ _ _ St); [done|by destruct Hok|by destruct Hok'|by destruct Hok|by destruct Hok'].
Qed.
