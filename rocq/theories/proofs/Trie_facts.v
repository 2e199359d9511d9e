(** What a built trie and its posting lists contain, in terms of the texts. *)
From Verif.model Require Import Base F32 Utf8 Prim Coll Data Gram Indexer.
From Verif.spec Require Import Spec Gram_spec Data_spec.
From Verif.proofs Require Import Base_facts Sort_facts Float_facts Indexer_facts Data_more File_facts.

Lemma nodup_map_inj {A B} (f : A -> B) l x y :
  NoDup (map f l) -> x ∈ l -> y ∈ l -> f x = f y -> x = y.
Proof.
  induction l as [|z l IH]; simpl; intros Hnd Hx Hy E; [by apply elem_of_nil in Hx|].
  apply NoDup_cons in Hnd as [Hz Hnd].
  apply elem_of_cons in Hx as [->|Hx]; apply elem_of_cons in Hy as [->|Hy]; try done.
  - destruct Hz. rewrite E. by apply elem_of_list_fmap_1.
  - destruct Hz. rewrite <- E. by apply elem_of_list_fmap_1.
  - by apply IH.
Qed.

(** ** Paths of a built node *)
Definition up_count (c : list N -> N) (w v : list N) (parent : N) : N :=
  match v with [] => parent | _ => c (removelast (w ++ v)) end.

Lemma built_reaches c : forall nd v nd', reaches nd v nd' -> forall w parent,
  built c w parent nd -> built c (w ++ v) (up_count c w v parent) nd'.
Proof.
  induction 1 as [nd|nd child v nd' Hc Hr IH]; intros w parent B.
  - by rewrite app_nil_r.
  - inversion B as [w' p' item children Hl Hg Hnd Hd Hall]. subst. cbn [n_children] in Hc.
    rewrite Forall_forall in Hall. pose proof (Hall child Hc) as Bc.
    specialize (IH _ _ Bc). rewrite <- app_assoc in IH. cbn [app] in IH.
    assert (up_count c (w ++ [n_item child]) v (c w) = up_count c w (n_item child :: v) parent) as E.
    { unfold up_count. destruct v as [|x v].
      - by rewrite removelast_last.
      - by rewrite <- app_assoc. }
    by rewrite E in IH.
Qed.
Lemma built_pos_reaches c : forall v w parent nd,
  (forall u g, u <> [] -> c (u ++ [g]) <= c u) ->
  w <> [] -> built c w parent nd -> 0 < c (w ++ v) -> exists nd', reaches nd v nd'.
Proof.
  induction v as [|g v IH]; intros w parent nd Hm Hw B Hpos.
  - exists nd. constructor.
  - assert (Hg0 : 0 < c (w ++ [g])).
    { clear IH B. induction v as [|x v IH] using rev_ind; [done|]. apply IH.
      rewrite app_comm_cons, app_assoc in Hpos.
      eapply N.lt_le_trans; [exact Hpos|]. apply Hm. by destruct w. }
    inversion B as [w' p' item children Hl Hg Hnd Hd Hall]. subst.
    apply Hg in Hg0 as (child & Hc & <-).
    rewrite Forall_forall in Hall. pose proof (Hall child Hc) as Bc.
    destruct (IH (w ++ [n_item child]) (c w) child Hm) as (nd' & Hr).
    + by destruct w.
    + done.
    + by rewrite <- app_assoc.
    + exists nd'. by econstructor.
Qed.
Lemma built_reaches_unique c : forall nd v nd1, reaches nd v nd1 -> forall w parent nd2,
  built c w parent nd -> reaches nd v nd2 -> nd1 = nd2.
Proof.
  induction 1 as [nd|nd child v nd1 Hc Hr IH]; intros w parent nd2 B R2.
  - by inversion R2.
  - inversion B as [w' p' item children Hl Hg Hnd Hd Hall]. subst. cbn [n_children] in Hc.
    inversion R2 as [|nd' child' v' nd2' Hc' Hr' E1 E2]. subst. cbn [n_children] in Hc'.
    assert (child' = child) as ->.
    { by eapply (nodup_map_inj n_item children). }
    rewrite Forall_forall in Hall. eapply IH; [by apply Hall|done].
Qed.

(** ** A whole built index *)
Section index.
Context (P : platform) (n : nat) (source : list (product * list N)) (pc : container) (gi : gram_index).
Context (Hn : (1 <= n)%nat) (Hlim : total_grams (map snd source) < 2 ^ 32).
Context (IB : index_built P n source pc gi).
Notation texts := (map snd source).
Notation c := (counts n texts).

Lemma counts_mono u g : u <> [] -> c (u ++ [g]) <= c u.
Proof. apply counts_parent. Qed.
Lemma counts_occurs w : 0 < c w <-> w <> [] /\ (length w <= n)%nat /\ exists t, t ∈ texts /\ occurs w t.
Proof.
  unfold counts. case_bool_decide as H.
  - rewrite total_occurrences_pos by apply H. tauto.
  - split; [lia|tauto].
Qed.
Lemma at_path_built w nd : at_path (gi_roots gi) w nd ->
  built c w (match w with [] | [_] => total_grams texts | _ => c (removelast w) end) nd.
Proof.
  intros (g & w' & root & -> & Hr & Hw).
  pose proof (built_reaches c root w' nd Hw [g] _ (ib_root _ _ _ _ _ IB g root Hr)) as B.
  unfold up_count in B. cbn [app] in B. by destruct w'.
Qed.
Lemma at_path_iff w : (exists nd, at_path (gi_roots gi) w nd) <->
  w <> [] /\ (length w <= n)%nat /\ exists t, t ∈ texts /\ occurs w t.
Proof.
  rewrite <- counts_occurs. split.
  - intros (nd & (g & w' & root & -> & Hr & Hw)).
    assert (Hg : 0 < c [g]) by (apply (ib_roots _ _ _ _ _ IB); eauto).
    pose proof (ib_root _ _ _ _ _ IB g root Hr) as B. 
    change (g :: w') with ([g] ++ w'). revert Hg B. generalize [g] as u. 
    generalize (total_grams texts) as m. clear Hr. induction Hw as [nd|nd child w' nd' Hc Hw IH];
      intros m u Hu B; [by rewrite app_nil_r|].
    inversion B as [u' p' item children Hl Hg' Hnd Hd Hall]. subst. cbn [n_children] in Hc.
    change (n_item child :: w') with ([n_item child] ++ w'). rewrite app_assoc.
    eapply IH; [|rewrite Forall_forall in Hall; by apply Hall].
    apply Hg'. eauto.
  - intros Hpos. destruct w as [|g w'].
    { apply counts_occurs in Hpos. tauto. }
    assert (Hg : 0 < c [g]).
    { induction w' as [|x w' IH] using rev_ind; [done|]. apply IH.
      eapply N.lt_le_trans; [exact Hpos|]. by apply (counts_mono (g :: w') x). }
    apply (ib_roots _ _ _ _ _ IB) in Hg as (root & Hr).
    pose proof (ib_root _ _ _ _ _ IB g root Hr) as B.
    destruct (built_pos_reaches c w' [g] _ root counts_mono ltac:(done) B Hpos) as (nd & Hw).
    exists nd, g, w', root. done.
Qed.
Lemma at_path_unique w nd1 nd2 :
  at_path (gi_roots gi) w nd1 -> at_path (gi_roots gi) w nd2 -> nd1 = nd2.
Proof.
  intros (g & w' & root & -> & Hr & Hw) (g2 & w2 & root2 & [= <- <-] & Hr2 & Hw2).
  rewrite Hr in Hr2. injection Hr2 as <-.
  eapply built_reaches_unique; [exact Hw|by apply (ib_root _ _ _ _ _ IB g root Hr)|exact Hw2].
Qed.
Lemma counts_full w : w <> [] -> (length w <= n)%nat -> c w = total_occurrences w texts.
Proof. intros H1 H2. unfold counts. by rewrite bool_decide_true. Qed.

Lemma at_path_weight w nd : at_path (gi_roots gi) w nd ->
  last w = Some (n_item nd) /\
  n_weight nd = f32_div (f32_of_N (total_occurrences w texts)) (f32_of_N (parent_occurrences w texts)) /\
  f32_ratio (n_weight nd).
Proof.
  intros Hp. pose proof (at_path_built w nd Hp) as B.
  assert (Hw : w <> [] /\ (length w <= n)%nat /\ exists t, t ∈ texts /\ occurs w t)
    by (apply at_path_iff; eauto).
  pose proof (proj2 (counts_occurs w) Hw) as Hpos. destruct Hw as (Hw0 & Hwl & _).
  inversion B as [w' p' item children Hl Hg Hnd Hd Hall]. subst. cbn [n_item n_weight].
  split; [done|]. unfold occurances_to_weight.
  assert (Hpar : match w with [] | [_] => total_grams texts | _ => c (removelast w) end
                 = parent_occurrences w texts).
  { unfold parent_occurrences. destruct w as [|x [|y w]]; [done..|]. apply counts_full; [done|].
    rewrite removelast_firstn_len, take_length. cbn [length] in *. lia. }
  assert (Hle : c w <= parent_occurrences w texts).
  { rewrite <- Hpar. destruct w as [|x [|y w]]; [done|apply counts_le|].
    rewrite (app_removelast_last 0 (l := x :: y :: w)) at 1 by done. apply counts_mono. by destruct w. }
  rewrite Hpar. split; [by rewrite counts_full|].
  apply f32_div_ratio; [done|done|].
  unfold parent_occurrences. destruct w as [|x [|y w]]; [done|done|].
  eapply N.le_lt_trans; [apply total_occurrences_le|done].
Qed.

Lemma at_path_children w nd : at_path (gi_roots gi) w nd ->
  NoDup (map n_item (n_children nd)) /\ descending (n_children nd) /\
  forall g, (exists child, child ∈ n_children nd /\ n_item child = g) <->
    exists nd', at_path (gi_roots gi) (w ++ [g]) nd'.
Proof.
  intros Hp. pose proof (at_path_built w nd Hp) as B.
  inversion B as [w' p' item children Hl Hg Hnd Hd Hall]. subst. cbn [n_children].
  split; [done|]. split; [done|]. intros g. rewrite Hg, at_path_iff. apply counts_occurs.
Qed.
Lemma at_path_down w nd child : at_path (gi_roots gi) w nd -> child ∈ n_children nd ->
  at_path (gi_roots gi) (w ++ [n_item child]) child.
Proof.
  intros (g & w' & root & -> & Hr & Hw) Hc. exists g, (w' ++ [n_item child]), root.
  split; [done|]. split; [done|]. clear Hr. induction Hw as [nd|nd x w' nd' Hx Hw IH]; simpl.
  - econstructor; [done|constructor].
  - econstructor; [done|]. by apply IH.
Qed.

(** The most popular chain. *)
Lemma chain_spec : forall nd w, at_path (gi_roots gi) w nd ->
  exists v leaf, chain_from nd = n_item nd :: v /\ at_path (gi_roots gi) (w ++ v) leaf /\
    n_children leaf = [] /\
    forall u x u', v = u ++ x :: u' -> exists m, at_path (gi_roots gi) (w ++ u) m /\ heaviest_child m x.
Proof.
  induction nd as [item weight children IH] using node_ind'. intros w Hp.
  destruct (at_path_children _ _ Hp) as (Hnd & Hd & _). cbn [n_children] in *.
  cbn [chain_from n_item]. destruct children as [|first rest].
  - exists [], (Node item weight []). rewrite app_nil_r. split; [done|]. split; [done|]. split; [done|].
    intros u x u' E. by destruct u.
  - assert (Hc : first ∈ first :: rest) by left.
    pose proof (at_path_down _ _ first Hp Hc) as Hpf.
    apply Forall_cons in IH as [IHf _]. destruct (IHf _ Hpf) as (v & leaf & E & Hl & Hlc & Hh).
    exists (n_item first :: v), leaf. rewrite E. split; [done|].
    rewrite <- app_assoc in Hl. split; [done|]. split; [done|].
    intros u x u' Hv. destruct u as [|y u].
    + injection Hv as <- ->. rewrite app_nil_r. exists (Node item weight (first :: rest)). split; [done|].
      exists first. cbn [n_children]. split; [done|]. split; [done|]. destruct Hd as [Hd _].
      constructor; [|done]. apply f32_le_refl, f32_unit_number, f32_ratio_unit.
      apply (at_path_weight _ _ Hpf).
    + injection Hv as <- ->. destruct (Hh u x u' eq_refl) as (m & Hm & Hx).
      exists m. split; [|done]. by rewrite <- app_assoc in Hm.
Qed.

(** Posting lists. *)
Lemma postings key l : gi_data gi !! key = Some l ->
  l = sort_by product_cmp (owners n source key) /\ owners n source key <> [] /\
  lenN (owners n source key) < maximum_product_amount P (lenN (c_products pc)).
Proof.
  rewrite (ib_data _ _ _ _ _ IB). cbv zeta. case_bool_decide as H; [|done]. intros [= <-]. tauto.
Qed.
Lemma postings_exist key : is_Some (gi_data gi !! key) <->
  owners n source key <> [] /\
  lenN (owners n source key) < maximum_product_amount P (lenN (c_products pc)).
Proof.
  rewrite (ib_data _ _ _ _ _ IB). cbv zeta. case_bool_decide as H.
  - split; [done|]. eauto.
  - split; [by intros []|tauto].
Qed.
End index.

(** ** Owners *)
Lemma owners_elem n source key p : p ∈ owners n source key <->
  exists t, (p, t) ∈ source /\ key ∈ windows n t.
Proof.
  unfold owners. induction source as [|[q t] source IH]; simpl.
  - split; [intros H; by apply elem_of_nil in H|intros (t & H & _); by apply elem_of_nil in H].
  - rewrite elem_of_app, IH. split.
    + intros [H|(t' & H & Hk)].
      * apply elem_of_replicate in H as [-> Hl]. exists t. split; [left|].
        destruct (filter (fun w => w = key) (windows n t)) as [|x l] eqn:E; [done|].
        assert (Hx : x ∈ filter (fun w => w = key) (windows n t)) by (rewrite E; left).
        apply elem_of_list_filter in Hx as [-> Hx]. done.
      * exists t'. split; [by right|done].
    + intros (t' & [[= -> ->]|H]%elem_of_cons & Hk).
      * left. apply elem_of_replicate. split; [done|].
        assert (Hx : key ∈ filter (fun w => w = key) (windows n t)) by by apply elem_of_list_filter.
        by destruct (filter (fun w => w = key) (windows n t)); [apply elem_of_nil in Hx|].
      * right. by exists t'.
Qed.
(** Owners come in source order. *)
Lemma owners_ascending n source key : ascending (map (fun '(p, _) => p_sid p) source) ->
  in_order (owners n source key).
Proof.
  unfold in_order, owners. induction source as [|[q t] source IH]; simpl; [done|].
  intros [Hq Hs]. rewrite map_app. specialize (IH Hs).
  assert (Hall : Forall (fun y => p_sid q <= y) (map p_sid (concat (map (fun '(p, t0) =>
     replicate (length (filter (fun w => w = key) (windows n t0))) p) source)))).
  { apply Forall_forall. intros y Hy. apply elem_of_list_fmap in Hy as (p & -> & Hp).
    apply (owners_elem n source key p) in Hp as (t' & Ht' & _).
    rewrite Forall_forall in Hq. apply (Hq (p_sid p)). apply elem_of_list_fmap.
    by exists (p, t'). }
  induction (length (filter (fun w => w = key) (windows n t))) as [|k IHk]; simpl; [done|].
  split; [|done]. rewrite Forall_app. split; [|done].
  apply Forall_forall. intros y Hy. apply elem_of_list_fmap in Hy as (p & -> & Hp).
  apply elem_of_replicate in Hp as [-> _]. lia.
Qed.

(** A window without NUL is an occurrence in the text itself. *)
Lemma lookback_suffix n t key : length key = n -> 0 ∉ key ->
  lookback_of n t = key <-> key `suffix_of` t.
Proof.
  intros Hl Hz. unfold lookback_of. split.
  - intros E. destruct (decide (n <= length t)%nat) as [Hle|Hgt].
    + rewrite drop_app_ge in E by by rewrite replicate_length. rewrite <- E. apply drop_suffix.
    + exfalso. apply Hz. rewrite <- E.
      rewrite drop_app_le by (rewrite replicate_length; lia).
      apply elem_of_app. left. rewrite drop_replicate. apply elem_of_replicate. split; [done|lia].
  - intros [k ->]. rewrite app_length, drop_app_ge by (rewrite replicate_length; lia).
    rewrite replicate_length. replace (length k + length key - n)%nat with (length k) by lia.
    by rewrite drop_app.
Qed.
Lemma windows_occurrences n t key : (1 <= n)%nat -> length key = n -> 0 ∉ key ->
  lenN (filter (fun w => w = key) (windows n t)) = occurrences key t.
Proof.
  intros Hn Hl Hz. assert (Hk : key <> []) by (intros ->; simpl in Hl; lia).
  induction t as [|g t IH] using rev_ind; [done|].
  rewrite windows_snoc, occurrences_snoc by done. rewrite filter_app, lenN_app, IH. f_equal.
  rewrite filter_cons. pose proof (lookback_suffix n (t ++ [g]) key Hl Hz) as E.
  destruct (decide (lookback_of n (t ++ [g]) = key)); case_bool_decide; try done; exfalso; tauto.
Qed.
Lemma windows_occurs n t key : (1 <= n)%nat -> length key = n -> 0 ∉ key ->
  key ∈ windows n t <-> occurs key t.
Proof.
  intros Hn Hl Hz. assert (Hk : key <> []) by (intros ->; simpl in Hl; lia).
  rewrite <- occurrences_pos, <- (windows_occurrences n) by done. split.
  - intros H. assert (Hx : key ∈ filter (fun w => w = key) (windows n t)) by by apply elem_of_list_filter.
    destruct (filter (fun w => w = key) (windows n t)); [by apply elem_of_nil in Hx|]. rewrite lenN_cons. lia.
  - intros H. destruct (filter (fun w => w = key) (windows n t)) as [|x l] eqn:E; [done|].
    assert (Hx : x ∈ filter (fun w => w = key) (windows n t)) by (rewrite E; left).
    by apply elem_of_list_filter in Hx as [-> Hx].
Qed.
