(** More switched on, fewer results. *)
From Verif.model Require Import Base F32 Utf8 Prim Coll Data Gram Indexer Nodes Classic Lit Raw Js Lib.
From Verif.spec Require Import Spec Data_spec Gram_spec Classic_spec Raw_spec Js_spec Lib_spec Samples Raw_samples Gram_samples Lib_samples End_samples Sorted_samples Chosen_spec Narrow_spec.
From Verif.proofs Require Import Base_facts Sort_facts Js_facts Lib_facts End_samples_facts Chosen_facts.

Lemma status_active c item : ch_get_status c item = true <-> eo_keys item ∈ ch_active c.
Proof. unfold ch_get_status. apply bool_decide_eq_true. Qed.
Lemma tag_status_active c t : th_get_status c t = true <-> jt_index t ∈ th_active c.
Proof. unfold th_get_status. apply bool_decide_eq_true. Qed.
Lemma fewer_options_active c1 c2 : fewer_options c1 c2 -> ch_active c1 ⊆ ch_active c2.
Proof. intros [_ H] [a b] Hk. apply (status_active c2 (ExportOption [] a b)), H, status_active. exact Hk. Qed.
Lemma fewer_tags_active t1 t2 : fewer_tags t1 t2 -> th_active t1 ⊆ th_active t2.
Proof. intros [_ H] k Hk. apply (tag_status_active t2 (JSTag (th_handle t1) k)), H, tag_status_active. exact Hk. Qed.
Lemma parse_elem es fs : parse_filters es = Some fs -> forall f, f ∈ fs <-> exists e, e ∈ es /\ parse_entry e = Some f.
Proof.
  revert fs. induction es as [|e es IH]; intros fs E f; simpl in E.
  - injection E as <-. split; [intros H; by apply elem_of_nil in H|intros (e & H & _); by apply elem_of_nil in H].
  - destruct (parse_entry e) as [g|] eqn:P; [|done]. simpl in E. destruct (parse_filters es) as [gs|]; [|done]. injection E as <-.
    rewrite elem_of_cons, (IH gs eq_refl). split.
    + intros [->|(e' & H & H')]; [exists e; split; [left|done]|exists e'; split; [by right|done]].
    + intros (e' & H & H'). apply elem_of_cons in H as [->|H]; [left; congruence|right; by exists e'].
Qed.
Lemma sub_filter {A} (f g : A -> bool) l : (forall x, g x = true -> f x = true) ->
  filter (fun x => g x = true) l `sublist_of` filter (fun x => f x = true) l.
Proof.
  intros H. induction l as [|x l IH]; [done|]. rewrite !filter_cons.
  destruct (decide (g x = true)) as [G|G].
  - rewrite decide_True by auto. by constructor.
  - destruct (decide (f x = true)); [by constructor|done].
Qed.
Lemma sub_map {A B} (f : A -> B) l1 l2 : l1 `sublist_of` l2 -> map f l1 `sublist_of` map f l2.
Proof. induction 1; simpl; by constructor. Qed.
Lemma filtered_narrow low o1 o2 gi q c1 c2 t1 t2 f1 f2 l1 l2 : valid_search_order o1 -> valid_search_order o2 -> se_rank o1 = se_rank o2 ->
  handlers_ok c2 t2 -> fewer_options c1 c2 -> fewer_tags t1 t2 -> (forall f, f ∈ f1 -> f ∈ f2) ->
  search_filtered low o1 gi q c1 t1 f1 = Done l1 -> search_filtered low o2 gi q c2 t2 f2 = Done l2 -> l2 `sublist_of` l1.
Proof.
  intros V1 V2 Hr [Hc Ht] Sc St Hf E1 E2.
  assert (Ac := fewer_options_active _ _ Sc). assert (At := fewer_tags_active _ _ St). destruct Sc as [Hc' _], St as [Ht' _].
  assert (handlers_ok c1 t1) as H1.
  { split; [intros k Hk; rewrite Hc'; by apply Hc, Ac|intros k Hk; rewrite Ht'; by apply Ht, At]. }
  destruct (filtered_spec low o1 gi q c1 t1 f1 V1 H1) as (r1 & ok1 & R1 & I1 & F1).
  destruct (filtered_spec low o2 gi q c2 t2 f2 V2 (conj Hc Ht)) as (r2 & ok2 & R2 & I2 & F2).
  rewrite F1 in E1. rewrite F2 in E2. injection E1 as <-. injection E2 as <-. rewrite <- Hr, R1 in R2. injection R2 as <-.
  apply sub_map, sub_filter. intros p. rewrite I1, I2. unfold passes, has_options, has_tags. rewrite Hc', Ht'. intros (A & B & C).
  split; [|split]; [intros k cat opt Hk; apply A; by apply Ac|intros k t Hk; apply B; by apply At|intros f Hin; apply C; by apply Hf].
Qed.
Lemma sort_by_order_perm table l l' : sort_by_order table l = Done l' -> l' ≡ₚ l.
Proof.
  destruct l as [|a [|b l]]; [by intros [= <-]|by intros [= <-]|]. set (l0 := a :: b :: l). intros E.
  change (sort_by_order table l0) with (keyed ← mapR (fun v => k ← unwrap (getN table v); Done (k, v)) l0;
    Done (map snd (sort_by (fun a b => N.compare a.1 b.1) keyed))) in E. clearbody l0.
  destruct (mapR _ l0) as [keyed| | |] eqn:M; try done. cbn [mbind res_bind] in E. injection E as <-.
  rewrite (sort_by_perm _ keyed). apply mapR_Done in M.
  induction M as [|x y l0 ys H M IH]; [done|]. simpl. destruct (unwrap (getN table x)) as [k| | |] eqn:U; try done.
  simpl in H. injection H as <-. simpl. by rewrite IH.
Qed.
(** What a search that succeeds has found before it is put in order. *)
Lemma search_found low u o st q c t order e st' p : search low u o st q c t order e = (st', Done p) ->
  exists fs gi l, parse_filters e = Some fs /\ s_index st = Some gi /\ search_filtered low o gi q c t fs = Done l /\
    pp_export p ≡ₚ l /\ (order = None -> pp_export p = l).
Proof.
  unfold search. intros E. destruct (parse_filters e) as [fs|]; [|done]. destruct (lock_ok u (s_index_dead st)); try done.
  destruct (s_index st) as [gi|]; [|done]. destruct (search_filtered low o gi q c t fs) as [l| | |] eqn:F; try done.
  exists fs, gi, l. split; [done|]. split; [done|]. split; [done|].
  destruct order as [key|]; [|injection E as _ <-; done].
  destruct (lock_ok u (s_classic_dead st)); try done. destruct (_ ≫= _) as [table|]; [|done].
  destruct (sort_by_order table l) as [l'| | |] eqn:S; try done. injection E as _ <-. split; [|done]. simpl.
  by eapply sort_by_order_perm.
Qed.
Lemma search_narrow low u o1 o2 st q c1 c2 t1 t2 order e1 e2 st1 st2 p1 p2 :
  valid_search_order o1 -> valid_search_order o2 -> se_rank o1 = se_rank o2 ->
  handlers_ok c2 t2 -> fewer_options c1 c2 -> fewer_tags t1 t2 -> (forall e, e ∈ e1 -> e ∈ e2) ->
  search low u o1 st q c1 t1 order e1 = (st1, Done p1) -> search low u o2 st q c2 t2 order e2 = (st2, Done p2) ->
  (forall id, id ∈ pp_export p2 -> id ∈ pp_export p1) /\ (order = None -> pp_export p2 `sublist_of` pp_export p1).
Proof.
  intros V1 V2 Hr H2 Sc St He E1 E2.
  destruct (search_found _ _ _ _ _ _ _ _ _ _ _ E1) as (f1 & gi & l1 & P1 & G1 & F1 & M1 & N1).
  destruct (search_found _ _ _ _ _ _ _ _ _ _ _ E2) as (f2 & gi2 & l2 & P2 & G2 & F2 & M2 & N2).
  rewrite G1 in G2. injection G2 as <-.
  assert (l2 `sublist_of` l1) as S.
  { refine (filtered_narrow low o1 o2 gi q c1 c2 t1 t2 f1 f2 l1 l2 V1 V2 Hr H2 Sc St _ F1 F2). intros f.
    rewrite (parse_elem _ _ P1), (parse_elem _ _ P2). intros (e & Hin & He'). exists e. split; [by apply He|done]. }
  split.
  - intros id. rewrite M1, M2. intros Hid. clear -S Hid. induction S as [|x k1 k2 S IH|x k1 k2 S IH]; [done| |right; auto].
    apply elem_of_cons in Hid as [->|Hid]; [left|right; auto].
  - intros H. by rewrite N1, N2.
Qed.
Lemma joins_fewer c1 c2 c : joins_options c1 c2 c -> fewer_options c1 c /\ fewer_options c2 c.
Proof. intros (A & B & H). split; (split; [done|]); intros item Hi; rewrite H, Hi; [done|apply orb_true_r]. Qed.
Lemma joins_fewer_tags c1 c2 c : joins_tags c1 c2 c -> fewer_tags c1 c /\ fewer_tags c2 c.
Proof. intros (A & B & H). split; (split; [done|]); intros item Hi; rewrite H, Hi; [done|apply orb_true_r]. Qed.
Lemma search_meet low u o1 o2 o st q c1 c2 c t1 t2 t order e st1 st2 st' p1 p2 p :
  valid_search_order o1 -> valid_search_order o2 -> valid_search_order o -> se_rank o1 = se_rank o -> se_rank o2 = se_rank o ->
  handlers_ok c t -> joins_options c1 c2 c -> joins_tags t1 t2 t ->
  search low u o1 st q c1 t1 order e = (st1, Done p1) -> search low u o2 st q c2 t2 order e = (st2, Done p2) ->
  search low u o st q c t order e = (st', Done p) ->
  forall id, id ∈ pp_export p <-> id ∈ pp_export p1 /\ id ∈ pp_export p2.
Proof.
  intros V1 V2 V R1 R2 Hok Jc Jt E1 E2 E id.
  destruct (joins_fewer _ _ _ Jc) as [Sc1 Sc2], (joins_fewer_tags _ _ _ Jt) as [St1 St2]. split.
  { intros Hid. split; [refine (proj1 (search_narrow low u o1 o st q c1 c t1 t order e e st1 st' p1 p V1 V R1 Hok Sc1 St1 _ E1 E) id Hid)|
      refine (proj1 (search_narrow low u o2 o st q c2 c t2 t order e e st2 st' p2 p V2 V R2 Hok Sc2 St2 _ E2 E) id Hid)]; done. }
  destruct (search_found _ _ _ _ _ _ _ _ _ _ _ E1) as (f1 & gi & l1 & P1 & G1 & F1 & M1 & _).
  destruct (search_found _ _ _ _ _ _ _ _ _ _ _ E2) as (f2 & gi2 & l2 & P2 & G2 & F2 & M2 & _).
  destruct (search_found _ _ _ _ _ _ _ _ _ _ _ E) as (f & gi' & l & P' & G & F & M & _).
  rewrite G1 in G2, G. injection G2 as <-. injection G as <-. rewrite P1 in P2, P'. injection P2 as <-. injection P' as <-.
  assert (Ac1 := fewer_options_active _ _ Sc1). assert (At1 := fewer_tags_active _ _ St1).
  assert (Ac2 := fewer_options_active _ _ Sc2). assert (At2 := fewer_tags_active _ _ St2).
  destruct Jc as (K1 & K2 & Jc), Jt as (L1 & L2 & Jt). destruct Hok as [Hc Ht].
  assert (handlers_ok c1 t1) as H1. { split; [intros k Hk; rewrite K1; by apply Hc, Ac1|intros k Hk; rewrite L1; by apply Ht, At1]. }
  assert (handlers_ok c2 t2) as H2. { split; [intros k Hk; rewrite K2; by apply Hc, Ac2|intros k Hk; rewrite L2; by apply Ht, At2]. }
  destruct (filtered_spec low o1 gi q c1 t1 f1 V1 H1) as (r1 & ok1 & Q1 & I1 & X1).
  destruct (filtered_spec low o2 gi q c2 t2 f1 V2 H2) as (r2 & ok2 & Q2 & I2 & X2).
  destruct (filtered_spec low o gi q c t f1 V (conj Hc Ht)) as (r & ok & Q & I & X).
  rewrite X1 in F1. rewrite X2 in F2. rewrite X in F. injection F1 as <-. injection F2 as <-. injection F as <-.
  rewrite R1, Q in Q1. injection Q1 as <-. rewrite R2, Q in Q2. injection Q2 as <-.
  rewrite M, M1, M2. intros [A1 A2].
  apply elem_of_list_fmap in A1 as (p1' & -> & [B1 C1]%elem_of_list_filter). apply elem_of_list_fmap in A2 as (p2' & Es & [B2 C2]%elem_of_list_filter).
  apply elem_of_list_fmap. exists p1'. split; [done|]. apply elem_of_list_filter. split; [|done].
  apply I. apply I1 in B1 as (O1 & T1 & W1). apply I2 in B2 as (O2 & T2 & _). rewrite <- Es in O2, T2.
  unfold has_options, has_tags in *. rewrite K1 in O1. rewrite K2 in O2. rewrite L1 in T1. rewrite L2 in T2.
  split; [|split; [|done]].
  - intros [a b] cat opt Hk At. specialize (Jc (ExportOption [] a b)). apply (status_active c (ExportOption [] a b)) in Hk.
    rewrite Hk in Jc. symmetry in Jc. apply orb_true_iff in Jc as [Hs|Hs]; apply status_active in Hs; [by eapply O1|by eapply O2].
  - intros k g Hk At. specialize (Jt (JSTag (th_handle t) k)). apply (tag_status_active t (JSTag (th_handle t) k)) in Hk.
    rewrite Hk in Jt. symmetry in Jt. apply orb_true_iff in Jt as [Hs|Hs]; apply tag_status_active in Hs; [by eapply T1|by eapply T2].
Qed.
Lemma picked_ok st gi cl : st = loaded gi cl ->
  match s_classic st with Some cl => is_Some (option_names cl 0 0) /\ is_Some (option_names cl 0 1) | None => False end ->
  handlers_ok (cat_run (cats_of st) [pick_red; pick_blue]) (tags_of st) /\
  joins_options (cat_run (cats_of st) [pick_red]) (cat_run (cats_of st) [pick_blue]) (cat_run (cats_of st) [pick_red; pick_blue]) /\
  joins_tags (tags_of st) (tags_of st) (tags_of st).
Proof.
  intros -> [N1 N2]. change (cats_of (loaded gi cl)) with (ch_new cl). split; [split|split].
  - apply cat_history_exist. repeat constructor; simpl; by apply names_at.
  - intros id Hid. by apply not_elem_of_empty in Hid.
  - split; [by rewrite !cat_handle|]. split; [by rewrite !cat_handle|]. intros item. rewrite !cat_parity. simpl.
    destruct (decide (eo_keys (ExportOption [] 0 0) = eo_keys item)) as [E1|E1],
      (decide (eo_keys (ExportOption [] 0 1) = eo_keys item)) as [E2|E2]; try done.
    rewrite <- E2 in E1. discriminate.
  - split; [done|]. split; [done|]. intros g. by rewrite orb_diag.
Qed.
Lemma sample_narrow : let st := after [InitOp sample_file] in
  let on ops := cat_run (cats_of st) ops in
  handlers_ok (on [pick_red; pick_blue]) (tags_of st) /\ joins_options (on [pick_red]) (on [pick_blue]) (on [pick_red; pick_blue]) /\
  joins_tags (tags_of st) (tags_of st) (tags_of st) /\
  map (fun c => answer st three_words c (tags_of st) None []) [on []; on [pick_red]; on [pick_blue]; on [pick_red; pick_blue]] =
    [Done [1; 2; 0]; Done [0]; Done [2; 0]; Done [0]].
Proof.
  cbv zeta. destruct sample_classic as (gi & cl & E). destruct (picked_ok _ gi cl E sample_names) as (A & B & C).
  split; [exact A|]. split; [exact B|]. split; [exact C|]. clear A B C E. vm_compute. reflexivity.
Qed.
