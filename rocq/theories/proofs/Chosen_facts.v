(** Only what is switched on matters to a search. *)
From Verif.model Require Import Base F32 Utf8 Prim Coll Data Gram Indexer Nodes Classic Lit Raw Js Lib.
From Verif.spec Require Import Spec Data_spec Gram_spec Classic_spec Raw_spec Js_spec Lib_spec Chosen_spec Samples Raw_samples Gram_samples Lib_samples Js_samples End_spec End_samples Sorted_samples.
From Verif.proofs Require Import Base_facts Js_facts Lib_facts Raw_props End_samples_facts.

Lemma same_options_active c1 c2 : same_options c1 c2 -> ch_active c1 = ch_active c2.
Proof.
  intros [_ H]. apply set_eq. intros [a b]. specialize (H (ExportOption [] a b)). unfold ch_get_status, eo_keys in H. simpl in H.
  destruct (decide ((a, b) ∈ ch_active c1)) as [H1|H1], (decide ((a, b) ∈ ch_active c2)) as [H2|H2]; try tauto.
  - by rewrite bool_decide_eq_true_2, bool_decide_eq_false_2 in H.
  - by rewrite bool_decide_eq_false_2, bool_decide_eq_true_2 in H.
Qed.
Lemma same_tags_active t1 t2 : same_tags t1 t2 -> th_active t1 = th_active t2.
Proof.
  intros [_ H]. apply set_eq. intros k. specialize (H (JSTag (th_handle t1) k)). unfold th_get_status in H. simpl in H.
  destruct (decide (k ∈ th_active t1)) as [H1|H1], (decide (k ∈ th_active t2)) as [H2|H2]; try tauto.
  - by rewrite bool_decide_eq_true_2, bool_decide_eq_false_2 in H.
  - by rewrite bool_decide_eq_false_2, bool_decide_eq_true_2 in H.
Qed.
Lemma parse_perm e1 e2 : e1 ≡ₚ e2 ->
  match parse_filters e1, parse_filters e2 with
  | Some f1, Some f2 => f1 ≡ₚ f2
  | None, None => True
  | _, _ => False
  end.
Proof.
  induction 1 as [|x l1 l2 H IH|x y l|l1 l2 l3 H1 IH1 H2 IH2]; simpl.
  - done.
  - destruct (parse_entry x); simpl; [|done]. destruct (parse_filters l1), (parse_filters l2); simpl; try done. by constructor.
  - destruct (parse_entry x), (parse_entry y); simpl; try done; destruct (parse_filters l); simpl; try done. constructor.
  - destruct (parse_filters l1), (parse_filters l2), (parse_filters l3); try done. by etransitivity.
Qed.
Lemma filtered_chosen low o1 o2 gi q c1 c2 t1 t2 f1 f2 : valid_search_order o1 -> valid_search_order o2 -> se_rank o1 = se_rank o2 ->
  handlers_ok c1 t1 -> same_options c1 c2 -> same_tags t1 t2 -> f1 ≡ₚ f2 ->
  search_filtered low o1 gi q c1 t1 f1 = search_filtered low o2 gi q c2 t2 f2.
Proof.
  intros V1 V2 Hr [Hc Ht] Sc St Hf.
  assert (Ac := same_options_active _ _ Sc). assert (At := same_tags_active _ _ St).
  destruct Sc as [Hc' _], St as [Ht' _].
  assert (handlers_ok c2 t2) as H2.
  { split; [intros k Hk; rewrite <- Hc'; apply Hc; by rewrite Ac|intros k Hk; rewrite <- Ht'; apply Ht; by rewrite At]. }
  destruct (filtered_spec low o1 gi q c1 t1 f1 V1 (conj Hc Ht)) as (r1 & ok1 & E1 & I1 & ->).
  destruct (filtered_spec low o2 gi q c2 t2 f2 V2 H2) as (r2 & ok2 & E2 & I2 & ->).
  rewrite <- Hr, E1 in E2. injection E2 as <-. do 2 f_equal. apply list_filter_iff. intros p. rewrite I1, I2.
  unfold passes, has_options, has_tags. rewrite Ac, At, Hc', Ht'. by setoid_rewrite Hf.
Qed.
Lemma search_chosen low u o1 o2 st q c1 c2 t1 t2 order e1 e2 : valid_search_order o1 -> valid_search_order o2 -> se_rank o1 = se_rank o2 ->
  handlers_ok c1 t1 -> same_options c1 c2 -> same_tags t1 t2 -> e1 ≡ₚ e2 ->
  search low u o1 st q c1 t1 order e1 = search low u o2 st q c2 t2 order e2.
Proof.
  intros V1 V2 Hr Hok Sc St He. unfold search. assert (Hp := parse_perm _ _ He).
  destruct (parse_filters e1) as [f1|], (parse_filters e2) as [f2|]; try done.
  destruct (lock_ok _ _); try done. destruct (s_index st) as [gi|]; [|done].
  by rewrite (filtered_chosen low o1 o2 gi q c1 c2 t1 t2 f1 f2 V1 V2 Hr Hok Sc St Hp).
Qed.
Lemma options_history h ops1 ops2 : (forall k, Nat.odd (toggles eo_keys ops1 k) = Nat.odd (toggles eo_keys ops2 k)) ->
  same_options (cat_run h ops1) (cat_run h ops2).
Proof. intros H. split; [by rewrite !cat_handle|]. intros item. by rewrite !cat_status, H. Qed.
Lemma tags_history h ops1 ops2 h1 h2 : Forall tag_op_ok ops1 -> Forall tag_op_ok ops2 ->
  tag_run h ops1 = Done h1 -> tag_run h ops2 = Done h2 ->
  (forall k, Nat.odd (toggles jt_index ops1 k) = Nat.odd (toggles jt_index ops2 k)) -> same_tags h1 h2.
Proof.
  intros F1 F2 E1 E2 H. destruct (tag_run_parts _ _ _ F1 E1) as (A1 & _ & _ & _ & B1).
  destruct (tag_run_parts _ _ _ F2 E2) as (A2 & _ & _ & _ & B2). split; [congruence|]. intros t. by rewrite B1, B2, H.
Qed.
Lemma toggles_app {K K'} `{EqDecision K'} (key : K -> K') ops1 ops2 k :
  toggles key (ops1 ++ ops2) k = (toggles key ops1 k + toggles key ops2 k)%nat.
Proof. induction ops1 as [|[?|?|? ?|? ?] ops1 IH]; simpl; lia. Qed.
Lemma odd_twice a b : Nat.odd (a + (b + (b + 0))) = Nat.odd a.
Proof. rewrite Nat.odd_add. replace (b + (b + 0))%nat with (2 * b)%nat by lia. rewrite Nat.odd_mul. simpl. apply xorb_false_r. Qed.
Lemma undone h ops item item' ops' : eo_keys item = eo_keys item' ->
  same_options (cat_run h (ops ++ [Toggle item; Toggle item'] ++ ops')) (cat_run h (ops ++ ops')).
Proof.
  intros E. apply options_history. intros k. rewrite !toggles_app. simpl. rewrite E.
  rewrite !Nat.odd_add. by destruct (decide (eo_keys item' = k)), (Nat.odd (toggles eo_keys ops k)), (Nat.odd (toggles eo_keys ops' k)).
Qed.
Lemma both_on cl item1 item2 : eo_keys item1 <> eo_keys item2 ->
  let h := cat_run (ch_new cl) [Toggle item1; Toggle item2] in ch_get_status h item1 = true /\ ch_get_status h item2 = true.
Proof.
  intros H. cbv zeta. rewrite !cat_parity. simpl.
  rewrite (decide_True (P := eo_keys item1 = eo_keys item1)), (decide_True (P := eo_keys item2 = eo_keys item2)) by done.
  rewrite (decide_False (P := eo_keys item2 = eo_keys item1)), (decide_False (P := eo_keys item1 = eo_keys item2)) by congruence. done.
Qed.
Lemma built_exclusive parse o input c cl handle h : optimize parse o input = Done (c, cl) -> same_classic cl handle -> ch_handle h = handle -> one_at_most h.
Proof.
  intros E S Hh i1 i2 cat o1 o2 [A _] _ _ X _ _. exfalso. rewrite Hh in A.
  destruct (optimize_categories _ _ _ _ _ E) as [_ H]. destruct S as [->| ->].
  - apply elem_of_list_lookup_2, H in A as [A _]. congruence.
  - unfold stored_classic in A. simpl in A.
    assert (forall cs id i c, stored_categories id cs !! i = Some c -> exists c0, c0 ∈ cs /\ cat_exclusive c = cat_exclusive c0) as Hs.
    { clear. induction cs as [|c0 cs IH]; intros id i c Hc; [done|]. simpl in Hc. destruct i as [|i]; simpl in Hc.
      - injection Hc as <-. exists c0. split; [left|done].
      - destruct (IH _ _ _ Hc) as (c1 & H1 & H2). exists c1. split; [by right|done]. }
    destruct (Hs _ _ _ _ A) as (c0 & H0 & Hx). apply H in H0 as [H0 _]. congruence.
Qed.
Lemma names_at cl a b : is_Some (option_names cl a b) -> exists cat opt, option_at cl (a, b) cat opt.
Proof.
  intros N. unfold option_names in N. destruct ((cl_categories cl : list category) !! N.to_nat a) as [cat|] eqn:C; [|by destruct N].
  cbn in N. destruct (cat_options cat !! N.to_nat b) as [opt|] eqn:O; [|by destruct N]. by exists cat, opt.
Qed.
Lemma picks_ok st gi cl : st = loaded gi cl ->
  match s_classic st with Some cl => is_Some (option_names cl 0 0) /\ is_Some (option_names cl 0 1) | None => False end ->
  handlers_ok (cat_run (cats_of st) [pick_red; pick_blue; pick_red]) (tags_of st).
Proof.
  intros -> [N1 N2]. split.
  - change (cats_of (loaded gi cl)) with (ch_new cl). apply cat_history_exist. repeat constructor; simpl; by apply names_at.
  - intros id Hid. by apply not_elem_of_empty in Hid.
Qed.
Lemma picks_same h : same_options (cat_run h [pick_red; pick_blue; pick_red]) (cat_run h [AddGeneral 7; pick_blue]).
Proof. apply options_history. intros k. simpl. destruct (decide _), (decide _); done. Qed.
Lemma sample_names : match s_classic sample_state with Some cl => is_Some (option_names cl 0 0) /\ is_Some (option_names cl 0 1) | None => False end.
Proof. vm_compute. split; eexists; reflexivity. Qed.
Lemma sample_chosen : let st := after [InitOp sample_file] in
  let c1 := cat_run (cats_of st) [pick_red; pick_blue; pick_red] in let c2 := cat_run (cats_of st) [AddGeneral 7; pick_blue] in
  let e1 := from_one ++ [(s_image_url, JObj 1 [])] in let e2 := (s_image_url, JObj 1 []) :: from_one in
  handlers_ok c1 (tags_of st) /\ same_options c1 c2 /\ e1 ≡ₚ e2 /\
  [answer st three_words c1 (tags_of st) None []; answer st three_words c2 (tags_of st) None [];
   answer st three_words c1 (tags_of st) None e1; answer st three_words c2 (tags_of st) None e2] = repeat (Done [2; 0]) 4.
Proof.
  cbv zeta. split; [destruct sample_classic as (gi & cl & E); exact (picks_ok _ gi cl E sample_names)|].
  split; [apply picks_same|]. split; [apply Permutation_app_comm|]. vm_compute. reflexivity.
Qed.
Lemma exclusive_both : exists gi cl, deserialize_all wasm32 5 exclusive_file = Done (gi, cl) /\
  ~ one_at_most (cat_run (ch_new cl) [pick_red; pick_blue]).
Proof.
  eexists _, _. split; [vm_compute; reflexivity|]. intros H.
  match type of H with one_at_most (cat_run (ch_new ?cl) _) =>
    destruct (both_on cl (ExportOption [] 0 0) (ExportOption [] 0 1) ltac:(done)) as [H1 H2] end.
  eapply (H (ExportOption [] 0 0) (ExportOption [] 0 1)) in H1; [discriminate H1|..]; [split; vm_compute; reflexivity| |reflexivity|reflexivity|exact H2].
  split; vm_compute; reflexivity.
Qed.
Lemma sample_unmarked : match optimize sample_parse hash_order sample_raw with
  | Done (_, cl) => map cat_exclusive (cl_categories cl) = [false; false] | _ => False end.
Proof. vm_compute. reflexivity. Qed.
