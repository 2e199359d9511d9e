(** Numeric ids, product equality, derived equality of classic indexes, gram sizes. *)
From Verif.model Require Import Base F32 Utf8 Prim Coll Data Gram Nodes Classic Lib.
From Verif.spec Require Import Spec Data_spec.
From Verif.proofs Require Import Base_facts Sort_facts Prim_facts Prim_codec Utf8_facts Coll_facts Data_facts File_facts.
From Coq Require Import ZifyBool ZifyNat ZifyN.
Ltac Zify.zify_post_hook ::= Z.div_mod_to_equations.

(** ** Numeric ids *)
Lemma to_digit_Some c : is_digit c -> to_digit c = Some (c - 48).
Proof. unfold is_digit, to_digit. intros H. destruct (N.leb_spec 48 c), (N.leb_spec c 57); simpl; try lia; done. Qed.
Lemma to_digit_None c : ~ is_digit c -> to_digit c = None.
Proof. unfold is_digit, to_digit. intros H. destruct (N.leb_spec 48 c), (N.leb_spec c 57); simpl; try lia; done. Qed.

Lemma digits_value_snoc ds d : digits_value (ds ++ [d]) = 10 * digits_value ds + (d - 48).
Proof. unfold digits_value. by rewrite foldl_app. Qed.

Definition stops (tl : rstr) : Prop := match tl with [] => True | c :: _ => ~ is_digit c end.
Lemma get_id_loop_stop P tl out m : stops tl -> get_id_loop P tl out m = Done out.
Proof. destruct tl as [|c tl]; simpl; [done|]. intros H. by rewrite to_digit_None. Qed.

Lemma digits_snoc ds d : Forall is_digit (ds ++ [d]) -> Forall is_digit ds /\ is_digit d.
Proof. rewrite Forall_app, Forall_singleton. done. Qed.

Lemma mul_bits_fits P b x y : x * y < 2 ^ b -> mul_bits P b x y = Done (x * y).
Proof. intros H. unfold mul_bits. by rewrite (proj2 (N.ltb_lt _ _) H). Qed.
Lemma add_bits_fits P b x y : x + y < 2 ^ b -> add_bits P b x y = Done (x + y).
Proof. intros H. unfold add_bits. by rewrite (proj2 (N.ltb_lt _ _) H). Qed.
Lemma get_id_loop_exact P ds tl : Forall is_digit ds -> stops tl -> forall out m,
  out + m * digits_value ds < 2 ^ 64 -> m * 10 ^ lenN ds < 2 ^ 64 ->
  get_id_loop P (rev ds ++ tl) out m = Done (out + m * digits_value ds).
Proof.
  intros Hd Htl. induction ds as [|d ds IH] using rev_ind; intros out m Hv Hm.
  - simpl. rewrite get_id_loop_stop by done. f_equal. unfold digits_value. simpl. lia.
  - apply digits_snoc in Hd as [Hds Hd]. rewrite rev_unit. cbn [app get_id_loop].
    rewrite to_digit_Some by done. rewrite digits_value_snoc in *.
    rewrite lenN_app in Hm. change (lenN [d]) with 1 in Hm.
    rewrite N.pow_add_r in Hm. change (10 ^ 1) with 10 in Hm.
    assert (Hp : 1 <= 10 ^ lenN ds) by (pose proof (N.pow_nonzero 10 (lenN ds)); lia).
    assert (Hm10 : m * 10 < 2 ^ 64) by nia.
    set (v := digits_value ds) in *. set (k := d - 48) in *. set (q := 10 ^ lenN ds) in *.
    rewrite (mul_bits_fits P 64 k m) by nia. cbn [mbind res_bind].
    rewrite add_bits_fits by nia. cbn [mbind res_bind].
    rewrite mul_bits_fits by lia. cbn [mbind res_bind].
    rewrite (IH Hds) by nia. f_equal. nia.
Qed.
Lemma mul_bits_release P b x y : overflow_checks P = false -> mul_bits P b x y = Done ((x * y) mod 2 ^ b).
Proof.
  intros H. unfold mul_bits. destruct (N.ltb_spec (x * y) (2 ^ b)); [|by rewrite H].
  by rewrite N.mod_small.
Qed.
Lemma add_bits_release P b x y : overflow_checks P = false -> add_bits P b x y = Done ((x + y) mod 2 ^ b).
Proof.
  intros H. unfold add_bits. destruct (N.ltb_spec (x + y) (2 ^ b)); [|by rewrite H].
  by rewrite N.mod_small.
Qed.
Lemma get_id_loop_release P ds tl : overflow_checks P = false -> Forall is_digit ds -> stops tl ->
  forall out m, out < 2 ^ 64 ->
  get_id_loop P (rev ds ++ tl) out m = Done ((out + m * digits_value ds) mod 2 ^ 64).
Proof.
  intros HP Hd Htl. induction ds as [|d ds IH] using rev_ind; intros out m Ho.
  - simpl. rewrite get_id_loop_stop by done. f_equal. unfold digits_value. simpl.
    rewrite N.mul_0_r, N.add_0_r, N.mod_small by done. done.
  - apply digits_snoc in Hd as [Hds Hd]. rewrite rev_unit. cbn [app get_id_loop].
    rewrite to_digit_Some by done. rewrite digits_value_snoc in *.
    rewrite (mul_bits_release P 64 (d - 48) m) by done. cbn [mbind res_bind].
    rewrite add_bits_release by done. cbn [mbind res_bind].
    rewrite mul_bits_release by done. cbn [mbind res_bind].
    rewrite IH; [|done|apply N.mod_lt; done].
    set (M := 2 ^ 64) in *. assert (HM : M <> 0) by done. clearbody M.
    set (v := digits_value ds) in *. set (k := d - 48) in *. f_equal.
    rewrite N.add_mod_idemp_r by done.
    rewrite (N.add_mod ((out + k * m) mod M)), N.mod_mod by done.
    rewrite (N.mul_mod ((m * 10) mod M) v), N.mod_mod by done.
    rewrite <- (N.mul_mod (m * 10) v), <- N.add_mod by done.
    f_equal. lia.
Qed.
Lemma get_id_loop_panics P ds tl : overflow_checks P = true -> Forall is_digit ds ->
  forall out m, 1 <= m -> m < 2 ^ 64 -> 2 ^ 64 <= m * 10 ^ lenN ds ->
  get_id_loop P (rev ds ++ tl) out m = Panic.
Proof.
  intros HP Hd. induction ds as [|d ds IH] using rev_ind; intros out m H1 H2 H3.
  - exfalso. change (10 ^ lenN []) with 1 in H3. lia.
  - apply digits_snoc in Hd as [Hds Hd]. rewrite rev_unit. cbn [app get_id_loop].
    rewrite to_digit_Some by done.
    destruct (mul_bits P 64 (d - 48) m) as [x| | |] eqn:E1; cbn [mbind res_bind];
      try (exfalso; unfold mul_bits in E1; rewrite HP in E1; by destruct (_ <? _) in E1); [|done].
    unfold add_bits. rewrite HP. destruct (_ <? _); cbn [mbind res_bind]; [|done].
    unfold mul_bits. rewrite HP. destruct (N.ltb_spec (m * 10) (2 ^ 64)); cbn [mbind res_bind]; [|done].
    apply IH; [done|lia|done|]. rewrite lenN_app in H3. change (lenN [d]) with 1 in H3.
    rewrite N.pow_add_r in H3. change (10 ^ 1) with 10 in H3. lia.
Qed.

Lemma trailing_rev s ds : trailing_digits s ds -> exists tl, rev s = rev ds ++ tl /\ stops tl.
Proof.
  intros (_ & pre & -> & H). exists (rev pre). rewrite rev_app_distr. split; [done|].
  destruct (rev pre) as [|c tl] eqn:E; [done|]. simpl.
  apply (H (rev tl)). rewrite <- (rev_involutive pre), E. done.
Qed.
Lemma digits_value_lt ds : Forall is_digit ds -> digits_value ds < 10 ^ lenN ds.
Proof.
  induction ds as [|d ds IH] using rev_ind; intros H; [done|].
  apply digits_snoc in H as [H1 H2]. rewrite digits_value_snoc, lenN_app. change (lenN [d]) with 1.
  rewrite N.pow_add_r. change (10 ^ 1) with 10. specialize (IH H1). unfold is_digit in H2. lia.
Qed.
Lemma get_id_exact P p ds : trailing_digits (p_id p) ds -> (length ds <= 19)%nat ->
  product_get_id P p = Done (digits_value ds).
Proof.
  intros H Hl. destruct (trailing_rev _ _ H) as (tl & E & Htl). destruct H as [Hd _].
  unfold product_get_id. rewrite E.
  assert (Hp : 10 ^ lenN ds <= 10 ^ 19) by (apply N.pow_le_mono_r; [done|unfold lenN; lia]).
  pose proof (digits_value_lt ds Hd). assert (10 ^ 19 < 2 ^ 64) by done.
  rewrite (get_id_loop_exact P ds tl Hd Htl 0 1) by lia. f_equal. lia.
Qed.
Lemma get_id_release P p ds : overflow_checks P = false -> trailing_digits (p_id p) ds ->
  product_get_id P p = Done (digits_value ds mod 2 ^ 64).
Proof.
  intros HP H. destruct (trailing_rev _ _ H) as (tl & E & Htl). destruct H as [Hd _].
  unfold product_get_id. rewrite E, get_id_loop_release by done. do 2 f_equal. lia.
Qed.
Lemma get_id_checked P p ds : overflow_checks P = true -> trailing_digits (p_id p) ds ->
  (19 < length ds)%nat -> product_get_id P p = Panic.
Proof.
  intros HP H Hl. destruct (trailing_rev _ _ H) as (tl & E & Htl). destruct H as [Hd _].
  unfold product_get_id. rewrite E. apply get_id_loop_panics; [done|done|done|done|].
  assert (10 ^ 20 <= 10 ^ lenN ds) by (apply N.pow_le_mono_r; [done|unfold lenN; lia]).
  assert (H64 : 2 ^ 64 <= 10 ^ 20) by (vm_compute; discriminate). lia.
Qed.
Lemma trailing_digits_exists s : exists ds, trailing_digits s ds.
Proof.
  induction s as [|c s IH] using rev_ind.
  - exists []. split; [constructor|]. exists []. split; [done|]. intros [|? ?] ? E; discriminate.
  - destruct (decide (48 <= c)), (decide (c <= 57)).
    1: { destruct IH as (ds & Hd & pre & -> & Hp). exists (ds ++ [c]). split.
         - apply Forall_app. split; [done|]. constructor; [split; done|constructor].
         - exists pre. split; [by rewrite app_assoc|done]. }
    all: exists []; split; [constructor|]; exists (s ++ [c]); rewrite app_nil_r; split; [done|];
      intros pre' d E; apply app_inj_tail in E as [_ <-]; unfold is_digit; lia.
Qed.

(** ** Product equality *)
Lemma bytes_prefix_refl b : bytes_prefix b b = true.
Proof. induction b; simpl; [done|]. rewrite N.eqb_refl. done. Qed.
Lemma bytes_prefix_app a b : bytes_prefix a (a ++ b) = true.
Proof. induction a; simpl; [done|]. rewrite N.eqb_refl. done. Qed.
Lemma str_eqb_sym s t : str_eqb s t = str_eqb t s.
Proof. unfold str_eqb. apply bool_decide_ext. split; done. Qed.

Lemma product_eqb_refl p : product_eqb p p = true.
Proof.
  unfold product_eqb. cbv zeta. rewrite !str_eqb_refl, N.eqb_refl, N.ltb_irrefl.
  rewrite bool_decide_eq_true_2 by done.
  destruct (N.eqb_spec (str_len (p_description p)) 0), (N.leb_spec 1 (str_len (p_description p)));
    simpl; try lia; done.
Qed.
Lemma product_eqb_sym p q : product_eqb p q = product_eqb q p.
Proof.
  unfold product_eqb. cbv zeta.
  rewrite (str_eqb_sym (p_description q)), (str_eqb_sym (p_title q)), (str_eqb_sym (p_id q)), (N.eqb_sym (p_sid q)).
  replace (bool_decide (p_vendor q = p_vendor p)) with (bool_decide (p_vendor p = p_vendor q))
    by (apply bool_decide_ext; done).
  do 4 f_equal.
  destruct (N.eqb_spec (str_len (p_description p)) 0), (N.leb_spec 1 (str_len (p_description p))),
    (N.eqb_spec (str_len (p_description q)) 0), (N.leb_spec 1 (str_len (p_description q)));
    simpl; try lia; try done;
    destruct (N.ltb_spec (str_len (p_description q)) (str_len (p_description p))),
      (N.ltb_spec (str_len (p_description p)) (str_len (p_description q))); try lia; done.
Qed.
Lemma str_len_pos s : s <> [] -> 1 <= str_len s.
Proof. destruct s as [|c s]; [done|]. rewrite str_len_cons. pose proof (char_len_bound c). lia. Qed.
(** What [==] on products compares. *)
Lemma product_eqb_iff p q : valid_str (p_description p) -> valid_str (p_description q) ->
  product_eqb p q = true <->
  ((p_description p = [] <-> p_description q = []) /\
   ((exists t, p_description p = p_description q ++ t) \/
    (exists t, p_description q = p_description p ++ t))) /\
  p_title p = p_title q /\ p_vendor p = p_vendor q /\ p_id p = p_id q /\ p_sid p = p_sid q.
Proof.
  intros Hp Hq. unfold product_eqb. cbv zeta.
  rewrite !andb_true_iff, !str_eqb_spec, bool_decide_eq_true, N.eqb_eq.
  assert (H : forall X Y A B C D : Prop, (X <-> Y) -> ((((X /\ A) /\ B) /\ C) /\ D <-> Y /\ A /\ B /\ C /\ D)) by tauto.
  apply H. clear H. rewrite <- (str_len_0 (p_description p)), <- (str_len_0 (p_description q)).
  set (a := p_description p) in *. set (b := p_description q) in *.
  destruct (N.eqb_spec (str_len a) 0) as [Ea|Ea], (N.leb_spec 1 (str_len a)),
    (N.eqb_spec (str_len b) 0) as [Eb|Eb], (N.leb_spec 1 (str_len b)); cbn [andb orb]; try lia.
  - destruct (N.ltb_spec (str_len b) (str_len a)); [lia|].
    destruct (N.ltb_spec (str_len a) (str_len b)); [lia|].
    apply str_len_0 in Ea, Eb. rewrite Ea, Eb. rewrite str_eqb_spec.
    split; [|done]. intros _. split; [done|]. left. by exists [].
  - destruct (N.ltb_spec (str_len b) (str_len a)); [|destruct (N.ltb_spec (str_len a) (str_len b))].
    + rewrite starts_with_spec by done. split; [intros [t Ht]; split; [lia|left; by exists t]|].
      intros [_ [[t ->]|[t Ht]]]; [by exists t|]. rewrite Ht, str_len_app in *. lia.
    + rewrite starts_with_spec by done. split; [intros [t Ht]; split; [lia|right; by exists t]|].
      intros [_ [[t Ht]|[t ->]]]; [|by exists t]. rewrite Ht, str_len_app in *. lia.
    + rewrite str_eqb_spec. split; [intros ->; split; [done|left; exists []; by rewrite app_nil_r]|].
      intros [_ [[t Ht]|[t Ht]]]; destruct t as [|c t]; rewrite ?app_nil_r in Ht; try done; exfalso;
        pose proof (str_len_pos (c :: t) ltac:(done)); rewrite Ht, str_len_app in *; lia.
Qed.
Lemma product_eqb_stored p : description_survives p -> product_eqb p (stored p) = true.
Proof.
  intros H. unfold product_eqb. cbv zeta. simpl. rewrite !str_eqb_refl, N.eqb_refl.
  rewrite bool_decide_eq_true_2 by done. rewrite !andb_true_r.
  destruct (limit_prefix 100 (p_description p)) as [t Ht].
  assert (Hs : starts_with (p_description p) (limit_string_len (p_description p) 100) = true).
  { unfold starts_with. rewrite Ht at 2. rewrite utf8_app. apply bytes_prefix_app. }
  set (r := limit_string_len (p_description p) 100) in *.
  assert (Hl : str_len r <= str_len (p_description p)) by (rewrite Ht, str_len_app; lia).
  unfold description_survives in H. fold r in H.
  assert (Hz : str_len r = 0 -> p_description p = []).
  { intros Hz. destruct H as [H|H]; [done|]. apply str_len_pos in H. lia. }
  destruct (N.eqb_spec (str_len (p_description p)) 0) as [E|E], (N.leb_spec 1 (str_len r)),
    (N.leb_spec 1 (str_len (p_description p))), (N.eqb_spec (str_len r) 0) as [E'|E']; simpl; try lia.
  all: try (exfalso; apply Hz in E'; rewrite E' in *; rewrite str_len_nil in *; lia).
  all: destruct (N.ltb_spec (str_len r) (str_len (p_description p))); try done.
  all: destruct (N.ltb_spec (str_len (p_description p)) (str_len r)); try lia.
  all: unfold str_eqb; apply bool_decide_eq_true; rewrite Ht in *; rewrite str_len_app in *.
  all: destruct t as [|c t]; [by rewrite app_nil_r|]; exfalso;
    pose proof (str_len_pos (c :: t) ltac:(done)); lia.
Qed.

(** ** Derived equality of classic indexes *)
Lemma list_eqb_Forall2 {A} (eqb : A -> A -> bool) a b :
  list_eqb eqb a b = true <-> Forall2 (fun x y => eqb x y = true) a b.
Proof.
  revert b. induction a as [|x a IH]; intros [|y b]; simpl.
  - split; [constructor|done].
  - split; [done|]. intros H. inversion H.
  - split; [done|]. intros H. inversion H.
  - rewrite andb_true_iff, IH, Forall2_cons. done.
Qed.
Lemma sort_in_order l : in_order l -> sort_by by_sid l = l.
Proof.
  intros H. apply sort_by_sorted_id. unfold in_order in H.
  induction l as [|p l IH]; simpl; [constructor|]. simpl in H. destruct H as [H1 H2].
  constructor; [by apply IH|]. apply Forall_forall. intros q Hq. rewrite Forall_forall in H1.
  unfold le_cmp, by_sid. rewrite N.compare_le_iff. apply H1. by apply elem_of_list_fmap_1.
Qed.

Lemma Forall2_self {A} (R : A -> A -> Prop) (f : A -> A) l :
  (forall x, x ∈ l -> R x (f x)) -> Forall2 R l (map f l).
Proof.
  intros H. induction l as [|x l IH]; simpl; constructor; [apply H; left|].
  apply IH. intros y Hy. apply H. by right.
Qed.
Lemma refs_eqb l : in_order l -> Forall description_survives l ->
  list_eqb product_eqb l (stored_refs l) = true.
Proof.
  intros Ho Hd. apply list_eqb_Forall2. unfold stored_refs. rewrite sort_in_order by done.
  apply Forall2_self. intros p Hp. rewrite Forall_forall in Hd. by apply product_eqb_stored, Hd.
Qed.
Lemma stored_options_eqb next os :
  (forall i o, os !! i = Some o -> o_sid o = next + N.of_nat i) ->
  Forall (fun o => in_order (o_content o) /\ Forall description_survives (o_content o)) os ->
  list_eqb option_eqb os (stored_options next os) = true.
Proof.
  revert next. induction os as [|o os IH]; intros next Hn Ho; simpl; [done|].
  inversion Ho as [|? ? [H1 H2] H3]; subst. rewrite IH.
  - rewrite andb_true_r. unfold option_eqb. simpl. rewrite str_eqb_refl, refs_eqb by done.
    rewrite bool_decide_eq_true_2 by done. specialize (Hn 0%nat o eq_refl).
    rewrite (proj2 (N.eqb_eq _ _)) by lia. done.
  - intros i o' Hi. rewrite (Hn (S i) o' Hi). lia.
  - done.
Qed.
Lemma stored_categories_eqb next cs :
  (forall i o, all_options cs !! i = Some o -> o_sid o = next + N.of_nat i) ->
  Forall (fun o => in_order (o_content o) /\ Forall description_survives (o_content o)) (all_options cs) ->
  list_eqb category_eqb cs (stored_categories next cs) = true.
Proof.
  revert next. induction cs as [|c cs IH]; intros next Hn Ho; simpl; [done|].
  unfold all_options in Hn, Ho. simpl in Hn, Ho. apply Forall_app in Ho as [Ho1 Ho2].
  rewrite IH.
  - rewrite andb_true_r. unfold category_eqb. simpl. rewrite str_eqb_refl, eqb_reflx, andb_true_r. simpl.
    apply stored_options_eqb; [|done]. intros i o Hi. apply Hn. by apply lookup_app_l_Some.
  - intros i o Hi. rewrite (Hn (length (cat_options c) + i)%nat o); [unfold lenN; lia|].
    rewrite lookup_app_r by lia. by replace (length (cat_options c) + i - length (cat_options c))%nat with i by lia.
  - done.
Qed.
Lemma stored_tags_eqb ts :
  Forall (fun t => in_order (t_products t) /\ Forall description_survives (t_products t)) ts ->
  list_eqb tag_eqb ts (map stored_tag ts) = true.
Proof.
  intros H. apply list_eqb_Forall2. apply Forall2_self. intros t Ht. rewrite Forall_forall in H.
  destruct (H t Ht) as [H1 H2]. unfold tag_eqb, stored_tag. simpl.
  rewrite str_eqb_refl, refs_eqb, N.eqb_refl by done. by rewrite bool_decide_eq_true_2.
Qed.
Lemma classic_reload_equal cl : option_positions (cl_categories cl) ->
  Forall (fun o => in_order (o_content o) /\ Forall description_survives (o_content o))
    (all_options (cl_categories cl)) ->
  Forall (fun t => in_order (t_products t) /\ Forall description_survives (t_products t)) (cl_tags cl) ->
  classic_eqb cl (stored_classic cl) = true.
Proof.
  intros H1 H2 H3. unfold classic_eqb, stored_classic. simpl.
  rewrite stored_categories_eqb, stored_tags_eqb by done. by rewrite bool_decide_eq_true_2.
Qed.

(** ** Other gram sizes *)
Lemma dec_map_panics P kd `{Countable K} {V} (deck : decoder K) (decv : decoder V) input mid len :
  dec_usize P input = Done (mid, len) -> len <= cap_max P kd -> 0 < len -> deck mid = Panic ->
  dec_map P kd deck decv input = Panic.
Proof.
  intros H1 H2 H3 H4. unfold dec_map. rewrite H1. cbn [mbind res_bind].
  rewrite with_capacity_ok by done. cbn [mbind res_bind]. rewrite rep_N_nat.
  destruct (N.to_nat len) as [|n] eqn:E; [lia|]. cbn [rep_nat]. rewrite H4. done.
Qed.
Lemma other_gram_size P n m o gi cl rest : valid_ser_order o -> gram_index_ok P n gi ->
  gi_data gi <> ∅ -> n <> m -> deserialize_all P m (serialize_all o gi cl ++ rest) = Panic.
Proof.
  intros (Ho1 & Ho2 & Ho3 & Ho4 & _) (Hc & Hrl & Hr & Hdl & Hn & Hd) He Hnm.
  unfold serialize_all, deserialize_all, enc_gram_index, dec_gram_index. rewrite <- !app_assoc.
  rewrite (rt_container P) by done. cbn [mbind res_bind].
  rewrite (rt_map_id P KRootMap).
  2: done. 2: done.
  2: { intros c nd H. apply Hr in H as [H1 H2]. split; [by apply rt_char|by apply rt_node]. }
  cbn [mbind res_bind].
  unfold enc_map. rewrite <- app_assoc.
  destruct (so_data o (map_to_list (gi_data gi))) as [|[g l] entries] eqn:E.
  { exfalso. apply He. apply map_to_list_empty_iff. apply Permutation_nil. rewrite <- E. apply Ho4. }
  assert (Hg : gi_data gi !! g = Some l).
  { apply elem_of_map_to_list. rewrite <- (Ho4 (map_to_list (gi_data gi))), E. left. }
  apply Hd in Hg as (Hlen & Hv & _).
  erewrite dec_map_panics; [done|apply rt_usize_ok, Hdl|apply Hdl| |].
  - destruct (decide (size (gi_data gi) = 0%nat)) as [Hz|Hz]; [|lia].
    by apply map_size_empty_inv in Hz.
  - simpl. unfold enc_array at 1. unfold dec_array. rewrite <- !app_assoc.
    unfold lenN. rewrite Hlen, rt_usize_ok by done. cbn [mbind res_bind].
    rewrite (proj2 (N.eqb_neq _ _)) by lia. done.
Qed.

(** ** Ascending id lists *)
Lemma ascending_snoc l x : ascending l -> Forall (fun y => y <= x) l -> ascending (l ++ [x]).
Proof.
  induction l as [|y l IH]; simpl; [by repeat constructor|]. intros [H1 H2] H3.
  inversion H3; subst. split; [apply Forall_app; split; [done|by constructor]|by apply IH].
Qed.
Lemma dec_seq_ascending P bs rest ids : overflow_checks P = true ->
  dec_seq P bs = Done (rest, ids) -> ascending ids.
Proof.
  unfold dec_seq. intros HP H. inv_bind H. destruct x as [i1 len]. inv_bind H. inv_bind H.
  destruct x0 as [[i2 out] prev]. injection H as <- <-.
  apply (rep_N_inv _ (fun k '(inp, out, prev) => ascending out /\
     match prev with Some p => Forall (fun y => y <= p) out | None => out = [] end)) in E1.
  - tauto.
  - done.
  - intros k [[inp out1] prev1] [[inp' out2] prev2] _ [H1 H2] Hf.
    inv_bind Hf. destruct x0 as [ni parsed]. inv_bind Hf. injection Hf as <- <- <-.
    assert (Hx : Forall (fun y => y <= x0) out1).
    { destruct prev1 as [p|]; [|subst; constructor].
      unfold add_bits in E3. rewrite HP in E3. destruct (_ <? _); [|done]. injection E3 as <-.
      eapply Forall_impl; [exact H2|]. simpl. intros; lia. }
    split; [by apply ascending_snoc|]. apply Forall_app. split; [done|]. by constructor.
Qed.

Lemma load_lists_Q P n bs gi cl (Q : list product -> Prop) :
  (forall ps i r l ids, positions ps -> dec_product_refs P ps i = Done (r, (l, ids)) -> Q l) ->
  deserialize_all P n bs = Done (gi, cl) ->
  (forall g l, gi_data gi !! g = Some l -> Q l) /\
  Forall (fun o => Q (o_content o)) (all_options (cl_categories cl)) /\
  Forall (fun t => Q (t_products t)) (cl_tags cl).
Proof.
  intros HQ H. unfold deserialize_all in H. inv_bind H. destruct x as [i1 gi']. inv_bind H.
  destruct x as [i2 cl']. injection H as <- <-.
  unfold dec_gram_index in E. inv_bind E. destruct x as [j1 c]. inv_bind E. destruct x as [j2 roots].
  inv_bind E. destruct x as [j3 data]. injection E as <- <-.
  apply dec_container_inv in E1 as [[Hpos _] _]. split; [|].
  - simpl.
    assert (He : eats 0 (fun input => '(input, (products, _)) ← dec_product_refs P (c_products c) input;
                      Done (input, products))).
    { intros i r v H. inv_bind H. destruct x as [i4 [l ids]]. injection H as <- <-.
      eapply (eats_weaken 1 0); [apply dec_product_refs_eats|lia|done]. }
    apply (dec_map_inv _ _ _ _ _ _ _ (fun g l => Q l)) in E3 as (mid & len & _ & _ & H).
    + intros g l Hg. by apply H in Hg.
    + eapply eats_weaken; [apply dec_array_eats|lia]. eapply eats_weaken; [apply dec_char_eats|lia].
    + done.
    + intros i r g r' l Hg Hl. inv_bind Hl. destruct x as [i4 [l' ids]]. injection Hl as <- <-. eauto.
  - simpl in E0. unfold dec_classic in E0. inv_bind E0. destruct x as [k1 cs]. inv_bind E0. destruct x as [k2 ts].
    inv_bind E0. destruct x as [k3 oi]. injection E0 as <- <-. simpl. split.
    + clear E1 E4. unfold dec_categories in E. inv_bind_as E y1 F1. destruct y1 as [m1 len].
      inv_bind_as E y2 F2. inv_bind_as E y3 F3. destruct y3 as [[m2 cs'] nx]. injection E as <- <-.
      apply (rep_N_inv _ (fun k '(inp, cs, id) => Forall (fun o => Q (o_content o)) (all_options cs))) in F3;
        [done|constructor|].
      intros k [[inp cs1] id] [[inp' cs2] id'] _ H1 Hf.
      inv_bind_as Hf y3 G1. destruct y3 as [q1 [ct nx']]. injection Hf as <- <- <-.
      unfold all_options. rewrite map_app, concat_app. apply Forall_app. split; [done|]. simpl. rewrite app_nil_r.
      unfold dec_category in G1. inv_bind_as G1 y4 G2. destruct y4 as [n1 ex]. inv_bind_as G1 y5 G3.
      destruct y5 as [n2 name]. inv_bind_as G1 y6 G4. destruct y6 as [n3 ln]. inv_bind_as G1 y7 G5.
      inv_bind_as G1 y8 G6. destruct y8 as [[n4 os] nx2]. injection G1 as <- <- <-. simpl.
      apply (rep_N_inv _ (fun k '(inp, os, id) => Forall (fun o => Q (o_content o)) os)) in G6;
        [done|constructor|].
      intros k2' [[inp2 os1] id2] [[inp2' os2] id2'] _ H2 Hf. inv_bind_as Hf y8 K1. destruct y8 as [r8 nm].
      inv_bind_as Hf y9 K2. destruct y9 as [r9 [l9 ids9]]. injection Hf as <- <- <-.
      apply Forall_app. split; [done|]. constructor; [|constructor]. simpl. eauto.
    + clear E E4. unfold dec_tags in E1. inv_bind_as E1 y1 F1. destruct y1 as [m1 len].
      inv_bind_as E1 y2 F2. inv_bind_as E1 y3 F3. destruct y3 as [[m2 ts'] nx]. injection E1 as <- <-.
      apply (rep_N_inv _ (fun k '(inp, ts, id) => Forall (fun t => Q (t_products t)) ts)) in F3;
        [done|constructor|].
      intros k [[inp ts1] id] [[inp' ts2] id'] _ H1 Hf. inv_bind_as Hf y8 K1. destruct y8 as [r8 nm].
      inv_bind_as Hf y9 K2. destruct y9 as [r9 [l9 ids9]]. injection Hf as <- <- <-.
      apply Forall_app. split; [done|]. constructor; [|constructor]. simpl. eauto.
Qed.
Lemma load_in_order P n bs gi cl : overflow_checks P = true ->
  deserialize_all P n bs = Done (gi, cl) ->
  (forall g l, gi_data gi !! g = Some l -> in_order l) /\
  Forall (fun o => in_order (o_content o)) (all_options (cl_categories cl)) /\
  Forall (fun t => in_order (t_products t)) (cl_tags cl).
Proof.
  intros HP. apply load_lists_Q. intros ps i r l ids Hpos H.
  apply dec_product_refs_inv in H as (_ & -> & H & _); [|done]. by apply dec_seq_ascending in H.
Qed.

(** ** The padded gram reader *)
Lemma fill_slots_spec k pre iter tail : (k <= length tail)%nat ->
  fill_slots k (lenN pre) (pre ++ tail) iter =
    Done (if decide (k <= length iter)%nat
          then (drop k iter, Some (pre ++ take k iter ++ drop k tail)) else ([], None)).
Proof.
  revert pre iter tail. induction k as [|k IH]; intros pre iter tail Hk.
  - rewrite decide_True by lia. done.
  - destruct tail as [|y tail]; [simpl in Hk; lia|]. cbn [fill_slots].
    destruct iter as [|x iter].
    { rewrite decide_False by (simpl; lia). done. }
    unfold setN. rewrite (proj2 (N.ltb_lt _ _)).
    2: { rewrite app_length. unfold lenN. simpl. lia. }
    cbn [mbind res_bind].
    replace (<[N.to_nat (lenN pre):=x]> (pre ++ y :: tail)) with ((pre ++ [x]) ++ tail).
    2: { unfold lenN. rewrite Nat2N.id, <- app_assoc. simpl.
         rewrite insert_app_r_alt by lia. rewrite Nat.sub_diag. done. }
    replace (lenN pre + 1) with (lenN (pre ++ [x])) by (by rewrite lenN_app).
    rewrite IH by (simpl in Hk; lia). f_equal.
    destruct (decide (k <= length iter)%nat).
    + rewrite decide_True by (simpl; lia). simpl. by rewrite <- app_assoc.
    + rewrite decide_False by (simpl; lia). done.
Qed.
Lemma n_gram_padding P n iter : (1 <= n)%nat ->
  n_gram_with_1_padding P n iter =
    Done (if decide (n - 1 <= length iter)%nat
          then (drop (n - 1) iter, Some (take (n - 1) iter ++ [0])) else ([], None)).
Proof.
  intros Hn. destruct n as [|n]; [lia|]. unfold n_gram_with_1_padding.
  pose proof (fill_slots_spec n [] iter (replicate (S n) gram_default)) as H. rewrite !app_nil_l in H.
  change (lenN []) with 0 in H. rewrite H by (rewrite replicate_length; lia). clear H.
  replace (S n - 1)%nat with n by lia.
  assert (Hd : drop n (replicate (S n) gram_default) = [0]).
  { rewrite drop_replicate. by replace (S n - n)%nat with 1%nat by lia. }
  rewrite Hd. done.
Qed.
