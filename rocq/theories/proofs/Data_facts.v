(** Vendors, features, products and catalogues. *)
From Verif.model Require Import Base F32 Utf8 Prim Coll Data Gram Nodes Classic.
From Verif.spec Require Import Spec Data_spec.
From Verif.proofs Require Import Base_facts Sort_facts Prim_facts Prim_codec Utf8_facts Coll_facts.
From Coq Require Import Sorting.Sorted.
From Coq Require Import ZifyBool ZifyNat ZifyN.
Ltac Zify.zify_post_hook ::= Z.div_mod_to_equations.

(** ** Vendors *)
Lemma numbered_snoc names x : numbered (names ++ [x]) = numbered names ++ [Vendor x (lenN names)].
Proof.
  unfold numbered. rewrite imap_app. simpl. by rewrite Nat.add_0_r.
Qed.
Lemma numbered_length names : length (numbered names) = length names.
Proof. apply imap_length. Qed.
Lemma numbered_lookup names i v : numbered names !! i = Some v <->
  exists n, names !! i = Some n /\ v = Vendor n (N.of_nat i).
Proof.
  unfold numbered. rewrite list_lookup_imap_Some. naive_solver.
Qed.
Lemma numbered_elem names v : v ∈ numbered names <->
  names !! N.to_nat (v_id v) = Some (v_name v).
Proof.
  rewrite elem_of_list_lookup. split.
  - intros [i (n & Hn & ->)%numbered_lookup]. simpl. by rewrite Nat2N.id.
  - intros H. exists (N.to_nat (v_id v)). apply numbered_lookup. exists (v_name v). split; [done|].
    rewrite N2Nat.id. by destruct v.
Qed.
Lemma numbered_names names : map v_name (numbered names) = names.
Proof.
  change (v_name <$> numbered names = names).
  unfold numbered. rewrite fmap_imap. apply list_eq. intros i.
  rewrite list_lookup_imap. by destruct (names !! i).
Qed.

Definition keyed (v : vendor) : rstr * vendor := (v_name v, v).
Lemma vendors_are_map names vm : vendors_are names vm ->
  vm_tags vm = list_to_map (keyed <$> numbered names).
Proof.
  intros (Hnd & Hby & Htags). apply map_eq. intros n. apply option_eq. intros v.
  rewrite Htags, <- elem_of_list_to_map.
  - rewrite elem_of_list_fmap. unfold keyed. split.
    + intros [Hv <-]. by exists v.
    + intros (w & [= -> ->] & Hw). done.
  - rewrite <- list_fmap_compose. change (NoDup (map v_name (numbered names))). by rewrite numbered_names.
Qed.
Lemma vendors_are_size names vm : vendors_are names vm -> size (vm_tags vm) = length names.
Proof.
  intros H. rewrite (vendors_are_map _ _ H). unfold size, map_size. rewrite map_to_list_to_map.
  - by rewrite fmap_length, numbered_length.
  - rewrite <- list_fmap_compose. destruct H as [H _].
    change (NoDup (map v_name (numbered names))). by rewrite numbered_names.
Qed.
Lemma vendors_are_list names vm : vendors_are names vm ->
  map snd (map_to_list (vm_tags vm)) ≡ₚ numbered names.
Proof.
  intros H. rewrite (vendors_are_map _ _ H). rewrite map_to_list_to_map.
  - change (snd <$> (keyed <$> numbered names) ≡ₚ numbered names). rewrite <- list_fmap_compose.
    by rewrite list_fmap_id.
  - rewrite <- list_fmap_compose. destruct H as [H _].
    change (NoDup (map v_name (numbered names))). by rewrite numbered_names.
Qed.

Lemma vm_new_are : vendors_are [] vm_new.
Proof.
  split; [constructor|]. split; [done|]. intros n v. simpl. rewrite lookup_empty.
  unfold numbered. simpl. rewrite elem_of_nil. naive_solver.
Qed.
Lemma vendors_are_push names vm x : vendors_are names vm -> x ∉ names ->
  vendors_are (names ++ [x])
    (VendorManager (<[x := Vendor x (lenN names)]> (vm_tags vm)) (vm_by_id vm ++ [Vendor x (lenN names)])).
Proof.
  intros (Hnd & Hby & Htags) Hx. split; [|split].
  - apply NoDup_app. split; [done|]. split; [|apply NoDup_singleton].
    intros y Hy Hy'%elem_of_list_singleton. by subst.
  - simpl. by rewrite numbered_snoc, Hby.
  - intros n v. simpl. rewrite numbered_snoc, elem_of_app, elem_of_list_singleton.
    rewrite lookup_insert_Some, Htags. split.
    + intros [[<- <-]|[Hne [Hv <-]]]; auto.
    + intros [[Hv| ->] <-]; [|by left]. right. split; [|done].
      intros ->. apply numbered_elem in Hv. apply Hx. by eapply elem_of_list_lookup_2.
Qed.
Lemma vendors_are_lookup names vm x : vendors_are names vm ->
  is_Some (vm_tags vm !! x) <-> x ∈ names.
Proof.
  intros (Hnd & Hby & Htags). split.
  - intros [v [Hv <-]%Htags]. apply numbered_elem in Hv. by eapply elem_of_list_lookup_2.
  - intros [i Hi]%elem_of_list_lookup. exists (Vendor x (N.of_nat i)). apply Htags.
    split; [|done]. apply numbered_elem. simpl. by rewrite Nat2N.id.
Qed.
Lemma vm_insert_are names vm x : vendors_are names vm ->
  vendors_are (if decide (x ∈ names) then names else names ++ [x]) (vm_insert vm x).
Proof.
  intros H. unfold vm_insert. pose proof (vendors_are_lookup names vm x H) as Hl.
  destruct (vm_tags vm !! x) as [v|] eqn:E.
  - rewrite decide_True; [done|]. apply Hl. by eexists.
  - rewrite decide_False. 2: { intros Hx%Hl. by destruct Hx. }
    rewrite (vendors_are_size _ _ H). apply vendors_are_push; [done|].
    intros Hx%Hl. by destruct Hx.
Qed.
Lemma vm_get_or_insert_fst vm x : (vm_get_or_insert vm x).1 = vm_insert vm x.
Proof. unfold vm_get_or_insert, vm_insert. by destruct (vm_tags vm !! x). Qed.
Lemma vm_get_or_insert_snd vm x : vm_tags (vm_insert vm x) !! x = Some (vm_get_or_insert vm x).2.
Proof.
  unfold vm_get_or_insert, vm_insert. destruct (vm_tags vm !! x) eqn:E; [done|]. simpl.
  by rewrite lookup_insert.
Qed.
Lemma vm_get_or_insert_vendor names vm x : vendors_are names vm ->
  v_name (vm_get_or_insert vm x).2 = x /\ vm_by_id (vm_insert vm x) !! N.to_nat (v_id (vm_get_or_insert vm x).2)
    = Some (vm_get_or_insert vm x).2.
Proof.
  intros H. pose proof (vm_get_or_insert_snd vm x) as E.
  destruct (vm_insert_are names vm x H) as (_ & Hby & Ht). apply Ht in E as [E1 E2].
  split; [done|]. rewrite Hby. apply numbered_elem in E1. apply numbered_lookup.
  eexists. split; [done|]. destruct (vm_get_or_insert vm x).2. simpl. by rewrite N2Nat.id.
Qed.
(** Earlier vendors stay where they are. *)
Lemma vm_insert_mono vm x i v : vm_by_id vm !! i = Some v -> vm_by_id (vm_insert vm x) !! i = Some v.
Proof.
  unfold vm_insert. destruct (vm_tags vm !! x); [done|]. simpl. intros H.
  by apply lookup_app_l_Some.
Qed.

Lemma first_seen_snoc `{EqDecision A} (l : list A) x :
  first_seen (l ++ [x]) = if decide (x ∈ l) then first_seen l else first_seen l ++ [x].
Proof.
  induction l as [|y l IH]; simpl; [done|]. rewrite IH.
  destruct (decide (x ∈ l)) as [Hx|Hx].
  - rewrite decide_True by (by right). done.
  - destruct (decide (x = y)) as [->|Hne].
    + rewrite decide_True by left. f_equal. rewrite filter_app. simpl.
      rewrite filter_cons_False by auto. by rewrite filter_nil, app_nil_r.
    + rewrite decide_False by (intros [?|?]%elem_of_cons; auto).
      rewrite filter_app. simpl. rewrite filter_cons_True by done. by rewrite filter_nil.
Qed.
Lemma first_seen_elem `{EqDecision A} (l : list A) x : x ∈ first_seen l <-> x ∈ l.
Proof.
  induction l as [|y l IH]; simpl; [done|].
  rewrite !elem_of_cons, elem_of_list_filter, IH. destruct (decide (x = y)); naive_solver.
Qed.
Lemma first_seen_NoDup `{EqDecision A} (l : list A)  : NoDup (first_seen l).
Proof.
  induction l as [|y l IH]; simpl; [constructor|]. constructor.
  - rewrite elem_of_list_filter. naive_solver.
  - by apply NoDup_filter.
Qed.
Lemma vm_inserts_are names : vendors_are (first_seen names) (foldl vm_insert vm_new names).
Proof.
  induction names as [|x names IH] using rev_ind; [apply vm_new_are|].
  rewrite foldl_app. simpl. rewrite first_seen_snoc.
  pose proof (vm_insert_are _ _ x IH) as H.
  destruct (decide (x ∈ first_seen names)) as [Hx|Hx]; rewrite first_seen_elem in Hx.
  - by rewrite decide_True.
  - by rewrite decide_False.
Qed.

(** ** Encoding of the vendor table *)
Definition vendor_le (a b : vendor) : Prop := v_id a <= v_id b.
Lemma numbered_sorted_from k names :
  StronglySorted (le_cmp (fun a b => N.compare (v_id a) (v_id b)))
    (imap (fun i name => Vendor name (k + N.of_nat i)) names).
Proof.
  revert k. induction names as [|x names IH]; intros k; simpl; constructor.
  - specialize (IH (k + 1)). erewrite imap_ext; [exact IH|]. intros i y _. simpl. f_equal. lia.
  - apply Forall_forall. intros v Hv%elem_of_list_lookup. destruct Hv as [i Hv].
    apply list_lookup_imap_Some in Hv as (y & _ & ->). unfold le_cmp. simpl.
    rewrite N.compare_le_iff. lia.
Qed.
Lemma numbered_sorted names :
  StronglySorted (le_cmp (fun a b => N.compare (v_id a) (v_id b))) (numbered names).
Proof.
  pose proof (numbered_sorted_from 0 names) as H. unfold numbered.
  erewrite imap_ext; [exact H|]. done.
Qed.
(** Sorting by a key under which the list has no two elements with equal key. *)
Lemma sort_distinct {A} (key : A -> N) (l l' : list A) :
  NoDup (key <$> l') -> StronglySorted (le_cmp (fun a b => N.compare (key a) (key b))) l' ->
  l ≡ₚ l' -> sort_by (fun a b => N.compare (key a) (key b)) l = l'.
Proof.
  intros Hnd Hs Hp. symmetry. apply stable_sort_unique; [apply (total_cmp_on key), N_compare_total|].
  split; [done|]. split; [done|]. intros a. unfold class.
  assert (Hone : forall k, k ≡ₚ l' -> forall x, x ∈ k -> N.compare (key a) (key x) = Eq ->
    List.filter (fun x => match N.compare (key a) (key x) with Eq => true | _ => false end) k = [x]).
  { intros k Hk x Hx Ex. apply elem_of_list_split in Hx as (k1 & k2 & ->).
    rewrite <- Hk in Hnd. rewrite fmap_app, fmap_cons in Hnd. apply N.compare_eq_iff in Ex.
    rewrite List.filter_app. simpl. rewrite <- Ex, N.compare_refl.
    assert (Hnil : forall k0, key a ∉ key <$> k0 ->
       List.filter (fun x => match N.compare (key a) (key x) with Eq => true | _ => false end) k0 = []).
    { induction k0 as [|z k0 IHk]; simpl; [done|]. intros Hn.
      rewrite not_elem_of_cons in Hn. destruct Hn as [Hn1 Hn2].
      destruct (N.compare_spec (key a) (key z)); [done| |]; auto. }
    rewrite !Hnil; [done| |].
    - apply NoDup_app in Hnd as (_ & _ & Hnd). apply NoDup_cons in Hnd as [Hn _]. by rewrite Ex.
    - apply NoDup_app in Hnd as (_ & Hd & _). intros Hin. apply (Hd _ Hin). rewrite Ex. left. }
  destruct (List.filter _ l) as [|x r] eqn:E.
  - destruct (List.filter _ l') as [|y r'] eqn:E'; [done|].
    assert (In y (y :: r')) as Hy by (by left). rewrite <- E' in Hy. apply List.filter_In in Hy as [Hy1 Hy2].
    apply elem_of_list_In in Hy1. rewrite <- Hp in Hy1. apply elem_of_list_In in Hy1.
    assert (In y []) as []. rewrite <- E. by apply List.filter_In.
  - assert (In x (x :: r)) as Hx by (by left). rewrite <- E in Hx. apply List.filter_In in Hx as [Hx1 Hx2].
    apply elem_of_list_In in Hx1.
    destruct (N.compare (key a) (key x)) eqn:Ex; [|done|done].
    rewrite <- E. rewrite (Hone l Hp x Hx1 Ex). apply Hone; [done| |done]. by rewrite <- Hp.
Qed.

Lemma foldl_numbering {A B} (f : N -> A -> B) l acc k :
  foldl (fun '(out, id) x => (out ++ [f id x], id + 1)) (acc, k) l
  = (acc ++ imap (fun i x => f (k + N.of_nat i) x) l, k + lenN l).
Proof.
  revert acc k. induction l as [|x l IH]; intros acc k; simpl.
  - rewrite app_nil_r, (@lenN_nil A). by rewrite N.add_0_r.
  - rewrite IH, <- app_assoc. simpl. f_equal.
    + f_equal. f_equal; [f_equal; lia|]. apply imap_ext. intros. simpl. f_equal. lia.
    + rewrite lenN_cons. lia.
Qed.

Lemma rt_vendors P o vm : valid_order o -> vendors_ok P vm ->
  rt (enc_vendors o) (dec_vendors P) vm vm.
Proof.
  intros Ho (names & Hare & Hstr & [Hs Hc1] & [_ Hc2]) rest. unfold enc_vendors, dec_vendors. cbv zeta.
  rewrite (sort_distinct v_id _ (numbered names)).
  2: { unfold numbered. rewrite fmap_imap. apply NoDup_alt. intros i j x.
       rewrite !list_lookup_imap_Some. simpl. intros (n & _ & ->) (n' & _ & E). simpl in E. lia. }
  2: apply numbered_sorted.
  2: { rewrite <- (vendors_are_list names vm Hare). change (snd <$> o (map_to_list (vm_tags vm)) ≡ₚ snd <$> map_to_list (vm_tags vm)).
       by rewrite (Ho _). }
  assert (Hl : lenN (numbered names) = lenN names) by (unfold lenN; by rewrite numbered_length).
  rewrite <- app_assoc, Hl, (rt_usize_ok P _ Hs). simpl.
  rewrite !with_capacity_ok by done. simpl. rewrite <- Hl, rep_N_length.
  rewrite (rep_consume enc_vendor (fun i '(vm, id) => (i, vm, id))
    (fun '(vm, id) v => (VendorManager (<[v_name v := Vendor (v_name v) id]> (vm_tags vm))
        (vm_by_id vm ++ [Vendor (v_name v) id]), id + 1)) _ _ (vm_new, 0)).
  - simpl.
    assert (Hf : forall l names0 vm0, vendors_are names0 vm0 -> NoDup (names0 ++ l) ->
       exists vm', foldl (fun '(vm, id) v => (VendorManager (<[v_name v := Vendor (v_name v) id]> (vm_tags vm))
        (vm_by_id vm ++ [Vendor (v_name v) id]), id + 1)) (vm0, lenN names0) (imap (fun i name => Vendor name (lenN names0 + N.of_nat i)) l)
       = (vm', lenN (names0 ++ l)) /\ vendors_are (names0 ++ l) vm').
    { induction l as [|x l IH]; intros names0 vm0 H0 Hnd; simpl.
      - exists vm0. by rewrite app_nil_r.
      - replace (lenN names0 + 1) with (lenN (names0 ++ [x])) by (rewrite lenN_app, lenN_cons, (@lenN_nil rstr); lia).
        destruct (IH (names0 ++ [x]) (VendorManager (<[x := Vendor x (lenN names0)]> (vm_tags vm0)) (vm_by_id vm0 ++ [Vendor x (lenN names0)]))) as (vm' & E & H').
        + apply vendors_are_push; [done|]. apply NoDup_app in Hnd as (_ & Hd & _). intros Hx. apply (Hd _ Hx). left.
        + by rewrite <- app_assoc.
        + exists vm'. rewrite <- app_assoc in E, H'. split; [|done]. change (names0 ++ x :: l) with (names0 ++ [x] ++ l). rewrite <- E. f_equal.
          apply imap_ext. intros i y _. simpl. f_equal. rewrite lenN_app, lenN_cons, (@lenN_nil rstr). lia. }
    destruct (Hf names [] vm_new vm_new_are) as (vm' & E & H').
    { simpl. apply Hare. }
    simpl in E, H'. rewrite (@lenN_nil rstr) in E.
    replace (imap (fun i name => Vendor name (0 + N.of_nat i)) names) with (numbered names) in E by (by apply imap_ext).
    rewrite E. simpl. do 2 f_equal.
    pose proof (vendors_are_map _ _ H') as M1. pose proof (vendors_are_map _ _ Hare) as M2.
    destruct vm as [t b], vm' as [t' b']. simpl in *. destruct Hare as (_ & B2 & _), H' as (_ & B1 & _).
    simpl in *. congruence.
  - intros v [vm0 id] r Hv. simpl. unfold enc_vendor. rewrite rt_str; [done|].
    apply numbered_elem, elem_of_list_lookup_2 in Hv. rewrite Forall_forall in Hstr. by apply Hstr.
Qed.

(** ** Features *)
Lemma rt_feature P f : feature_ok P f -> rt enc_feature (dec_feature P) f f.
Proof.
  destruct f as [l|l|l]; intros [Hl Hf] rest; rewrite Forall_forall in Hf; unfold dec_feature; simpl.
  - rewrite rt_vec_id; [done|done|]. intros x Hx. by apply rt_str, Hf.
  - rewrite rt_vec_id; [done|done|]. intros x Hx. by apply rt_f32, Hf.
  - rewrite rt_vec_id; [done|done|]. intros x Hx. by apply rt_u32, Hf.
Qed.
Lemma rt_features P o fs : valid_order o -> features_ok P fs ->
  rt (enc_features o) (dec_features P) fs fs.
Proof.
  intros Ho [Hl Hf]. apply rt_map_id; [done|done|]. intros k f H. apply Hf in H as [H1 H2].
  split; [by apply rt_str|by apply rt_feature].
Qed.

(** ** Products *)
Definition with_sid (p : product) (id : N) : product :=
  Product (p_description p) (p_title p) (p_vendor p) (p_id p) id.
Lemma limit_str_ok P s : valid_str s -> 104 <= usize_max P -> str_ok P (limit_string_len s 100).
Proof.
  intros Hv Hm. split; [by apply limit_valid|]. pose proof (limit_len 100 s) as Hl.
  split; [|lia]. eapply N.le_lt_trans; [exact Hl|done].
Qed.
Lemma rt_product P vm p id : product_ok P vm p -> 104 <= usize_max P -> size_ok P (v_id (p_vendor p)) ->
  rt enc_product (dec_product P id vm) p (with_sid (stored p) id).
Proof.
  intros (Hd & Ht & Hi & Hv & Hs) Hm Hvs rest. unfold enc_product, dec_product, enc_str_with_limit, description_limit.
  rewrite <- !app_assoc.
  rewrite rt_str by (by apply limit_str_ok). simpl.
  rewrite rt_str by done. simpl. rewrite rt_str by done. simpl.
  rewrite rt_usize_ok by done. simpl. rewrite getN_lookup, Hv. done.
Qed.

Lemma positions_sid_lt ps p : positions ps -> p ∈ ps -> p_sid p < lenN ps.
Proof.
  intros H [i Hi]%elem_of_list_lookup. rewrite (H _ _ Hi).
  apply lookup_lt_Some in Hi. unfold lenN. lia.
Qed.
Lemma positions_getN ps p : positions ps -> p ∈ ps -> getN ps (p_sid p) = Some p.
Proof.
  intros H [i Hi]%elem_of_list_lookup. rewrite getN_lookup, (H _ _ Hi), Nat2N.id. done.
Qed.
Lemma positions_stored ps : positions ps -> positions (map stored ps).
Proof.
  intros H i p Hp. change (map stored ps) with (stored <$> ps) in Hp.
  rewrite list_lookup_fmap in Hp. destruct (ps !! i) as [q|] eqn:E; [|done]. simpl in Hp.
  injection Hp as <-. simpl. by apply H.
Qed.
Lemma vendors_ok_id P vm v : vendors_ok P vm -> v ∈ vm_by_id vm -> size_ok P (v_id v).
Proof.
  intros (names & (_ & Hby & _) & _ & [[H1 H2] _] & _) Hv. rewrite Hby in Hv.
  apply numbered_elem, lookup_lt_Some in Hv. unfold lenN in *. split; lia.
Qed.

Lemma rt_container P ov of c : valid_order ov -> valid_order of -> container_ok P c ->
  rt (enc_container ov of) (dec_container P) c (stored_container c).
Proof.
  intros Hov Hof (Hv & Hf & Hn & Hpos & Hps & Hm) rest.
  unfold enc_container, dec_container. rewrite <- !app_assoc.
  rewrite (rt_vendors P) by done. simpl. unfold enc_vec. rewrite <- app_assoc.
  rewrite rt_usize_ok by done. simpl. rewrite rep_N_length.
  rewrite (rep_consume enc_product (fun i '(ps, id) => (i, ps, id))
    (fun '(ps, id) p => (ps ++ [with_sid (stored p) id], id + 1)) _ _ ([], 0)).
  - rewrite (foldl_numbering (fun id p => with_sid (stored p) id)). simpl.
    rewrite (rt_features P) by done. simpl. unfold stored_container. do 4 f_equal.
    apply list_eq. intros i. rewrite list_lookup_imap.
    change (map stored (c_products c)) with (stored <$> c_products c). rewrite list_lookup_fmap.
    destruct (c_products c !! i) as [p|] eqn:E; [|done]. simpl.
    apply Hpos in E. unfold with_sid. simpl. unfold stored. by rewrite E.
  - intros p [ps id] r Hp. simpl. rewrite Forall_forall in Hps. specialize (Hps p Hp).
    rewrite rt_product; [done|done|done|].
    eapply vendors_ok_id; [done|]. eapply elem_of_list_lookup_2. apply Hps.
Qed.

(** ** Product references *)
Lemma map_insert_by {A B} (f : A -> B) (cmp : B -> B -> comparison) x l :
  map f (insert_by (fun a b => cmp (f a) (f b)) x l) = insert_by cmp (f x) (map f l).
Proof. induction l as [|y l IH]; simpl; [done|]. destruct (cmp (f x) (f y)); simpl; congruence. Qed.
Lemma map_sort_by {A B} (f : A -> B) (cmp : B -> B -> comparison) l :
  map f (sort_by (fun a b => cmp (f a) (f b)) l) = sort_by cmp (map f l).
Proof. induction l as [|x l IH]; simpl; [done|]. by rewrite map_insert_by, IH. Qed.

Lemma rt_product_refs P ps l : positions ps -> size_ok P (lenN ps) -> refs_ok P ps l ->
  rt enc_product_refs (dec_product_refs P (map stored ps)) l
     (stored_refs l, map p_sid (sort_by by_sid l)).
Proof.
  intros Hpos Hn (Hin & Hl & Hc) rest. unfold enc_product_refs, dec_product_refs.
  rewrite rt_seq.
  - simpl. unfold lenN. rewrite sort_by_length, map_length.
    rewrite with_capacity_ok by done. simpl.
    unfold by_sid. rewrite (map_sort_by p_sid N.compare).
    assert (mapR (fun id => of_opt (getN (map stored ps) id)) (sort_by N.compare (map p_sid l))
            = Done (stored_refs l)) as ->.
    { unfold stored_refs, by_sid. rewrite <- (map_sort_by p_sid N.compare).
      apply mapR_Done. rewrite Forall2_fmap_l, Forall2_fmap_r.
      apply Forall_Forall2_diag, Forall_forall. intros p Hp.
      assert (Hp' : p ∈ l) by (by rewrite sort_by_elem in Hp).
      rewrite Forall_forall in Hin. specialize (Hin _ Hp').
      cbv [compose]. rewrite getN_lookup. change (map stored ps) with (stored <$> ps).
      rewrite list_lookup_fmap. pose proof (positions_getN _ _ Hpos Hin) as E.
      rewrite getN_lookup in E. by rewrite E. }
    done.
  - unfold lenN. by rewrite map_length.
  - apply Forall_forall. intros i (p & -> & Hp)%elem_of_list_fmap.
    rewrite Forall_forall in Hin. pose proof (positions_sid_lt _ _ Hpos (Hin _ Hp)).
    destruct Hn. split; lia.
Qed.
Lemma stored_refs_ids l : list_to_set (map p_sid (sort_by by_sid l)) = sids l.
Proof.
  apply set_eq. intros i. unfold sids. rewrite !elem_of_list_to_set, !elem_of_list_fmap.
  split; intros (p & -> & Hp); exists p; (split; [done|]); by apply sort_by_elem in Hp || by apply sort_by_elem.
Qed.
