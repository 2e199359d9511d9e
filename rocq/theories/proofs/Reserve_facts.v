(** Room reserved while loading. *)
From Verif.model Require Import Base F32 Utf8 Prim Coll Data Gram Nodes Classic Lib.
From Verif.spec Require Import Spec Data_spec Reserve_spec Samples Raw_samples Lib_samples.
From Verif.proofs Require Import Base_facts Prim_facts Prim_codec Utf8_facts Coll_facts Data_facts File_facts Bytes_facts.
From Coq Require Import ZifyBool ZifyNat ZifyN.

(** [r'] is [r], or a panic. *)
Definition only {A} (r r' : res A) : Prop := r' = r \/ r' = Panic.
Lemma only_refl {A} (r : res A) : only r r.
Proof. by left. Qed.
Lemma only_bind {A B} (r r' : res A) (f f' : A -> res B) :
  only r r' -> (forall a, only (f a) (f' a)) -> only (r ≫= f) (r' ≫= f').
Proof. intros [->| ->] H; [|by right]. destruct r; simpl; [apply H|by left..]. Qed.
Lemma only_rep_nat {S} (f f' : S -> res S) n s : (forall s, only (f s) (f' s)) -> only (rep_nat n f s) (rep_nat n f' s).
Proof.
  intros H. revert s. induction n as [|n IH]; intros s; simpl; [apply only_refl|].
  apply only_bind; [apply H|apply IH].
Qed.
Lemma only_rep {S} (f f' : S -> res S) n s : (forall s, only (f s) (f' s)) -> only (rep_N n f s) (rep_N n f' s).
Proof. intros H. rewrite !rep_N_nat. by apply only_rep_nat. Qed.

Section fixed.
Context (P : platform) (L : N).
Let Q := capped L P.
(** The decoder on the capped platform does the same or panics, and accepts whatever short input it accepted. *)
Definition keeps {A} (d d' : decoder A) : Prop :=
  (forall i, only (d i) (d' i)) /\
  (forall i r v, lenN i <= L -> d i = Done (r, v) -> d' i = Done (r, v)).
Lemma keeps_refl {A} (d : decoder A) : keeps d d.
Proof. split; [intros; apply only_refl|done]. Qed.
Lemma only_room k len : only (with_capacity P k len) (with_capacity Q k len).
Proof.
  unfold only, with_capacity, Q. simpl. destruct (N.leb_spec len (cap_max P k)); [|right; by destruct (N.leb_spec len (N.min L (cap_max P k))); [lia|]].
  destruct (_ <=? _); auto.
Qed.
Lemma room k len u : with_capacity P k len = Done u -> len <= L -> with_capacity Q k len = Done u.
Proof.
  unfold with_capacity, Q. simpl. destruct (N.leb_spec len (cap_max P k)); [|done].
  destruct (N.leb_spec len (N.min L (cap_max P k))); [done|lia].
Qed.
Lemma eats_len {A} k (d : decoder A) i r v : eats k d -> d i = Done (r, v) -> lenN r + N.of_nat k <= lenN i.
Proof. intros H E. apply H in E as (pre & -> & Hp). unfold lenN. rewrite app_length. lia. Qed.
Lemma keep_rep {S} (bytes : S -> list N) (f f' : S -> res S) n s s' :
  (forall s s', lenN (bytes s) <= L -> f s = Done s' -> f' s = Done s' /\ lenN (bytes s') + 1 <= lenN (bytes s)) ->
  lenN (bytes s) <= L -> rep_N n f s = Done s' ->
  rep_N n f' s = Done s' /\ n + lenN (bytes s') <= lenN (bytes s).
Proof.
  intros H. rewrite !rep_N_nat. remember (N.to_nat n) as m eqn:Hm. replace n with (N.of_nat m) by lia. clear n Hm.
  revert s. induction m as [|m IH]; intros s Hs E; simpl in *.
  { injection E as <-. split; [done|lia]. }
  inv_bind E. destruct (H _ _ Hs E0) as [E1 Hx]. rewrite E1. simpl.
  apply IH in E as [E2 Hl]; [|lia]. split; [done|lia].
Qed.
Lemma rep_len {S} (bytes : S -> list N) (f : S -> res S) n s s' :
  (forall s s', lenN (bytes s) <= L -> f s = Done s' -> lenN (bytes s') + 1 <= lenN (bytes s)) ->
  lenN (bytes s) <= L -> rep_N n f s = Done s' -> n + lenN (bytes s') <= lenN (bytes s).
Proof. intros H Hs E. apply (keep_rep bytes f f n s s'); auto. Qed.

Lemma keep_usize : dec_usize Q = dec_usize P.
Proof. reflexivity. Qed.
Lemma keep_str : dec_str Q = dec_str P.
Proof. reflexivity. Qed.

Ltac onlys := repeat (first [match goal with H : forall i, only _ _ |- _ => apply H end | apply only_refl | apply only_room | apply only_bind; [|intros] | apply only_rep; intros
  | match goal with |- only (let '(_, _) := ?x in _) (let '(_, _) := ?x in _) => destruct x end
  | match goal with |- only (match ?x with (_, _) => _ end) _ => destruct x end | progress simpl]).

Lemma keep_vec k {A} (d d' : decoder A) : eats 1 d -> keeps d d' -> keeps (dec_vec P k d) (dec_vec Q k d').
Proof.
  intros He [Ho Hk]. split.
  - intros i. unfold dec_vec. rewrite keep_usize. onlys.
  - intros i r v Hi H. unfold dec_vec in *. rewrite keep_usize. inv_bind H. destruct x as [mid len].
    rewrite E. simpl. inv_bind H. pose proof (eats_len _ _ _ _ _ (dec_usize_eats P) E).
    apply (keep_rep fst _ (fun '(input, out) => '(new_input, item) ← d' input; Done (new_input, out ++ [item]))) in H as [H Hl].
    + simpl in Hl. rewrite (room _ _ _ E0) by lia. simpl. exact H.
    + intros [j out] [j' out'] Hj Hf. simpl in *. inv_bind Hf. destruct x0 as [ni it]. injection Hf as <- <-.
      rewrite (Hk _ _ _ Hj E1). split; [done|]. pose proof (eats_len _ _ _ _ _ He E1). lia.
    + simpl. lia.
Qed.
Lemma keep_map kd `{Countable K} {V} (dk dk' : decoder K) (dv dv' : decoder V) : eats 1 dk -> eats 0 dv ->
  keeps dk dk' -> keeps dv dv' -> keeps (dec_map P kd dk dv) (dec_map Q kd dk' dv').
Proof.
  intros Hek Hev [Hok Hkk] [Hov Hkv]. split.
  - intros i. unfold dec_map. rewrite keep_usize. onlys.
  - intros i r v Hi E'. unfold dec_map in *. rewrite keep_usize. inv_bind E'. destruct x as [mid len].
    rewrite E. simpl. inv_bind E'. pose proof (eats_len _ _ _ _ _ (dec_usize_eats P) E).
    apply (keep_rep fst _ (fun '(input, out) => '(new_input, key) ← dk' input;
      '(new_input, value) ← dv' new_input; Done (new_input, <[key := value]> out))) in E' as [E' Hl].
    + simpl in Hl. rewrite (room _ _ _ E0) by lia. simpl. exact E'.
    + intros [j out] [j' out'] Hj Hf. simpl in *. inv_bind Hf. destruct x0 as [ni it]. inv_bind Hf.
      destruct x0 as [ni2 it2]. injection Hf as <- <-.
      pose proof (eats_len _ _ _ _ _ Hek E1). pose proof (eats_len _ _ _ _ _ Hev E2).
      rewrite (Hkk _ _ _ Hj E1). simpl. rewrite (Hkv ni _ _) by (done || lia). simpl. split; [done|]. lia.
    + simpl. lia.
Qed.
Lemma keep_seq : keeps (dec_seq P) (dec_seq Q).
Proof.
  split.
  - intros i. unfold dec_seq. rewrite keep_usize. onlys.
  - intros i r v Hi H. pose proof H as H'. apply dec_seq_inv in H' as (mid & len & E & _ & Hl & Hle).
    unfold dec_seq in *. rewrite keep_usize. rewrite E in *. simpl in *.
    pose proof (eats_len _ _ _ _ _ (dec_usize_eats P) E). inv_bind H.
    rewrite (room _ _ _ E0) by (unfold lenN in *; lia). exact H.
Qed.
Lemma keep_refs ps : keeps (dec_product_refs P ps) (dec_product_refs Q ps).
Proof.
  destruct keep_seq as [Ho Hk]. split.
  - intros i. unfold dec_product_refs. onlys.
  - intros i r v Hi H. unfold dec_product_refs in *. inv_bind H. destruct x as [j ids].
    rewrite (Hk _ _ _ Hi E). simpl. pose proof E as E'. apply dec_seq_inv in E' as (mid & len & E1 & _ & Hl & Hle).
    pose proof (eats_len _ _ _ _ _ (dec_usize_eats P) E1). inv_bind H.
    rewrite (room _ _ _ E0) by (unfold lenN in *; lia). exact H.
Qed.
Lemma keep_node_fuel fuel : keeps (dec_node_fuel P fuel) (dec_node_fuel Q fuel).
Proof.
  induction fuel as [|fuel IH]; [apply keeps_refl|]. cbn [dec_node_fuel].
  destruct (keep_vec KNodeRefs _ _ (eats_weaken 5 1 _ (dec_node_fuel_eats P fuel) ltac:(lia)) IH) as [Ho Hk].
  split.
  - intros i. onlys.
  - intros i r v Hi H. inv_bind H. destruct x as [i1 item]. inv_bind H. destruct x as [i2 w].
    pose proof (eats_len _ _ _ _ _ dec_char_eats E). pose proof (eats_len _ _ _ _ _ dec_f32_eats E0).
    rewrite E. simpl. rewrite E0. simpl. inv_bind H. destruct x as [i3 l]. rewrite (Hk i2 _ _ ltac:(lia) E1). exact H.
Qed.
Lemma keep_node : keeps (dec_node P) (dec_node Q).
Proof.
  split; [intros i; apply keep_node_fuel|]. intros i r v. apply keep_node_fuel.
Qed.
Lemma keep_vendors : keeps (dec_vendors P) (dec_vendors Q).
Proof.
  split.
  - intros i. unfold dec_vendors. rewrite keep_usize, keep_str. onlys.
  - intros i r v Hi H. unfold dec_vendors in *. rewrite keep_usize, keep_str. inv_bind H. destruct x as [mid len].
    rewrite E. simpl. pose proof (eats_len _ _ _ _ _ (dec_usize_eats P) E). inv_bind H. inv_bind H. inv_bind H.
    assert (len <= L) as Hlen.
    { apply (rep_len (fun s => fst (fst s))) in E2 as Hl; [simpl in Hl; lia| |simpl; lia].
      intros [[j vm] id] s' Hj Hf. simpl in *. inv_bind Hf. destruct x2 as [ni nm].
      injection Hf as <-. simpl. pose proof (eats_len _ _ _ _ _ (dec_str_eats P) E3). lia. }
    rewrite (room _ _ _ E0) by lia. simpl. rewrite (room _ _ _ E1) by lia. simpl. rewrite E2. exact H.
Qed.
Lemma keep_feature : keeps (dec_feature P) (dec_feature Q).
Proof.
  assert (keeps (dec_vec P KStrings (dec_str P)) (dec_vec Q KStrings (dec_str Q))) as [So Sk]
    by (apply keep_vec; [apply dec_str_eats|apply keeps_refl]).
  assert (keeps (dec_vec P KFloats dec_f32) (dec_vec Q KFloats dec_f32)) as [Fo Fk]
    by (apply keep_vec; [eapply eats_weaken; [apply dec_f32_eats|lia]|apply keeps_refl]).
  assert (keeps (dec_vec P KInts dec_u32) (dec_vec Q KInts dec_u32)) as [Io Ik]
    by (apply keep_vec; [apply dec_u32_eats|apply keeps_refl]).
  split.
  - intros i. unfold dec_feature. apply only_bind; [apply only_refl|]. intros [j id].
    destruct id as [|[q|[q|q|]|]]; try apply only_refl;
      (apply only_bind; [|intros [? ?]; apply only_refl]); [apply So|apply Io|apply Fo].
  - intros i r v Hi H. unfold dec_feature in *. inv_bind H. destruct x as [j id].
    pose proof (eats_len _ _ _ _ _ dec_u8_eats E). rewrite E. simpl.
    destruct id as [|[q|[q|q|]|]]; try done; inv_bind H; destruct x as [j2 d].
    + rewrite (Sk j _ _ ltac:(lia) E0). exact H.
    + rewrite (Ik j _ _ ltac:(lia) E0). exact H.
    + rewrite (Fk j _ _ ltac:(lia) E0). exact H.
Qed.
Lemma keep_features : keeps (dec_features P) (dec_features Q).
Proof.
  apply keep_map; [apply dec_str_eats|eapply eats_weaken; [apply dec_feature_eats|lia]|apply keeps_refl|apply keep_feature].
Qed.
Lemma dec_container_eats : eats 3 (dec_container P).
Proof. intros i r v H. by apply dec_container_inv in H as [_ H]. Qed.
Lemma keep_product : dec_product Q = dec_product P.
Proof. reflexivity. Qed.
Lemma keep_container : keeps (dec_container P) (dec_container Q).
Proof.
  destruct keep_vendors as [Vo Vk], keep_features as [Fo Fk]. split.
  - intros i. unfold dec_container. rewrite keep_usize, keep_product. onlys.
  - intros i r v Hi H. unfold dec_container in *. rewrite keep_usize, keep_product.
    inv_bind H. destruct x as [i1 vm]. pose proof (eats_len _ _ _ _ _ (dec_vendors_eats P) E).
    rewrite (Vk _ _ _ Hi E). simpl. inv_bind H. destruct x as [i2 count].
    pose proof (eats_len _ _ _ _ _ (dec_usize_eats P) E0). rewrite E0. simpl.
    inv_bind H. destruct x as [[i3 ps] id]. rewrite E1. simpl.
    apply (rep_len (fun s => fst (fst s))) in E1 as Hl; [| |simpl; lia].
    + simpl in Hl. inv_bind H. destruct x as [i4 fs]. rewrite (Fk i3 _ _ ltac:(lia) E2). exact H.
    + intros [[j l] k] s' Hj Hf. simpl in *. inv_bind Hf. destruct x as [ni p].
      injection Hf as <-. simpl. apply dec_product_inv in E2 as (_ & _ & pre & -> & Hpre).
      unfold lenN in *. rewrite app_length. lia.
Qed.
Lemma dec_data_eats ps : eats 1 (fun input => '(input, (products, _)) ← dec_product_refs P ps input; Done (input, products)).
Proof. intros i r v H. inv_bind H. destruct x as [? [? ?]]. injection H as <- <-. by eapply dec_product_refs_eats. Qed.
Lemma keep_data ps : keeps (fun input => '(input, (products, _)) ← dec_product_refs P ps input; Done (input, products))
  (fun input => '(input, (products, _)) ← dec_product_refs Q ps input; Done (input, products)).
Proof.
  destruct (keep_refs ps) as [Ro Rk]. split.
  - intros i. apply only_bind; [apply Ro|]. intros [? [? ?]]. apply only_refl.
  - intros i r v Hi H. inv_bind H. destruct x as [? [? ?]]. rewrite (Rk _ _ _ Hi E). exact H.
Qed.
Lemma dec_arr_eats n : eats 1 (dec_array P n dec_char).
Proof. apply dec_array_eats. eapply eats_weaken; [apply dec_char_eats|lia]. Qed.
Lemma keep_gram_index n : keeps (dec_gram_index P n) (dec_gram_index Q n).
Proof.
  destruct keep_container as [Co Ck].
  destruct (keep_map KRootMap dec_char dec_char (dec_node P) (dec_node Q) dec_char_eats
    (eats_weaken 5 0 _ (dec_node_eats P) ltac:(lia)) (keeps_refl _) keep_node) as [No Nk].
  assert (forall ps, keeps (dec_map P KDataMap (dec_array P n dec_char) (fun input => '(input, (products, _)) ← dec_product_refs P ps input; Done (input, products)))
    (dec_map Q KDataMap (dec_array Q n dec_char) (fun input => '(input, (products, _)) ← dec_product_refs Q ps input; Done (input, products)))) as Hd.
  { intros ps. apply keep_map; [apply dec_arr_eats|eapply eats_weaken; [apply dec_data_eats|lia]|apply (keeps_refl (dec_array P n dec_char))|apply keep_data]. }
  split.
  - intros i. unfold dec_gram_index. apply only_bind; [apply Co|intros [i1 c]].
    apply only_bind; [apply No|intros [i2 roots]]. apply only_bind; [apply Hd|intros [? ?]; apply only_refl].
  - intros i r v Hi H. unfold dec_gram_index in *. inv_bind H. destruct x as [i1 c].
    pose proof (eats_len _ _ _ _ _ dec_container_eats E). rewrite (Ck _ _ _ Hi E). simpl.
    inv_bind H. destruct x as [i2 roots].
    assert (lenN i2 + 1 <= lenN i1).
    { eapply (eats_len 1); [|exact E0]. apply dec_map_eats; eapply eats_weaken; [apply dec_char_eats|lia|apply dec_node_eats|lia]. }
    rewrite (Nk i1 _ _ ltac:(lia) E0). simpl. inv_bind H. destruct x as [i3 data].
    rewrite (proj2 (Hd (c_products c)) i2 _ _ ltac:(lia) E1). exact H.
Qed.
Lemma keep_category ps next : keeps (dec_category P ps next) (dec_category Q ps next).
Proof.
  destruct (keep_refs ps) as [Ro Rk]. split.
  - intros i. unfold dec_category. rewrite keep_usize, keep_str. onlys.
  - intros i r v Hi H. unfold dec_category in *. rewrite keep_usize, keep_str.
    inv_bind H. destruct x as [i1 ex]. pose proof (eats_len _ _ _ _ _ dec_bool_eats E). rewrite E. simpl.
    inv_bind H. destruct x as [i2 nm]. pose proof (eats_len _ _ _ _ _ (dec_str_eats P) E0). rewrite E0. simpl.
    inv_bind H. destruct x as [i3 len]. pose proof (eats_len _ _ _ _ _ (dec_usize_eats P) E1). rewrite E1. simpl.
    inv_bind H. inv_bind H. destruct x0 as [[i4 os] nx].
    apply (keep_rep (fun s => fst (fst s)) _ (fun '(input, options, next_id) =>
      '(input_after_name, name) ← dec_str P input;
      '(new_input, (products, product_ids)) ← dec_product_refs Q ps input_after_name;
      Done (new_input, options ++ [CatOption name next_id products (list_to_set product_ids)], next_id + 1))) in E3 as [E3 Hl].
    + simpl in Hl. rewrite (room _ _ _ E2) by lia. simpl. rewrite E3. exact H.
    + intros [[j l] k] s' Hj Hf. simpl in *. inv_bind Hf. destruct x0 as [ni p].
      pose proof (eats_len _ _ _ _ _ (dec_str_eats P) E4). simpl. inv_bind Hf. destruct x0 as [ni2 [? ?]].
      pose proof (eats_len _ _ _ _ _ (dec_product_refs_eats P ps) E5).
      rewrite E4. simpl. rewrite (Rk ni _ _ ltac:(lia) E5). simpl. injection Hf as <-. split; [done|]. simpl. lia.
    + simpl. lia.
Qed.
Lemma keep_categories ps : keeps (dec_categories P ps) (dec_categories Q ps).
Proof.
  split.
  - assert (forall next i, only (dec_category P ps next i) (dec_category Q ps next i)) as Ho by (intros; apply keep_category).
    intros i. unfold dec_categories. rewrite keep_usize. onlys; apply Ho.
  - intros i r v Hi H. unfold dec_categories in *. rewrite keep_usize.
    inv_bind H. destruct x as [i1 len]. pose proof (eats_len _ _ _ _ _ (dec_usize_eats P) E). rewrite E. simpl.
    inv_bind H. inv_bind H. destruct x0 as [[i2 cs] nx].
    apply (keep_rep (fun s => fst (fst s)) _ (fun '(input, cats, next_id) =>
      '(new_input, (cat, next_id)) ← dec_category Q ps next_id input;
      Done (new_input, cats ++ [cat], next_id))) in E1 as [E1 Hl].
    + simpl in Hl. rewrite (room _ _ _ E0) by lia. simpl. rewrite E1. exact H.
    + intros [[j l] k] s' Hj Hf. simpl in *. inv_bind Hf. destruct x0 as [ni [c nx']].
      pose proof (eats_len _ _ _ _ _ (dec_category_eats P ps k) E2).
      rewrite (proj2 (keep_category ps k) _ _ _ Hj E2). simpl. injection Hf as <-. split; [done|]. simpl. lia.
    + simpl. lia.
Qed.
Lemma dec_categories_len ps i r v : dec_categories P ps i = Done (r, v) -> lenN i <= L -> lenN r <= L.
Proof.
  unfold dec_categories. intros H Hi. inv_bind H. destruct x as [i1 len].
  pose proof (eats_len _ _ _ _ _ (dec_usize_eats P) E). inv_bind H. inv_bind H. destruct x0 as [[i2 cs] nx].
  apply (rep_len (fun s => fst (fst s))) in E1 as Hl; [|intros [[j l] k] s' Hj Hf|simpl; lia].
  - simpl in Hl. injection H as <- <-. lia.
  - simpl in *. inv_bind Hf. destruct x0 as [ni [c nx']]. pose proof (eats_len _ _ _ _ _ (dec_category_eats P ps k) E2).
    injection Hf as <-. simpl. lia.
Qed.
Lemma keep_tags ps : keeps (dec_tags P ps) (dec_tags Q ps) /\
  forall i r v, dec_tags P ps i = Done (r, v) -> lenN i <= L -> lenN r <= L.
Proof.
  destruct (keep_refs ps) as [Ro Rk].
  assert (forall i r v, lenN i <= L -> dec_tags P ps i = Done (r, v) -> dec_tags Q ps i = Done (r, v) /\ lenN r <= L) as Hall.
  { intros i r v Hi H. unfold dec_tags in *. rewrite keep_usize, keep_str.
    inv_bind H. destruct x as [i1 len]. pose proof (eats_len _ _ _ _ _ (dec_usize_eats P) E). rewrite E. simpl.
    inv_bind H. inv_bind H. destruct x0 as [[i2 ts] nx].
    apply (keep_rep (fun s => fst (fst s)) _ (fun '(input, tags, id) =>
      '(new_input, name) ← dec_str P input;
      '(new_input, (products, product_ids)) ← dec_product_refs Q ps new_input;
      Done (new_input, tags ++ [Tag name products (list_to_set product_ids) id], id + 1))) in E1 as [E1 Hl].
    + simpl in Hl. rewrite (room _ _ _ E0) by lia. simpl. rewrite E1. split; [exact H|]. injection H as <- <-. lia.
    + intros [[j l] k] s' Hj Hf. simpl in *. inv_bind Hf. destruct x0 as [ni p].
      pose proof (eats_len _ _ _ _ _ (dec_str_eats P) E2). simpl. inv_bind Hf. destruct x0 as [ni2 [? ?]].
      pose proof (eats_len _ _ _ _ _ (dec_product_refs_eats P ps) E3).
      rewrite E2. simpl. rewrite (Rk ni _ _ ltac:(lia) E3). simpl. injection Hf as <-. split; [done|]. simpl. lia.
    + simpl. lia. }
  split; [split|].
  - intros i. unfold dec_tags. rewrite keep_usize, keep_str. onlys.
  - intros i r v Hi H. by apply Hall.
  - intros i r v H Hi. by eapply Hall.
Qed.
Lemma keep_orders : keeps (dec_orders P) (dec_orders Q).
Proof.
  apply keep_map; [apply dec_str_eats| |apply keeps_refl|].
  - eapply eats_weaken; [eapply dec_vec_eats; apply dec_usize_eats|lia].
  - apply keep_vec; [apply dec_usize_eats|apply (keeps_refl (dec_usize P))].
Qed.
Lemma keep_classic c : keeps (dec_classic P c) (dec_classic Q c).
Proof.
  destruct (keep_categories (c_products c)) as [Co Ck], (keep_tags (c_products c)) as [[To Tk] Tl], keep_orders as [Oo Ok].
  split.
  - intros i. unfold dec_classic. apply only_bind; [apply Co|intros [? ?]]. apply only_bind; [apply To|intros [? ?]].
    apply only_bind; [apply Oo|intros [? ?]; apply only_refl].
  - intros i r v Hi H. unfold dec_classic in *. inv_bind H. destruct x as [i1 cs].
    pose proof (dec_categories_len _ _ _ _ E Hi) as H1. rewrite (Ck _ _ _ Hi E). simpl.
    inv_bind H. destruct x as [i2 ts]. pose proof (Tl _ _ _ E0 H1) as H2. rewrite (Tk _ _ _ H1 E0). simpl.
    inv_bind H. destruct x as [i3 os]. rewrite (Ok _ _ _ H2 E1). exact H.
Qed.
Lemma dec_gram_index_len n i r v : dec_gram_index P n i = Done (r, v) -> lenN r <= lenN i.
Proof.
  unfold dec_gram_index. intros H. inv_bind H. destruct x as [i1 c]. pose proof (eats_len _ _ _ _ _ dec_container_eats E).
  inv_bind H. destruct x as [i2 roots]. inv_bind H. destruct x as [i3 data]. injection H as <- <-.
  assert (lenN i2 + 1 <= lenN i1).
  { eapply (eats_len 1); [|exact E0]. apply dec_map_eats; eapply eats_weaken; [apply dec_char_eats|lia|apply dec_node_eats|lia]. }
  assert (lenN i3 + 1 <= lenN i2).
  { eapply (eats_len 1); [|exact E1]. apply dec_map_eats; eapply eats_weaken; [apply dec_arr_eats|lia|apply dec_data_eats|lia]. }
  lia.
Qed.
Lemma capped_same n bytes : deserialize_all Q n bytes = deserialize_all P n bytes \/ deserialize_all Q n bytes = Panic.
Proof.
  change (only (deserialize_all P n bytes) (deserialize_all Q n bytes)). unfold deserialize_all.
  apply only_bind; [apply keep_gram_index|intros [? ?]]. apply only_bind; [apply keep_classic|intros [? ?]; apply only_refl].
Qed.
Lemma capped_done n bytes r : lenN bytes <= L -> deserialize_all P n bytes = Done r -> deserialize_all Q n bytes = Done r.
Proof.
  intros Hi H. unfold deserialize_all in *. inv_bind H. destruct x as [i1 g]. pose proof (dec_gram_index_len _ _ _ _ E).
  rewrite (proj2 (keep_gram_index n) _ _ _ Hi E). simpl. inv_bind H. destruct x as [i2 cl].
  rewrite (proj2 (keep_classic _) i1 _ _ ltac:(lia) E0). exact H.
Qed.
End fixed.

(** What is said of the caps a file needs. *)
Lemma accepted_reserves P n bytes r : deserialize_all P n bytes = Done r ->
  forall l, lenN bytes <= l -> deserialize_all (capped l P) n bytes = Done r.
Proof. intros H l Hl. by apply capped_done. Qed.
Lemma capped_meaning P n bytes l :
  deserialize_all (capped l P) n bytes = deserialize_all P n bytes \/ deserialize_all (capped l P) n bytes = Panic.
Proof. apply capped_same. Qed.
Lemma short_file P n m l : u64_ok m -> m <= usize_max P -> m <= cap_max P KVendorMap -> m <= cap_max P KVendorVec -> l < m ->
  deserialize_all P n (enc_usize m) = Nope /\ deserialize_all (capped l P) n (enc_usize m) = Panic.
Proof.
  intros Hok Hm H1 H2 Hl. pose proof (rt_usize P m Hok Hm []) as Hd. rewrite app_nil_r in Hd.
  unfold deserialize_all, dec_gram_index, dec_container, dec_vendors.
  change (dec_usize (capped l P) (enc_usize m)) with (dec_usize P (enc_usize m)). rewrite Hd. cbn [mbind res_bind].
  assert (with_capacity P KVendorMap m = Done tt) as -> by (unfold with_capacity; by rewrite (proj2 (N.leb_le _ _))).
  assert (with_capacity P KVendorVec m = Done tt) as -> by (unfold with_capacity; by rewrite (proj2 (N.leb_le _ _))).
  assert (with_capacity (capped l P) KVendorMap m = Panic) as ->.
  { unfold with_capacity. cbn [cap_max capped]. by rewrite (proj2 (N.leb_gt _ _)) by lia. }
  cbn [mbind res_bind]. split; [|done]. rewrite rep_N_nat. destruct (N.to_nat m) as [|k] eqn:E; [lia|]. reflexivity.
Qed.
Lemma rejected_reserves P n m l : m < 2 ^ 56 -> m <= usize_max P -> m <= cap_max P KVendorMap -> m <= cap_max P KVendorVec -> l < m ->
  let bytes := enc_usize m in
  lenN bytes <= 8 /\ deserialize_all P n bytes = Nope /\ deserialize_all (capped l P) n bytes = Panic.
Proof.
  intros Hm Hu H1 H2 Hl bytes. split; [apply enc_bits; [exact Hm|lia]|]. apply short_file; auto. by left.
Qed.
Lemma big_request l : l < 2 ^ 55 -> exists bytes, lenN bytes <= 8 /\
  deserialize_all host64 5 bytes = Nope /\ deserialize_all (capped l host64) 5 bytes = Panic.
Proof. intros Hl. exists (enc_usize (2 ^ 55)). apply rejected_reserves; done. Qed.
Definition accepted (r : res (gram_index * classic)) : bool := match r with Done _ => true | _ => false end.
Lemma accepted_Done r : accepted r = true -> exists x, r = Done x.
Proof. destruct r; [by eexists|done..]. Qed.
Lemma sample_reserves : (exists r, deserialize_all wasm32 5 sample_file = Done r) /\
  deserialize_all (capped 1 wasm32) 5 sample_file = Panic /\
  70000 < 2 ^ 56 /\ 70000 <= usize_max wasm32 /\ 70000 <= cap_max wasm32 KVendorMap /\ enc_usize 70000 = [240; 162; 4].
Proof. split; [apply accepted_Done; vm_compute; reflexivity|]. repeat split; vm_compute; reflexivity || discriminate. Qed.
