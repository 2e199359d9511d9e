(** What is loaded is no larger than the file. *)
From Verif.model Require Import Base F32 Utf8 Prim Coll Data Gram Nodes Classic Lib.
From Verif.spec Require Import Spec Data_spec Gram_spec Held_spec Samples Raw_samples Lib_samples.
From Verif.proofs Require Import Base_facts Prim_facts Prim_codec Utf8_facts Coll_facts Data_facts File_facts Reserve_facts.
From Coq Require Import ZifyBool ZifyNat ZifyN.

(** Every decoded value weighs at most the bytes it was read from. *)
Definition weighs {A} (w : A -> N) (d : decoder A) : Prop := forall i r v, d i = Done (r, v) -> w v + lenN r <= lenN i.
Lemma weighs_eats {A} k (d : decoder A) : eats k d -> weighs (fun _ => N.of_nat k) d.
Proof. intros H i r v E. pose proof (eats_len _ _ _ _ _ H E). lia. Qed.
Lemma sum_N_app l1 l2 : sum_N (l1 ++ l2) = sum_N l1 + sum_N l2.
Proof. unfold sum_N. induction l1; simpl; lia. Qed.
Lemma sum_N_perm l1 l2 : l1 ≡ₚ l2 -> sum_N l1 = sum_N l2.
Proof. unfold sum_N. induction 1; simpl in *; lia. Qed.
Lemma sum_ones {A} (l : list A) : sum_N (map one l) = lenN l.
Proof. unfold sum_N, lenN, one. induction l; simpl in *; lia. Qed.
Lemma sum_insert `{Countable K} {V} (w : K * V -> N) (m : gmap K V) k v :
  sum_N (map w (map_to_list (<[k := v]> m))) <= w (k, v) + sum_N (map w (map_to_list m)).
Proof.
  destruct (m !! k) as [x|] eqn:E.
  - rewrite <- insert_delete_insert.
    rewrite (sum_N_perm _ _ (Permutation_map w (map_to_list_insert (delete k m) k v (lookup_delete _ _)))). simpl.
    rewrite <- (sum_N_perm _ _ (Permutation_map w (map_to_list_delete m k x E))). simpl. unfold sum_N. simpl. lia.
  - rewrite (sum_N_perm _ _ (Permutation_map w (map_to_list_insert m k v E))). unfold sum_N. simpl. lia.
Qed.

Section fixed.
Context (P : platform).
(** Loops over elements: [out] weighs what was read. *)
Lemma weigh_loop {S} (bytes : S -> list N) (w : S -> N) (f : S -> res S) n s s' :
  (forall s s', f s = Done s' -> w s' + lenN (bytes s') <= w s + lenN (bytes s)) ->
  rep_N n f s = Done s' -> w s' + lenN (bytes s') <= w s + lenN (bytes s).
Proof.
  intros H E. rewrite rep_N_nat in E. revert s E. induction (N.to_nat n) as [|m IH]; intros s E; simpl in *.
  - injection E as <-. lia.
  - inv_bind E. apply H in E0. apply IH in E. lia.
Qed.
Lemma weigh_vec k {A} (w : A -> N) (d : decoder A) : weighs w d -> weighs (held_list w) (dec_vec P k d).
Proof.
  intros Hw i r v H. unfold dec_vec in H. inv_bind H. destruct x as [mid len].
  pose proof (eats_len _ _ _ _ _ (dec_usize_eats P) E). inv_bind H.
  apply (weigh_loop fst (fun s => sum_N (map w (snd s)))) in H.
  - simpl in H. unfold held_list. lia.
  - intros [j out] [j' out'] Hf. inv_bind Hf. destruct x0 as [ni it]. injection Hf as <- <-.
    apply Hw in E1. simpl. rewrite map_app, sum_N_app. unfold sum_N at 2. simpl. lia.
Qed.
Lemma weigh_map kd `{Countable K} {V} (wk : K -> N) (wv : V -> N) (dk : decoder K) (dv : decoder V) :
  weighs wk dk -> weighs wv dv -> weighs (held_map wk wv) (dec_map P kd dk dv).
Proof.
  intros Hk Hv i r v E'. unfold dec_map in E'. inv_bind E'. destruct x as [mid len].
  pose proof (eats_len _ _ _ _ _ (dec_usize_eats P) E). inv_bind E'.
  apply (weigh_loop fst (fun s => sum_N (map (fun kv => wk kv.1 + wv kv.2) (map_to_list (snd s))))) in E'.
  - simpl in E'. rewrite map_to_list_empty in E'. unfold held_map, held_list. simpl in E'. lia.
  - intros [j out] [j' out'] Hf. inv_bind Hf. destruct x0 as [ni ky]. inv_bind Hf. destruct x0 as [ni2 va].
    injection Hf as <- <-. apply Hk in E1. apply Hv in E2. simpl.
    pose proof (sum_insert (fun kv => wk kv.1 + wv kv.2) out ky va) as Hs. simpl in Hs. lia.
Qed.
Lemma weigh_array n {A} (w : A -> N) (d : decoder A) : weighs w d -> weighs (held_list w) (dec_array P n d).
Proof.
  intros Hw i r v H. unfold dec_array in H. inv_bind H. destruct x as [mid len].
  pose proof (eats_len _ _ _ _ _ (dec_usize_eats P) E). destruct (len =? N.of_nat n); [|done].
  rewrite <- (Nat2N.id n), <- rep_N_nat in H.
  apply (weigh_loop fst (fun s => sum_N (map w (snd s)))) in H.
  - simpl in H. unfold held_list. lia.
  - intros [j out] [j' out'] Hf. inv_bind Hf. destruct x as [ni it]. injection Hf as <- <-.
    apply Hw in E0. simpl. rewrite map_app, sum_N_app. unfold sum_N at 2. simpl. lia.
Qed.
Lemma weigh_str : weighs held_str (dec_str P).
Proof.
  intros i r v H. apply dec_str_sound in H as (_ & mid & H & ->). pose proof (eats_len _ _ _ _ _ (dec_usize_eats P) H) as Hl.
  rewrite lenN_app in Hl. unfold held_str, str_len. lia.
Qed.
Lemma weigh_refs ps : weighs (fun v => held_list one (fst v)) (dec_product_refs P ps).
Proof.
  intros i r [l ids] H. unfold dec_product_refs in H. inv_bind H. destruct x as [j ids'].
  apply dec_seq_inv in E as (mid & len & E1 & _ & Hl & Hle). pose proof (eats_len _ _ _ _ _ (dec_usize_eats P) E1).
  inv_bind H. inv_bind H. injection H as <- <- <-.
  assert (lenN x0 = lenN ids') as Hx.
  { clear - E0. revert x0 E0. induction ids' as [|a t IH]; intros x0 E0; simpl in E0.
    - injection E0 as <-. done.
    - inv_bind E0. inv_bind E0. injection E0 as <-. apply IH in E1. unfold lenN in *. simpl. lia. }
  simpl. unfold held_list. rewrite sum_ones, Hx. unfold lenN in *. lia.
Qed.
Lemma weigh_data ps : weighs (held_list one) (fun input => '(input, (products, _)) ← dec_product_refs P ps input; Done (input, products)).
Proof. intros i r v H. inv_bind H. destruct x as [? [l ?]]. injection H as <- <-. by apply weigh_refs in E. Qed.
Lemma weigh_node_fuel fuel : weighs held_node (dec_node_fuel P fuel).
Proof.
  induction fuel as [|fuel IH]; intros i r v H; [done|]. cbn [dec_node_fuel] in H.
  inv_bind H. destruct x as [i1 item]. inv_bind H. destruct x as [i2 wt]. inv_bind H. destruct x as [i3 l].
  injection H as <- <-. pose proof (eats_len _ _ _ _ _ dec_char_eats E). pose proof (eats_len _ _ _ _ _ dec_f32_eats E0).
  apply (weigh_vec KNodeRefs _ _ IH) in E1. unfold held_list in E1. cbn [held_node]. lia.
Qed.
Lemma weigh_vendors : weighs (fun vm => held_list (fun v => held_str (v_name v)) (vm_by_id vm)) (dec_vendors P).
Proof.
  intros i r v H. unfold dec_vendors in H. inv_bind H. destruct x as [mid len].
  pose proof (eats_len _ _ _ _ _ (dec_usize_eats P) E). inv_bind H. inv_bind H. inv_bind H. destruct x1 as [[j vm] id].
  injection H as <- <-.
  apply (weigh_loop (fun s => fst (fst s)) (fun s => sum_N (map (fun v => held_str (v_name v)) (vm_by_id (snd (fst s)))))) in E2.
  - simpl in E2. unfold held_list. lia.
  - intros [[k vm1] id1] s' Hf. inv_bind Hf. destruct x1 as [ni nm]. injection Hf as <-. apply weigh_str in E3.
    simpl. rewrite map_app, sum_N_app. unfold sum_N at 2. simpl. lia.
Qed.
Lemma weigh_product sid vm : weighs held_product (dec_product P sid vm).
Proof.
  intros i r v H. unfold dec_product in H. inv_bind H. destruct x as [i1 d]. inv_bind H. destruct x as [i2 t].
  inv_bind H. destruct x as [i3 id]. inv_bind H. destruct x as [i4 vid]. inv_bind H. injection H as <- <-.
  apply weigh_str in E, E0, E1. pose proof (eats_len _ _ _ _ _ (dec_usize_eats P) E2).
  unfold held_product. simpl. lia.
Qed.
Lemma weigh_feature : weighs held_feature (dec_feature P).
Proof.
  intros i r v H. unfold dec_feature in H. inv_bind H. destruct x as [j id]. pose proof (eats_len _ _ _ _ _ dec_u8_eats E).
  destruct id as [|[q|[q|q|]|]]; try done; inv_bind H; destruct x as [j2 d]; injection H as <- <-; unfold held_feature.
  - apply (weigh_vec _ _ _ weigh_str) in E0. lia.
  - apply (weigh_vec _ one _ (weighs_eats 1 _ dec_u32_eats)) in E0. lia.
  - apply (weigh_vec _ (fun _ => 4) _ (weighs_eats 4 _ dec_f32_eats)) in E0. lia.
Qed.
Lemma weigh_container : weighs held_container (dec_container P).
Proof.
  intros i r v H. unfold dec_container in H. inv_bind H. destruct x as [i1 vm]. inv_bind H. destruct x as [i2 len].
  inv_bind H. destruct x as [[i3 ps] id]. inv_bind H. destruct x as [i4 fs]. injection H as <- <-.
  apply weigh_vendors in E. pose proof (eats_len _ _ _ _ _ (dec_usize_eats P) E0).
  apply (weigh_map _ _ _ _ _ weigh_str weigh_feature) in E2.
  apply (weigh_loop (fun s => fst (fst s)) (fun s => sum_N (map held_product (snd (fst s))))) in E1.
  - simpl in E1. unfold held_container, held_list at 2. simpl. lia.
  - intros [[k l] id1] s' Hf. inv_bind Hf. destruct x as [ni p]. injection Hf as <-. apply weigh_product in E3.
    simpl. rewrite map_app, sum_N_app. unfold sum_N at 2. simpl. lia.
Qed.
Lemma weigh_index n : weighs held_index (dec_gram_index P n).
Proof.
  intros i r v H. unfold dec_gram_index in H. inv_bind H. destruct x as [i1 c]. inv_bind H. destruct x as [i2 rs].
  inv_bind H. destruct x as [i3 dt]. injection H as <- <-. apply weigh_container in E.
  apply (weigh_map _ one held_node _ _ (weighs_eats 1 _ dec_char_eats)) in E0; [|intros ? ? ?; apply weigh_node_fuel].
  apply (weigh_map _ (held_list one) (held_list one) _ _ (weigh_array n one _ (weighs_eats 1 _ dec_char_eats)) (weigh_data _)) in E1.
  unfold held_index. simpl. lia.
Qed.
Lemma weigh_category ps next : weighs (fun v => held_category (fst v)) (dec_category P ps next).
Proof.
  intros i r v H. unfold dec_category in H. inv_bind H. destruct x as [i1 ex]. inv_bind H. destruct x as [i2 nm].
  inv_bind H. destruct x as [i3 len]. inv_bind H. inv_bind H. destruct x0 as [[i4 os] nx]. injection H as <- <-.
  pose proof (eats_len _ _ _ _ _ dec_bool_eats E). apply weigh_str in E0. pose proof (eats_len _ _ _ _ _ (dec_usize_eats P) E1).
  apply (weigh_loop (fun s => fst (fst s)) (fun s => sum_N (map held_option (snd (fst s))))) in E3.
  - simpl in E3. unfold held_category, held_list. simpl. lia.
  - intros [[k l] id1] s' Hf. inv_bind Hf. destruct x0 as [ni p]. inv_bind Hf. destruct x0 as [ni2 [l2 ids]].
    injection Hf as <-. apply weigh_str in E4. apply weigh_refs in E5. simpl in E5.
    simpl. rewrite map_app, sum_N_app. unfold sum_N at 2. simpl. unfold held_option at 2. simpl. lia.
Qed.
Lemma weigh_categories ps : weighs (held_list held_category) (dec_categories P ps).
Proof.
  intros i r v H. unfold dec_categories in H. inv_bind H. destruct x as [i1 len]. inv_bind H. inv_bind H.
  destruct x0 as [[i4 cs] nx]. injection H as <- <-. pose proof (eats_len _ _ _ _ _ (dec_usize_eats P) E).
  apply (weigh_loop (fun s => fst (fst s)) (fun s => sum_N (map held_category (snd (fst s))))) in E1.
  - simpl in E1. unfold held_list. lia.
  - intros [[k l] id1] s' Hf. inv_bind Hf. destruct x0 as [ni [c nx']]. injection Hf as <-. apply weigh_category in E2.
    simpl in *. rewrite map_app, sum_N_app. unfold sum_N at 2. simpl. lia.
Qed.
Lemma weigh_tags ps : weighs (held_list held_tag) (dec_tags P ps).
Proof.
  intros i r v H. unfold dec_tags in H. inv_bind H. destruct x as [i1 len]. inv_bind H. inv_bind H.
  destruct x0 as [[i4 ts] nx]. injection H as <- <-. pose proof (eats_len _ _ _ _ _ (dec_usize_eats P) E).
  apply (weigh_loop (fun s => fst (fst s)) (fun s => sum_N (map held_tag (snd (fst s))))) in E1.
  - simpl in E1. unfold held_list. lia.
  - intros [[k l] id1] s' Hf. inv_bind Hf. destruct x0 as [ni p]. inv_bind Hf. destruct x0 as [ni2 [l2 ids]].
    injection Hf as <-. apply weigh_str in E2. apply weigh_refs in E3. simpl in E3.
    simpl. rewrite map_app, sum_N_app. unfold sum_N at 2. simpl. unfold held_tag at 2. simpl. lia.
Qed.
Lemma weigh_classic c : weighs held_classic (dec_classic P c).
Proof.
  intros i r v H. unfold dec_classic in H. inv_bind H. destruct x as [i1 cs]. inv_bind H. destruct x as [i2 ts].
  inv_bind H. destruct x as [i3 os]. injection H as <- <-. apply weigh_categories in E. apply weigh_tags in E0.
  apply (weigh_map _ held_str (held_list one) _ _ weigh_str (weigh_vec _ one _ (weighs_eats 1 _ (dec_usize_eats P)))) in E1.
  unfold held_classic. simpl. lia.
Qed.
End fixed.

Lemma loaded_fits P n bytes gi cl : deserialize_all P n bytes = Done (gi, cl) -> held_index gi + held_classic cl <= lenN bytes.
Proof.
  unfold deserialize_all. intros H. inv_bind H. destruct x as [i1 g]. inv_bind H. destruct x as [i2 c]. injection H as <- <-.
  apply weigh_index in E. apply weigh_classic in E0. lia.
Qed.

(** ** The shortest files *)
Lemma zero_byte P i r : Forall is_byte i -> dec_usize P i = Done (r, 0) -> lenN i <= lenN r + 1 ->
  i = 0 :: r \/ (i = [128] /\ r = []).
Proof.
  intros Hb H Hl. apply dec_usize_inv in H as [H _]. destruct i as [|b i]; [done|].
  inversion Hb as [|? ? Hb1 _]; subst. unfold is_byte in Hb1.
  destruct (span 9 (b :: i)) as [c rest] eqn:E. rewrite (dec_u64_span _ _ _ E) in H.
  pose proof (span_app _ _ _ _ E) as Happ. rewrite Happ in Hl. rewrite lenN_app in Hl.
  destruct (N.eqb_spec (lenN c) 9) as [E9|E9].
  { destruct rest as [|b' rest']; [done|]. injection H as <- _. rewrite lenN_cons in Hl. lia. }
  destruct c as [|b0 c]; [done|]. injection H as <- Hv. rewrite lenN_cons in Hl.
  destruct c as [|b1 c]; [|rewrite lenN_cons in Hl; lia]. injection Happ as <- ->.
  simpl in Hv. simpl in E. destruct (N.leb_spec 128 (b mod 256)) as [Hc|Hc].
  - destruct rest as [|x y].
    + right. split; [f_equal; lia|done].
    + destruct (128 <=? x mod 256); [|done]. by destruct (match y with [] => _ | _ => _ end).
  - left. f_equal. lia.
Qed.
Lemma lone {S} (bytes : S -> list N) (f : S -> res S) n s s' :
  (forall s s', f s = Done s' -> lenN (bytes s') + 1 <= lenN (bytes s)) ->
  rep_N n f s = Done s' -> lenN (bytes s) <= lenN (bytes s') -> n = 0 /\ s' = s.
Proof.
  intros H E Hl.
  assert (n + lenN (bytes s') <= lenN (bytes s)) as Hn by (apply (rep_len (lenN (bytes s)) bytes f n s s'); [intros ? ? _; apply H|lia|done]).
  assert (n = 0) as -> by lia. split; [done|]. simpl in E. by injection E.
Qed.
Section alone.
Context (P : platform).
Definition single {A} (d : decoder A) : Prop := forall i r v, Forall is_byte i -> r <> [] ->
  d i = Done (r, v) -> lenN i <= lenN r + 1 -> i = 0 :: r.
Definition lone_end {A} (d : decoder A) : Prop := forall i r v, Forall is_byte i ->
  d i = Done (r, v) -> lenN i <= lenN r + 1 -> i = 0 :: r \/ (i = [128] /\ r = []).
Lemma end_single {A} (d : decoder A) : lone_end d -> single d.
Proof. intros H i r v Hb Hr E Hl. destruct (H _ _ _ Hb E Hl) as [?|[_ ?]]; done. Qed.
Lemma lone_map kd `{Countable K} {V} (dk : decoder K) (dv : decoder V) : eats 1 dk -> eats 0 dv -> lone_end (dec_map P kd dk dv).
Proof.
  intros Hk Hv i r v Hb E Hl. unfold dec_map in E. inv_bind E. destruct x as [mid len]. inv_bind E.
  pose proof (eats_len _ _ _ _ _ (dec_usize_eats P) E0). apply (lone fst) in E as [-> E].
  - injection E as -> _. by eapply zero_byte.
  - intros [j o] [j' o'] Hf. inv_bind Hf. destruct x0 as [n1 k1]. inv_bind Hf. destruct x0 as [n2 v2]. injection Hf as <- <-.
    pose proof (eats_len _ _ _ _ _ Hk E2). pose proof (eats_len _ _ _ _ _ Hv E3). simpl. lia.
  - simpl. lia.
Qed.
Lemma lone_vendors : single (dec_vendors P).
Proof.
  apply end_single. intros i r v Hb E Hl. unfold dec_vendors in E. inv_bind E. destruct x as [mid len]. inv_bind E. inv_bind E.
  inv_bind E. destruct x1 as [[j vm] id]. injection E as <- <-. pose proof (eats_len _ _ _ _ _ (dec_usize_eats P) E0).
  apply (lone (fun s => fst (fst s))) in E3 as [-> E].
  - injection E as -> _ _. by eapply zero_byte.
  - intros [[k vm1] id1] s' Hf. inv_bind Hf. destruct x1 as [ni nm]. injection Hf as <-.
    pose proof (eats_len _ _ _ _ _ (dec_str_eats P) E). simpl. lia.
  - simpl. lia.
Qed.
Lemma lone_categories ps : single (dec_categories P ps).
Proof.
  apply end_single. intros i r v Hb E Hl. unfold dec_categories in E. inv_bind E. destruct x as [mid len]. inv_bind E.
  inv_bind E. destruct x0 as [[j cs] id]. injection E as <- <-. pose proof (eats_len _ _ _ _ _ (dec_usize_eats P) E0).
  apply (lone (fun s => fst (fst s))) in E2 as [-> E].
  - injection E as -> _ _. by eapply zero_byte.
  - intros [[k l] id1] s' Hf. inv_bind Hf. destruct x0 as [ni [c nx]]. injection Hf as <-.
    pose proof (eats_len _ _ _ _ _ (dec_category_eats P ps id1) E). simpl. lia.
  - simpl. lia.
Qed.
Lemma lone_tags ps : single (dec_tags P ps).
Proof.
  apply end_single. intros i r v Hb E Hl. unfold dec_tags in E. inv_bind E. destruct x as [mid len]. inv_bind E.
  inv_bind E. destruct x0 as [[j cs] id]. injection E as <- <-. pose proof (eats_len _ _ _ _ _ (dec_usize_eats P) E0).
  apply (lone (fun s => fst (fst s))) in E2 as [-> E].
  - injection E as -> _ _. by eapply zero_byte.
  - intros [[k l] id1] s' Hf. inv_bind Hf. destruct x0 as [ni nm]. inv_bind Hf. destruct x0 as [n2 [? ?]]. injection Hf as <-.
    pose proof (eats_len _ _ _ _ _ (dec_str_eats P) E). pose proof (eats_len _ _ _ _ _ (dec_product_refs_eats P ps) E3). simpl. lia.
  - simpl. lia.
Qed.
End alone.
Lemma held_list_pos {A} (w : A -> N) l : 1 <= held_list w l.
Proof. unfold held_list. lia. Qed.
Lemma held_eight gi cl : 8 <= held_index gi + held_classic cl.
Proof.
  unfold held_index, held_container, held_classic, held_map.
  repeat match goal with |- context [held_list ?w ?l] => let x := fresh "x" in
    pose proof (held_list_pos w l); set (x := held_list w l) in * end. lia.
Qed.
Definition no_products : gram_index * classic := (GramIndex ∅ ∅ (Container [] vm_new ∅), Classic [] [] ∅).
Lemma shortest_accepts P n b : b = 0 \/ b = 128 -> deserialize_all P n (replicate 7 0 ++ [b]) = Done no_products.
Proof.
  intros Hb.
  assert (forall r, dec_usize P (0 :: r) = Done (r, 0)) as Hz.
  { intros r. apply (rt_usize P 0); [by left|apply N.le_0_l]. }
  assert (dec_usize P [b] = Done ([], 0)) as Hl.
  { destruct Hb as [->| ->]; [apply Hz|]. unfold dec_usize. change (dec_u64 [128]) with (Done ([] : list N, 0)). simpl.
    by rewrite (proj2 (N.leb_le 0 _)) by apply N.le_0_l. }
  assert (forall k, with_capacity P k 0 = Done tt) as Hc.
  { intros k. unfold with_capacity. by rewrite (proj2 (N.leb_le 0 _)) by apply N.le_0_l. }
  assert (forall r, dec_vendors P (0 :: r) = Done (r, vm_new)) as H1.
  { intros r. unfold dec_vendors. rewrite Hz. cbn [mbind res_bind]. rewrite !Hc. reflexivity. }
  assert (forall kd K (EK : EqDecision K) (CK : Countable K) V (dk : decoder K) (dv : decoder V) r, dec_map P kd dk dv (0 :: r) = Done (r, ∅)) as H2.
  { intros. unfold dec_map. rewrite Hz. cbn [mbind res_bind]. rewrite Hc. reflexivity. }
  assert (forall kd K (EK : EqDecision K) (CK : Countable K) V (dk : decoder K) (dv : decoder V), dec_map P kd dk dv [b] = Done ([], ∅)) as H3.
  { intros. unfold dec_map. rewrite Hl. cbn [mbind res_bind]. rewrite Hc. reflexivity. }
  change (replicate 7 0 ++ [b]) with [0; 0; 0; 0; 0; 0; 0; b].
  unfold deserialize_all, dec_gram_index, dec_container, dec_classic, dec_categories, dec_tags, dec_features, dec_orders.
  rewrite H1. cbn [mbind res_bind]. rewrite Hz. cbn [mbind res_bind rep_N]. rewrite H2. cbn [mbind res_bind]. rewrite H2. cbn [mbind res_bind].
  rewrite H2. cbn [mbind res_bind]. rewrite Hz. cbn [mbind res_bind]. rewrite Hc. cbn [mbind res_bind rep_N]. rewrite Hz. cbn [mbind res_bind]. rewrite Hc. cbn [mbind res_bind rep_N].
  rewrite H3. reflexivity.
Qed.
Lemma shortest P n bytes : Forall is_byte bytes -> lenN bytes <= 8 ->
  (exists r, deserialize_all P n bytes = Done r) <-> exists b, (b = 0 \/ b = 128) /\ bytes = replicate 7 0 ++ [b].
Proof.
  intros Hb Hle. split.
  2: { intros (b & H & ->). exists no_products. by apply shortest_accepts. }
  intros [[gi cl] H]. unfold deserialize_all in H. inv_bind H. destruct x as [i5 g]. inv_bind H. destruct x as [i8 c]. clear H.
  unfold dec_gram_index in E. inv_bind E. destruct x as [i3 ct]. inv_bind E. destruct x as [i4 rs]. inv_bind E. destruct x as [i5' dt].
  injection E as -> <-. cbn [gi_container] in E0.
  unfold dec_container in E1. inv_bind E1. destruct x as [i1 vm]. inv_bind E1. destruct x as [i2 len]. inv_bind E1.
  destruct x as [[i2' ps] id]. inv_bind E1. destruct x as [i3' fs]. injection E1 as -> <-. cbn [c_products] in *.
  unfold dec_classic in E0. inv_bind E0. destruct x as [i6 cs]. inv_bind E0. destruct x as [i7 ts]. inv_bind E0. destruct x as [i8' os].
  injection E0 as -> <-.
  assert (eats 1 (dec_orders P)) as Heo.
  { apply dec_map_eats; eapply eats_weaken; [apply dec_str_eats|lia|eapply dec_vec_eats; apply dec_usize_eats|lia]. }
  pose proof (weigh_vendors P _ _ _ E) as L1. cbn beta in L1. pose proof (held_list_pos (fun v => held_str (v_name v)) (vm_by_id vm)) as K1.
  pose proof (eats_len _ _ _ _ _ (dec_usize_eats P) E4) as L2.
  assert (forall s s', (fun '(input, products, id) => '(new_input, product) ← dec_product P id vm input;
     Done (new_input, products ++ [product], id + 1)) s = Done s' -> lenN (fst (fst s')) + 1 <= lenN (fst (fst s))) as Hst.
  { intros [[k l] id1] s' Hf. inv_bind Hf. destruct x as [ni p]. injection Hf as <-.
    apply dec_product_inv in E0 as (_ & _ & pre & -> & Hpre). unfold lenN in *. simpl. rewrite app_length. lia. }
  assert (lenN i2' <= lenN i2) as L2'.
  { pose proof (rep_len (lenN i2) (fun s => fst (fst s)) _ len (i2, [], 0) (i2', ps, id) (fun s s' _ => Hst s s')) as Hr.
    simpl in Hr. specialize (Hr ltac:(lia) E5). lia. }
  pose proof (eats_len _ _ _ _ _ (dec_features_eats P) E6) as L3.
  assert (lenN i4 + 1 <= lenN i3) as L4.
  { eapply (eats_len 1); [|exact E2]. apply dec_map_eats; eapply eats_weaken; [apply dec_char_eats|lia|apply dec_node_eats|lia]. }
  assert (lenN i5 + 1 <= lenN i4) as L5.
  { eapply (eats_len 1); [|exact E3]. apply dec_map_eats; eapply eats_weaken; [apply dec_arr_eats|lia|apply dec_data_eats|lia]. }
  pose proof (weigh_categories P _ _ _ _ E1) as L6. pose proof (held_list_pos held_category cs) as K6.
  pose proof (weigh_tags P _ _ _ _ E7) as L7. pose proof (held_list_pos held_tag ts) as K7.
  pose proof (eats_len _ _ _ _ _ Heo E8) as L8.
  apply (lone (fun s => fst (fst s)) _ _ _ _ Hst) in E5 as [-> Eq]; [|simpl; lia]. injection Eq as -> -> _.
  assert (forall j : list N, 1 <= lenN j -> j <> []) as Hne by (intros [|? ?] Hj; [rewrite (@lenN_nil N) in Hj; lia|done]).
  assert (bytes = 0 :: i1) as -> by (eapply lone_vendors; [done|apply Hne; lia|exact E|lia]). apply Forall_cons in Hb as [_ Hb].
  assert (i1 = 0 :: i2) as ->.
  { destruct (zero_byte P i1 i2 Hb E4 ltac:(lia)) as [H0|[_ H0]]; [done|]. exfalso. apply (Hne i2); [lia|done]. }
  apply Forall_cons in Hb as [_ Hb].
  assert (i2 = 0 :: i3) as ->.
  { eapply (end_single (dec_features P)); [|done|apply Hne; lia|exact E6|lia].
    apply lone_map; [apply dec_str_eats|eapply eats_weaken; [apply dec_feature_eats|lia]]. }
  apply Forall_cons in Hb as [_ Hb].
  assert (i3 = 0 :: i4) as ->.
  { refine (end_single _ (lone_map P _ _ _ dec_char_eats (eats_weaken 5 0 _ (dec_node_eats P) _)) _ _ _ Hb _ E2 _); [lia|apply Hne; lia|lia]. }
  apply Forall_cons in Hb as [_ Hb].
  assert (i4 = 0 :: i5) as ->.
  { refine (end_single _ (lone_map P _ _ _ (dec_arr_eats P n) (eats_weaken 1 0 _ (dec_data_eats P _) _)) _ _ _ Hb _ E3 _); [lia|apply Hne; lia|lia]. }
  apply Forall_cons in Hb as [_ Hb].
  assert (i5 = 0 :: i6) as -> by (eapply lone_categories; [done|apply Hne; lia|exact E1|lia]). apply Forall_cons in Hb as [_ Hb].
  assert (i6 = 0 :: i7) as -> by (eapply lone_tags; [done|apply Hne; lia|exact E7|lia]). apply Forall_cons in Hb as [_ Hb].
  assert (eats 0 (dec_vec P KUsizes (dec_usize P))) as He0 by (eapply eats_weaken; [eapply dec_vec_eats; apply dec_usize_eats|lia]).
  rewrite !lenN_cons in *.
  assert (i7 = 0 :: i8 \/ (i7 = [128] /\ i8 = [])) as E9
    by (refine (lone_map P KOrderMap _ _ (dec_str_eats P) He0 _ _ _ Hb E8 _); lia).
  destruct E9 as [->|[-> _]]; [|by exists 128; split; [right|]].
  exists 0. split; [by left|]. destruct i8 as [|? ?]; [done|]. rewrite !lenN_cons in Hle. lia.
Qed.
Lemma no_shorter P n bytes r : deserialize_all P n bytes = Done r -> 8 <= lenN bytes.
Proof. destruct r as [gi cl]. intros H. apply loaded_fits in H. pose proof (held_eight gi cl). lia. Qed.
Lemma sample_held : exists gi cl, deserialize_all wasm32 5 sample_file = Done (gi, cl) /\
  lenN sample_file = 1570 /\ held_index gi + held_classic cl = 1570.
Proof.
  assert (match deserialize_all wasm32 5 sample_file with Done (gi, cl) => held_index gi + held_classic cl | _ => 0 end = 1570) as H
    by (vm_compute; reflexivity).
  assert (lenN sample_file = 1570) as Hl by (vm_compute; reflexivity).
  destruct (deserialize_all wasm32 5 sample_file) as [[gi cl]| | |]; [|discriminate H..]. exists gi, cl. auto.
Qed.
