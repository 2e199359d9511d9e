(** Decoders do not look beyond what they read: more bytes after an input that was not used up
    change nothing. *)
From Verif.model Require Import Base F32 Utf8 Prim Coll Data Gram Nodes Classic Lib.
From Verif.spec Require Import Spec Data_spec.
From Verif.proofs Require Import Base_facts Prim_facts Coll_facts Data_facts File_facts.
From Coq Require Import Lia.

Definition steady2 {A} (d d' : decoder A) : Prop := forall i r v m, d i = Done (r, v) -> r <> [] ->
  i <> [] /\ d' (i ++ m) = Done (r ++ m, v).
Notation steady d := (steady2 d d).

Lemma rep_steady {S} (inp : S -> list N) (put : S -> S) (f g : S -> res S) k s s' :
  rep_N k f s = Done s' ->
  (forall s s', f s = Done s' -> inp s' <> [] -> inp s <> [] /\ g (put s) = Done (put s')) ->
  inp s' <> [] -> inp s <> [] /\ rep_N k g (put s) = Done (put s').
Proof.
  intros H Hf. rewrite !rep_N_nat in *. revert s s' H. induction (N.to_nat k) as [|n IH]; intros s s' H Hne; cbn [rep_nat] in *.
  - injection H as <-. done.
  - inv_bind H. destruct (IH _ _ H Hne) as [Hx Hr]. destruct (Hf _ _ E Hx) as [Hs Hg]. split; [done|].
    rewrite Hg. exact Hr.
Qed.

Lemma app_ne {A} (l m : list A) : l <> [] -> l ++ m <> [].
Proof. by destruct l. Qed.
Lemma loop_steady : forall rounds i out e i' out' e' m, dec_u64_loop rounds i out e = (i', out', e') -> i' <> [] ->
  i <> [] /\ dec_u64_loop rounds (i ++ m) out e = (i' ++ m, out', e').
Proof.
  induction rounds as [|n IH]; intros i out e i' out' e' m H Hne; cbn [dec_u64_loop] in *.
  - injection H as <- <- <-. done.
  - destruct i as [|b i]; [injection H as <- <- <-; done|]. split; [done|]. cbn [app].
    destruct (N.land b 128 =? 128).
    + by apply IH.
    + injection H as <- <- <-. done.
Qed.
Lemma u64_steady : steady dec_u64.
Proof.
  intros i r v m H Hne. unfold dec_u64 in *. destruct (dec_u64_loop 9 i 0 0) as [[i' out] e] eqn:E.
  destruct (e =? 9) eqn:E9.
  - destruct i' as [|b i']; [done|]. injection H as <- <-.
    destruct (loop_steady _ _ _ _ _ _ _ m E) as [Hi R]; [done|]. split; [done|]. rewrite R, E9. done.
  - destruct (e =? 0) eqn:E0; [done|]. injection H as <- <-.
    destruct (loop_steady _ _ _ _ _ _ _ m E Hne) as [Hi R]. split; [done|]. by rewrite R, E9, E0.
Qed.
Lemma usize_steady P : steady (dec_usize P).
Proof.
  intros i r v m H Hne. unfold dec_usize in *. inv_bind H. destruct x as [i1 x]. destruct (x <=? usize_max P) eqn:L; [|done].
  injection H as <- <-. destruct (u64_steady _ _ _ m E Hne) as [Hi R]. split; [done|]. rewrite R. cbn. by rewrite L.
Qed.
Lemma u32_steady : steady dec_u32.
Proof.
  intros i r v m H Hne. unfold dec_u32 in *. inv_bind H. destruct x as [i1 x]. destruct (x <? 2 ^ 32) eqn:L; [|done].
  injection H as <- <-. destruct (u64_steady _ _ _ m E Hne) as [Hi R]. split; [done|]. rewrite R. cbn [mbind res_bind]. by rewrite L.
Qed.
Lemma char_steady : steady dec_char.
Proof.
  intros i r v m H Hne. unfold dec_char in *. inv_bind H. destruct x as [i1 x]. destruct (is_scalar x) eqn:L; [|done].
  injection H as <- <-. destruct (u32_steady _ _ _ m E Hne) as [Hi R]. split; [done|]. rewrite R. cbn [mbind res_bind]. by rewrite L.
Qed.
Lemma f32_steady : steady dec_f32.
Proof. intros i r v m H Hne. destruct i as [|b0 [|b1 [|b2 [|b3 i]]]]; try done. injection H as <- <-. done. Qed.
Lemma bool_steady : steady dec_bool.
Proof. intros i r v m H Hne. destruct i as [|b i]; [done|]. injection H as <- <-. done. Qed.
Lemma u8_steady : steady dec_u8.
Proof. intros i r v m H Hne. destruct i as [|b i]; [done|]. injection H as <- <-. done. Qed.
Lemma str_steady P : steady (dec_str P).
Proof.
  intros i r v m H Hne. unfold dec_str in *. inv_bind H. destruct x as [i1 len]. destruct (len <=? lenN i1) eqn:L; [|done].
  inv_bind H. injection H as <- <-.
  assert (L' : (N.to_nat len <= length i1)%nat) by (apply N.leb_le in L; unfold lenN in L; lia).
  assert (Hi1 : i1 <> []) by (intros ->; apply Hne, drop_nil).
  destruct (usize_steady P _ _ _ m E Hi1) as [Hi R]. split; [done|]. rewrite R. cbn [mbind res_bind].
  assert (L2 : len <=? lenN (i1 ++ m) = true) by (apply N.leb_le; unfold lenN; rewrite app_length; lia).
  rewrite L2, take_app_le, drop_app_le by done. rewrite E0. done.
Qed.
Lemma vec_steady P k {A} (d d' : decoder A) : steady2 d d' -> steady2 (dec_vec P k d) (dec_vec P k d').
Proof.
  intros Hd i r v m H Hne. unfold dec_vec in *. inv_bind H. destruct x as [i1 len]. inv_bind H.
  destruct (rep_steady (fst : list N * list A -> list N) (fun '(i, out) => (i ++ m, out)) _
    (fun '(input, out) => '(new_input, item) ← d' input; Done (new_input, out ++ [item])) _ _ _ H) as [Hi1 R]; [|done|].
  - intros [j out] [j' out'] Hj Hj'. inv_bind Hj. destruct x0 as [j1 item]. injection Hj as <- <-. simpl in *.
    destruct (Hd _ _ _ m E1 Hj') as [Hj0 Rj]. split; [done|]. by rewrite Rj.
  - destruct (usize_steady P _ _ _ m E Hi1) as [Hi R0]. split; [done|]. rewrite R0. cbn [mbind res_bind].
    rewrite E0. cbn [mbind res_bind]. exact R.
Qed.
Lemma map_steady P k `{Countable K} {V} (dk : decoder K) (dv : decoder V) : steady dk -> steady dv -> steady (dec_map P k dk dv).
Proof.
  intros Hk Hv i r v m H0 Hne. unfold dec_map in *. inv_bind H0. destruct x as [i1 len]. inv_bind H0.
  destruct (rep_steady (fst : list N * gmap K V -> list N) (fun '(i, out) => (i ++ m, out)) _
    (fun '(input, out) => '(new_input, key) ← dk input; '(new_input, value) ← dv new_input;
       Done (new_input, <[key := value]> out)) _ _ _ H0) as [Hi1 R]; [|done|].
  - intros [j out] [j' out'] Hj Hj'. inv_bind Hj. destruct x0 as [j1 key]. inv_bind Hj. destruct x0 as [j2 value].
    injection Hj as <- <-. simpl in *.
    destruct (Hv _ _ _ m E2 Hj') as [Hj1 R2]. destruct (Hk _ _ _ m E1 Hj1) as [Hj0 R1]. split; [done|].
    rewrite R1. cbn [mbind res_bind]. by rewrite R2.
  - destruct (usize_steady P _ _ _ m E Hi1) as [Hi R0]. split; [done|]. rewrite R0. cbn [mbind res_bind].
    rewrite E0. cbn [mbind res_bind]. exact R.
Qed.
Lemma array_steady P n {A} (d : decoder A) : steady d -> steady (dec_array P n d).
Proof.
  intros Hd i r v m H Hne. unfold dec_array in *. inv_bind H. destruct x as [i1 len]. destruct (len =? N.of_nat n) eqn:L; [|done].
  rewrite <- (Nat2N.id n), <- rep_N_nat in H.
  destruct (rep_steady (fst : list N * list A -> list N) (fun '(i, out) => (i ++ m, out)) _
    (fun '(input, out) => '(new_input, item) ← d input; Done (new_input, out ++ [item])) _ _ _ H) as [Hi1 R]; [|done|].
  - intros [j out] [j' out'] Hj Hj'. inv_bind Hj. destruct x as [j1 item]. injection Hj as <- <-. simpl in *.
    destruct (Hd _ _ _ m E0 Hj') as [Hj0 Rj]. split; [done|]. by rewrite Rj.
  - destruct (usize_steady P _ _ _ m E Hi1) as [Hi R0]. split; [done|]. rewrite R0. cbn [mbind res_bind].
    rewrite L. rewrite rep_N_nat, Nat2N.id in R. exact R.
Qed.
Lemma seq_steady P : steady (dec_seq P).
Proof.
  intros i r v m H Hne. unfold dec_seq in *. inv_bind H. destruct x as [i1 len]. inv_bind H. inv_bind H.
  destruct x0 as [[i2 out] prev]. injection H as <- <-.
  destruct (rep_steady (fun s : list N * list N * option N => s.1.1) (fun '(i, out, prev) => (i ++ m, out, prev)) _
    (fun '(input, output, previous) =>
    '(new_input, parsed) ← dec_usize P input;
    item ← match previous with
           | Some p => add_bits P (usize_bits P) parsed p
           | None => Done parsed
           end;
    Done (new_input, output ++ [item], Some item)) _ _ _ E1) as [Hi1 R]; [|done|].
  - intros [[j o] p] [[j' o'] p'] Hj Hj'. inv_bind Hj. destruct x0 as [j1 parsed]. inv_bind Hj. injection Hj as <- <- <-.
    simpl in *. destruct (usize_steady P _ _ _ m E2 Hj') as [Hj0 Rj]. split; [done|]. rewrite Rj. cbn [mbind res_bind].
    rewrite E3. done.
  - destruct (usize_steady P _ _ _ m E Hi1) as [Hi R0]. split; [done|]. rewrite R0. cbn [mbind res_bind].
    rewrite E0. cbn [mbind res_bind]. rewrite R. done.
Qed.
Lemma vendors_steady P : steady (dec_vendors P).
Proof.
  intros i r v m H Hne. unfold dec_vendors in *. inv_bind H. destruct x as [i1 len]. inv_bind H. inv_bind H. inv_bind H.
  destruct x1 as [[i2 out] id]. injection H as <- <-.
  destruct (rep_steady (fun s : list N * vendor_manager * N => s.1.1) (fun '(i, vm, id) => (i ++ m, vm, id)) _
    (fun '(input, vm, id) =>
    '(new_input, name) ← dec_str P input;
    Done (new_input,
          VendorManager (<[name := Vendor name id]> (vm_tags vm)) (vm_by_id vm ++ [Vendor name id]),
          id + 1)) _ _ _ E2) as [Hi1 R]; [|done|].
  - intros [[j o] p] [[j' o'] p'] Hj Hj'. inv_bind Hj. destruct x1 as [j1 name]. injection Hj as <- <- <-.
    simpl in *. destruct (str_steady P _ _ _ m E3 Hj') as [Hj0 Rj]. split; [done|]. rewrite Rj. done.
  - destruct (usize_steady P _ _ _ m E Hi1) as [Hi R0]. split; [done|]. rewrite R0. cbn [mbind res_bind].
    rewrite E0. cbn [mbind res_bind]. rewrite E1. cbn [mbind res_bind]. rewrite R. done.
Qed.
Lemma product_steady P sid vm : steady (dec_product P sid vm).
Proof.
  intros i r v m H Hne. unfold dec_product in *. inv_bind H. destruct x as [i1 d]. inv_bind H. destruct x as [i2 t].
  inv_bind H. destruct x as [i3 id]. inv_bind H. destruct x as [i4 vid]. inv_bind H. injection H as <- <-.
  destruct (usize_steady P _ _ _ m E2 Hne) as [N3 R3]. destruct (str_steady P _ _ _ m E1 N3) as [N2 R2].
  destruct (str_steady P _ _ _ m E0 N2) as [N1 R1]. destruct (str_steady P _ _ _ m E N1) as [N0 R0]. split; [done|].
  rewrite R0. cbn [mbind res_bind]. rewrite R1. cbn [mbind res_bind]. rewrite R2. cbn [mbind res_bind]. rewrite R3. cbn [mbind res_bind].
  rewrite E3. done.
Qed.
Lemma product_refs_steady P ps : steady (dec_product_refs P ps).
Proof.
  intros i r v m H Hne. unfold dec_product_refs in *. inv_bind H. destruct x as [i1 ids]. inv_bind H. inv_bind H. injection H as <- <-.
  destruct (seq_steady P _ _ _ m E Hne) as [N0 R0]. split; [done|]. rewrite R0. cbn [mbind res_bind].
  rewrite E0. cbn [mbind res_bind]. rewrite E1. done.
Qed.
Lemma feature_steady P : steady (dec_feature P).
Proof.
  intros i r v m H Hne. unfold dec_feature in *. inv_bind H. destruct x as [i1 id].
  assert (G : i1 <> [] /\ match id with
  | 0 => '(input, data) ← dec_vec P KStrings (dec_str P) (i1 ++ m); Done (input, FString data)
  | 1 => '(input, data) ← dec_vec P KFloats dec_f32 (i1 ++ m); Done (input, FFloat data)
  | 2 => '(input, data) ← dec_vec P KInts dec_u32 (i1 ++ m); Done (input, FInteger data)
  | _ => Nope end = Done (r ++ m, v)).
  { destruct id as [|[[?|?|]|[?|?|]|]]; try done; inv_bind H; destruct x as [i2 l]; injection H as <- <-.
    - destruct (vec_steady P _ _ _ (str_steady P) _ _ _ m E0 Hne) as [N1 R1]. split; [done|]. by rewrite R1.
    - destruct (vec_steady P _ _ _ u32_steady _ _ _ m E0 Hne) as [N1 R1]. split; [done|]. by rewrite R1.
    - destruct (vec_steady P _ _ _ f32_steady _ _ _ m E0 Hne) as [N1 R1]. split; [done|]. by rewrite R1. }
  destruct G as [N1 R1]. destruct (u8_steady _ _ _ m E N1) as [N0 R0]. split; [done|]. rewrite R0. cbn [mbind res_bind]. exact R1.
Qed.
Lemma container_steady P : steady (dec_container P).
Proof.
  intros i r v m H Hne. unfold dec_container in *. inv_bind H. destruct x as [i1 vm]. inv_bind H. destruct x as [i2 len].
  inv_bind H. destruct x as [[i3 ps] id]. inv_bind H. destruct x as [i4 fs]. injection H as <- <-.
  destruct (map_steady P _ _ _ (str_steady P) (feature_steady P) _ _ _ m E2 Hne) as [N3 R3].
  destruct (rep_steady (fun s : list N * list product * N => s.1.1) (fun '(i, ps, id) => (i ++ m, ps, id)) _
    (fun '(input, products, id) =>
    '(new_input, product) ← dec_product P id vm input;
    Done (new_input, products ++ [product], id + 1)) _ _ _ E1) as [N2 R2]; [|done|].
  - intros [[j o] p] [[j' o'] p'] Hj Hj'. inv_bind Hj. destruct x as [j1 name]. injection Hj as <- <- <-.
    simpl in *. destruct (product_steady P _ _ _ _ _ m E3 Hj') as [Hj0 Rj]. split; [done|]. rewrite Rj. done.
  - destruct (usize_steady P _ _ _ m E0 N2) as [N1 R1]. destruct (vendors_steady P _ _ _ m E N1) as [N0 R0]. split; [done|].
    rewrite R0. cbn [mbind res_bind]. rewrite R1. cbn [mbind res_bind]. rewrite R2. cbn [mbind res_bind].
    unfold dec_features. rewrite R3. done.
Qed.
Lemma node_fuel_steady P : forall fuel fuel', (fuel <= fuel')%nat -> steady2 (dec_node_fuel P fuel) (dec_node_fuel P fuel').
Proof.
  induction fuel as [|fuel IH]; intros fuel' Hf i r v m H Hne; [done|]. destruct fuel' as [|fuel']; [lia|].
  cbn [dec_node_fuel] in *. inv_bind H. destruct x as [i1 item]. inv_bind H. destruct x as [i2 w]. inv_bind H. destruct x as [i3 l].
  injection H as <- <-.
  destruct (vec_steady P _ _ _ (IH fuel' ltac:(lia)) _ _ _ m E1 Hne) as [N2 R2].
  destruct (f32_steady _ _ _ m E0 N2) as [N1 R1]. destruct (char_steady _ _ _ m E N1) as [N0 R0]. split; [done|].
  rewrite R0. cbn [mbind res_bind]. rewrite R1. cbn [mbind res_bind]. rewrite R2. done.
Qed.
Lemma node_steady P : steady (dec_node P).
Proof.
  intros i r v m H Hne. unfold dec_node in *.
  apply (node_fuel_steady P (S (length i)) (S (length (i ++ m)))); [rewrite app_length; lia|done|done].
Qed.
Lemma gram_index_steady P n : steady (dec_gram_index P n).
Proof.
  intros i r v m H Hne. unfold dec_gram_index in *. inv_bind H. destruct x as [i1 c]. inv_bind H. destruct x as [i2 roots].
  inv_bind H. destruct x as [i3 data]. injection H as <- <-.
  assert (Hrefs : steady (fun input => '(input, (products, _)) ← dec_product_refs P (c_products c) input; Done (input, products))).
  { intros j j' l m' Hj Hj'. inv_bind Hj. destruct x as [j1 [ps ids]]. injection Hj as <- <-.
    destruct (product_refs_steady P _ _ _ _ m' E2 Hj') as [N0 R0]. split; [done|]. by rewrite R0. }
  destruct (map_steady P _ _ _ (array_steady P n _ char_steady) Hrefs _ _ _ m E1 Hne) as [N2 R2].
  destruct (map_steady P _ _ _ char_steady (node_steady P) _ _ _ m E0 N2) as [N1 R1].
  destruct (container_steady P _ _ _ m E N1) as [N0 R0]. split; [done|].
  rewrite R0. cbn [mbind res_bind]. rewrite R1. cbn [mbind res_bind]. rewrite R2. done.
Qed.
Lemma category_steady P ps next : steady (dec_category P ps next).
Proof.
  intros i r v m H Hne. unfold dec_category in *. inv_bind H. destruct x as [i1 ex]. inv_bind H. destruct x as [i2 name].
  inv_bind H. destruct x as [i3 len]. inv_bind H. inv_bind H. destruct x0 as [[i4 os] id]. injection H as <- <-.
  destruct (rep_steady (fun s : list N * list cat_option * N => s.1.1) (fun '(i, os, id) => (i ++ m, os, id)) _
    (fun '(input, options, next_id) =>
    '(input_after_name, name) ← dec_str P input;
    '(new_input, (products, product_ids)) ← dec_product_refs P ps input_after_name;
    Done (new_input,
          options ++ [CatOption name next_id products (list_to_set product_ids)],
          next_id + 1)) _ _ _ E3) as [N3 R3]; [|done|].
  - intros [[j o] p] [[j' o'] p'] Hj Hj'. inv_bind Hj. destruct x0 as [j1 nm]. inv_bind Hj. destruct x0 as [j2 [qs ids]].
    injection Hj as <- <- <-. simpl in *. destruct (product_refs_steady P _ _ _ _ m E5 Hj') as [Hj1 R1].
    destruct (str_steady P _ _ _ m E4 Hj1) as [Hj0 R0]. split; [done|]. rewrite R0. cbn [mbind res_bind]. by rewrite R1.
  - destruct (usize_steady P _ _ _ m E1 N3) as [N2 R2]. destruct (str_steady P _ _ _ m E0 N2) as [N1 R1].
    destruct (bool_steady _ _ _ m E N1) as [N0 R0]. split; [done|].
    rewrite R0. cbn [mbind res_bind]. rewrite R1. cbn [mbind res_bind]. rewrite R2. cbn [mbind res_bind]. rewrite E2. cbn [mbind res_bind].
    rewrite R3. done.
Qed.
Lemma categories_steady P ps : steady (dec_categories P ps).
Proof.
  intros i r v m H Hne. unfold dec_categories in *. inv_bind H. destruct x as [i1 len]. inv_bind H. inv_bind H.
  destruct x0 as [[i2 cs] id]. injection H as <- <-.
  destruct (rep_steady (fun s : list N * list category * N => s.1.1) (fun '(i, cs, id) => (i ++ m, cs, id)) _
    (fun '(input, cats, next_id) =>
    '(new_input, (cat, next_id)) ← dec_category P ps next_id input;
    Done (new_input, cats ++ [cat], next_id)) _ _ _ E1) as [N1 R1]; [|done|].
  - intros [[j o] p] [[j' o'] p'] Hj Hj'. inv_bind Hj. destruct x0 as [j1 [c nx]]. injection Hj as <- <- <-.
    simpl in *. destruct (category_steady P _ _ _ _ _ m E2 Hj') as [Hj0 R0]. split; [done|]. by rewrite R0.
  - destruct (usize_steady P _ _ _ m E N1) as [N0 R0]. split; [done|].
    rewrite R0. cbn [mbind res_bind]. rewrite E0. cbn [mbind res_bind]. rewrite R1. done.
Qed.
Lemma tags_steady P ps : steady (dec_tags P ps).
Proof.
  intros i r v m H Hne. unfold dec_tags in *. inv_bind H. destruct x as [i1 len]. inv_bind H. inv_bind H.
  destruct x0 as [[i2 ts] id]. injection H as <- <-.
  destruct (rep_steady (fun s : list N * list tag * N => s.1.1) (fun '(i, ts, id) => (i ++ m, ts, id)) _
    (fun '(input, tags, id) =>
    '(new_input, name) ← dec_str P input;
    '(new_input, (products, product_ids)) ← dec_product_refs P ps new_input;
    Done (new_input, tags ++ [Tag name products (list_to_set product_ids) id], id + 1)) _ _ _ E1) as [N1 R1]; [|done|].
  - intros [[j o] p] [[j' o'] p'] Hj Hj'. inv_bind Hj. destruct x0 as [j1 nm]. inv_bind Hj. destruct x0 as [j2 [qs ids]].
    injection Hj as <- <- <-. simpl in *. destruct (product_refs_steady P _ _ _ _ m E3 Hj') as [Hj1 R1'].
    destruct (str_steady P _ _ _ m E2 Hj1) as [Hj0 R0]. split; [done|]. rewrite R0. cbn [mbind res_bind]. by rewrite R1'.
  - destruct (usize_steady P _ _ _ m E N1) as [N0 R0]. split; [done|].
    rewrite R0. cbn [mbind res_bind]. rewrite E0. cbn [mbind res_bind]. rewrite R1. done.
Qed.
