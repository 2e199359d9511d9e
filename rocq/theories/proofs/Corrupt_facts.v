(** C135: a byte that was changed. *)
From Verif.model Require Import Base F32 Utf8 Prim Coll Data Gram Indexer Nodes Classic Lib.
From Verif.spec Require Import Spec Data_spec Corrupt_spec.
From Verif.proofs Require Import Base_facts Utf8_facts Prim_facts Coll_facts Codec_lemmas Data_facts File_facts.
From Coq Require Import Lia.

(** ** Decoding with other products *)
Definition same {A B} (R : A -> B -> Prop) (x : res A) (y : res B) : Prop :=
  match x, y with
  | Done a, Done b => R a b
  | Nope, Nope | Panic, Panic | Stuck, Stuck => True
  | _, _ => False
  end.
Lemma same_bind {A B A' B'} (R : A -> B -> Prop) (R' : A' -> B' -> Prop) x y (f : A -> res A') (g : B -> res B') :
  same R x y -> (forall a b, R a b -> same R' (f a) (g b)) -> same R' (x ≫= f) (y ≫= g).
Proof. destruct x, y; cbn; try done. intros H1 H2. by apply H2. Qed.
Lemma same_refl {A} (x : res A) : same eq x x.
Proof. by destruct x. Qed.
Lemma same_rep_pos {A B} (R : A -> B -> Prop) f g p : (forall a b, R a b -> same R (f a) (g b)) ->
  forall a b, R a b -> same R (rep_pos p f a) (rep_pos p g b).
Proof.
  intros H. induction p as [p IH|p IH|]; intros a b Hab; cbn [rep_pos].
  - eapply same_bind; [by apply H|]. intros a1 b1 H1. eapply same_bind; [by apply IH|]. intros a2 b2 H2. by apply IH.
  - eapply same_bind; [by apply IH|]. intros a2 b2 H2. by apply IH.
  - by apply H.
Qed.
Lemma same_rep_N {A B} (R : A -> B -> Prop) f g k a b : (forall a b, R a b -> same R (f a) (g b)) ->
  R a b -> same R (rep_N k f a) (rep_N k g b).
Proof. intros H Hab. destruct k; [done|]. by apply same_rep_pos. Qed.

Section other.
  Context (P : platform) (f : product -> product).
  (** The rest of the input is the same, and the value is [g] of the other one. *)
  Definition via {A B} (g : A -> B) (x : list N * A) (y : list N * B) : Prop := y = (x.1, g x.2).

  Lemma refs_other ps input : same (via (fun '(l, ids) => (map f l, ids))) (dec_product_refs P ps input) (dec_product_refs P (map f ps) input).
  Proof.
    unfold dec_product_refs. eapply same_bind; [apply same_refl|]. intros [i ids] ? <-.
    eapply same_bind; [apply same_refl|]. intros [] ? <-.
    assert (H : same (fun l l' => l' = map f l) (mapR (fun id => of_opt (getN ps id)) ids) (mapR (fun id => of_opt (getN (map f ps) id)) ids)).
    { induction ids as [|id ids IH]; [done|]. cbn [mapR].
      assert (E : getN (map f ps) id = f <$> getN ps id).
      { unfold getN. rewrite map_length. destruct (id <? N.of_nat (length ps)); [|done].
        change (map f ps) with (f <$> ps). apply list_lookup_fmap. }
      rewrite E. destruct (getN ps id) as [p|]; cbn; [|done].
      eapply same_bind; [exact IH|]. intros l ? ->. done. }
    eapply same_bind; [exact H|]. intros l ? ->. done.
  Qed.

  Lemma map_other kd n ps input :
    same (via (fmap (map f)))
      (dec_map P kd (dec_array P n dec_char) (fun input => '(input, (products, _)) ← dec_product_refs P ps input; Done (input, products)) input)
      (dec_map P kd (dec_array P n dec_char) (fun input => '(input, (products, _)) ← dec_product_refs P (map f ps) input; Done (input, products)) input).
  Proof.
    unfold dec_map. eapply same_bind; [apply same_refl|]. intros [i len] ? <-.
    eapply same_bind; [apply same_refl|]. intros [] ? <-.
    apply same_rep_N; [|by unfold via; cbn; rewrite fmap_empty].
    intros [i1 m] [i2 m'] E. unfold via in E. cbn in E. injection E as -> ->.
    eapply same_bind; [apply same_refl|]. intros [i3 key] ? <-.
    eapply same_bind; [eapply same_bind; [apply refs_other|]|].
    { intros [i4 [xs ids]] [i5 [xs' ids']] E. unfold via in E. cbn in E. injection E as -> -> ->.
      instantiate (1 := via (map f)). done. }
    intros [i4 l] [i5 l'] E. unfold via in E. cbn in E. injection E as -> ->. cbn. unfold via. cbn. by rewrite fmap_insert.
  Qed.

  Lemma category_other ps next input :
    same (via (fun '(c, next) => (category_with f c, next))) (dec_category P ps next input) (dec_category P (map f ps) next input).
  Proof.
    unfold dec_category. do 3 (eapply same_bind; [apply same_refl|]; intros [? ?] ? <-).
    eapply same_bind; [apply same_refl|]; intros [] ? <-.
    eapply (same_bind (fun '(i, o, k) '(i', o', k') => i' = i /\ o' = map (option_with f) o /\ k' = k)).
    - apply same_rep_N; [|done]. intros [[i o] k] [[i' o'] k'] (-> & -> & ->).
      eapply same_bind; [apply same_refl|]. intros [? name] ? <-.
      eapply same_bind; [apply refs_other|]. intros [i4 [xs ids]] [i5 [xs' ids']] E. unfold via in E. cbn in E. injection E as -> -> ->.
      cbn. by rewrite map_app.
    - intros [[i o] k] [[i' o'] k'] (-> & -> & ->). done.
  Qed.
  Lemma categories_other ps input :
    same (via (map (category_with f))) (dec_categories P ps input) (dec_categories P (map f ps) input).
  Proof.
    unfold dec_categories. eapply same_bind; [apply same_refl|]. intros [? ?] ? <-.
    eapply same_bind; [apply same_refl|]; intros [] ? <-.
    eapply (same_bind (fun '(i, o, k) '(i', o', k') => i' = i /\ o' = map (category_with f) o /\ k' = k)).
    - apply same_rep_N; [|done]. intros [[i o] k] [[i' o'] k'] (-> & -> & ->).
      eapply same_bind; [apply category_other|]. intros [i4 [xs ids]] [i5 [xs' ids']] E. unfold via in E. cbn in E. injection E as -> -> ->.
      cbn. by rewrite map_app.
    - intros [[i o] k] [[i' o'] k'] (-> & -> & ->). done.
  Qed.
  Lemma tags_other ps input :
    same (via (map (tag_with f))) (dec_tags P ps input) (dec_tags P (map f ps) input).
  Proof.
    unfold dec_tags. eapply same_bind; [apply same_refl|]. intros [? ?] ? <-.
    eapply same_bind; [apply same_refl|]; intros [] ? <-.
    eapply (same_bind (fun '(i, o, k) '(i', o', k') => i' = i /\ o' = map (tag_with f) o /\ k' = k)).
    - apply same_rep_N; [|done]. intros [[i o] k] [[i' o'] k'] (-> & -> & ->).
      eapply same_bind; [apply same_refl|]. intros [? name] ? <-.
      eapply same_bind; [apply refs_other|]. intros [i4 [xs ids]] [i5 [xs' ids']] E. unfold via in E. cbn in E. injection E as -> -> ->.
      cbn. by rewrite map_app.
    - intros [[i o] k] [[i' o'] k'] (-> & -> & ->). done.
  Qed.

  (** Two files with the same bytes after the catalogue. *)
  Lemma file_other n pre pre' rest c gi cl :
    dec_container P (pre ++ rest) = Done (rest, c) ->
    dec_container P (pre' ++ rest) = Done (rest, Container (map f (c_products c)) (c_vendors c) (c_features c)) ->
    deserialize_all P n (pre ++ rest) = Done (gi, cl) ->
    deserialize_all P n (pre' ++ rest) = Done (index_with f gi, classic_with f cl).
  Proof.
    intros E1 E2. unfold deserialize_all, dec_gram_index. rewrite E1, E2. cbn [mbind res_bind c_products].
    destruct (dec_map P KRootMap dec_char (dec_node P) rest) as [[i roots]| | |]; cbn [mbind res_bind]; try discriminate.
    pose proof (map_other KDataMap n (c_products c) i) as M.
    destruct (dec_map P KDataMap _ _ i) as [[i1 data]| | |]; cbn [mbind res_bind]; try discriminate.
    destruct (dec_map P KDataMap _ (fun input => '(input, (products, _)) ← dec_product_refs P (map f (c_products c)) input; Done (input, products)) i)
      as [[i2 data2]| | |]; cbn [mbind res_bind]; try done.
    cbn in M. unfold via in M. cbn in M. injection M as -> ->. cbn [gi_container].
    unfold dec_classic. cbn [c_products].
    pose proof (categories_other (c_products c) i1) as M.
    destruct (dec_categories P (c_products c) i1) as [[j cats]| | |]; cbn [mbind res_bind]; try discriminate.
    destruct (dec_categories P (map f (c_products c)) i1) as [[j' cats']| | |]; try done. cbn in M. unfold via in M. cbn in M. injection M as -> ->.
    cbn [mbind res_bind].
    pose proof (tags_other (c_products c) j) as M.
    destruct (dec_tags P (c_products c) j) as [[k tags]| | |]; cbn [mbind res_bind]; try discriminate.
    destruct (dec_tags P (map f (c_products c)) j) as [[k' tags']| | |]; try done. cbn in M. unfold via in M. cbn in M. injection M as -> ->.
    cbn [mbind res_bind].
    destruct (dec_orders P k) as [[l orders]| | |]; cbn [mbind res_bind]; try discriminate.
    intros [= <- <-]. done.
  Qed.
End other.

(** ** Another char in a title *)
Lemma lone_byte x b : 128 <= x -> valid_str b -> utf8_decode (x :: utf8 b) = None.
Proof.
  intros Hx Hb. cbn [utf8_decode]. rewrite (proj2 (N.ltb_ge x 128) Hx).
  assert (Hh : forall b1 r1, utf8 b = b1 :: r1 -> b1 < 128 \/ 192 <= b1).
  { destruct b as [|c b]; [done|]. intros b1 r1. rewrite utf8_cons. unfold utf8_char.
    destruct (N.ltb_spec c 128) as [H0|H0]; [intros [= <- _]; by left|]. intros H. right.
    destruct (c <? 2048); [|destruct (c <? 65536)]; injection H as <- _; lia. }
  destruct (utf8 b) as [|b1 r1]; [done|]. specialize (Hh b1 r1 eq_refl).
  assert (F1 : is_cont b1 = false) by (unfold is_cont; destruct (N.leb_spec 128 b1), (N.leb_spec b1 191); cbn; try done; lia).
  rewrite F1. destruct ((194 <=? x) && (x <=? 223)); [done|].
  destruct r1 as [|b2 r2]; [done|].
  assert (F2 : forall lo hi, 128 <= lo -> hi <= 191 -> (lo <=? b1) && (b1 <=? hi) = false).
  { intros lo hi H1 H2. destruct (N.leb_spec lo b1), (N.leb_spec b1 hi); cbn; try done; lia. }
  destruct ((224 <=? x) && (x <=? 239)).
  - rewrite F2; [done|destruct (x =? 224); lia|destruct (x =? 237); lia].
  - destruct r2 as [|b3 r3]; [done|]. destruct ((240 <=? x) && (x <=? 244)); [|done].
    rewrite F2; [done|destruct (x =? 240); lia|destruct (x =? 244); lia].
Qed.

Lemma retitled_stored i t p : stored (retitled i t p) = retitled i t (stored p).
Proof. unfold retitled, stored. cbn. by destruct (p_sid p =? i). Qed.
Lemma retitled_others i t l : Forall (fun p => p_sid p <> i) l -> map (retitled i t) l = l.
Proof.
  induction 1 as [|p l H _ IH]; [done|]. cbn [map]. rewrite IH. unfold retitled. by rewrite (proj2 (N.eqb_neq _ _) H).
Qed.
Lemma ascii_char c : c < 128 -> utf8_char c = [c].
Proof. intros H. unfold utf8_char. by rewrite (proj2 (N.ltb_lt _ _) H). Qed.
Lemma ascii_utf8 a c b : c < 128 -> utf8 (a ++ c :: b) = utf8 a ++ c :: utf8 b.
Proof. intros H. by rewrite utf8_app, utf8_cons, (ascii_char c H). Qed.
Lemma ascii_scalar c : c < 128 -> is_scalar c = true.
Proof. intros H. unfold is_scalar. rewrite (proj2 (N.ltb_lt c 55296)) by lia. done. Qed.

Section changed.
  Context (P : platform) (n : nat) (o : ser_order) (gi : gram_index) (cl : classic)
    (l1 l2 : list product) (p : product) (a b : rstr) (c : N).
  Context (Ho : valid_ser_order o) (Hg : gram_index_ok P n gi) (Hcl : classic_ok P (c_products (gi_container gi)) cl)
    (Hps : c_products (gi_container gi) = l1 ++ p :: l2) (Ht : p_title p = a ++ c :: b) (Hc : c < 128).
  Let C := gi_container gi.
  Let vb := enc_vendors (so_vendors o) (c_vendors C).
  Let fb := enc_features (so_features o) (c_features C).
  Let before := vb ++ enc_usize (lenN (c_products C)) ++ concat (map enc_product l1) ++
    enc_str_with_limit description_limit (p_description p) ++ enc_usize (str_len (a ++ c :: b)) ++ utf8 a.
  Let after := utf8 b ++ enc_str (p_id p) ++ enc_usize (v_id (p_vendor p)) ++ concat (map enc_product l2) ++ fb.
  Let rest := enc_map (so_roots o) enc_char enc_node (gi_roots gi) ++
    enc_map (so_data o) (enc_array enc_char) enc_product_refs (gi_data gi) ++ enc_classic o cl.
  Let f c' := retitled (lenN l1) (a ++ c' :: b).

  Lemma same_len c' : c' < 128 -> str_len (a ++ c' :: b) = str_len (a ++ c :: b).
  Proof. intros H. unfold str_len, lenN. rewrite !ascii_utf8, !app_length by done. done. Qed.
  Lemma sids : positions (c_products C).
  Proof. by destruct Hg as [(_ & _ & _ & H & _) _]. Qed.
  Lemma p_place : p_sid p = lenN l1.
  Proof. apply (sids (length l1) p). unfold C. rewrite Hps, list_lookup_middle; done. Qed.
  Lemma other_places : Forall (fun q => p_sid q <> lenN l1) (l1 ++ l2).
  Proof.
    apply Forall_app. split; apply Forall_forall; intros q [k Hk]%elem_of_list_lookup.
    - pose proof (lookup_lt_Some _ _ _ Hk). rewrite (sids k q); [unfold lenN; lia|].
      unfold C. rewrite Hps, lookup_app_l by done. done.
    - rewrite (sids (length l1 + S k)%nat q); [unfold lenN; lia|].
      unfold C. rewrite Hps, lookup_app_r by lia. replace (length l1 + S k - length l1)%nat with (S k) by lia. done.
  Qed.
  Lemma renamed c' : map (f c') (c_products C) = l1 ++ Product (p_description p) (a ++ c' :: b) (p_vendor p) (p_id p) (p_sid p) :: l2.
  Proof.
    unfold C, f. rewrite Hps, map_app. cbn [map]. pose proof other_places as [H1 H2]%Forall_app.
    rewrite !retitled_others by done. unfold retitled. by rewrite p_place, N.eqb_refl.
  Qed.
  Lemma container_bytes c' : c' < 128 ->
    enc_container (so_vendors o) (so_features o) (Container (map (f c') (c_products C)) (c_vendors C) (c_features C)) = before ++ c' :: after.
  Proof.
    intros H. unfold enc_container. cbn [c_vendors c_products c_features]. unfold enc_vec. unfold lenN at 1. rewrite map_length. fold (lenN (c_products C)).
    rewrite renamed, map_app, concat_app. cbn [map concat]. unfold enc_product at 2. cbn [p_description p_title p_id p_vendor].
    unfold enc_str at 1. rewrite (same_len c' H), ascii_utf8 by done. unfold before, after, vb, fb. rewrite <- ?app_assoc. cbn [app]. rewrite <- ?app_assoc. done.
  Qed.
  Lemma container_itself : map (f c) (c_products C) = c_products C.
  Proof. rewrite renamed. unfold C. rewrite Hps, <- Ht. by destruct p. Qed.
  Lemma file_bytes_are : serialize_all o gi cl = before ++ c :: after ++ rest.
  Proof.
    unfold serialize_all, enc_gram_index. fold C.
    replace C with (Container (map (f c) (c_products C)) (c_vendors C) (c_features C)) at 1.
    - rewrite container_bytes by done. unfold rest. rewrite <- ?app_assoc. cbn [app]. by rewrite <- ?app_assoc.
    - rewrite container_itself. by destruct C.
  Qed.
  Lemma title_ok c' : c' < 128 -> str_ok P (a ++ c' :: b).
  Proof.
    intros H. destruct Hg as [(_ & _ & _ & _ & Hp & _) _]. fold C in Hp. rewrite Forall_forall in Hp.
    assert (Hin : p ∈ c_products C) by (unfold C; rewrite Hps; apply elem_of_app; right; left).
    destruct (Hp p Hin) as (_ & [V L] & _). rewrite Ht in V, L. split; [|by rewrite same_len].
    unfold valid_str in *. rewrite Forall_app, Forall_cons in *. destruct V as (V1 & _ & V2). split; [done|]. split; [by apply ascii_scalar|done].
  Qed.
  Lemma container_renamed_ok c' : c' < 128 -> container_ok P (Container (map (f c') (c_products C)) (c_vendors C) (c_features C)).
  Proof.
    intros H. destruct Hg as [(Hv & Hf & Hs & Hpos & Hp & Hm) _]. fold C in Hv, Hf, Hs, Hpos, Hp.
    split; [done|]. split; [done|]. cbn [c_vendors c_products c_features].
    split; [unfold lenN; by rewrite map_length|]. split; [|split; [|done]].
    - intros k q Hk. change (map (f c') (c_products C)) with (f c' <$> c_products C) in Hk. rewrite list_lookup_fmap in Hk.
      apply fmap_Some in Hk as (q0 & Hk & ->). rewrite <- (Hpos k q0 Hk). unfold f. unfold retitled. by destruct (p_sid q0 =? _).
    - unfold C in Hp. rewrite Hps in Hp. apply Forall_app in Hp as [Hp1 Hp]. apply Forall_cons in Hp as [(X1 & X2 & X3) Hp2].
      rewrite renamed. apply Forall_app_2; [done|]. apply Forall_cons.
      split; [|done]. split; [done|]. split; [by apply title_ok|done].
  Qed.
  Lemma ascii_unnoticed c' : c' < 128 ->
    deserialize_all P n (before ++ c' :: after ++ rest) =
      Done (index_with (f c') (stored_gram_index gi), classic_with (f c') (stored_classic cl)).
  Proof.
    intros H. change (before ++ c' :: after ++ rest) with (before ++ (c' :: after) ++ rest). rewrite app_assoc.
    destruct Hg as [Hco _]. pose proof Ho as Ho'. unfold valid_ser_order in Ho'.
    apply (file_other P (f c') n (before ++ c :: after) (before ++ c' :: after) rest (stored_container C)).
    - rewrite <- container_bytes, container_itself by done.
      replace (Container (c_products C) (c_vendors C) (c_features C)) with C by (by destruct C). apply rt_container; [apply Ho..|done].
    - rewrite <- container_bytes by done.
      replace (Container (map (f c') (c_products (stored_container C))) (c_vendors (stored_container C)) (c_features (stored_container C)))
        with (stored_container (Container (map (f c') (c_products C)) (c_vendors C) (c_features C))).
      + apply rt_container; [apply Ho..|by apply container_renamed_ok].
      + unfold stored_container. cbn [c_products c_vendors c_features]. f_equal. rewrite !map_map. apply map_ext. intros q. apply retitled_stored.
    - rewrite <- app_assoc. cbn [app]. rewrite <- file_bytes_are. rewrite <- (app_nil_r (serialize_all o gi cl)). by apply file_roundtrip.
  Qed.
  Lemma others_noticed x : 128 <= x -> deserialize_all P n (before ++ x :: after ++ rest) = Nope.
  Proof.
    intros Hx. pose proof (proj1 Hg) as (Hv & Hf & Hs & Hpos & Hp & Hm). fold C in Hv, Hf, Hs, Hpos, Hp.
    assert (Hp' := Hp). rewrite Forall_forall in Hp'.
    assert (E : dec_container P (before ++ x :: after ++ rest) = Nope); [|unfold deserialize_all, dec_gram_index; by rewrite E].
    unfold dec_container. unfold before, vb. rewrite <- ?app_assoc. rewrite (rt_vendors P) by (done || apply Ho). cbn [mbind res_bind].
    rewrite rt_usize_ok by done. cbn [mbind res_bind]. rewrite rep_N_length. unfold C. rewrite Hps at 1.
    rewrite app_length. cbn [length]. rewrite rep_nat_add.
    rewrite (rep_consume enc_product (fun i '(ps, id) => (i, ps, id))
      (fun '(ps, id) p => (ps ++ [with_sid (stored p) id], id + 1)) _ l1 ([], 0)).
    - cbn [mbind res_bind rep_nat]. destruct (foldl _ ([], 0) l1) as [ps id]. unfold dec_product.
      destruct (Hp' p) as (Hd & [V L] & _); [unfold C; rewrite Hps; apply elem_of_app; right; left|].
      unfold enc_str_with_limit, description_limit. rewrite rt_str by (by apply limit_str_ok). cbn [mbind res_bind].
      assert (E : dec_str P (enc_usize (str_len (a ++ c :: b)) ++ utf8 a ++ x :: after ++ rest) = Nope); [|by rewrite E].
      unfold dec_str. rewrite Ht in L, V. rewrite rt_usize_ok by done. cbn [mbind res_bind].
      assert (El : str_len (a ++ c :: b) = lenN (utf8 a ++ x :: utf8 b)).
      { unfold str_len, lenN. rewrite ascii_utf8, !app_length by done. done. }
      assert (Eb : utf8 a ++ x :: after ++ rest = (utf8 a ++ x :: utf8 b) ++
        (enc_str (p_id p) ++ enc_usize (v_id (p_vendor p)) ++ concat (map enc_product l2) ++ fb) ++ rest).
      { unfold after. rewrite <- ?app_assoc. cbn [app]. by rewrite <- ?app_assoc. }
      rewrite Eb, El, (proj2 (N.leb_le _ _)) by (unfold lenN; rewrite (app_length (utf8 a ++ x :: utf8 b)), Nat2N.inj_add; apply N.le_add_r).
      assert (En : N.to_nat (lenN (utf8 a ++ x :: utf8 b)) = length (utf8 a ++ x :: utf8 b)) by (unfold lenN; apply Nat2N.id).
      rewrite En, take_app. unfold valid_str in V. apply Forall_app in V as [V1 V]. apply Forall_cons in V as [_ V2].
      rewrite utf8_decode_app, lone_byte by done. reflexivity.
    - intros q [ps id] r Hq. cbv beta iota. assert (Hq' : q ∈ c_products (gi_container gi)) by (rewrite Hps; apply elem_of_app; by left).
      specialize (Hp' q Hq'). rewrite rt_product; [done|done|done|].
      eapply vendors_ok_id; [done|]. eapply elem_of_list_lookup_2. apply Hp'.
  Qed.
End changed.
