(** All texts of a loaded file are Unicode (C126). *)
From Verif.model Require Import Base F32 Utf8 Prim Coll Data Gram Nodes Classic Lib Border.
From Verif.spec Require Import Shown_spec Border_spec.
From Verif.proofs Require Import Base_facts Prim_codec Coll_facts Border_facts.

Lemma dec_vec_gives P k {A} (dec : decoder A) (Q : A -> Prop) : gives dec Q -> gives (dec_vec P k dec) (Forall Q).
Proof.
  intros G input rest v E. unfold dec_vec in E. destruct (dec_usize P input) as [[i len]| | |]; try discriminate E.
  cbn [mbind res_bind] in E. destruct (with_capacity P k len) as [x| | |]; try discriminate E. cbn [mbind res_bind] in E.
  apply (rep_N_inv _ (fun _ '(_, out) => Forall Q out)) in E; [done|constructor|].
  intros n [i1 o1] [i2 o2] _ F S. destruct (dec i1) as [[i3 x']| | |] eqn:D; try discriminate S. cbn [mbind res_bind] in S.
  injection S as <- <-. apply Forall_app. split; [done|]. constructor; [by eapply G|constructor].
Qed.
Lemma dec_map_gives P k `{Countable K} {V} (deck : decoder K) (decv : decoder V) (QK : K -> Prop) (QV : V -> Prop) :
  gives deck QK -> gives decv QV -> gives (dec_map P k deck decv) (map_Forall (fun x y => QK x /\ QV y)).
Proof.
  intros GK GV input rest v E. unfold dec_map in E. destruct (dec_usize P input) as [[i len]| | |]; try discriminate E.
  cbn [mbind res_bind] in E. destruct (with_capacity P k len) as [x| | |]; try discriminate E. cbn [mbind res_bind] in E.
  apply (rep_N_inv _ (fun _ '(_, out) => map_Forall (fun x y => QK x /\ QV y) out)) in E; [done|apply map_Forall_empty|].
  intros n [i1 o1] [i2 o2] _ F S. destruct (deck i1) as [[i3 x']| | |] eqn:D; try discriminate S. cbn [mbind res_bind] in S.
  destruct (decv i3) as [[i4 y']| | |] eqn:D'; try discriminate S. cbn [mbind res_bind] in S.
  injection S as <- <-. apply map_Forall_insert_2; [|done]. split; [by eapply GK|by eapply GV].
Qed.
Lemma dec_any_gives {A} (dec : decoder A) : gives dec (fun _ => True).
Proof. done. Qed.

Definition vendor_text (v : vendor) : Prop := valid_str (v_name v).
Lemma dec_vendors_gives P : gives (dec_vendors P) (fun vm => Forall vendor_text (vm_by_id vm)).
Proof.
  intros input rest v E. unfold dec_vendors in E. destruct (dec_usize P input) as [[i len]| | |]; try discriminate E.
  cbn [mbind res_bind] in E. destruct (with_capacity P KVendorMap len) as [x| | |]; try discriminate E. cbn [mbind res_bind] in E.
  destruct (with_capacity P KVendorVec len) as [y| | |]; try discriminate E. cbn [mbind res_bind] in E.
  destruct (rep_N len _ _) as [[[i' vm] id]| | |] eqn:R; try discriminate E. cbn [mbind res_bind] in E. injection E as <- <-.
  apply (rep_N_inv _ (fun _ '(_, vm, _) => Forall vendor_text (vm_by_id vm))) in R; [done|constructor|].
  intros n [[i1 o1] d1] [[i2 o2] d2] _ F S. destruct (dec_str P i1) as [[i3 x']| | |] eqn:D; try discriminate S. cbn [mbind res_bind] in S.
  injection S as <- <- <-. cbn [vm_by_id]. apply Forall_app. split; [done|]. constructor; [|constructor].
  exact (dec_str_gives P _ _ _ D).
Qed.
Definition product_text (p : product) : Prop :=
  valid_str (p_title p) /\ valid_str (p_description p) /\ valid_str (p_id p) /\ valid_str (v_name (p_vendor p)).
Lemma dec_product_gives P sid vm : Forall vendor_text (vm_by_id vm) -> gives (dec_product P sid vm) product_text.
Proof.
  intros V input rest v E. unfold dec_product in E.
  destruct (dec_str P input) as [[i1 d]| | |] eqn:D1; try discriminate E. cbn [mbind res_bind] in E.
  destruct (dec_str P i1) as [[i2 t]| | |] eqn:D2; try discriminate E. cbn [mbind res_bind] in E.
  destruct (dec_str P i2) as [[i3 id]| | |] eqn:D3; try discriminate E. cbn [mbind res_bind] in E.
  destruct (dec_usize P i3) as [[i4 vid]| | |] eqn:D4; try discriminate E. cbn [mbind res_bind] in E.
  destruct (getN (vm_by_id vm) vid) as [w|] eqn:G; try discriminate E. cbn [of_opt mbind res_bind] in E. injection E as <- <-.
  split; [exact (dec_str_gives P _ _ _ D2)|]. split; [exact (dec_str_gives P _ _ _ D1)|]. split; [exact (dec_str_gives P _ _ _ D3)|].
  cbn [p_vendor]. rewrite getN_lookup in G. exact (Forall_lookup_1 _ _ _ _ V G).
Qed.
Definition feature_text (f : feature) : Prop := match f with FString l => Forall valid_str l | _ => True end.
Lemma dec_feature_gives P : gives (dec_feature P) feature_text.
Proof.
  intros input rest v E. unfold dec_feature in E. destruct (dec_u8 input) as [[i id]| | |]; try discriminate E. cbn [mbind res_bind] in E.
  destruct id as [|[[p|p|]|[p|p|]|]]; try discriminate E.
  - destruct (dec_vec P KStrings (dec_str P) i) as [[i1 l]| | |] eqn:D; try discriminate E. cbn [mbind res_bind] in E. injection E as <- <-.
    exact (dec_vec_gives P KStrings _ _ (dec_str_gives P) _ _ _ D).
  - destruct (dec_vec P KInts dec_u32 i) as [[i1 l]| | |] eqn:D; try discriminate E. cbn [mbind res_bind] in E. by injection E as <- <-.
  - destruct (dec_vec P KFloats dec_f32 i) as [[i1 l]| | |] eqn:D; try discriminate E. cbn [mbind res_bind] in E. by injection E as <- <-.
Qed.
Definition container_text (c : container) : Prop := Forall product_text (c_products c) /\
  map_Forall (fun key f => valid_str key /\ feature_text f) (c_features c).
Lemma dec_container_gives P : gives (dec_container P) container_text.
Proof.
  intros input rest v E. unfold dec_container in E.
  destruct (dec_vendors P input) as [[i1 vm]| | |] eqn:D1; try discriminate E. cbn [mbind res_bind] in E.
  destruct (dec_usize P i1) as [[i2 count]| | |] eqn:D2; try discriminate E. cbn [mbind res_bind] in E.
  destruct (rep_N count _ _) as [[[i3 ps] id]| | |] eqn:R; try discriminate E. cbn [mbind res_bind] in E.
  destruct (dec_features P i3) as [[i4 fs]| | |] eqn:D3; try discriminate E. cbn [mbind res_bind] in E. injection E as <- <-.
  split; cbn [c_products c_features].
  - apply (rep_N_inv _ (fun _ '(_, ps, _) => Forall product_text ps)) in R; [done|constructor|].
    intros n [[j1 o1] d1] [[j2 o2] d2] _ F S. destruct (dec_product P d1 vm j1) as [[j3 x']| | |] eqn:D; try discriminate S. cbn [mbind res_bind] in S.
    injection S as <- <- <-. apply Forall_app. split; [done|]. constructor; [|constructor].
    exact (dec_product_gives P _ _ (dec_vendors_gives P _ _ _ D1) _ _ _ D).
  - exact (dec_map_gives P KFeatureMap _ _ _ _ (dec_str_gives P) (dec_feature_gives P) _ _ _ D3).
Qed.
Definition category_text (c : category) : Prop := valid_str (cat_name c) /\ Forall (fun o => valid_str (o_name o)) (cat_options c).
Lemma dec_category_gives P ps id : gives (dec_category P ps id) (fun c => category_text c.1).
Proof.
  intros input rest v E. unfold dec_category in E.
  destruct (dec_bool input) as [[i0 b]| | |] eqn:D0; try discriminate E. cbn [mbind res_bind] in E.
  destruct (dec_str P i0) as [[i1 name]| | |] eqn:D1; try discriminate E. cbn [mbind res_bind] in E.
  destruct (dec_usize P i1) as [[i2 count]| | |] eqn:D2; try discriminate E. cbn [mbind res_bind] in E.
  destruct (with_capacity P KOptions count) as [y| | |]; try discriminate E. cbn [mbind res_bind] in E.
  destruct (rep_N count _ _) as [[[i3 os] id']| | |] eqn:R; try discriminate E. cbn [mbind res_bind] in E. injection E as <- <-.
  split; [exact (dec_str_gives P _ _ _ D1)|]. cbn [fst cat_options].
  apply (rep_N_inv _ (fun _ '(_, os, _) => Forall (fun o => valid_str (o_name o)) os)) in R; [done|constructor|].
  intros n [[j1 o1] d1] [[j2 o2] d2] _ F S. destruct (dec_str P j1) as [[j3 x']| | |] eqn:D; try discriminate S. cbn [mbind res_bind] in S.
  destruct (dec_product_refs P ps j3) as [[j4 [ql qi]]| | |] eqn:D'; try discriminate S. cbn [mbind res_bind] in S.
  injection S as <- <- <-. apply Forall_app. split; [done|]. constructor; [|constructor]. exact (dec_str_gives P _ _ _ D).
Qed.
Lemma dec_categories_gives P ps : gives (dec_categories P ps) (fun cs : list category => Forall category_text cs).
Proof.
  intros input rest v E. unfold dec_categories in E.
  destruct (dec_usize P input) as [[i2 count]| | |] eqn:D2; try discriminate E. cbn [mbind res_bind] in E.
  destruct (with_capacity P KCategories count) as [y| | |]; try discriminate E. cbn [mbind res_bind] in E.
  destruct (rep_N count _ _) as [[[i3 os] id']| | |] eqn:R; try discriminate E. cbn [mbind res_bind] in E. injection E as <- <-.
  apply (rep_N_inv _ (fun _ '(_, os, _) => Forall category_text os)) in R; [done|constructor|].
  intros n [[j1 o1] d1] [[j2 o2] d2] _ F S. destruct (dec_category P ps d1 j1) as [[j3 [x' d3]]| | |] eqn:D; try discriminate S. cbn [mbind res_bind] in S.
  injection S as <- <- <-. apply Forall_app. split; [done|]. constructor; [|constructor]. exact (dec_category_gives P _ _ _ _ _ D).
Qed.
Lemma dec_tags_gives P ps : gives (dec_tags P ps) (fun ts : list tag => Forall (fun t => valid_str (t_name t)) ts).
Proof.
  intros input rest v E. unfold dec_tags in E.
  destruct (dec_usize P input) as [[i2 count]| | |] eqn:D2; try discriminate E. cbn [mbind res_bind] in E.
  destruct (with_capacity P KTags count) as [y| | |]; try discriminate E. cbn [mbind res_bind] in E.
  destruct (rep_N count _ _) as [[[i3 os] id']| | |] eqn:R; try discriminate E. cbn [mbind res_bind] in E. injection E as <- <-.
  apply (rep_N_inv _ (fun _ '(_, os, _) => Forall (fun t => valid_str (t_name t)) os)) in R; [done|constructor|].
  intros n [[j1 o1] d1] [[j2 o2] d2] _ F S. destruct (dec_str P j1) as [[j3 x']| | |] eqn:D; try discriminate S. cbn [mbind res_bind] in S.
  destruct (dec_product_refs P ps j3) as [[j4 [ql qi]]| | |] eqn:D'; try discriminate S. cbn [mbind res_bind] in S.
  injection S as <- <- <-. apply Forall_app. split; [done|]. constructor; [|constructor]. exact (dec_str_gives P _ _ _ D).
Qed.
Lemma dec_orders_gives P : gives (dec_orders P) (fun m : gmap rstr (list N) => map_Forall (fun key _ => valid_str key) m).
Proof.
  intros input rest v E. intros key x Hx.
  by destruct (dec_map_gives P KOrderMap _ _ _ _ (dec_str_gives P) (dec_any_gives _) _ _ _ E key x Hx).
Qed.
Lemma shown_valid P n bs gi cl s : deserialize_all P n bs = Done (gi, cl) -> shown gi cl s -> valid_str s.
Proof.
  unfold deserialize_all, dec_gram_index, dec_classic. intros E.
  destruct (dec_container P bs) as [[i1 c]| | |] eqn:D1; try discriminate E. cbn [mbind res_bind] in E.
  destruct (dec_map P KRootMap _ _ i1) as [[i2 roots]| | |]; try discriminate E. cbn [mbind res_bind] in E.
  destruct (dec_map P KDataMap _ _ i2) as [[i3 data]| | |]; try discriminate E. cbn [mbind res_bind gi_container] in E.
  destruct (dec_categories P (c_products c) i3) as [[i4 cats]| | |] eqn:D2; try discriminate E. cbn [mbind res_bind] in E.
  destruct (dec_tags P (c_products c) i4) as [[i5 tags]| | |] eqn:D3; try discriminate E. cbn [mbind res_bind] in E.
  destruct (dec_orders P i5) as [[i6 orders]| | |] eqn:D4; try discriminate E. cbn [mbind res_bind] in E.
  injection E as <- <-.
  destruct (dec_container_gives P _ _ _ D1) as [Ps Fs]. pose proof (dec_categories_gives P _ _ _ _ D2) as Cs. cbn beta in Cs.
  pose proof (dec_tags_gives P _ _ _ _ D3) as Ts. cbn beta in Ts. pose proof (dec_orders_gives P _ _ _ D4) as Os. cbn beta in Os.
  pose proof (proj1 (Forall_forall _ _) Ps) as Ps1. pose proof (proj1 (Forall_forall _ _) Cs) as Cs1. pose proof (proj1 (Forall_forall _ _) Ts) as Ts1.
  intros [p Hp|p Hp|p Hp|p Hp|key f Hk|key l t Hk Hl|ca Hc|ca o Hc Ho|t Ht|key table Hk];
    cbn [gi_container cl_categories cl_tags cl_order] in *.
  - apply (Ps1 _ Hp).
  - apply (Ps1 _ Hp).
  - apply (Ps1 _ Hp).
  - apply (Ps1 _ Hp).
  - apply (Fs _ _ Hk).
  - destruct (Fs _ _ Hk) as [_ F]. cbn in F. rewrite Forall_forall in F. by apply F.
  - apply (Cs1 _ Hc).
  - destruct (Cs1 _ Hc) as [_ F]. rewrite Forall_forall in F. by apply F.
  - apply (Ts1 _ Ht).
  - apply (Os _ _ Hk).
Qed.
Lemma shown_passes P n bs gi cl s : deserialize_all P n bs = Done (gi, cl) -> shown gi cl s ->
  exists u, get_string (utf8 s) = Some u /\ spells u s /\ pass_string u = utf8 s.
Proof. intros E S. apply out_in. by eapply shown_valid. Qed.
Lemma same_units s t : valid_str s -> valid_str t -> get_string (utf8 s) = get_string (utf8 t) <-> s = t.
Proof.
  intros Hs Ht. unfold get_string. rewrite !Utf8_facts.utf8_decode_encode by done. split; [|by intros ->].
  intros [= E]. rewrite <- (points_utf16 s Hs), <- (points_utf16 t Ht). by rewrite E.
Qed.
