(** The writer writes exactly what the layout says. *)
From Coq Require Import Sorted.
From stdpp Require Import sorting.
From Verif.model Require Import Base F32 Utf8 Prim Coll Data Gram Nodes Classic Lib.
From Verif.spec Require Import Spec Gram_spec Grammar_spec Samples Layout_spec.
From Verif.proofs Require Import Sort_facts Prim_facts Coll_facts Codec_lemmas Sample_facts Data_facts File_facts.

(** [enc] writes exactly what [w] describes. *)
Definition writes {A} (w : A -> list N -> Prop) (enc : A -> list N) (x : A) : Prop := forall bs, w x bs <-> bs = enc x.

Lemma base128_cons d ds : base128 (d :: ds) = d mod 128 + 128 * base128 ds.
Proof. done. Qed.
Lemma numeral_short v : v < 128 -> numeral v [v].
Proof.
  intros H. exists [], v. split; [done|]. split; [constructor|]. split; [done|]. split; [by left|].
  cbn [base128]. rewrite N.mod_small by done. lia.
Qed.
Lemma numeral_long v l : 128 <= v -> numeral (v / 128) l -> numeral v ((v mod 128 + 128) :: l).
Proof.
  intros H (ds & d & -> & F & Hd & Hz & Hv). exists ((v mod 128 + 128) :: ds), d.
  pose proof (N.mod_lt v 128 ltac:(done)). split; [done|]. split; [constructor; [unfold continues; lia|done]|].
  split; [done|]. split.
  - right. intros ->. destruct Hz as [->|Hz]; [|done]. cbn in Hv. pose proof (N.div_str_pos v 128). lia.
  - rewrite base128_cons, Hv. replace ((v mod 128 + 128) mod 128) with (v mod 128).
    + pose proof (N.div_mod v 128 ltac:(done)). lia.
    + rewrite <- (N.mul_1_l 128) at 3. rewrite N.mod_add by done. symmetry. by apply N.mod_mod.
Qed.
Lemma numeral_pos ds d : Forall continues ds -> d < 128 -> d <> 0 -> 0 < base128 (ds ++ [d]).
Proof.
  intros F Hd Hz. induction F as [|x ds _ _ IH]; cbn [app base128].
  - rewrite N.mod_small by done. lia.
  - lia.
Qed.
Lemma numeral_inj v l l' : numeral v l -> numeral v l' -> l = l'.
Proof.
  intros (ds & d & -> & F & Hd & Hz & Hv). revert v l' Hv. induction F as [|x ds Hx F IH]; intros v l' Hv (es & e & -> & G & He & Hze & Hw).
  - cbn [app base128] in Hv. rewrite N.mod_small in Hv by done. destruct es as [|y es].
    + cbn [app base128] in Hw. rewrite N.mod_small in Hw by done. assert (d = e) as -> by lia. reflexivity.
    + inversion G; subst. destruct Hze as [?|Hze]; [done|]. pose proof (numeral_pos es e ltac:(done) He Hze) as Hp.
      cbn [app] in Hw. rewrite base128_cons in Hw. lia.
  - destruct Hz as [?|Hz]; [done|]. cbn [app] in Hv. rewrite base128_cons in Hv.
    pose proof (numeral_pos ds d F Hd Hz) as Hp. destruct es as [|y es].
    + cbn [app base128] in Hw. rewrite N.mod_small in Hw by done. lia.
    + inversion G as [|? ? Hy G']; subst. cbn [app] in Hw |- *. rewrite base128_cons in Hw.
      pose proof (N.mod_lt x 128 ltac:(done)). pose proof (N.mod_lt y 128 ltac:(done)).
      assert (x mod 128 = y mod 128 /\ base128 (ds ++ [d]) = base128 (es ++ [e])) as [E1 E2].
      { pose proof (N.div_mod x 128 ltac:(done)). lia. }
      f_equal.
      * unfold continues in *. pose proof (N.div_mod x 128 ltac:(done)). pose proof (N.div_mod y 128 ltac:(done)).
        assert (x / 128 = 1) by (symmetry; apply (N.div_unique x 128 1 (x - 128)); lia).
        assert (y / 128 = 1) by (symmetry; apply (N.div_unique y 128 1 (y - 128)); lia). lia.
      * apply (IH ltac:(by right) (base128 (ds ++ [d])) _ eq_refl). exists es, e. split; [done|]. split; [done|].
        split; [done|]. split; [|done]. destruct Hze as [?|?]; [done|by right].
Qed.
Lemma numeral_enc v : writes numeral enc_u64 v.
Proof.
  intros bs. assert (numeral v (enc_u64 v)) as H.
  { apply (enc_u64_ind numeral); [exact numeral_short|exact numeral_long]. }
  split; [|by intros ->]. intros H'. by apply (numeral_inj v).
Qed.

Lemma fields_bits x s e f : fields x s e f -> f32_to_bits x = (if s then 2 ^ 31 else 0) + e * 2 ^ 23 + f.
Proof.
  inversion 1; subst; cbn [f32_to_bits].
  - destruct s; reflexivity.
  - destruct s; reflexivity.
  - reflexivity.
  - rewrite (proj2 (N.ltb_lt _ _)) by done. lia.
  - rewrite (proj2 (N.ltb_ge _ _)) by lia. rewrite H0. lia.
Qed.
Lemma fields_exist x : exists s e f, fields x s e f.
Proof.
  destruct x as [s|s| |s m e]; try by (repeat eexists; constructor).
  destruct (N.lt_ge_cases (N.pos m) (2 ^ 23)).
  - do 3 eexists. by apply Fields_small.
  - exists s, (Z.to_N (e + 150)), (N.pos m - 2 ^ 23). apply Fields_normal. lia.
Qed.
Lemma bytes4 b b3 b2 b1 b0 : is_byte b2 -> is_byte b1 -> is_byte b0 -> ((b3 * 256 + b2) * 256 + b1) * 256 + b0 = b ->
  [b3; b2; b1; b0] = [b / 2 ^ 24; (b / 2 ^ 16) mod 256; (b / 2 ^ 8) mod 256; b mod 256].
Proof.
  unfold is_byte. intros H2 H1 H0 <-.
  set (t := (b3 * 256 + b2) * 256 + b1).
  assert (E1 : (t * 256 + b0) / 256 = t) by (symmetry; apply (N.div_unique _ 256 t b0); lia).
  assert (E2 : t / 256 = b3 * 256 + b2) by (symmetry; apply (N.div_unique _ 256 _ b1); [done|unfold t; lia]).
  assert (E3 : (b3 * 256 + b2) / 256 = b3) by (symmetry; apply (N.div_unique _ 256 _ b2); lia).
  change (2 ^ 24) with (256 * 256 * 256). change (2 ^ 16) with (256 * 256). change (2 ^ 8) with 256.
  rewrite <- !N.div_div by done. rewrite E1, E2, E3.
  assert (M0 : (t * 256 + b0) mod 256 = b0) by (symmetry; apply (N.mod_unique _ 256 t); lia).
  assert (M1 : t mod 256 = b1) by (symmetry; apply (N.mod_unique _ 256 (b3 * 256 + b2)); [done|unfold t; lia]).
  assert (M2 : (b3 * 256 + b2) mod 256 = b2) by (symmetry; apply (N.mod_unique _ 256 b3); lia).
  by rewrite M0, M1, M2.
Qed.
Lemma float_enc x : writes float_bytes enc_f32 x.
Proof.
  intros bs. unfold enc_f32. split.
  - inversion 1 as [? s e f b3 b2 b1 b0 F H2 H1 H0 E]; subst. apply fields_bits in F. rewrite <- F in E. by apply bytes4.
  - intros ->. destruct (fields_exist x) as (s & e & f & F). pose proof (fields_bits _ _ _ _ F) as E.
    set (b := f32_to_bits x) in *.
    apply (Float_bytes x s e f); [done|unfold is_byte; by apply N.mod_lt..|]. rewrite <- E.
    change (2 ^ 24) with (256 * 256 * 256). change (2 ^ 16) with (256 * 256). change (2 ^ 8) with 256.
    rewrite <- !N.div_div by done.
    pose proof (N.div_mod b 256 ltac:(done)). pose proof (N.div_mod (b / 256) 256 ltac:(done)).
    pose proof (N.div_mod (b / 256 / 256) 256 ltac:(done)). lia.
Qed.
Lemma text_enc s : writes text_written enc_str s.
Proof.
  intros bs. unfold text_written, enc_str, str_len. split.
  - intros (n & Hn & ->). apply numeral_enc in Hn. by rewrite Hn.
  - intros ->. eexists. split; [|reflexivity]. by apply numeral_enc.
Qed.

(** ** Lists *)
Lemma in_turn_enc {A} (w : A -> list N -> Prop) enc l : Forall (writes w enc) l ->
  writes (in_turn w) (fun l => concat (map enc l)) l.
Proof.
  intros F bs. unfold in_turn. split.
  - intros (parts & Hp & ->). f_equal. revert parts Hp. induction F as [|x l Hx F IH]; intros parts Hp; inversion Hp; subst; [done|].
    cbn [map]. f_equal; [by apply Hx|by apply IH].
  - intros ->. exists (map enc l). split; [|done]. induction F as [|x l Hx F IH]; constructor; [by apply Hx|done].
Qed.
Lemma counted_enc {A} (w : A -> list N -> Prop) enc l : Forall (writes w enc) l -> writes (counted w) (enc_vec enc) l.
Proof.
  intros F bs. unfold counted, enc_vec, enc_usize. split.
  - intros (n & parts & Hn & Hp & ->). apply numeral_enc in Hn. apply (in_turn_enc w enc l F) in Hp. by rewrite Hn, Hp.
  - intros ->. do 2 eexists. split; [by apply numeral_enc|]. split; [|reflexivity]. by apply (in_turn_enc w enc l F).
Qed.
Lemma all_writes {A} (w : A -> list N -> Prop) enc l : (forall x, writes w enc x) -> Forall (writes w enc) l.
Proof. intros H. apply Forall_forall. intros x _. apply H. Qed.
Lemma both_enc {A B} (w : A -> list N -> Prop) (w' : B -> list N -> Prop) enc enc' :
  (forall x, writes w enc x) -> (forall y, writes w' enc' y) ->
  forall p, writes (both w w') (fun '(k, v) => enc k ++ enc' v) p.
Proof.
  intros H H' [a b] bs. unfold both. cbn [fst snd]. split.
  - intros (b1 & b2 & H1 & H2 & ->). apply H in H1. apply H' in H2. by rewrite H1, H2.
  - intros ->. do 2 eexists. split; [by apply H|]. split; [by apply H'|done].
Qed.

(** ** Tables *)
Lemma perm_order {A} (l l' : list A) : l ≡ₚ l' -> exists o : order_of A, valid_order o /\ o l = l'.
Proof.
  induction 1 as [|x l l' _ (o & Ho & E)|x y l|l l' l'' _ (o & Ho & E) _ (o' & Ho' & E')].
  - exists (fun l => l). split; [intros l; done|done].
  - exists (fun l => match l with [] => [] | x :: l => x :: o l end). split; [|by rewrite E].
    intros [|y k]; [done|]. by rewrite (Ho k).
  - exists (fun l => match l with x :: y :: l => y :: x :: l | _ => l end). split; [|done].
    intros [|a [|b k]]; [done|done|]. constructor.
  - exists (fun l => o' (o l)). split; [|by rewrite E]. intros k. by rewrite (Ho' _), (Ho k).
Qed.
Lemma table_enc `{Countable K} {V} (w : K -> list N -> Prop) (w' : V -> list N -> Prop) enc enc' :
  (forall x, writes w enc x) -> (forall y, writes w' enc' y) ->
  forall m bs, table w w' m bs <-> exists o, valid_order o /\ bs = enc_map o enc enc' m.
Proof.
  intros H1 H2 m bs. unfold table, enc_map. pose proof (both_enc w w' enc enc' H1 H2) as HB. split.
  - intros (entries & Hp & Hc). symmetry in Hp. destruct (perm_order _ _ Hp) as (o & Ho & E). exists o. split; [done|].
    apply (counted_enc _ _ entries (all_writes _ _ _ HB)) in Hc. rewrite Hc, E. unfold enc_vec, enc_usize. f_equal. f_equal.
    unfold lenN. f_equal. by rewrite <- Hp.
  - intros (o & Ho & ->). exists (o (map_to_list m)). split; [apply Ho|].
    apply (counted_enc _ _ _ (all_writes _ _ _ HB)). unfold enc_vec, enc_usize. f_equal. f_equal. unfold lenN. f_equal.
    by rewrite (Ho _).
Qed.

(** ** Lists of ids *)
Lemma sum_N_app l k : sum_N (l ++ k) = sum_N l + sum_N k.
Proof. unfold sum_N. induction l as [|x l IH]; cbn [app foldr]; [done|]. rewrite IH. lia. Qed.
Lemma differences_unique l : forall ds es, differences l ds -> differences l es -> ds = es.
Proof.
  induction l as [|x l IH] using rev_ind; intros ds es [Ld Hd] [Le He].
  - destruct ds, es; done.
  - rewrite app_length in Ld, Le. cbn [length] in Ld, Le.
    destruct ds as [|d ds _] using rev_ind; [simpl in Ld; lia|]. destruct es as [|e es _] using rev_ind; [simpl in Le; lia|].
    rewrite app_length in Ld, Le. cbn [length] in Ld, Le.
    assert (ds = es) as ->.
    { apply IH; (split; [lia|]); intros i v Hi; pose proof (lookup_lt_Some _ _ _ Hi).
      - rewrite (Hd i v) by (by apply lookup_app_l_Some). by rewrite take_app_le by lia.
      - rewrite (He i v) by (by apply lookup_app_l_Some). by rewrite take_app_le by lia. }
    f_equal. f_equal. assert (Hx : (l ++ [x]) !! length l = Some x) by (by rewrite lookup_app_r, Nat.sub_diag by done).
    pose proof (Hd _ _ Hx) as E1. pose proof (He _ _ Hx) as E2.
    rewrite take_ge in E1 by (rewrite app_length; simpl; lia). rewrite take_ge in E2 by (rewrite app_length; simpl; lia).
    rewrite sum_N_app in E1, E2. cbn [sum_N foldr] in E1, E2. unfold sum_N in *. cbn [foldr] in E1, E2. lia.
Qed.
Lemma deltas_from p l : StronglySorted N.le (p :: l) ->
  length (deltas (Some p) l) = length l /\
  forall i v, l !! i = Some v -> v = p + sum_N (take (S i) (deltas (Some p) l)).
Proof.
  revert p. induction l as [|x l IH]; intros p S; [done|].
  apply StronglySorted_inv in S as [S F]. inversion F as [|? ? Hx _]; subst. destruct (IH x S) as [L H].
  cbn [deltas length]. split; [by rewrite L|]. intros [|i] v Hi; cbn [lookup list_lookup] in Hi.
  - injection Hi as <-. change (x = p + (x - p + 0)). lia.
  - specialize (H i v Hi). cbn [firstn]. unfold sum_N in *. cbn [foldr] in *. lia.
Qed.
Lemma deltas_differences l : StronglySorted N.le l -> differences l (deltas None l).
Proof.
  intros S. destruct l as [|x l]; [split; [done|]; by intros i v|]. destruct (deltas_from x l S) as [L H].
  cbn [deltas]. split; [cbn [length]; by rewrite L|]. intros [|i] v Hi; cbn [lookup list_lookup] in Hi.
  - injection Hi as <-. change (x = x + 0). lia.
  - specialize (H i v Hi). cbn [firstn]. unfold sum_N in *. cbn [foldr] in *. lia.
Qed.
Lemma le_cmp_N l : StronglySorted N.le l -> StronglySorted (le_cmp N.compare) l.
Proof.
  induction 1 as [|x l _ IH F]; constructor; [done|]. eapply Forall_impl; [exact F|]. intros y Hy. unfold le_cmp.
  rewrite N.compare_le_iff. done.
Qed.
Lemma ids_enc l : writes ids_written enc_seq l.
Proof.
  intros bs. unfold ids_written, enc_seq. cbv zeta. split.
  - intros (sorted & ds & Hp & Hs & Hd & Hc).
    assert (sort_by N.compare l = sorted) as ->.
    { apply (StronglySorted_unique N.le); [apply sort_N_sorted|done|]. by rewrite sort_by_perm. }
    pose proof (differences_unique _ _ _ Hd (deltas_differences _ Hs)) as ->.
    apply (counted_enc _ enc_u64 _ (all_writes _ _ _ numeral_enc)) in Hc. rewrite Hc. unfold enc_vec, enc_usize. f_equal.
    unfold lenN. do 2 f_equal. destruct Hd as [L _]. by rewrite L.
  - intros ->. pose proof (deltas_differences _ (sort_N_sorted l)) as Hd. do 2 eexists. split; [apply (sort_by_perm N.compare)|].
    split; [apply sort_N_sorted|]. split; [exact Hd|]. apply (counted_enc _ enc_u64 _ (all_writes _ _ _ numeral_enc)).
    unfold enc_vec, enc_usize. f_equal. unfold lenN. do 2 f_equal. destruct Hd as [L _]. by rewrite L.
Qed.
Lemma refs_enc l : writes refs_written enc_product_refs l.
Proof. intros bs. apply ids_enc. Qed.

(** ** The catalogue *)
Lemma vendor_total : total_cmp (fun a b : vendor => N.compare (v_id a) (v_id b)).
Proof. apply (total_cmp_on v_id), N_compare_total. Qed.
Lemma vendors_sorted l : StronglySorted (fun a b => v_id a <= v_id b) l <->
  StronglySorted (le_cmp (fun a b : vendor => N.compare (v_id a) (v_id b))) l.
Proof.
  split; (induction 1 as [|x l _ IH F]; constructor; [done|]; eapply Forall_impl; [exact F|]; intros y Hy).
  - unfold le_cmp. by rewrite N.compare_le_iff.
  - unfold le_cmp in Hy. by rewrite N.compare_le_iff in Hy.
Qed.
Lemma vendors_enc vm bs : vendors_written vm bs <-> exists o, valid_order o /\ bs = enc_vendors o vm.
Proof.
  unfold vendors_written, enc_vendors. cbv zeta.
  assert (HW : forall v, writes (fun v => text_written (v_name v)) enc_vendor v) by (intros v bs'; apply text_enc). split.
  - intros (vs & Hp & Hs & Hc). destruct (Permutation_map_inv snd (map_to_list (vm_tags vm)) Hp) as (entries & E & Hp').
    destruct (perm_order _ _ Hp') as (o & Ho & Eo). exists o. split; [done|]. rewrite Eo, <- E.
    rewrite sort_by_sorted_id by (by apply vendors_sorted). by apply (counted_enc _ _ _ (all_writes _ _ _ HW)) in Hc.
  - intros (o & Ho & ->). exists (sort_by (fun a b => N.compare (v_id a) (v_id b)) (map snd (o (map_to_list (vm_tags vm))))).
    split; [|split; [apply vendors_sorted, sort_by_total_sorted, vendor_total|]].
    + rewrite sort_by_perm. by rewrite (Ho _).
    + by apply (counted_enc _ _ _ (all_writes _ _ _ HW)).
Qed.
Lemma product_enc p : writes product_written enc_product p.
Proof.
  intros bs. unfold product_written, enc_product, enc_str_with_limit. split.
  - intros (d & b1 & b2 & b3 & b4 & Hd & H1 & H2 & H3 & H4 & ->).
    apply (truncation_cut (p_description p) 100 d) in Hd. apply text_enc in H1, H2, H3. apply numeral_enc in H4.
    unfold description_limit. by rewrite Hd, H1, H2, H3, H4.
  - intros ->. eexists _, _, _, _, _. split; [apply (truncation_cut (p_description p) 100); reflexivity|].
    split; [by apply text_enc|]. split; [by apply text_enc|]. split; [by apply text_enc|]. split; [by apply numeral_enc|done].
Qed.
Lemma column_enc f : writes column_written enc_feature f.
Proof.
  intros bs. pose proof (fun l => counted_enc _ _ l (all_writes _ _ l text_enc)) as HT.
  pose proof (fun l => counted_enc _ _ l (all_writes _ _ l float_enc)) as HF.
  pose proof (fun l => counted_enc _ _ l (all_writes _ _ l numeral_enc)) as HN.
  destruct f as [l|l|l]; cbn [enc_feature]; (split; [inversion 1 as [? b Hc|? b Hc|? b Hc]; subst|intros ->]);
    try (constructor; by apply HT || by apply HF || by apply HN).
  - apply HT in Hc. by rewrite Hc.
  - apply HF in Hc. by rewrite Hc.
  - apply HN in Hc. by rewrite Hc.
Qed.

(** ** The trie *)
Lemma tree_enc nd : writes tree_written enc_node nd.
Proof.
  induction nd as [c w kids IH] using node_ind'. intros bs. cbn [enc_node].
  pose proof (in_turn_enc tree_written enc_node kids IH) as HK. split.
  - inversion 1 as [? ? ? b1 b2 n parts H1 H2 H3 H4]; subst. apply numeral_enc in H1, H3. apply float_enc in H2.
    assert (concat parts = concat (map enc_node kids)) as -> by (apply HK; by exists parts). by rewrite H1, H2, H3.
  - intros ->. destruct (proj2 (HK _) eq_refl) as (parts & HP & ->).
    constructor; [by apply numeral_enc|by apply float_enc|by apply numeral_enc|done].
Qed.

(** ** Categories and tags *)
Lemma option_enc o : writes option_written (fun o => enc_str (o_name o) ++ enc_product_refs (o_content o)) o.
Proof. intros bs. apply (both_enc _ _ _ _ text_enc refs_enc (o_name o, o_content o)). Qed.
Lemma category_enc c : writes category_written enc_category c.
Proof.
  intros bs. unfold category_written, enc_category. pose proof (counted_enc _ _ (cat_options c) (all_writes _ _ _ option_enc)) as HO. split.
  - intros (b1 & b2 & b3 & -> & H2 & H3 & ->). apply text_enc in H2. apply HO in H3. rewrite H2, H3. by destruct (cat_exclusive c).
  - intros ->. eexists _, _, _. split; [reflexivity|]. split; [by apply text_enc|]. split; [by apply HO|]. by destruct (cat_exclusive c).
Qed.
Lemma tag_enc t : writes tag_written enc_tag t.
Proof. intros bs. apply (both_enc _ _ _ _ text_enc refs_enc (t_name t, t_products t)). Qed.

(** ** The file *)
Lemma file_layout gi cl bs : file_written gi cl bs <-> exists o, valid_ser_order o /\ serialize_all o gi cl = bs.
Proof.
  pose proof (fun l => counted_enc _ _ l (all_writes _ _ l product_enc)) as HP.
  pose proof (fun l => counted_enc _ _ l (all_writes _ _ l category_enc)) as HC.
  pose proof (fun l => counted_enc _ _ l (all_writes _ _ l tag_enc)) as HT.
  pose proof (fun l => counted_enc _ _ l (all_writes _ _ l numeral_enc)) as HN.
  pose proof (table_enc _ _ _ _ text_enc column_enc) as TC.
  pose proof (table_enc _ _ _ _ numeral_enc tree_enc) as TR.
  pose proof (table_enc _ _ _ _ HN refs_enc) as TW.
  pose proof (table_enc _ _ _ _ text_enc HN) as TO.
  unfold file_written, serialize_all, enc_gram_index, enc_container, enc_classic. split.
  - intros (b1 & b2 & b3 & b4 & b5 & b6 & b7 & b8 & H1 & H2 & H3 & H4 & H5 & H6 & H7 & H8 & ->).
    apply vendors_enc in H1 as (o1 & V1 & ->). apply HP in H2. apply TC in H3 as (o3 & V3 & ->).
    apply TR in H4 as (o4 & V4 & ->). apply TW in H5 as (o5 & V5 & ->). apply HC in H6. apply HT in H7.
    apply TO in H8 as (o8 & V8 & ->). exists (SerOrder o1 o3 o4 o5 o8). split; [by repeat split|].
    cbn [so_vendors so_features so_roots so_data so_orders]. rewrite H2, H6, H7. rewrite <- !app_assoc. reflexivity.
  - intros (o & (V1 & V3 & V4 & V5 & V8) & <-). eexists _, _, _, _, _, _, _, _.
    split; [apply vendors_enc; eexists; split; [exact V1|reflexivity]|]. split; [by apply HP|].
    split; [apply TC; eexists; split; [exact V3|reflexivity]|]. split; [apply TR; eexists; split; [exact V4|reflexivity]|].
    split; [apply TW; eexists; split; [exact V5|reflexivity]|]. split; [by apply HC|]. split; [by apply HT|].
    split; [apply TO; eexists; split; [exact V8|reflexivity]|]. rewrite <- !app_assoc. reflexivity.
Qed.

(** A file begins with the number of vendors. *)
Lemma not_shifted : ~ file_written sample_index sample_classic (0 :: serialize_all sample_order sample_index sample_classic).
Proof.
  intros H. apply file_layout in H as (o & (V & _) & E). apply (f_equal (fun l => l !! 0%nat)) in E.
  cbn [lookup list_lookup] in E. unfold serialize_all, enc_gram_index, enc_container, enc_vendors in E. cbv zeta in E.
  rewrite <- !app_assoc in E. unfold lenN in E. rewrite sort_by_length, map_length in E.
  pose proof (Permutation_length (V (map_to_list (vm_tags (c_vendors (gi_container sample_index)))))) as L.
  change (length (map_to_list (vm_tags (c_vendors (gi_container sample_index))))) with 2%nat in L. rewrite L in E. discriminate E.
Qed.
