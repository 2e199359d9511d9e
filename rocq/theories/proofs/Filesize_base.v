(** C132: the size of a whole file. *)
From Coq Require Import String.
From Verif.model Require Import Base F32 Utf8 Prim Coll Data Gram Indexer Nodes Classic Lit Raw Js Lib.
From Verif.spec Require Import Spec Data_spec Gram_spec Classic_spec Raw_spec Cost_spec Samples Filesize_spec.
From Verif.proofs Require Import Base_facts Sort_facts Classic_facts Data_facts Indexer_facts Raw_facts Raw_props Length_facts Cutoff_facts Filesize_facts.
From Coq Require Import ZifyBool ZifyNat ZifyN Sorting.Sorted.
Ltac Zify.zify_post_hook ::= Z.div_mod_to_equations.

(** ** Texts and lists *)
Lemma char_utf8 c : lenN (utf8_char c) = char_bytes c.
Proof. unfold utf8_char, char_bytes. repeat case_match; done. Qed.
Lemma utf8_bytes s : lenN (utf8 s) = sum_N (map char_bytes s).
Proof. unfold utf8. rewrite lenN_concat, map_map. apply sum_ext. intros c _. apply char_utf8. Qed.
Lemma enc_str_bytes s : lenN (enc_str s) = text_bytes s.
Proof. unfold enc_str, text_bytes, str_len, enc_usize. by rewrite lenN_app, enc_number, utf8_bytes. Qed.
Lemma enc_list_bytes {A} (enc : A -> list N) f l : (forall x, x ∈ l -> lenN (enc x) = f x) ->
  lenN (enc_usize (lenN l) ++ concat (map enc l)) = number_bytes (lenN l) + sum_N (map f l).
Proof.
  intros H. unfold enc_usize. rewrite lenN_app, enc_number, lenN_concat, map_map. f_equal. by apply sum_ext.
Qed.
Lemma list_sum_N {A} (f : A -> nat) l : N.of_nat (list_sum (map f l)) = sum_N (map (fun x => N.of_nat (f x)) l).
Proof. induction l as [|x l IH]; [done|]. cbn [map]. rewrite sum_cons, <- IH. unfold list_sum. cbn [foldr]. lia. Qed.
Lemma size_lenN `{Countable K} {V} (m : gmap K V) l : map_to_list m ≡ₚ l -> N.of_nat (size m) = lenN l.
Proof. intros E. unfold size, map_size, lenN. by rewrite (Permutation_length E). Qed.
Lemma enc_map_bytes `{Countable K} {V} (enck : K -> list N) (encv : V -> list N) (m : gmap K V) l : map_to_list m ≡ₚ l ->
  lenN (enc_map no_order enck encv m) = number_bytes (lenN l) + sum_N (map (fun '(k, v) => lenN (enck k) + lenN (encv v)) l).
Proof.
  intros E. unfold lenN at 1. rewrite enc_map_length by (by intros x). rewrite Nat2N.inj_add, (size_lenN m l E). f_equal.
  - apply enc_number.
  - rewrite list_sum_N. erewrite sum_perm_N; [|by apply Permutation_map]. apply sum_ext. intros [k v] _. unfold lenN. lia.
Qed.

(** ** Vendors *)
Lemma numbered_names names : map v_name (numbered names) = names.
Proof.
  unfold numbered. assert (G : forall k, map v_name (imap (fun i name => Vendor name (N.of_nat (k + i))) names) = names); [|apply (G 0%nat)].
  induction names as [|x names IH]; intros k; [done|]. cbn [imap map v_name]. f_equal. rewrite <- (IH (S k)) at 2. f_equal.
  apply imap_ext. intros i y _. cbn. f_equal. lia.
Qed.
Lemma vendors_bytes input : lenN (enc_vendors no_order (raw_vendors input)) = texts_bytes (vendor_names input).
Proof.
  destruct (raw_vendors_are input) as (Nd & B & T). fold (vendor_names input) in *.
  assert (E : map_to_list (vm_tags (raw_vendors input)) ≡ₚ map (fun v => (v_name v, v)) (numbered (vendor_names input))).
  { apply NoDup_Permutation.
    - apply NoDup_map_to_list.
    - apply (NoDup_fmap_1 fst). rewrite <- list_fmap_compose.
      replace ((fst ∘ (fun v => (v_name v, v))) <$> numbered (vendor_names input)) with (vendor_names input); [done|].
      symmetry. apply numbered_names.
    - intros [k v]. rewrite elem_of_map_to_list, T, elem_of_list_fmap. split.
      + intros [Hv <-]. eauto.
      + intros (v' & [= -> ->] & Hv). done. }
  unfold lenN at 1. rewrite enc_vendors_length by (by intros x). rewrite Nat2N.inj_add, (size_lenN _ _ E), list_sum_N.
  erewrite sum_perm_N; [|by apply Permutation_map]. rewrite map_map. unfold texts_bytes. f_equal.
  - pose proof (enc_number (lenN (map (fun v => (v_name v, v)) (numbered (vendor_names input))))) as L. unfold lenN, enc_usize in *.
    rewrite L. rewrite !map_length. unfold numbered. by rewrite imap_length.
  - rewrite <- (numbered_names (vendor_names input)) at 2. rewrite map_map. apply sum_ext. intros v _. apply enc_str_bytes.
Qed.
Lemma index_lookup names i x : NoDup names -> names !! i = Some x -> index_of x names = N.of_nat i.
Proof.
  intros Nd. revert i. induction Nd as [|y names Ny Nd IH]; intros i Hi; [done|]. cbn [index_of]. destruct i as [|i].
  - injection Hi as ->. by rewrite decide_True.
  - cbn in Hi. rewrite decide_False; [rewrite (IH i Hi); lia|]. intros ->. by eapply Ny, elem_of_list_lookup_2.
Qed.
Lemma enc_product_bytes input raw p : describes raw p -> vm_tags (raw_vendors input) !! v_name (p_vendor p) = Some (p_vendor p) ->
  lenN (enc_product p) = product_bytes input raw.
Proof.
  intros (E1 & E2 & E3 & E4) V. unfold enc_product, product_bytes, enc_str_with_limit, description_limit. rewrite !lenN_app, !enc_str_bytes, E1, E2, E3.
  rewrite <- N.add_assoc, <- N.add_assoc. do 3 f_equal. unfold enc_usize. rewrite enc_number. f_equal.
  destruct (raw_vendors_are input) as (Nd & _ & T). fold (vendor_names input) in *. apply T in V as [V _].
  unfold numbered in V. apply elem_of_lookup_imap in V as (i & name & Ev & Hi). rewrite <- E4, Ev. cbn [v_id v_name].
  symmetry. by apply index_lookup.
Qed.

(** ** Row numbers *)
Definition rows_from {A} (count : A -> nat) (k : nat) (rows : list A) : list N :=
  concat (imap (fun i r => replicate (count r) (N.of_nat (k + i))) rows).
Lemma rows_from_cons {A} (count : A -> nat) k r rows :
  rows_from count k (r :: rows) = replicate (count r) (N.of_nat k) ++ rows_from count (S k) rows.
Proof.
  unfold rows_from. cbn [imap concat]. f_equal; [f_equal; f_equal; lia|]. f_equal. apply imap_ext. intros i y _. cbn. f_equal. f_equal. lia.
Qed.
Lemma row_numbers_from {A} (count : A -> nat) rows : row_numbers count rows = rows_from count 0 rows.
Proof. done. Qed.
Lemma rows_sorted {A} (count : A -> nat) rows : forall k, StronglySorted N.le (rows_from count k rows) /\
  Forall (fun x => N.of_nat k <= x) (rows_from count k rows).
Proof.
  induction rows as [|r rows IH]; intros k; [split; constructor|]. rewrite rows_from_cons. destruct (IH (S k)) as [S F].
  assert (F' : Forall (fun x => N.of_nat k <= x) (rows_from count (Datatypes.S k) rows)).
  { eapply Forall_impl; [exact F|]. cbn. intros x Hx. lia. }
  split.
  - induction (count r) as [|c IHc]; [done|]. cbn [replicate app]. constructor; [done|]. apply Forall_app. split; [|done].
    apply Forall_replicate. lia.
  - apply Forall_app. split; [|done]. apply Forall_replicate. lia.
Qed.
Lemma rows_elem {A} (count : A -> nat) rows : forall k x,
  x ∈ rows_from count k rows <-> exists i r, rows !! i = Some r /\ count r <> 0%nat /\ x = N.of_nat (k + i).
Proof.
  induction rows as [|r rows IH]; intros k x.
  - split; [intros H; by apply elem_of_nil in H|]. by intros (i & r & H & _).
  - rewrite rows_from_cons, elem_of_app, elem_of_replicate, IH. split.
    + intros [[-> N]|(i & y & Hy & N & ->)].
      * exists 0%nat, r. split; [done|]. split; [done|]. f_equal. lia.
      * exists (S i), y. split; [done|]. split; [done|]. f_equal. lia.
    + intros ([|i] & y & Hy & N & ->).
      * injection Hy as <-. left. split; [f_equal; lia|done].
      * right. exists i, y. split; [done|]. split; [done|]. f_equal. lia.
Qed.
Lemma rows_NoDup {A} (count : A -> nat) rows : (forall r, (count r <= 1)%nat) -> forall k, NoDup (rows_from count k rows).
Proof.
  intros H. induction rows as [|r rows IH]; intros k; [constructor|]. rewrite rows_from_cons. apply NoDup_app. split; [|split; [|apply IH]].
  - specialize (H r). destruct (count r) as [|[|c]]; [constructor|apply NoDup_singleton|lia].
  - intros x [-> _]%elem_of_replicate Hx. destruct (rows_sorted count rows (S k)) as [_ F].
    rewrite Forall_forall in F. specialize (F _ Hx). lia.
Qed.

(** ** Categories and tags *)
Lemma has_option_lists raw i options k v : raw !! i = Some options -> has_option k v options <-> lists_option raw i k v.
Proof.
  intros Hi. unfold has_option, lists_option. rewrite Exists_exists. split.
  - intros (o & Ho & E1 & E2). eauto 8.
  - intros (options' & o & Hi' & Ho & E1 & E2). rewrite Hi in Hi'. injection Hi' as <-. eauto.
Qed.
Lemma sublist_NoDup {A} (l k : list A) : l `sublist_of` k -> NoDup k -> NoDup l.
Proof.
  induction 1 as [|x l k S IH|x l k S IH]; [done| |]; intros Nd; inversion Nd as [|? ? Nx Nk]; subst.
  - constructor; [|by apply IH]. intros H. apply Nx. apply elem_of_list_lookup in H as [i Hi].
    by eapply elem_of_submseteq; [eapply elem_of_list_lookup_2|apply sublist_submseteq].
  - by apply IH.
Qed.
Lemma positions_sids ps : positions ps -> NoDup (map p_sid ps).
Proof.
  intros W. apply NoDup_alt. intros i j x Hi Hj. rewrite list_lookup_fmap in Hi, Hj.
  destruct (ps !! i) as [p|] eqn:Ei; [|done]. destruct (ps !! j) as [q|] eqn:Ej; [|done]. cbn in Hi, Hj.
  injection Hi as <-. injection Hj as E. rewrite (W _ _ Ei), (W _ _ Ej) in E. lia.
Qed.
Lemma option_refs raw ps content k v : length raw = length ps -> positions ps -> content `sublist_of` ps ->
  (forall i p, ps !! i = Some p -> p ∈ content <-> lists_option raw i k v) ->
  lenN (enc_product_refs content) =
  list_bytes (row_numbers (fun options => if decide (has_option k v options) then 1%nat else 0%nat) raw).
Proof.
  intros Ln W S H. unfold enc_product_refs. apply enc_seq_bytes; [|apply (rows_sorted _ _ 0%nat)]. rewrite row_numbers_from. apply NoDup_Permutation.
  - eapply sublist_NoDup; [|by apply (positions_sids ps)]. clear -S. induction S; cbn [map]; by constructor.
  - apply rows_NoDup. intros r. case_decide; lia.
  - intros x. rewrite rows_elem, elem_of_list_fmap. split.
    + intros (p & -> & Hp). assert (Hps : p ∈ ps) by (eapply elem_of_submseteq; [done|by apply sublist_submseteq]).
      apply elem_of_list_lookup in Hps as [i Hi]. destruct (raw !! i) as [options|] eqn:Hr.
      2: { apply lookup_ge_None in Hr. apply lookup_lt_Some in Hi. lia. }
      exists i, options. split; [done|]. split; [|by apply W].
      rewrite decide_True; [done|]. apply (has_option_lists raw i); [done|]. by apply (H i p).
    + intros (i & options & Hr & C & ->). destruct (ps !! i) as [p|] eqn:Hi.
      2: { apply lookup_ge_None in Hi. apply lookup_lt_Some in Hr. lia. }
      exists p. split; [symmetry; by apply W|]. apply (H i p); [done|]. apply (has_option_lists raw i options); [done|].
      destruct (decide (has_option k v options)); done.
Qed.
Lemma tag_refs raw ps t : length raw = length ps -> positions ps ->
  lenN (enc_product_refs (tag_owners raw ps t)) = list_bytes (row_numbers (fun tags => length (filter (fun s => s = t) tags)) raw).
Proof.
  intros Ln W. unfold enc_product_refs. apply enc_seq_bytes; [|apply (rows_sorted _ _ 0%nat)]. rewrite row_numbers_from.
  apply reflexive_eq. unfold tag_owners.
  assert (G : forall k raw ps, length raw = length ps -> (forall i p, ps !! i = Some p -> p_sid p = N.of_nat (k + i)) ->
    map p_sid (concat (zip_with (fun tags p => map (fun _ => p) (filter (fun s => s = t) tags)) raw ps)) =
    rows_from (fun tags => length (filter (fun s => s = t) tags)) k raw); [|apply G; [done|]; intros i p Hp; by apply W].
  clear. intros k raw. revert k. induction raw as [|tags raw IH]; intros k [|p ps] Ln W; try done.
  rewrite rows_from_cons. cbn [zip_with concat]. rewrite map_app, (IH (S k)).
  - f_equal. pose proof (W 0%nat p eq_refl) as E. rewrite Nat.add_0_r in E. rewrite map_map, E.
    induction (filter _ tags) as [|s l IHl]; [done|]. cbn [map length replicate]. by f_equal.
  - by injection Ln.
  - intros i q Hq. rewrite (W (S i) q Hq). f_equal. lia.
Qed.
Section whole.
Context (parse : rstr -> option f32).
Lemma products_part o input c cl : optimize parse o input = Done (c, cl) ->
  lenN (enc_container no_order no_order c) = texts_bytes (vendor_names input) + products_bytes input + columns_bytes input.
Proof.
  intros (prices & H & D & W & V & T & C & _)%optimize_inv. unfold enc_container. rewrite !lenN_app, V, vendors_bytes.
  rewrite <- N.add_assoc. do 2 f_equal.
  - assert (L : lenN (c_products c) = lenN input) by (unfold lenN; f_equal; symmetry; by eapply Forall2_length).
    unfold enc_vec, products_bytes, enc_usize. rewrite lenN_app, enc_number, L. f_equal.
    rewrite lenN_concat, map_map. rewrite V in T. clear -D T.
    assert (G : forall raws ps, Forall2 describes raws ps -> Forall (fun p => vm_tags (raw_vendors input) !! v_name (p_vendor p) = Some (p_vendor p)) ps ->
      sum_N (map (fun x => lenN (enc_product x)) ps) = sum_N (map (product_bytes input) raws)); [|by apply G].
    induction 1 as [|raw p raws ps Hd _ IH]; intros Tp; [done|]. apply Forall_cons in Tp as [Hp Tp]. cbn [map]. rewrite !sum_cons.
    by rewrite (enc_product_bytes input raw p Hd Hp), IH.
  - destruct C as (C1 & C2 & C3). unfold enc_features, columns_bytes.
    assert (Lp : length prices = length input) by (symmetry; by eapply Forall2_length).
    set (l1 := if decide (input = []) then [] else [(s_price, FFloat prices)]).
    set (l2 := if decide (first_images input = []) then [] else [(s_image_url, FString (first_images input))]).
    assert (E : map_to_list (c_features c) ≡ₚ l1 ++ l2).
    { apply NoDup_Permutation.
      - apply NoDup_map_to_list.
      - unfold l1, l2. repeat case_decide; cbn [app]; try (apply NoDup_nil_2 || apply NoDup_singleton).
        apply NoDup_cons. split; [|apply NoDup_singleton]. intros X%elem_of_list_singleton. discriminate.
      - intros [k v]. etrans; [apply elem_of_map_to_list|]. rewrite elem_of_app. unfold l1, l2. split.
        + intros Hk. destruct (decide (k = s_price)) as [->|N1].
          { left. pose proof (eq_trans (eq_sym Hk) C1) as Hk'. clear Hk. rename Hk' into Hk. destruct prices as [|x prices]; [done|]. cbn in Hk. injection Hk as <-.
            rewrite decide_False by (intros ->; done). by left. }
          destruct (decide (k = s_image_url)) as [->|N2]; [|pose proof (eq_trans (eq_sym Hk) (C3 k N1 N2)); done].
          right. pose proof (eq_trans (eq_sym Hk) C2) as Hk'. clear Hk. rename Hk' into Hk. destruct (first_images input) as [|x xs]; [done|]. cbn in Hk. injection Hk as <-.
          rewrite decide_False by done. by left.
        + intros [Hk|Hk].
          * destruct (decide (input = [])) as [|Ni]; [by apply elem_of_nil in Hk|]. apply elem_of_list_singleton in Hk. injection Hk as -> ->.
            etrans; [exact C1|]. destruct prices; [|done]. destruct input; done.
          * destruct (decide (first_images input = [])) as [|Ni]; [by apply elem_of_nil in Hk|]. apply elem_of_list_singleton in Hk. injection Hk as -> ->.
            etrans; [exact C2|]. by destruct (first_images input). }
    rewrite (enc_map_bytes _ _ _ _ E), map_app, sum_app.
    assert (N1 : number_bytes (lenN (l1 ++ l2)) = 1) by (unfold l1, l2; by repeat case_decide).
    rewrite N1, <- N.add_assoc. do 2 f_equal.
    + unfold l1. case_decide as Ni; [done|]. cbn [map]. rewrite sum_cons. cbn [sum_N foldr]. rewrite N.add_0_r, enc_str_bytes.
      rewrite <- N.add_assoc. unfold s_price. f_equal. cbn [enc_feature]. rewrite lenN_app.
      replace (lenN (enc_u8 1)) with 1 by done. f_equal. unfold enc_vec. rewrite (enc_list_bytes enc_f32 (fun _ => 4)) by done.
      assert (lenN prices = lenN input) as -> by (unfold lenN; by rewrite Lp). f_equal.
      assert (L : lenN input = lenN prices) by (unfold lenN; by rewrite Lp). rewrite L. clear.
      induction prices as [|x l IH]; [done|]. cbn [map]. rewrite sum_cons, IH, lenN_cons. lia.
    + unfold l2. case_decide as Ni; [done|]. cbn [map]. rewrite sum_cons. cbn [sum_N foldr]. rewrite N.add_0_r, enc_str_bytes.
      rewrite <- N.add_assoc. unfold s_image_url. f_equal. cbn [enc_feature]. rewrite lenN_app.
      replace (lenN (enc_u8 0)) with 1 by done. f_equal. unfold enc_vec, texts_bytes. apply enc_list_bytes. intros x _. apply enc_str_bytes.
Qed.
Lemma categories_part o input c cl : optimize parse o input = Done (c, cl) ->
  lenN (enc_categories (cl_categories cl)) = categories_bytes (map r_options input).
Proof.
  intros H. pose proof (optimize_products parse o input c cl H) as [D W]. apply optimize_categories in H as [E1 E2].
  assert (Ln : length (map r_options input) = length (c_products c)) by (rewrite map_length; by eapply Forall2_length).
  unfold enc_categories, categories_bytes. cbv zeta.
  rewrite (enc_list_bytes enc_category (fun cat => category_bytes (map r_options input) (cat_name cat))).
  - rewrite <- E1, map_map. f_equal. f_equal. unfold lenN. by rewrite map_length.
  - intros cat Hc. destruct (E2 cat Hc) as (X & O & Q). unfold enc_category, category_bytes. cbv zeta. rewrite lenN_app, lenN_app.
    replace (lenN (enc_bool (cat_exclusive cat))) with 1 by (by destruct (cat_exclusive cat)). rewrite enc_str_bytes.
    rewrite (enc_list_bytes (fun o => enc_str (o_name o) ++ enc_product_refs (o_content o)) (fun o => option_bytes (map r_options input) (cat_name cat) (o_name o))).
    + rewrite <- O, map_map. assert (L : lenN (map o_name (cat_options cat)) = lenN (cat_options cat)) by (unfold lenN; by rewrite map_length).
      rewrite L. lia.
    + intros opt Ho. destruct (Q opt Ho) as (S & M & _). unfold option_bytes. rewrite lenN_app, enc_str_bytes. f_equal.
      by apply (option_refs _ (c_products c)).
Qed.
Lemma tags_part o input c cl : valid_order (bo_tags o) -> optimize parse o input = Done (c, cl) ->
  lenN (enc_tags (cl_tags cl)) = tags_bytes (map r_tags input).
Proof.
  intros Ho H. pose proof (optimize_products parse o input c cl H) as [D W]. apply optimize_tags in H as (Nd & M & _ & Q); [|done].
  assert (Ln : length (map r_tags input) = length (c_products c)) by (rewrite map_length; by eapply Forall2_length).
  unfold enc_tags, enc_vec, tags_bytes. cbv zeta.
  rewrite (enc_list_bytes enc_tag (fun t => tag_bytes (map r_tags input) (t_name t))).
  - assert (E : map t_name (cl_tags cl) ≡ₚ first_seen (concat (map r_tags input))).
    { apply NoDup_Permutation; [done|apply first_seen_NoDup|]. intros x. rewrite M, first_seen_elem, elem_of_concat. split.
      - intros (i & tags & Hi & Hx). exists tags. split; [done|]. by eapply elem_of_list_lookup_2.
      - intros (tags & Hx & Ht). apply elem_of_list_lookup in Ht as [i Hi]. exists i, tags. done. }
    rewrite <- (sum_perm_N _ _ (Permutation_map (tag_bytes (map r_tags input)) E)), map_map. f_equal. f_equal.
    apply Permutation_length in E. rewrite map_length in E. unfold lenN. by rewrite E.
  - intros t Ht. destruct (Q t Ht) as (E & _). unfold enc_tag, tag_bytes. rewrite lenN_app, enc_str_bytes, E. f_equal. by apply tag_refs.
Qed.
Lemma orders_part o input c cl : optimize parse o input = Done (c, cl) ->
  lenN (enc_orders no_order (cl_order cl)) = orders_bytes input.
Proof.
  intros (a & u & d & E & F)%optimize_orders_perm. unfold enc_orders.
  assert (L : map_to_list (cl_order cl) ≡ₚ [(s_price_down, d); (s_price_up, u); (s_alphabetical, a)]).
  { rewrite E. etrans; [apply (map_to_list_insert (M := gmap rstr))|].
    - etrans; [apply (lookup_insert_ne (M := gmap rstr)); discriminate|]. etrans; [apply (lookup_insert_ne (M := gmap rstr)); discriminate|]. done.
    - apply Permutation_skip. etrans; [apply (map_to_list_insert (M := gmap rstr))|].
      + etrans; [apply (lookup_insert_ne (M := gmap rstr)); discriminate|]. done.
      + apply Permutation_skip. etrans; [by apply (map_to_list_insert (M := gmap rstr))|].
        apply Permutation_skip. apply reflexive_eq. apply (map_to_list_empty (M := gmap rstr)). }
  rewrite (enc_map_bytes _ _ _ _ L). unfold orders_bytes. f_equal.
  assert (R : forall ranks, ranks ≡ₚ map N.of_nat (seq 0 (length input)) ->
    lenN (enc_vec enc_usize ranks) = number_bytes (lenN input) + sum_N (map (fun i => number_bytes (N.of_nat i)) (seq 0 (length input)))).
  { intros ranks P. unfold enc_vec. rewrite (enc_list_bytes enc_usize number_bytes) by (intros; apply enc_number). f_equal.
    - f_equal. unfold lenN. apply Permutation_length in P. rewrite map_length, seq_length in P. by rewrite P.
    - rewrite (sum_perm_N _ _ (Permutation_map number_bytes P)), map_map. done. }
  apply Forall_cons in F as [Fa F]. apply Forall_cons in F as [Fu F]. apply Forall_cons in F as [Fd _].
  cbn [map]. rewrite !sum_cons, !enc_str_bytes, (R a Fa), (R u Fu), (R d Fd). cbn [sum_N foldr]. unfold order_bytes, s_price_down, s_price_up, s_alphabetical. lia.
Qed.
End whole.

(** ** The file *)
Theorem file_size low parse P n bo ro so input bytes : (1 <= n)%nat -> valid_build_order bo -> valid_ser_order so ->
  total_grams (map (raw_text low) input) < 2 ^ 32 ->
  index_and_serialize_with_n low parse P n bo ro so input = Done bytes ->
  lenN bytes = file_bytes low n (maximum_product_amount P (lenN input)) input.
Proof.
  intros Hn Hb Hs Hg. unfold index_and_serialize_with_n.
  destruct (optimize parse bo input) as [[c cl]| | |] eqn:O; try done. cbn [mbind res_bind].
  destruct (index_from P n bo _ c) as [gi| | |] eqn:I; try done. cbn [mbind res_bind].
  destruct (gram_search n ro gi _) as [r| | |]; try done. cbn [mbind res_bind]. intros [= <-].
  pose proof (optimize_products parse bo input c cl O) as [D W]. pose proof (raw_grams low _ _ D) as G.
  unfold lenN at 1. rewrite serialize_all_length by done.
  assert (Hg' : total_grams (map snd (map (fun p => (p, product_grams low p)) (c_products c))) < 2 ^ 32) by by rewrite G.
  destruct (index_from_length _ _ _ _ _ _ _ _ Hb Hb I I) as (Ep & _).
  pose proof (trie_part P n bo _ c gi Hn Hb Hg' I) as T. rewrite G in T.
  pose proof (posting_part P n bo (c_products c) (product_grams low) c gi Hn Hb W Hg' I) as Q.
  assert (G' : map (product_grams low) (c_products c) = map (raw_text low) input) by (rewrite <- G, map_map; done).
  assert (L : lenN (c_products c) = lenN input) by (unfold lenN; f_equal; symmetry; by eapply Forall2_length).
  rewrite G', L in Q.
  pose proof (products_part parse bo input c cl O) as P1. pose proof (categories_part parse bo input c cl O) as P2.
  pose proof (tags_part parse bo input c cl ltac:(apply Hb) O) as P3. pose proof (orders_part parse bo input c cl O) as P4.
  rewrite Ep. unfold file_bytes, catalogue_bytes. rewrite <- P2, <- P3, <- P4, <- Q, <- T. unfold lenN in *. lia.
Qed.
