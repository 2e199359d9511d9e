(** How many bytes a file takes. *)
From Verif.model Require Import Base F32 Utf8 Prim Coll Data Gram Indexer Nodes Classic Lit Raw Js Lib.
From Verif.spec Require Import Spec Data_spec Gram_spec Classic_spec Raw_spec End_spec Samples.
From Verif.proofs Require Import Base_facts Sort_facts Prim_facts Prim_codec Codec_lemmas Utf8_facts Coll_facts Data_facts File_facts Sample_facts
  Indexer_facts Trie_facts Trie_props Order_facts Classic_facts Raw_facts Raw_props End_facts Cost_facts Size_facts Length_facts.
From Coq Require Import Arith ZifyBool ZifyNat ZifyN.
From Verif.spec Require Import Cost_spec.
Ltac Zify.zify_post_hook ::= Z.div_mod_to_equations.
Notation blen s := (length (utf8 s)).
Notation sum f l := (list_sum (map f l)).

(** ** Sums *)
Lemma list_sum_cons x l : list_sum (x :: l) = (x + list_sum l)%nat.
Proof. done. Qed.
Lemma sum_cons {A} (f : A -> nat) x l : sum f (x :: l) = (f x + sum f l)%nat.
Proof. done. Qed.
Lemma sum_app {A} (f : A -> nat) l k : sum f (l ++ k) = (sum f l + sum f k)%nat.
Proof. by rewrite map_app, list_sum_app. Qed.
Lemma sum_submseteq {A} (f : A -> nat) l k : l ⊆+ k -> (sum f l <= sum f k)%nat.
Proof. intros (r & E)%submseteq_Permutation. rewrite (sum_map_perm f _ _ E), sum_app. lia. Qed.
Lemma sum_incl {A} (f : A -> nat) l k : NoDup l -> (forall x, x ∈ l -> x ∈ k) -> (sum f l <= sum f k)%nat.
Proof. intros ND H. by apply sum_submseteq, NoDup_submseteq. Qed.
Lemma sum_const {A} (l : list A) c : sum (fun _ => c) l = (c * length l)%nat.
Proof. unfold list_sum. induction l as [|x l IH]; cbn [map foldr length]; lia. Qed.
Lemma sum_add {A} (f : A -> nat) c l : sum (fun x => c + f x)%nat l = (c * length l + sum f l)%nat.
Proof. by rewrite list_sum_plus, sum_const. Qed.
Lemma sum_scale {A} (f : A -> nat) c l : sum (fun x => c * f x)%nat l = (c * sum f l)%nat.
Proof. unfold list_sum. induction l as [|x l IH]; cbn [map foldr]; lia. Qed.
Lemma sum_concat {A} (f : A -> nat) ls : sum f (concat ls) = sum (fun l => sum f l) ls.
Proof. induction ls as [|l ls IH]; [done|]. cbn [concat]. rewrite sum_app, IH. done. Qed.
Lemma count_le `{EqDecision A} (keys ws : list A) : NoDup keys ->
  (sum (fun key => length (filter (fun w => w = key) ws)) keys <= length ws)%nat.
Proof.
  intros Hk. induction ws as [|w ws IH].
  - rewrite (map_ext _ (fun _ => 0%nat)) by done. rewrite sum_const. cbn; lia.
  - assert (E : forall key, length (filter (fun w => w = key) (w :: ws)) =
       ((if decide (w = key) then 1 else 0) + length (filter (fun w => w = key) ws))%nat).
    { intros key. rewrite filter_cons. by destruct (decide (w = key)). }
    rewrite (map_ext _ _ E), list_sum_plus. cbn [length].
    assert (sum (fun key => if decide (w = key) then 1 else 0)%nat keys <= 1)%nat; [|lia].
    clear -Hk. unfold list_sum. induction Hk as [|k keys Hk Hnd IH]; cbn [map foldr]; [lia|].
    destruct (decide (w = k)) as [->|]; [|lia].
    assert (foldr Nat.add 0 (map (fun key => if decide (k = key) then 1 else 0) keys) = 0)%nat; [|lia].
    clear -Hk. induction keys as [|k' keys IH]; cbn [map foldr]; [done|].
    rewrite elem_of_cons in Hk. destruct (decide (k = k')); [tauto|]. apply IH. tauto.
Qed.
(** Something for each key and something for each mention of it. *)
Lemma sum_mentions `{EqDecision A} (f : A -> nat) c (keys ws : list A) : NoDup keys -> (forall x, x ∈ keys -> x ∈ ws) ->
  (sum (fun key => f key + c * length (filter (fun w => w = key) ws))%nat keys <= sum (fun w => c + f w)%nat ws)%nat.
Proof.
  intros ND H. rewrite list_sum_plus, sum_scale, sum_add. pose proof (sum_incl f keys ws ND H).
  pose proof (count_le keys ws ND). nia.
Qed.

(** ** Primitives *)
Lemma enc_bits v k : v < 2 ^ (7 * k) -> 1 <= k <= 9 -> lenN (enc_u64 v) <= k.
Proof.
  intros Hv Hk. assert (v < 2 ^ 64) as H64.
  { eapply N.lt_le_trans; [exact Hv|]. apply N.pow_le_mono_r; lia. }
  destruct (enc_compact v H64) as [-> _]. apply N.max_lub; [lia|].
  assert (N.size v <= 7 * k); [|lia].
  destruct (N.eq_dec v 0) as [->|Hz]; [cbn; lia|].
  destruct (N.le_gt_cases (N.size v) (7 * k)) as [|Hgt]; [done|exfalso].
  pose proof (N.size_le v) as Hs. assert (2 ^ (7 * k + 1) <= 2 ^ N.size v) as Hp by (apply N.pow_le_mono_r; lia).
  rewrite N.pow_add_r in Hp. change (2 ^ 1) with 2 in Hp. rewrite N.succ_double_spec in Hs. lia.
Qed.
Lemma usize_len v : size_ok modest v -> (length (enc_usize v) <= 4)%nat.
Proof.
  intros [_ H]. change (usize_max modest) with (2 ^ 28 - 1) in H.
  pose proof (enc_bits v 4 ltac:(change (2 ^ (7 * 4)) with (2 ^ 28); lia) ltac:(lia)) as E. unfold lenN in E. unfold enc_usize. lia.
Qed.
Lemma char_len3 v : is_scalar v = true -> (length (enc_char v) <= 3)%nat.
Proof.
  intros H. assert (v < 2 ^ 21) as Hv. { unfold is_scalar in H. lia. }
  pose proof (enc_bits v 3 Hv ltac:(lia)) as E. unfold lenN in E. unfold enc_char, enc_u32. lia.
Qed.
Lemma str_bytes s : str_ok modest s -> (length (enc_str s) <= 4 + blen s)%nat.
Proof. intros [_ H]. unfold enc_str. rewrite app_length. pose proof (usize_len _ H). lia. Qed.
Lemma vec_bytes {A} (enc : encoder A) l : size_ok modest (lenN l) ->
  (length (enc_vec enc l) <= 4 + sum (fun x => length (enc x)) l)%nat.
Proof. intros H. unfold enc_vec. rewrite app_length, concat_map_length. pose proof (usize_len _ H). lia. Qed.
Lemma deltas_le prev l : Forall (size_ok modest) l -> Forall (size_ok modest) (deltas prev l).
Proof.
  intros H. revert prev. induction H as [|x l Hx _ IH]; intros prev; [constructor|]. cbn [deltas]. constructor; [|apply IH].
  unfold size_ok in *. destruct prev; lia.
Qed.
Lemma deltas_length prev l : length (deltas prev l) = length l.
Proof. revert prev. induction l as [|x l IH]; intros prev; [done|]. cbn [deltas length]. by rewrite IH. Qed.
Lemma seq_bytes l : size_ok modest (lenN l) -> Forall (size_ok modest) l -> (length (enc_seq l) <= 4 + 4 * length l)%nat.
Proof.
  intros Hl Hx. unfold enc_seq. rewrite app_length, concat_map_length.
  assert (lenN (sort_by N.compare l) = lenN l) as -> by (unfold lenN; by rewrite sort_by_length).
  pose proof (usize_len _ Hl).
  assert (sum (fun x => length (enc_usize x)) (deltas None (sort_by N.compare l)) <= 4 * length l)%nat; [|lia].
  etrans; [apply (list_sum_le _ (fun _ => 4%nat))|].
  - intros x Hx'. apply usize_len. revert x Hx'. apply Forall_forall, deltas_le. by rewrite sort_by_perm.
  - rewrite sum_const, deltas_length, sort_by_length. lia.
Qed.
Lemma refs_bytes ps l : Forall (fun p => size_ok modest (p_sid p)) ps -> refs_ok modest ps l ->
  (length (enc_product_refs l) <= 4 + 4 * length l)%nat.
Proof.
  intros Hp (Hin & [Hl _] & _). unfold enc_product_refs.
  rewrite <- (map_length p_sid l) at 1. etrans; [apply seq_bytes|by rewrite map_length].
  - by rewrite lenN_map.
  - rewrite Forall_map. rewrite Forall_forall in *. intros p H. by apply Hp, Hin.
Qed.

(** ** The trie *)
Lemma node_bytes nd : node_ok modest nd -> (length (enc_node nd) <= 11 * node_count nd)%nat.
Proof.
  induction nd as [item weight children IH] using node_ind'. intros H. inversion H as [? ? ? H1 H2 H3 H4]; subst.
  rewrite enc_node_length. cbn [node_count]. pose proof (char_len3 item H1). pose proof (usize_len _ (proj1 H3)).
  assert (sum (fun nd => length (enc_node nd)) children <= 11 * sum node_count children)%nat; [|lia].
  rewrite <- sum_scale. apply list_sum_le. intros x Hx. rewrite Forall_forall in *. auto.
Qed.
Lemma index_bytes n gi : (n <= 764)%nat -> gram_index_ok modest n gi ->
  (length (enc_usize (N.of_nat (size (gi_roots gi)))) + root_bytes (map_to_list (gi_roots gi)) +
   length (enc_map no_order (enc_array enc_char) enc_product_refs (gi_data gi)) <=
   8 + 3 * size (gi_roots gi) + 11 * trie_nodes (gi_roots gi) + (3 * n + 6) * size (gi_data gi) +
   4 * posting_entries (gi_data gi))%nat.
Proof.
  intros Hn ((_ & _ & _ & Hpos & Hps & _) & Hr & Hroot & Hd & Hsn & Hdata).
  assert (Hsid : Forall (fun p => size_ok modest (p_sid p)) (c_products (gi_container gi))).
  { eapply Forall_impl; [exact Hps|]. intros p Hp. apply Hp. }
  rewrite enc_map_length by by intros l.
  pose proof (usize_len _ (proj1 Hr)). pose proof (usize_len _ (proj1 Hd)).
  assert (root_bytes (map_to_list (gi_roots gi)) <= 3 * size (gi_roots gi) + 11 * trie_nodes (gi_roots gi))%nat.
  { unfold root_bytes, trie_nodes. etrans; [apply (list_sum_le _ (fun '(_, nd) => 3 + 11 * node_count nd)%nat)|].
    - intros [k nd] Hk. apply elem_of_map_to_list in Hk. destruct (Hroot _ _ Hk) as [H1 H2].
      pose proof (char_len3 k H1). pose proof (node_bytes nd H2). lia.
    - rewrite (map_ext _ (fun x => 3 + 11 * node_count x.2)%nat) by by intros [].
      rewrite sum_add, sum_scale. rewrite (map_ext (fun x => node_count x.2) (fun '(_, nd) => node_count nd)) by by intros []. done. }
  assert (sum (fun '(k, v) => length (enc_array enc_char k) + length (enc_product_refs v))%nat (map_to_list (gi_data gi)) <=
    (3 * n + 6) * size (gi_data gi) + 4 * posting_entries (gi_data gi))%nat; [|lia].
  unfold posting_entries. etrans; [apply (list_sum_le _ (fun '(_, l) => (3 * n + 6) + 4 * length l)%nat)|].
  - intros [k l] Hk. apply elem_of_map_to_list in Hk. destruct (Hdata _ _ Hk) as (K1 & K2 & K3).
    pose proof (refs_bytes _ _ Hsid K3). unfold enc_array. rewrite app_length, concat_map_length.
    assert (length (enc_u64 (lenN k)) <= 2)%nat.
    { pose proof (enc_bits (lenN k) 2 ltac:(unfold lenN; change (2 ^ (7 * 2)) with 16384; lia) ltac:(lia)) as E. unfold lenN in *. lia. }
    assert (sum (fun c => length (enc_char c)) k <= 3 * n)%nat; [|lia].
    etrans; [apply (list_sum_le _ (fun _ => 3%nat))|rewrite sum_const; lia].
    intros c Hc. apply char_len3. unfold valid_str in K2. rewrite Forall_forall in K2. auto.
  - rewrite (map_ext _ (fun x => (3 * n + 6) + 4 * length x.2)%nat) by by intros [].
    rewrite sum_add, sum_scale. rewrite (map_ext (fun x => length x.2) (fun '(_, l) => length l)) by by intros []. done.
Qed.

(** ** The strings *)
Lemma strings_sum (g : rstr -> nat) input :
  sum g (catalogue_strings input) =
  (sum g (map r_title input) + sum g (map r_id input) + sum g (map r_vendor input) + sum g (map r_description input) +
   sum g (concat (map r_tags input)) + sum g (concat (map r_media input)) +
   sum g (category_mentions (map r_options input)) + sum (fun kv => g kv.2) (pair_mentions (map r_options input)))%nat.
Proof.
  unfold catalogue_strings, category_mentions, pair_mentions.
  induction input as [|raw input IH]; [done|]. cbn [map concat]. rewrite !sum_app, IH.
  unfold raw_strings. rewrite !map_app, !concat_app, !sum_app. cbn [map].
  assert (E : sum g (concat (map (fun o => ro_name o :: ro_values o) (r_options raw))) =
    (sum g (map ro_name (r_options raw)) + sum (fun kv : rstr * rstr => g kv.2) (concat (map (fun o => map (pair (ro_name o)) (ro_values o)) (r_options raw))))%nat).
  { induction (r_options raw) as [|o os IHo]; [done|]. change (map ro_name (o :: os)) with (ro_name o :: map ro_name os).
    cbn [map concat]. rewrite !sum_app, IHo, !sum_cons.
    assert (sum (fun kv : rstr * rstr => g kv.2) (map (pair (ro_name o)) (ro_values o)) = sum g (ro_values o)) as -> by by rewrite map_map.
    rewrite list_sum_cons. lia. }
  rewrite !list_sum_app, E, !list_sum_cons. change (list_sum []) with 0%nat. lia.
Qed.

Lemma limited_bytes s max : (blen (limit_string_len s max) <= blen s)%nat.
Proof.
  destruct (truncation s max) as [(t & E & _) _]. rewrite E at 2. unfold utf8. rewrite map_app, concat_app, app_length. lia.
Qed.

Lemma tag_count raw (ps : list product) t : (length (tag_owners raw ps t) <= length (filter (fun s => s = t) (concat raw)))%nat.
Proof.
  unfold tag_owners. revert ps. induction raw as [|tags raw IH]; intros ps; [done|]. destruct ps as [|p ps]; [cbn; lia|].
  cbn [zip_with concat]. rewrite filter_app, !app_length, map_length. specialize (IH ps). lia.
Qed.
Lemma option_count k v : forall raw (ps content : list product), content `sublist_of` ps -> length raw = length ps ->
  (forall i p, ps !! i = Some p -> p ∈ content -> lists_option raw i k v) ->
  (length content <= length (filter (fun kv => kv = (k, v)) (pair_mentions raw)))%nat.
Proof.
  induction raw as [|os raw IH]; intros ps content Hs Hl H.
  { destruct ps; [|done]. apply sublist_nil_r in Hs. by subst. }
  destruct ps as [|p ps]; [done|]. cbn [length] in Hl.
  assert (pair_mentions (os :: raw) = concat (map (fun o => map (pair (ro_name o)) (ro_values o)) os) ++ pair_mentions raw) as ->.
  { unfold pair_mentions. cbn [concat]. by rewrite map_app, concat_app. }
  rewrite filter_app, app_length.
  apply sublist_cons_r in Hs as [Hs|(content' & -> & Hs)].
  - specialize (IH ps content Hs ltac:(lia)). etrans; [apply IH|lia]. intros i q Hi Hq.
    destruct (H (S i) q Hi Hq) as (os' & x & K). by exists os', x.
  - cbn [length]. specialize (IH ps content' Hs ltac:(lia)).
    assert (length content' <= length (filter (fun kv => kv = (k, v)) (pair_mentions raw)))%nat.
    { apply IH. intros i q Hi Hq. destruct (H (S i) q Hi ltac:(by right)) as (os' & x & K). by exists os', x. }
    destruct (H 0%nat p eq_refl ltac:(left)) as (os' & x & [= <-] & Hx & Hk & Hv).
    assert ((k, v) ∈ filter (fun kv => kv = (k, v)) (concat (map (fun o => map (pair (ro_name o)) (ro_values o)) os))) as Hin.
    { apply elem_of_list_filter. split; [done|]. apply elem_of_concat. exists (map (pair (ro_name x)) (ro_values x)). split.
      - subst k. by apply elem_of_list_fmap_1.
      - apply elem_of_list_fmap. by exists x. }
    destruct (filter _ (concat _)); [by apply elem_of_nil in Hin|]. cbn [length]. lia.
Qed.
Definition all_pairs (cats : list category) : list (rstr * rstr) :=
  concat (map (fun cat => map (fun opt => (cat_name cat, o_name opt)) (cat_options cat)) cats).
Lemma all_pairs_NoDup cats : NoDup (map cat_name cats) -> Forall (fun cat => NoDup (map o_name (cat_options cat))) cats ->
  NoDup (all_pairs cats).
Proof.
  unfold all_pairs. induction cats as [|cat cats IH]; cbn [map concat]; [intros; constructor|].
  intros [Hc Hn]%NoDup_cons [Ho HF]%Forall_cons. apply NoDup_app. split; [|split; [|by apply IH]].
  - rewrite <- (map_map o_name (fun name => (cat_name cat, name))). apply NoDup_fmap; [|done]. intros a b [= ->]. done.
  - intros kv (opt & -> & _)%elem_of_list_fmap Hin. apply elem_of_concat in Hin as (l & Hin & Hl).
    apply elem_of_list_fmap in Hl as (cat' & -> & Hcat'). apply elem_of_list_fmap in Hin as (opt' & [= E _] & _).
    apply Hc. rewrite E. by apply elem_of_list_fmap_1.
Qed.

(** ** The catalogue *)
Section catalogue.
Context (parse : rstr -> option f32) (low : N -> list N) (o : build_order) (input : list raw_product)
  (c : container) (cl : classic).
Context (Hf : raw_fits modest low input) (Hparse : parse_ok parse) (E : optimize parse o input = Done (c, cl))
  (Ho : valid_order (bo_tags o)).
Let CO := container_storable parse low modest o input c cl Hf Hparse E.
Let CL := classic_storable parse low modest o input c cl Hf Hparse E Ho.

Lemma vendor_bytes : (length (enc_vendors no_order (c_vendors c)) <= 4 + sum (fun s => 4 + blen s)%nat (map r_vendor input))%nat.
Proof.
  destruct (optimize_inv parse o input c cl E) as (prices & Hp & D & W & V & Vt & C & _).
  pose proof (raw_vendors_are input) as (ND & Bi & T).
  destruct CO as ((names & HV & HS & [HL _] & _) & _). rewrite enc_vendors_length by by intros l.
  assert (Hk : forall k v, vm_tags (c_vendors c) !! k = Some v -> v_name v = k /\ k ∈ map r_vendor input /\ str_ok modest k).
  { intros k v Hk. rewrite V in Hk. pose proof Hk as Hk'. apply T in Hk as [Hv Hn]. split; [done|].
    assert (k ∈ first_seen (map r_vendor input)) as Hin.
    { rewrite <- Hn. unfold numbered in Hv. apply elem_of_list_lookup in Hv as [i Hi]. rewrite list_lookup_imap in Hi.
      destruct (first_seen (map r_vendor input) !! i) as [name|] eqn:En; [|done]. injection Hi as <-. by eapply elem_of_list_lookup_2. }
    rewrite first_seen_elem in Hin. split; [done|]. apply elem_of_list_fmap in Hin as (raw & -> & Hr).
    destruct (raw_ok low modest input Hf raw Hr) as (_ & F & _). rewrite Forall_forall in F. apply F. set_solver. }
  assert (size (vm_tags (c_vendors c)) <= length input)%nat as Hsz.
  { rewrite <- (map_length r_vendor). apply (size_bound (K := rstr)). intros k [v Hv]. by apply Hk in Hv as (_ & ? & _). }
  pose proof (usize_len (N.of_nat (size (vm_tags (c_vendors c))))
    ltac:(eapply (fits_count modest low input 0); [exact Hf|reflexivity|unfold lenN; lia])).
  assert (sum (fun '(_, v) => length (enc_vendor v)) (map_to_list (vm_tags (c_vendors c))) <=
    sum (fun s => 4 + blen s)%nat (map fst (map_to_list (vm_tags (c_vendors c)))))%nat.
  { rewrite map_map. apply list_sum_le. intros [k v] Hkv. apply elem_of_map_to_list in Hkv. destruct (Hk _ _ Hkv) as (En & _ & Hok).
    unfold enc_vendor. rewrite En. by apply str_bytes. }
  assert (sum (fun s => 4 + blen s)%nat (map fst (map_to_list (vm_tags (c_vendors c)))) <= sum (fun s => 4 + blen s)%nat (map r_vendor input))%nat; [|lia].
  apply sum_incl; [apply NoDup_fst_map_to_list|]. intros k ([k' v] & -> & Hkv)%elem_of_list_fmap.
  apply elem_of_map_to_list in Hkv. by apply Hk in Hkv as (_ & ? & _).
Qed.
Lemma product_bytes : (length (enc_vec enc_product (c_products c)) <=
  4 + 4 * length input + sum (fun s => 4 + blen s)%nat (map r_title input) + sum (fun s => 4 + blen s)%nat (map r_id input) +
  sum (fun s => 4 + blen s)%nat (map r_description input))%nat.
Proof.
  destruct (optimize_inv parse o input c cl E) as (prices & Hp & D & W & V & Vt & C & _).
  destruct CO as (Hv & _ & Hlen & _ & Hps & _).
  assert (L : length input = length (c_products c)) by by eapply Forall2_length.
  etrans; [by apply vec_bytes|]. rewrite <- !Nat.add_assoc. apply Nat.add_le_mono_l.
  assert (Hid : Forall (fun p => size_ok modest (v_id (p_vendor p))) (c_products c)).
  { destruct Hv as (names & (_ & Hby & _) & _ & [Hl _] & _). eapply Forall_impl; [exact Hps|]. intros p (_ & _ & _ & Hv & _).
    apply lookup_lt_Some in Hv. rewrite Hby in Hv. unfold numbered in Hv. rewrite imap_length in Hv.
    unfold size_ok, lenN in *. lia. }
  clear -D Hps Hid. induction D as [|raw p input ps Hd _ IH]; [done|].
  apply Forall_cons in Hps as [H1 Hps]. apply Forall_cons in Hid as [H2 Hid]. specialize (IH Hps Hid).
  cbn [map length]. rewrite !list_sum_cons. destruct Hd as (D1 & D2 & D3 & D4). destruct H1 as (K1 & K2 & K3 & _).
  unfold enc_product at 1, enc_str_with_limit. rewrite !app_length.
  pose proof (str_bytes _ K2). pose proof (str_bytes _ K3). pose proof (usize_len _ H2).
  assert (str_ok modest (limit_string_len (p_description p) description_limit)) as K4.
  { by apply limit_str_ok. }
  pose proof (str_bytes _ K4). pose proof (limited_bytes (p_description p) description_limit).
  rewrite <- D1, <- D2, <- D3. lia.
Qed.
Lemma sids_ok : Forall (fun p => size_ok modest (p_sid p)) (c_products c).
Proof. destruct CO as (_ & _ & _ & _ & Hps & _). eapply Forall_impl; [exact Hps|]. intros p Hp. apply Hp. Qed.
Lemma tag_bytes : (length (enc_tags (cl_tags cl)) <= 4 + sum (fun s => 12 + blen s)%nat (concat (map r_tags input)))%nat.
Proof.
  destruct (optimize_tags parse o input c cl Ho E) as (Tn & Tm & Tp & T).
  destruct CL as (_ & _ & [Hl _] & Ht & _). unfold enc_tags. etrans; [by apply vec_bytes|]. apply Nat.add_le_mono_l.
  etrans; [|etrans; [apply (sum_mentions (fun s => 8 + blen s)%nat 4 (map t_name (cl_tags cl)) (concat (map r_tags input)))|]].
  - rewrite (map_map t_name). apply list_sum_le. intros t Hin. rewrite Forall_forall in Ht. destruct (Ht t Hin) as (K1 & K2 & _).
    destruct (T t Hin) as (K3 & _). unfold enc_tag. rewrite app_length.
    pose proof (str_bytes _ K1). pose proof (refs_bytes _ _ sids_ok K2).
    pose proof (tag_count (map r_tags input) (c_products c) (t_name t)) as K4. rewrite <- K3 in K4. lia.
  - done.
  - intros name Hname. apply Tm in Hname as (i & tags & Hi & Ht'). apply elem_of_concat. exists tags. split; [done|].
    by eapply elem_of_list_lookup_2.
  - apply list_sum_le. intros s _. lia.
Qed.
Lemma category_bytes : (length (enc_categories (cl_categories cl)) <=
  4 + sum (fun s => 9 + blen s)%nat (category_mentions (map r_options input)) +
  sum (fun kv => 12 + blen kv.2)%nat (pair_mentions (map r_options input)))%nat.
Proof.
  destruct (optimize_categories parse o input c cl E) as [Cn C].
  destruct (optimize_products parse o input c cl E) as [D W].
  assert (L : length (map r_options input) = length (c_products c)) by (rewrite map_length; by eapply Forall2_length).
  destruct CL as ([Hl _] & Hc & _). unfold enc_categories. rewrite app_length, concat_map_length.
  pose proof (usize_len _ Hl). set (count := fun kv => length (filter (fun w => w = kv) (pair_mentions (map r_options input)))).
  assert (S : (sum (fun cat => length (enc_category cat)) (cl_categories cl) <=
    sum (fun s => 9 + blen s)%nat (map cat_name (cl_categories cl)) +
    sum (fun kv => (8 + blen kv.2) + 4 * count kv)%nat (all_pairs (cl_categories cl)))%nat).
  { unfold all_pairs. rewrite sum_concat, (map_map cat_name), (map_map (fun cat => map _ (cat_options cat))), <- list_sum_plus.
    apply list_sum_le. intros cat Hcat. destruct (C cat Hcat) as (_ & On & Oo).
    rewrite Forall_forall in Hc. destruct (Hc cat Hcat) as (K1 & [K2 _] & K3). unfold enc_category. rewrite !app_length, concat_map_length.
    change (length (enc_bool (cat_exclusive cat))) with 1%nat. pose proof (str_bytes _ K1). pose proof (usize_len _ K2).
    rewrite (map_map (fun opt => (cat_name cat, o_name opt))).
    assert (sum (fun opt => length (enc_str (o_name opt) ++ enc_product_refs (o_content opt))) (cat_options cat) <=
      sum (fun opt => 8 + blen (o_name opt) + 4 * count (cat_name cat, o_name opt))%nat (cat_options cat))%nat; [|cbn [snd]; lia].
    apply list_sum_le. intros opt Hopt. rewrite Forall_forall in K3. destruct (K3 opt Hopt) as (J1 & J2 & _).
    destruct (Oo opt Hopt) as (J3 & J4 & _). rewrite app_length.
    pose proof (str_bytes _ J1). pose proof (refs_bytes _ _ sids_ok J2).
    pose proof (option_count (cat_name cat) (o_name opt) _ _ _ J3 L ltac:(intros i p Hi Hp; by eapply J4)) as J5.
    unfold count. lia. }
  etrans; [apply Nat.add_le_mono; [done|exact S]|]. rewrite <- Nat.add_assoc. apply Nat.add_le_mono_l. apply Nat.add_le_mono.
  - rewrite Cn. apply sum_incl; [apply first_seen_NoDup|]. intros x. by rewrite first_seen_elem.
  - etrans; [apply (sum_mentions (fun kv : rstr * rstr => 8 + blen kv.2)%nat 4)|].
    + apply all_pairs_NoDup; [rewrite Cn; apply first_seen_NoDup|]. apply Forall_forall. intros cat Hcat.
      destruct (C cat Hcat) as (_ & -> & _). apply first_seen_NoDup.
    + intros kv Hkv. unfold all_pairs in Hkv. apply elem_of_concat in Hkv as (l & Hkv & Hl').
      apply elem_of_list_fmap in Hl' as (cat & -> & Hcat). apply elem_of_list_fmap in Hkv as (opt & -> & Hopt).
      destruct (C cat Hcat) as (_ & On & Oo). destruct (Oo opt Hopt) as (_ & _ & _ & X).
      apply elem_of_list_lookup_2 in X. by rewrite first_seen_elem in X.
    + apply list_sum_le. intros kv _. lia.
Qed.
Lemma feature_bytes : (length (enc_features no_order (c_features c)) <=
  36 + 4 * length input + sum (fun s => 4 + blen s)%nat (concat (map r_media input)))%nat.
Proof.
  destruct (optimize_inv parse o input c cl E) as (prices & Hp & D & W & V & Vt & (C1 & C2 & C3) & _).
  assert (Lp : length input = length prices) by by eapply Forall2_length.
  destruct CO as (_ & (Hs & Hft) & _). unfold enc_features. rewrite enc_map_length by by intros l.
  pose proof (usize_len _ (proj1 Hs)).
  set (cost := fun key => if decide (key = s_price) then (14 + 4 * length input)%nat
    else (18 + sum (fun s => 4 + blen s)%nat (first_images input))%nat).
  assert (sum (fun '(k, v) => length (enc_str k) + length (enc_feature v))%nat (map_to_list (c_features c)) <=
    sum cost (map fst (map_to_list (c_features c))))%nat as S.
  { rewrite map_map. apply list_sum_le. intros [key f] Hk. apply elem_of_map_to_list in Hk.
    destruct (Hft _ _ Hk) as [K1 K2]. pose proof (str_bytes _ K1). unfold cost. cbn [fst].
    destruct (decide (key = s_price)) as [->|N1].
    - assert (FFloat <$> nonempty prices = Some f) as Hk' by (rewrite <- C1; exact Hk). clear Hk. rename Hk' into Hk. destruct prices as [|x prices]; [done|]. injection Hk as <-. destruct K2 as [[K2 _] _].
      unfold enc_feature. rewrite app_length. pose proof (vec_bytes enc_f32 _ K2).
      rewrite (map_ext (fun x => length (enc_f32 x)) (fun _ => 4%nat)) in H1 by done. rewrite sum_const in H1.
      change (length (enc_u8 1)) with 1%nat. change (blen s_price) with 5%nat in *. lia.
    - destruct (decide (key = s_image_url)) as [->|N2]; [|specialize (C3 key N1 N2); unfold feature_set in *; congruence].
      assert (FString <$> nonempty (first_images input) = Some f) as Hk' by (rewrite <- C2; exact Hk). clear Hk. rename Hk' into Hk.
      assert (f = FString (first_images input)) as ->.
      { destruct (first_images input); [done|]. by injection Hk as <-. }
      destruct K2 as [[K2 _] K3]. unfold enc_feature. rewrite app_length. pose proof (vec_bytes enc_str _ K2).
      assert (sum (fun s => length (enc_str s)) (first_images input) <= sum (fun s => 4 + blen s)%nat (first_images input))%nat.
      { apply list_sum_le. intros s Hs'. apply str_bytes. rewrite Forall_forall in K3. auto. }
      change (length (enc_u8 0)) with 1%nat. change (blen s_image_url) with 9%nat in *. lia. }
  assert (sum cost (map fst (map_to_list (c_features c))) <= sum cost [s_price; s_image_url])%nat as S2.
  { apply sum_incl; [apply NoDup_fst_map_to_list|]. intros key ([key' f] & -> & Hk)%elem_of_list_fmap. cbn [fst].
    apply elem_of_map_to_list in Hk. destruct (decide (key' = s_price)) as [->|N1]; [left|].
    destruct (decide (key' = s_image_url)) as [->|N2]; [right; left|]. specialize (C3 key' N1 N2). unfold feature_set in *. congruence. }
  assert (sum (fun s => 4 + blen s)%nat (first_images input) <= sum (fun s => 4 + blen s)%nat (concat (map r_media input)))%nat as S3.
  { clear. induction input as [|raw l IH]; [done|]. change (raw :: l) with ([raw] ++ l). rewrite first_images_app, sum_app.
    cbn [app map concat]. rewrite sum_app. unfold first_images at 1. cbn [omap list_omap]. destruct (r_media raw) as [|s media]; cbn [head]; [lia|].
    rewrite !sum_cons. change (sum (fun s => 4 + blen s)%nat []) with 0%nat. lia. }
  rewrite !sum_cons in S2. change (sum cost []) with 0%nat in S2.
  assert (cost s_price = 14 + 4 * length input)%nat by (unfold cost; by rewrite decide_True).
  assert (cost s_image_url = 18 + sum (fun s => 4 + blen s)%nat (first_images input))%nat by (unfold cost; by rewrite decide_False).
  etrans; [apply Nat.add_le_mono; [exact H|exact S]|]. lia.
Qed.
Lemma order_bytes : (length (enc_orders no_order (cl_order cl)) <= 79 + 12 * length input)%nat.
Proof.
  destruct (optimize_orders_perm parse o input c cl E) as (ra & ru & rd & Eo & R).
  destruct CL as (_ & _ & _ & _ & _ & Hs & Hk). unfold enc_orders. rewrite enc_map_length by by intros l.
  pose proof (usize_len _ (proj1 Hs)).
  assert (K : forall key ranks, cl_order cl !! key = Some ranks ->
      key ∈ [s_alphabetical; s_price_up; s_price_down] /\ length ranks = length input).
  { intros key ranks Hk'. apply Forall_cons in R as [R1 R]. apply Forall_cons in R as [R2 R]. apply Forall_cons in R as [R3 _].
    apply Permutation_length in R1, R2, R3. rewrite map_length, seq_length in *.
    rewrite Eo in Hk'. unfold order_index in Hk'. rewrite !lookup_insert_Some, lookup_empty in Hk'.
    destruct Hk' as [[<- <-]|[_ [[<- <-]|[_ [[<- <-]|[_ Hk']]]]]]; [..|done]; (split; [|done]); set_solver. }
  assert (sum (fun '(k, v) => length (enc_str k) + length (enc_vec enc_usize v))%nat (map_to_list (cl_order cl)) <=
    sum (fun _ => 25 + 4 * length input)%nat (map fst (map_to_list (cl_order cl))))%nat as S.
  { rewrite map_map. apply list_sum_le. intros [key ranks] Hin. apply elem_of_map_to_list in Hin.
    destruct (K _ _ Hin) as [K1 K2]. destruct (Hk _ _ Hin) as (K3 & [K4 _] & K5). pose proof (str_bytes _ K3).
    pose proof (vec_bytes enc_usize _ K4).
    assert (sum (fun x => length (enc_usize x)) ranks <= sum (fun _ => 4%nat) ranks)%nat.
    { apply list_sum_le. intros x Hx. apply usize_len. rewrite Forall_forall in K5. auto. }
    rewrite sum_const in *. rewrite K2 in *.
    assert (blen key <= 17)%nat.
    { repeat (apply elem_of_cons in K1 as [->|K1]; [apply Nat.leb_le; vm_compute; reflexivity|]). by apply elem_of_nil in K1. }
    lia. }
  assert (sum (fun _ => 25 + 4 * length input)%nat (map fst (map_to_list (cl_order cl))) <=
    sum (fun _ => 25 + 4 * length input)%nat [s_alphabetical; s_price_up; s_price_down])%nat as S2.
  { apply sum_incl; [apply NoDup_fst_map_to_list|]. intros key ([key' r] & -> & Hin)%elem_of_list_fmap. cbn [fst].
    apply elem_of_map_to_list in Hin. by apply K in Hin as [? _]. }
  rewrite (sum_const [s_alphabetical; s_price_up; s_price_down]) in S2. cbn [length] in S2.
  etrans; [apply Nat.add_le_mono; [exact H|exact S]|]. lia.
Qed.
End catalogue.

(** ** The file *)
Lemma sum_N_nat {A} (f : A -> nat) l : sum_N (map (fun x => N.of_nat (f x)) l) = N.of_nat (sum f l).
Proof. unfold sum_N, list_sum. induction l as [|x l IH]; cbn [map foldr]; lia. Qed.
Lemma strings_count input : (4 * length input <= length (catalogue_strings input))%nat.
Proof.
  unfold catalogue_strings. induction input as [|raw input IH]; [done|]. cbn [map concat length]. rewrite app_length.
  unfold raw_strings at 1. rewrite app_length. cbn [length]. lia.
Qed.
Lemma file_bytes low parse P n bo ro so input bytes : (1 <= n <= 764)%nat ->
  valid_build_order bo -> valid_ser_order so -> low_ok low -> parse_ok parse -> raw_fits modest low input ->
  index_and_serialize_with_n low parse P n bo ro so input = Done bytes ->
  lenN bytes <= 139 + 12 * lenN (catalogue_strings input) + total_bytes (catalogue_strings input) +
    (14 * N.of_nat n + 13) * total_grams (map (raw_text low) input).
Proof.
  intros Hn Hbo Hso Hlow Hparse Hfit H.
  apply indexed_inv in H as (c & cl & gi & E & I & ->).
  destruct (optimize_products parse bo input c cl E) as [D W].
  assert (T : map snd (sources low c) = map (raw_text low) input) by by apply raw_grams.
  assert (gi_container gi = c) as G by by eapply index_container.
  assert (Hg : size_ok modest (total_grams (map (raw_text low) input)) /\ forall k, total_grams (map (raw_text low) input) <= cap_max modest k)
    by by eapply (fits_count modest low input 1).
  assert (Hlim : total_grams (map snd (sources low c)) < 2 ^ 32).
  { rewrite T. destruct Hg as [[_ Hg] _]. change (usize_max modest) with (2 ^ 28 - 1) in Hg. lia. }
  assert (GO : gram_index_ok modest n gi).
  { eapply (index_storable P modest n bo (sources low c) c gi); [lia|done|done|done| | | | |].
    + by rewrite T.
    + rewrite T. apply Forall_forall. intros t (raw & -> & Hr)%elem_of_list_fmap.
      apply (low_text_ok low raw modest); [done|]. by eapply raw_ok.
    + by eapply container_storable.
    + split; [lia|]. change (usize_max modest) with (2 ^ 28 - 1). lia.
    + intros p t (p' & [= -> ->] & Hp)%elem_of_list_fmap. done. }
  pose proof (index_bytes n gi ltac:(lia) GO) as B1.
  pose proof (vendor_bytes parse low bo input c cl Hfit Hparse E ltac:(apply Hbo)) as B2.
  pose proof (product_bytes parse low bo input c cl Hfit Hparse E) as B3.
  pose proof (feature_bytes parse low bo input c cl Hfit Hparse E) as B4.
  pose proof (category_bytes parse low bo input c cl Hfit Hparse E ltac:(apply Hbo)) as B5.
  pose proof (tag_bytes parse low bo input c cl Hfit Hparse E ltac:(apply Hbo)) as B6.
  pose proof (order_bytes parse low bo input c cl Hfit Hparse E ltac:(apply Hbo)) as B7.
  pose proof (node_bound P n bo (sources low c) c gi ltac:(lia) Hbo Hlim I) as B8.
  destruct (posting_bound P n bo (sources low c) c gi ltac:(lia) Hbo Hlim I) as [B9 B10].
  assert (B11 : N.of_nat (size (gi_roots gi)) <= total_grams (map (raw_text low) input)).
  { rewrite <- T, total_grams_concat. unfold lenN.
    assert (size (gi_roots gi) <= length (concat (map snd (sources low c))))%nat; [|lia].
    apply size_bound. intros g [nd Hg']. destruct (proj1 (proj1 (trie_paths P n bo (sources low c) c gi ltac:(lia) Hbo Hlim I) [g])) as (_ & _ & p & t & Ht & u & v & Et).
    { exists nd, g, [], nd. repeat split; [done|constructor]. }
    apply elem_of_concat. exists t. split; [rewrite Et, !elem_of_app; right; left; left|]. apply elem_of_list_fmap. by exists (p, t). }
  rewrite T in *. unfold lenN. rewrite serialize_all_length by done. rewrite G.
  unfold enc_container. rewrite !app_length.
  pose proof (strings_count input) as B12.
  pose proof (strings_sum (fun s => blen s) input) as B13.
  pose proof (strings_sum (fun _ => 1%nat) input) as B14.
  rewrite !sum_const, !Nat.mul_1_l in B14. rewrite !sum_add in *.
  assert (total_bytes (catalogue_strings input) = N.of_nat (sum (fun s => blen s) (catalogue_strings input))) as ->.
  { unfold total_bytes. by rewrite <- sum_N_nat. }
  rewrite !map_length in *.
  set (TG := total_grams (map (raw_text low) input)) in *. clearbody TG.
  assert (B15 : N.of_nat ((3 * n + 6) * size (gi_data gi)) <= 3 * (N.of_nat n * TG) + 6 * TG).
  { rewrite Nat2N.inj_mul. transitivity (N.of_nat (3 * n + 6) * TG); [apply N.mul_le_mono_l; lia|].
    replace (N.of_nat (3 * n + 6)) with (3 * N.of_nat n + 6) by lia. rewrite N.mul_add_distr_r, N.mul_assoc. lia. }
  replace ((14 * N.of_nat n + 13) * TG) with (14 * (N.of_nat n * TG) + 13 * TG) by ring.
  set (M := N.of_nat n * TG) in *. clearbody M. clear -B1 B2 B3 B4 B5 B6 B7 B8 B9 B10 B11 B12 B13 B14 B15.
  set (Q := ((3 * n + 6) * size (gi_data gi))%nat) in *. clearbody Q.
  lia.
Qed.
