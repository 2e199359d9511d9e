(** Files of catalogues, cut short. *)
From Verif.model Require Import Base F32 Utf8 Prim Coll Data Gram Indexer Nodes Classic Lit Raw Js Lib.
From Verif.spec Require Import Spec Data_spec Gram_spec Classic_spec Raw_spec Js_spec Lib_spec End_spec Trunc_spec.
From Verif.proofs Require Import Base_facts Prim_facts Data_facts File_facts Lib_facts Raw_facts End_facts Trunc_end.
From Coq Require Import Lia.

Lemma one_byte x kept lost y : number_cut x kept lost y -> 128 <= x.
Proof.
  intros (H1 & H2 & E & _). destruct (N.le_gt_cases 128 x) as [|Hlt]; [done|]. exfalso.
  unfold enc_usize in E. rewrite enc_u64_unfold in E. apply N.ltb_lt in Hlt. rewrite Hlt in E.
  destruct kept as [|a kept]; [done|]. destruct lost as [|b lost]; [done|].
  apply (f_equal length) in E. rewrite app_length in E. simpl in E. lia.
Qed.

Lemma file_cut_no P n o gi cl kept lost : valid_ser_order o -> gram_index_ok P n gi ->
  classic_ok P (c_products (gi_container gi)) cl -> N.of_nat (size (cl_order cl)) < 128 ->
  (forall key ranks, cl_order cl !! key = Some ranks -> lenN ranks < 128 /\ Forall (fun r => r < 128) ranks) ->
  lost <> [] -> kept ++ lost = serialize_all o gi cl -> forall gi' cl', deserialize_all P n kept <> Done (gi', cl').
Proof.
  intros Ho Hg Hc Hs Hr Hl E gi' cl' H. apply (file_cut_iff P n o gi cl kept lost) in H; [|done..].
  destruct H as (_ & _ & _ & es & Hcut & _). pose proof Ho as (_ & _ & _ & _ & Hoo).
  assert (Hin : forall before key ranks, so_orders o (map_to_list (cl_order cl)) = before ++ [(key, ranks)] -> cl_order cl !! key = Some ranks).
  { intros before key ranks Ew. apply elem_of_map_to_list. rewrite <- (Hoo _). unfold order_index in *. rewrite Ew. set_solver. }
  destruct Hcut as [before key ranks rank kept3 low Ew Hnum _|before key ranks kept3 gone Ew Hnum _ _].
  - destruct (Hr _ _ (Hin _ _ _ Ew)) as [_ Hf]. apply one_byte in Hnum. rewrite Forall_app, Forall_singleton in Hf. lia.
  - destruct (Hr _ _ (Hin _ _ _ Ew)) as [Hf _]. apply one_byte in Hnum. lia.
Qed.

Section raw.
Context (low : N -> list N) (parse : rstr -> option f32) (P Q : platform) (bo : build_order)
  (ro : order_of (rstr * (product * f32))) (so : ser_order) (input : list raw_product).
Context (Hbo : valid_build_order bo) (Hso : valid_ser_order so) (Hlow : low_ok low) (Hparse : parse_ok parse)
  (Hfit : raw_fits Q low input) (Hlim : total_grams (map (raw_text low) input) < 2 ^ 32).

Lemma built_tables c cl : optimize parse bo input = Done (c, cl) ->
  (size (cl_order cl) <= 3)%nat /\ (size (cl_order cl) <> 0)%nat /\
  forall key ranks, cl_order cl !! key = Some ranks -> key ∈ [s_alphabetical; s_price_up; s_price_down] /\
    length ranks = length input /\ Forall (fun r => r < lenN input) ranks.
Proof.
  intros O. destruct (built_orders parse bo input c cl O) as (H1 & H2 & _). unfold get_orders in *.
  assert (Hk : forall key ranks, cl_order cl !! key = Some ranks -> key ∈ [s_alphabetical; s_price_up; s_price_down]).
  { intros key ranks Hk. destruct (decide (key ∈ [s_alphabetical; s_price_up; s_price_down])) as [|Hn]; [done|].
    apply H1 in Hn. by rewrite Hn in Hk. }
  split; [|split].
  - unfold order_index in *. unfold size, map_size. change 3%nat with (length [s_alphabetical; s_price_up; s_price_down]).
    rewrite <- (fmap_length fst). apply NoDup_incl_length; [apply NoDup_ListNoDup, NoDup_fst_map_to_list|].
    intros key Hin. apply elem_of_list_In, elem_of_list_fmap in Hin as ([k r] & -> & Hkr). apply elem_of_map_to_list in Hkr.
    apply elem_of_list_In. by eapply Hk.
  - intros Hz. unfold order_index in *. apply map_size_empty_inv in Hz.
    assert (s_alphabetical ∉ [s_alphabetical; s_price_up; s_price_down]); [|set_solver].
    apply H1. rewrite Hz. apply lookup_empty.
  - intros key ranks Hkr. split; [by eapply Hk|]. pose proof (H2 _ _ Hkr) as Hp. split.
    + rewrite Hp, map_length, seq_length. done.
    + rewrite Hp. apply Forall_forall. intros r (i & -> & Hi)%elem_of_list_fmap. apply elem_of_seq in Hi. unfold lenN. lia.
Qed.

Lemma few_not_accepted bytes kept lost st : (length input < 128)%nat ->
  index_and_serialize low parse P bo ro so input = Done bytes -> bytes = kept ++ lost -> lost <> [] ->
  initialize Q st kept = (st, Panic).
Proof.
  intros Hn E Eb Hl. destruct (indexed_inv _ _ _ _ _ _ _ _ _ E) as (c & cl & gi & O & I & ->).
  destruct (file_storable low parse P Q bo input Hbo Hlow Hparse Hfit Hlim c cl gi O I) as [Hg Hc].
  destruct (built_tables c cl O) as (Hs & _ & Ht).
  assert (Hno : forall gi' cl', deserialize_all Q ngram_index_size kept <> Done (gi', cl')).
  { eapply (file_cut_no Q _ so gi cl kept lost); [done|done|done|lia| |done|by symmetry].
    intros key ranks Hk. destruct (Ht _ _ Hk) as (_ & Hlen & Hall). split; [unfold lenN; lia|].
    eapply Forall_impl; [exact Hall|]. intros r Hr. unfold lenN in Hr. lia. }
  pose proof (load_terminates Q ngram_index_size kept) as Hst.
  unfold initialize. destruct (deserialize_all Q ngram_index_size kept) as [[gi' cl']| | |]; [by destruct (Hno gi' cl')|done|done|done].
Qed.

(** A search by an order whose table is empty. *)
Lemma empty_table_panics u o gi cl query categories tags entries key a b l st' :
  search low u o (loaded gi cl) query categories tags None entries = (st', Done (pp_new (gi_container gi) (a :: b :: l))) ->
  get_orders (cl_order cl) key = Some [] ->
  search low u o (loaded gi cl) query categories tags (Some key) entries = (LibState (Some gi) (Some cl) true true, Panic).
Proof.
  unfold search, loaded. cbn [s_index s_classic s_index_dead s_classic_dead lock_ok]. intros H Hk.
  destruct (parse_filters entries) as [filters|]; [|done].
  destruct (search_filtered low o gi query categories tags filters) as [results| | |]; try done.
  assert (results = a :: b :: l) as ->.
  { injection H as _ H. exact H. }
  assert (Hp : sort_by_order [] (a :: b :: l) = Panic).
  { unfold sort_by_order. cbn [mapR]. rewrite (getN_lookup _ a), lookup_nil. reflexivity. }

  cbn [mbind option_bind]. rewrite Hk, Hp. by destruct u.
Qed.

Lemma multiple_accepted bytes k : (length input = 128 * S k)%nat ->
  index_and_serialize low parse P bo ro so input = Done bytes ->
  exists kept lost gi cl key, bytes = kept ++ lost /\ lost <> [] /\
  key ∈ [s_alphabetical; s_price_up; s_price_down] /\ get_orders (cl_order cl) key = Some [] /\
  (forall st, s_index_dead st = false -> s_classic_dead st = false -> initialize Q st kept = (loaded gi cl, Done true)) /\
  forall u o query categories tags entries a b l st',
    search low u o (loaded gi cl) query categories tags None entries = (st', Done (pp_new (gi_container gi) (a :: b :: l))) ->
    search low u o (loaded gi cl) query categories tags (Some key) entries = (LibState (Some gi) (Some cl) true true, Panic).
Proof.
  intros Hn E. destruct (indexed_inv _ _ _ _ _ _ _ _ _ E) as (c & cl & gi & O & I & ->).
  destruct (file_storable low parse P Q bo input Hbo Hlow Hparse Hfit Hlim c cl gi O I) as [Hg Hc].
  destruct (built_tables c cl O) as (Hs & Hz & Ht). pose proof Hso as (_ & _ & _ & _ & Hoo).
  set (entries := so_orders so (map_to_list (cl_order cl))).
  assert (Hlen : (length entries <> 0)%nat).
  { unfold entries. unfold order_index in *. rewrite (Hoo _). exact Hz. }
  destruct (@exists_last _ entries) as (before & [key ranks] & Ew); [by intros Hn0; rewrite Hn0 in Hlen|].
  assert (Hk : cl_order cl !! key = Some ranks).
  { apply elem_of_map_to_list. rewrite <- (Hoo _). unfold entries, order_index in *. rewrite Ew. set_solver. }
  destruct (Ht _ _ Hk) as (Hkey & Hl & _).
  set (x := lenN ranks).
  assert (Hx : x = 128 * N.of_nat (S k)) by (unfold x, lenN; lia).
  assert (Hb : exists b gone, enc_usize x = b :: gone /\ gone <> []).
  { unfold enc_usize. rewrite enc_u64_unfold. replace (x <? 128) with false by (symmetry; apply N.ltb_ge; lia).
    eexists _, _. split; [done|]. apply enc_u64_nonempty. }
  destruct Hb as (b0 & gone & Eb & Hgone).
  assert (Hcut : orders_cut entries (gone ++ concat (map enc_usize ranks)) (before ++ [(key, [])])).
  { eapply (Cut_in_length _ _ _ before key ranks [b0] gone); [done| |done|done].
    split; [done|]. split; [done|]. split; [done|]. fold x. rewrite Hx. change (128 ^ lenN [b0]) with 128.
    rewrite N.mul_comm, N.mod_mul by done. done. }
  destruct (cut_is_end (so_orders so) (cl_order cl) _ _ Hcut) as [i3 E3].
  set (lost := gone ++ concat (map enc_usize ranks)) in *.
  assert (Hlost : lost <> []) by (unfold lost; by destruct gone).
  exists (enc_gram_index so gi ++ enc_categories (cl_categories cl) ++ enc_tags (cl_tags cl) ++ i3), lost.
  exists (stored_gram_index gi), (Classic (stored_categories 0 (cl_categories cl)) (map stored_tag (cl_tags cl)) (list_to_map (before ++ [(key, [])]))), key.
  assert (Efile : serialize_all so gi cl = (enc_gram_index so gi ++ enc_categories (cl_categories cl) ++ enc_tags (cl_tags cl) ++ i3) ++ lost).
  { unfold serialize_all, enc_classic. rewrite <- E3, <- !app_assoc. done. }
  assert (Hget : get_orders (list_to_map (before ++ [(key, [])])) key = Some []).
  { unfold get_orders. apply elem_of_list_to_map_1; [|set_solver].
    assert (Hnd : NoDup (map fst entries)).
    { unfold entries. eapply NoDup_Permutation_proper; [apply Permutation_map, Hoo|]. apply NoDup_fst_map_to_list. }
    rewrite Ew, map_app in Hnd. rewrite fmap_app. exact Hnd. }
  split; [done|]. split; [done|]. split; [done|]. split; [done|]. split.
  - intros st D1 D2. unfold initialize.
    rewrite (proj2 (file_cut_iff Q ngram_index_size so gi cl _ lost (stored_gram_index gi)
      (Classic (stored_categories 0 (cl_categories cl)) (map stored_tag (cl_tags cl)) (list_to_map (before ++ [(key, [])])))
      Hso Hg Hc ltac:(lia) Hlost (eq_sym Efile))).
    + unfold lock_unwrap. by rewrite D1, D2.
    + split; [done|]. split; [done|]. split; [done|]. exists (before ++ [(key, [])]). done.
  - intros u o query categories tags es a b l st' H. by eapply empty_table_panics.
Qed.
End raw.
