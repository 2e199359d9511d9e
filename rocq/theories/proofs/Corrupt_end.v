(** C135 for indexes and for files of raw catalogues. *)
From Coq Require Import String.
From Verif.model Require Import Base F32 Utf8 Prim Coll Data Gram Indexer Nodes Classic Lit Raw Js Lib.
From Verif.spec Require Import Spec Data_spec Gram_spec Classic_spec Raw_spec Js_spec Lib_spec End_spec Corrupt_spec Samples Raw_samples
  Gram_samples Lib_samples Corrupt_samples.
From Verif.proofs Require Import Base_facts Raw_facts End_facts Corrupt_facts.
From Coq Require Import Lia.

Lemma changed_byte P n o gi cl i p a c b : valid_ser_order o -> gram_index_ok P n gi ->
  classic_ok P (c_products (gi_container gi)) cl ->
  c_products (gi_container gi) !! i = Some p -> p_title p = a ++ c :: b -> c < 128 ->
  exists before after, serialize_all o gi cl = before ++ c :: after /\
    (forall x, x < 128 -> let f := retitled (N.of_nat i) (a ++ x :: b) in
       deserialize_all P n (before ++ x :: after) = Done (index_with f (stored_gram_index gi), classic_with f (stored_classic cl))) /\
    (forall x, 128 <= x -> deserialize_all P n (before ++ x :: after) = Nope).
Proof.
  intros Ho Hg Hcl Hi Ht Hc. apply elem_of_list_split_length in Hi as (l1 & l2 & Hps & Hlen).
  subst i. eexists _, _. split; [by eapply file_bytes_are|]. split.
  - intros x Hx f. by eapply ascii_unnoticed.
  - intros x Hx. by eapply others_noticed.
Qed.
Lemma retitled_map (l : list product) (ts : list rstr) i t : positions l -> map p_title l = ts -> (i < length l)%nat ->
  map p_title (map (retitled (N.of_nat i) t) l) = <[i := t]> ts.
Proof.
  intros Hp Ht Hi. apply list_eq. intros k. rewrite map_map.
  change (map (fun x => p_title (retitled (N.of_nat i) t x)) l) with ((fun x => p_title (retitled (N.of_nat i) t x)) <$> l).
  rewrite list_lookup_fmap. destruct (decide (k = i)) as [->|D].
  - rewrite list_lookup_insert by (by rewrite <- Ht, map_length). destruct (l !! i) as [p|] eqn:E; [|by apply lookup_ge_None in E; lia].
    cbn. unfold retitled. by rewrite (Hp i p E), N.eqb_refl.
  - rewrite list_lookup_insert_ne by done. rewrite <- Ht. change (map p_title l) with (p_title <$> l). rewrite list_lookup_fmap.
    destruct (l !! k) as [p|] eqn:E; [|done]. cbn. unfold retitled. rewrite (Hp k p E). by rewrite (proj2 (N.eqb_neq _ _)) by lia.
Qed.
Lemma retitled_ids (l : list product) i t : map p_id (map (retitled i t) l) = map p_id l.
Proof. rewrite map_map. apply map_ext. intros p. unfold retitled. by destruct (p_sid p =? i). Qed.
Lemma changed_file low parse P Q bo ro so input bytes i raw a c b :
  valid_build_order bo -> valid_ser_order so -> low_ok low -> parse_ok parse ->
  raw_fits Q low input -> total_grams (map (raw_text low) input) < 2 ^ 32 ->
  index_and_serialize low parse P bo ro so input = Done bytes ->
  input !! i = Some raw -> r_title raw = a ++ c :: b -> c < 128 ->
  exists before after, bytes = before ++ c :: after /\
  (forall x st, x < 128 -> s_index_dead st = false -> s_classic_dead st = false ->
     exists gi cl, initialize Q st (before ++ x :: after) = (loaded gi cl, Done true) /\
       map p_title (c_products (gi_container gi)) = <[i := a ++ x :: b]> (map r_title input) /\
       map p_id (c_products (gi_container gi)) = map r_id input) /\
  (forall x st, 128 <= x -> initialize Q st (before ++ x :: after) = (st, Panic)).
Proof.
  intros Hbo Hso Hlow Hparse Hfit Hlim E Hi Ht Hc.
  destruct (indexed_inv _ _ _ _ _ _ _ _ _ E) as (C & cl & gi & O & I & ->).
  destruct (file_storable low parse P Q bo input Hbo Hlow Hparse Hfit Hlim C cl gi O I) as [Hg Hcl].
  destruct (optimize_products parse bo input C cl O) as [D W].
  assert (G : gi_container gi = C) by by eapply index_container.
  destruct (Forall2_lookup_l _ _ _ _ _ D Hi) as (p & Hp & Dp & _). rewrite Ht in Dp.
  destruct (changed_byte Q ngram_index_size so gi cl i p a c b Hso Hg Hcl) as (before & after & Eb & H1 & H2); [by rewrite G|done|done|].
  exists before, after. split; [done|]. split.
  - intros x st Hx D1 D2. eexists _, _. split.
    { unfold initialize. rewrite (H1 x Hx). unfold lock_unwrap. rewrite D1, D2. reflexivity. }
    cbn [index_with gi_container stored_gram_index stored_container c_products]. rewrite G. split.
    + apply retitled_map.
      * intros k q Hk. change (map stored (c_products C)) with (stored <$> c_products C) in Hk. rewrite list_lookup_fmap in Hk.
        apply fmap_Some in Hk as (q0 & Hk & ->). exact (W k q0 Hk).
      * rewrite map_map. clear -D. induction D as [|r q l l' (H & _) _ IH]; [done|]. cbn [map]. f_equal; [done|exact IH].
      * rewrite map_length. by eapply lookup_lt_Some.
    + rewrite retitled_ids, map_map. clear -D. induction D as [|r q l l' (_ & H & _) _ IH]; [done|]. cbn [map]. f_equal; [done|exact IH].
  - intros x st Hx. unfold initialize. by rewrite (H2 x Hx).
Qed.

Lemma coair_unnoticed : sample_file !! 38%nat = Some 104 /\
  (initialize host64 lib_init (<[38%nat := 111]> sample_file)).2 = Done true /\
  titles (after [InitOp (<[38%nat := 111]> sample_file)]) = [lit "Lamp"; lit "Coair"; lit "Table"]%string /\
  answer (after [InitOp (<[38%nat := 111]> sample_file)]) word_chair no_cats no_tags None [] = Done [1] /\
  initialize host64 lib_init (<[38%nat := 200]> sample_file) = (lib_init, Panic).
Proof. do 4 (split; [vm_compute; reflexivity|]). vm_compute. reflexivity. Qed.
