(** From the text of a catalogue to delivered products. *)
From Coq Require Import String Lia ZifyN.
From Verif.model Require Import Base F32 Utf8 Prim Coll Data Gram Indexer Nodes Classic Lit Raw Js Lib Json.
From Verif.spec Require Import Spec Data_spec Gram_spec Classic_spec Raw_spec Js_spec Lib_spec End_spec Json_spec.
From Verif.proofs Require Import Base_facts Utf8_facts Codec_lemmas Raw_props End_props Json_facts Json_props Json_more.
Local Open Scope N_scope.

(** ** Survivors *)
Lemma survivors_perm entries l l' : survivors entries l -> survivors entries l' -> l ≡ₚ l'.
Proof.
  intros [H1 H2] [H1' H2']. apply NoDup_Permutation; [by eapply NoDup_fmap_1..|].
  intros [k raw]. by rewrite H2, H2'.
Qed.
Lemma last_entry_in entries k raw : last_entry entries k raw -> (k, raw) ∈ entries.
Proof. intros (a & b & -> & _). set_solver. Qed.
Lemma survivors_sub entries l : survivors entries l -> l ⊆+ entries.
Proof.
  intros [H1 H2]. apply NoDup_submseteq; [by eapply NoDup_fmap_1|].
  intros [k raw] H. by apply last_entry_in, H2.
Qed.
Lemma survivors_distinct entries l : NoDup (map fst entries) -> survivors entries l -> l ≡ₚ entries.
Proof.
  intros Hn [H1 H2]. apply NoDup_Permutation; [by eapply NoDup_fmap_1..|].
  intros [k raw]. rewrite H2. split; [apply last_entry_in|]. intros H.
  apply elem_of_list_split in H as (a & b & ->). exists a, b. split; [done|].
  rewrite map_app in Hn. apply NoDup_app in Hn as (_ & _ & Hn). by apply NoDup_cons in Hn as [Hn _].
Qed.
Lemma survivors_exist entries : exists l, survivors entries l.
Proof.
  destruct (survivors_map entries (fun l => l)) as [H1 H2]; [|eexists; split; [exact H1|exact H2]].
  by intros l.
Qed.

(** ** Sizes *)
Lemma sum_sub {A} (f : A -> N) l k : l ⊆+ k -> sum_N (map f l) <= sum_N (map f k).
Proof. unfold sum_N. induction 1; cbn; lia. Qed.
Lemma sum_perm {A} (f : A -> N) l k : l ≡ₚ k -> sum_N (map f l) = sum_N (map f k).
Proof. unfold sum_N. induction 1; cbn; lia. Qed.
Lemma concat_len {A B} (f : A -> list B) l : lenN (concat (map f l)) = sum_N (map (fun x => lenN (f x)) l).
Proof. unfold sum_N. induction l as [|x l IH]; [done|]. cbn. rewrite <- IH. unfold lenN. rewrite app_length. lia. Qed.
Lemma options_len {B} (f : raw_option -> list B) l :
  lenN (concat (map f (concat (map r_options l)))) = sum_N (map (fun r => lenN (concat (map f (r_options r)))) l).
Proof.
  unfold sum_N. induction l as [|x l IH]; [done|]. cbn. rewrite map_app, concat_app, <- IH. unfold lenN. rewrite app_length. lia.
Qed.
Lemma names_len l : lenN (category_mentions (map r_options l)) = sum_N (map (fun r => lenN (r_options r)) l).
Proof. unfold category_mentions, lenN. rewrite map_length. apply concat_len. Qed.
Lemma grams_sub low l k : l ⊆+ k -> total_grams (map (raw_text low) l) <= total_grams (map (raw_text low) k).
Proof. intros H. unfold total_grams. rewrite !map_map. by apply sum_sub. Qed.
Lemma grams_perm low l k : l ≡ₚ k -> total_grams (map (raw_text low) l) = total_grams (map (raw_text low) k).
Proof. intros H. unfold total_grams. rewrite !map_map. by apply sum_perm. Qed.
Lemma counts_sub low l k : l ⊆+ k -> Forall2 N.le (raw_counts low l) (raw_counts low k).
Proof.
  intros H. unfold raw_counts. repeat constructor.
  - unfold lenN. apply submseteq_length in H. lia.
  - by apply grams_sub.
  - rewrite !concat_len. by apply sum_sub.
  - unfold pair_mentions. rewrite !options_len. by apply sum_sub.
  - rewrite !names_len. by apply sum_sub.
  - apply N.le_refl.
Qed.
Lemma Forall_sub {A} (Q : A -> Prop) l k : l ⊆+ k -> Forall Q k -> Forall Q l.
Proof. rewrite !Forall_forall. intros H Hk x Hx. apply Hk. by eapply elem_of_submseteq. Qed.
Lemma fits_sub P low l k : l ⊆+ k -> raw_fits P low k -> raw_fits P low l.
Proof.
  intros H [H1 H2]. split; [by eapply Forall_sub|].
  pose proof (counts_sub low l k H) as HF. induction HF as [|x y xs ys Hxy _ IH]; [constructor|].
  apply Forall_cons_1 in H2 as [[[Ha Hb] Hc] H2]. constructor; [|by apply IH].
  split; [split; lia|]. intros k'. specialize (Hc k'). lia.
Qed.
Lemma prices_sub parse l k : l ⊆+ k -> prices_parse parse k -> prices_parse parse l.
Proof. intros H Hk. by eapply Forall_sub. Qed.

(** ** The outcome of [index] *)
Section outcome.
Context (low : N -> list N) (parse : rstr -> option f32) (P : platform).
Context (mo : order_of (rstr * raw_product)) (bo : build_order).
Context (ro : order_of (rstr * (product * f32))) (so : ser_order).
Context (Hmo : valid_order mo) (Hbo : valid_build_order bo).
Lemma accepted_outcome t entries l : is_catalogue verbatim entries t -> survivors entries l ->
  total_grams (map (raw_text low) (map snd l)) < 2 ^ 32 ->
  (prices_parse parse (map snd l) -> exists bytes, index low parse P mo bo ro so t = Done bytes) /\
  (~ prices_parse parse (map snd l) -> index low parse P mo bo ro so t = Panic).
Proof.
  intros Ht Hl Hg. destruct (index_accepts low parse P mo bo ro so t entries Hmo Ht) as (l' & Hl' & ->).
  pose proof (survivors_perm _ _ _ Hl Hl') as Hp.
  assert (Hp' : map snd l ≡ₚ map snd l') by (by apply Permutation_map).
  unfold index_and_serialize.
  destruct (index_outcome parse low P ngram_index_size bo ro so (map snd l')) as [H1 H2];
    [unfold ngram_index_size; lia|done|by rewrite <- (grams_perm low _ _ Hp')|].
  unfold prices_parse in *. rewrite Hp'. by split.
Qed.
Lemma done_catalogue t bytes entries : index low parse P mo bo ro so t = Done bytes -> is_catalogue means entries t ->
  exists l, survivors entries l /\ index_and_serialize low parse P bo ro so (map snd l) = Done bytes.
Proof.
  intros H Hc. destruct (read_entries t) as [entries'|] eqn:E.
  - apply read_entries_iff in E. pose proof (is_catalogue_weaken _ _ E) as E'.
    rewrite (is_catalogue_unique _ _ _ Hc E').
    destruct (index_accepts low parse P mo bo ro so t entries' Hmo E) as (l & Hl & Hi).
    exists l. split; [done|]. by rewrite <- Hi.
  - exfalso. rewrite index_rejects in H; [done|]. intros entries' H'. apply read_entries_iff in H'. congruence.
Qed.
Lemma main_text file t : valid_str t -> file = utf8 t -> main low parse P mo bo ro so file = index low parse P mo bo ro so t.
Proof. intros Hv ->. unfold main. by rewrite (proj2 (utf8_decode_iff _ _) (conj Hv eq_refl)). Qed.
Lemma main_other file : ~ (exists t, valid_str t /\ file = utf8 t) -> main low parse P mo bo ro so file = Nope.
Proof.
  intros H. unfold main. destruct (utf8_decode file) as [t|] eqn:E; [|done]. apply utf8_decode_iff in E.
  exfalso. apply H. by exists t.
Qed.
End outcome.

Lemma text_delivered low parse P Q mo bo ro so file t entries :
  valid_order mo -> valid_build_order bo -> valid_ser_order so -> low_ok low -> parse_ok parse ->
  valid_str t -> file = utf8 t -> is_catalogue means entries t ->
  raw_fits Q low (map snd entries) -> total_grams (map (raw_text low) (map snd entries)) < 2 ^ 32 ->
  forall u ops1 bytes ops2, main low parse P mo bo ro so file = Done bytes ->
  let st := lib_run low u Q lib_init ops1 in
  loads Q st (InitOp bytes) -> no_loads low u Q (lib_step low u Q st (InitOp bytes)) ops2 ->
  forall o query categories tags order filters st' p n j,
  let st1 := lib_run low u Q lib_init (ops1 ++ InitOp bytes :: ops2) in
  valid_search_order o -> handlers_ok categories tags ->
  s_classic st1 = Some (ch_handle categories) -> s_classic st1 = Some (th_handle tags) ->
  search low u o st1 query categories tags order filters = (st', Done p) ->
  Some j ∈ calls pp_next n p ->
  exists l key raw, survivors entries l /\ l !! N.to_nat (jp_sid j) = Some (key, raw) /\
    last_entry entries key raw /\ delivers parse raw j /\ relevant low (map snd l) query raw /\
    raw_has_options (map snd l) categories (N.to_nat (jp_sid j)) /\
    raw_has_tags (map snd l) tags (N.to_nat (jp_sid j)).
Proof.
  intros Hmo Hbo Hso Hlow Hparse Hv Hf Hc Hfit Hg u ops1 bytes ops2 Hm st L NL o query categories tags order filters
    st' p n j st1 Ho Hh C1 C2 S Hj.
  rewrite (main_text _ _ _ _ _ _ _ _ _ Hv Hf) in Hm.
  destruct (done_catalogue low parse P mo bo ro so Hmo t bytes entries Hm Hc) as (l & Hl & Hi).
  assert (Hsub : map snd l ⊆+ map snd entries) by (by apply fmap_submseteq, survivors_sub).
  destruct (catalogue_delivered low parse P Q bo ro so (map snd l) Hbo Hso Hlow Hparse
    (fits_sub _ _ _ _ Hsub Hfit) ltac:(eapply N.le_lt_trans; [by apply grams_sub|done])
    u ops1 bytes ops2 Hi L NL o query categories tags order filters st' p n j Ho Hh C1 C2 S Hj)
    as (raw & Hr & Hd & Hrel & Ho' & Ht').
  rewrite list_lookup_fmap in Hr. apply fmap_Some in Hr as ([key raw'] & Hr & ->).
  exists l, key, raw'. split_and!; try done. apply (proj2 Hl). by eapply elem_of_list_lookup_2.
Qed.
