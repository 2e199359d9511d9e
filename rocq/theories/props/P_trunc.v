(** C113: files that were cut short. *)
From Verif.model Require Import Base F32 Utf8 Prim Coll Data Gram Indexer Nodes Classic Lit Raw Js Lib.
From Verif.spec Require Import Spec Data_spec Gram_spec Classic_spec Raw_spec Js_spec Lib_spec End_spec Trunc_spec
  Samples Raw_samples Gram_samples Lib_samples Trunc_samples.
From Verif.proofs Require Import Trunc_end Trunc_props Trunc_samples_facts Sample_facts.

(** C113. Full statement: no proper prefix of a written file is accepted. It is false: a cut file of
    128 products is loaded, answers a search, and panics when asked for the same by price. *)
Theorem C113_cut_refuted : exists low parse P bo ro so input bytes kept lost,
  index_and_serialize low parse P bo ro so input = Done bytes /\ bytes = kept ++ lost /\ lost <> [] /\
  (initialize P lib_init kept).2 = Done true /\
  answer (after [InitOp kept]) three_words no_cats no_tags None [] = Done [1; 2; 0] /\
  answer (after [InitOp kept]) three_words no_cats no_tags (Some s_price_up) [] = Panic.
Proof.
  exact (match crowd_cut_accepted with
         | conj E (conj (ex_intro _ lost (conj Hl Ek)) (conj Hi Ha)) =>
           ex_intro _ ascii_low (ex_intro _ sample_parse (ex_intro _ host64 (ex_intro _ hash_order (ex_intro _ no_order
             (ex_intro _ sample_order (ex_intro _ crowd (ex_intro _ crowd_file (ex_intro _ crowd_cut (ex_intro _ lost
               (conj E (conj Ek (conj Hl (conj Hi Ha)))))))))))))
         end).
Qed.
Print Assumptions C113_cut_refuted.

(** Exactly which cut files are accepted, and as what: all is as in the whole file but for the last
    order, of which either one number is read wrong or all is gone. (A catalogue has three orders;
    here fewer than 128.) *)
Theorem C113_cut_partial : forall P n o gi cl kept lost gi' cl', valid_ser_order o -> gram_index_ok P n gi ->
  classic_ok P (c_products (gi_container gi)) cl -> N.of_nat (size (cl_order cl)) < 128 ->
  lost <> [] -> kept ++ lost = serialize_all o gi cl ->
  deserialize_all P n kept = Done (gi', cl') <->
  gi' = stored_gram_index gi /\ cl_categories cl' = stored_categories 0 (cl_categories cl) /\
  cl_tags cl' = map stored_tag (cl_tags cl) /\
  exists entries, orders_cut (so_orders o (map_to_list (cl_order cl))) lost entries /\ cl_order cl' = list_to_map entries.
Proof. exact file_cut_iff. Qed.
Print Assumptions C113_cut_partial.
Example C113_hyps : valid_ser_order sample_order /\ gram_index_ok wasm32 2 sample_index /\
  classic_ok wasm32 (c_products (gi_container sample_index)) sample_classic /\
  N.of_nat (size (cl_order sample_classic)) < 128.
Proof.
  split; [exact sample_order_valid|]. split; [exact sample_index_ok|]. split; [exact sample_classic_ok|]. vm_compute. reflexivity.
Qed.
Example C113_cuts : (exists kept lost low, number_cut 300 kept lost low /\ low = 44) /\
  orders_cut [(s_price, [3; 300])] [2] [(s_price, [3; 44])] /\
  orders_cut [(s_price, replicate 128 0)] (1 :: replicate 128 0) [(s_price, [])].
Proof. exact cuts_exist. Qed.

(** Of a catalogue with fewer than 128 products no cut file is accepted: [initialize] panics and
    what was loaded before stays. *)
Theorem C113_few : forall low parse P Q bo ro so input,
  valid_build_order bo -> valid_ser_order so -> low_ok low -> parse_ok parse ->
  raw_fits Q low input -> total_grams (map (raw_text low) input) < 2 ^ 32 ->
  forall bytes kept lost st, (length input < 128)%nat ->
  index_and_serialize low parse P bo ro so input = Done bytes -> bytes = kept ++ lost -> lost <> [] ->
  initialize Q st kept = (st, Panic).
Proof. exact few_not_accepted. Qed.
Print Assumptions C113_few.

(** Of a catalogue of 128, 256, 384, ... products a cut file is always accepted. One of the
    orders then has an empty table; any search by it that finds two products panics, and both mutexes are
    dead from then on. *)
Theorem C113_multiples : forall low parse P Q bo ro so input,
  valid_build_order bo -> valid_ser_order so -> low_ok low -> parse_ok parse ->
  raw_fits Q low input -> total_grams (map (raw_text low) input) < 2 ^ 32 ->
  forall bytes k, (length input = 128 * S k)%nat ->
  index_and_serialize low parse P bo ro so input = Done bytes ->
  exists kept lost gi cl key, bytes = kept ++ lost /\ lost <> [] /\
  key ∈ [s_alphabetical; s_price_up; s_price_down] /\ get_orders (cl_order cl) key = Some [] /\
  (forall st, s_index_dead st = false -> s_classic_dead st = false -> initialize Q st kept = (loaded gi cl, Done true)) /\
  forall u o query categories tags entries a b l st',
    search low u o (loaded gi cl) query categories tags None entries = (st', Done (pp_new (gi_container gi) (a :: b :: l))) ->
    search low u o (loaded gi cl) query categories tags (Some key) entries = (LibState (Some gi) (Some cl) true true, Panic).
Proof. exact multiple_accepted. Qed.
Print Assumptions C113_multiples.
Example C113_multiples_hyps : raw_fits host64 ascii_low crowd /\ total_grams (map (raw_text ascii_low) crowd) < 2 ^ 32 /\
  length crowd = (128 * 1)%nat /\
  index_and_serialize ascii_low sample_parse host64 hash_order no_order sample_order crowd = Done crowd_file.
Proof. exact crowd_hyps. Qed.
