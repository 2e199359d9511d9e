(** C19 (continued) and C100: what is read back compared ([==]) with what was written. [low] is
    [char::to_lowercase], [parse] is [str::parse::<f32>]. *)
From Verif.model Require Import Base F32 Utf8 Prim Coll Data Gram Indexer Nodes Classic Lit Raw Js Lib Equal.
From Verif.spec Require Import Spec Data_spec Gram_spec Classic_spec Raw_spec Js_spec Lib_spec End_spec Equal_spec Samples
  Raw_samples Gram_samples Lib_samples End_samples Equal_samples.
From Verif.proofs Require Import Equal_facts Equal_props Equal_samples_facts.

(** C19: exactly when. *)
Theorem C19_reload_equal_iff : forall cl, classic_eqb cl (stored_classic cl) = true <-> classic_comes_back cl.
Proof. exact classic_equal_iff. Qed.
Print Assumptions C19_reload_equal_iff.
(** ... and for the classic index of a catalogue: the values of categories first appear category
    by category, and no product with a tag or a value has a description that goes lost. *)
Theorem C19_catalogue_iff : forall parse o input c cl, valid_order (bo_tags o) ->
  optimize parse o input = Done (c, cl) ->
  classic_eqb cl (stored_classic cl) = true <->
  categories_in_turn (map r_options input) /\
  Forall (fun raw => classified raw -> ~ lost_text (r_description raw)) input.
Proof. exact classic_catalogue_iff. Qed.
Print Assumptions C19_catalogue_iff.
Example C19_catalogue_hyps :
  ~ categories_in_turn (map r_options sample_raw) /\ categories_in_turn (map r_options in_turn_raw) /\
  categories_in_turn (map r_options spaced_raw) /\ categories_in_turn (map r_options priceless_raw) /\
  lost_text (r_description raw_spaced) /\ sample_parse str_nan = Some S754_nan /\ ~ classified raw_spaced /\ classified raw_lamp.
Proof. exact conditions_apart. Qed.

(** C100. Full statement: [round_trip_test low parse P round_trip_size bo so input = Done tt] for
    every catalogue with readable prices that fits the platform. It is false. *)
Theorem C100_round_trip_test_refuted : exists low parse P bo so input,
  valid_build_order bo /\ valid_ser_order so /\ low_ok low /\ parse_ok parse /\
  raw_fits P low input /\ total_grams (map (raw_text low) input) < 2 ^ 32 /\ prices_numeric parse input /\
  round_trip_test low parse P round_trip_size bo so input = Panic.
Proof. exact test_fails. Qed.
Print Assumptions C100_round_trip_test_refuted.
(** It passes exactly for the catalogues with numbers for prices, values that first appear
    category by category, and no description that goes lost; on others it panics. *)
Theorem C100_round_trip_test_partial : forall low parse P n bo so input,
  valid_build_order bo -> valid_ser_order so -> low_ok low -> parse_ok parse -> raw_fits P low input ->
  total_grams (map (raw_text low) input) < 2 ^ 32 -> (1 <= n)%nat -> size_ok P (N.of_nat n) ->
  (round_trip_test low parse P n bo so input = Done tt <->
     prices_numeric parse input /\ categories_in_turn (map r_options input) /\
     Forall (fun raw => ~ lost_text (r_description raw)) input) /\
  (round_trip_test low parse P n bo so input = Done tt \/ round_trip_test low parse P n bo so input = Panic).
Proof. exact round_trip_exact. Qed.
Print Assumptions C100_round_trip_test_partial.
(** The first of its two assertions, for any index. *)
Theorem C100_index_equal_iff : forall gi, gram_index_eqb gi (stored_gram_index gi) = true <-> index_comes_back gi.
Proof. exact index_equal_iff. Qed.
Print Assumptions C100_index_equal_iff.
Example C100_hyps : valid_build_order hash_order /\ valid_ser_order sample_order /\ low_ok ascii_low /\ parse_ok sample_parse /\
  (1 <= round_trip_size)%nat /\ size_ok host64 (N.of_nat round_trip_size).
Proof. exact test_setting. Qed.
Example C100_catalogues : testable sample_raw /\ testable in_turn_raw /\ testable spaced_raw /\ testable priceless_raw.
Proof. exact all_testable. Qed.
Example C100_results : run in_turn_raw = Done tt /\ run sample_raw = Panic /\ run spaced_raw = Panic /\ run priceless_raw = Panic.
Proof. exact test_results. Qed.
