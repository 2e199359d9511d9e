(** The round-trip test on concrete catalogues. *)
From Verif.model Require Import Base F32 Utf8 Prim Coll Data Gram Indexer Nodes Classic Lit Raw Js Lib Equal.
From Verif.spec Require Import Spec Data_spec Gram_spec Classic_spec Raw_spec Js_spec Lib_spec End_spec Equal_spec Samples
  Raw_samples Gram_samples Lib_samples End_samples Equal_samples.
From Verif.proofs Require Import Base_facts Raw_facts Sample_facts End_samples_facts Equal_facts Equal_props.

Lemma small_counts input : Forall (fun n => n <= 200) (raw_counts ascii_low input) ->
  Forall (fun n => size_ok host64 n /\ forall k, n <= cap_max host64 k) (raw_counts ascii_low input).
Proof.
  intros F. eapply Forall_impl; [exact F|]. intros n Hn. cbn beta in *.
  assert (n < 2 ^ 56) by (eapply N.le_lt_trans; [exact Hn|vm_compute; reflexivity]).
  assert (n <= usize_max host64) by (eapply N.le_trans; [exact Hn|vm_compute; discriminate]).
  assert (n <= 2 ^ 59 - 1) by (eapply N.le_trans; [exact Hn|vm_compute; discriminate]).
  split; [by split|]. intros k. done.
Qed.
Definition testable (input : list raw_product) : Prop :=
  raw_fits host64 ascii_low input /\ total_grams (map (raw_text ascii_low) input) < 2 ^ 32 /\ prices_parse sample_parse input.
Lemma testable_check input :
  bool_decide (Forall (fun raw => Forall (fun c => is_scalar c = true) (r_description raw) /\
    Forall (fun s => Forall (fun c => is_scalar c = true) s /\ str_len s < 2 ^ 56 /\ str_len s <= usize_max host64)
      ([r_title raw; r_vendor raw; r_id raw] ++ r_tags raw ++ r_media raw) /\
    Forall (fun o => (Forall (fun c => is_scalar c = true) (ro_name o) /\ str_len (ro_name o) < 2 ^ 56 /\ str_len (ro_name o) <= usize_max host64) /\
      Forall (fun s => Forall (fun c => is_scalar c = true) s /\ str_len s < 2 ^ 56 /\ str_len s <= usize_max host64) (ro_values o))
      (r_options raw)) input) = true ->
  bool_decide (Forall (fun n => n <= 200) (raw_counts ascii_low input)) = true ->
  forallb (fun raw => match sample_parse (r_price_min_amount raw) with Some _ => true | None => false end) input = true ->
  testable input.
Proof.
  intros H1%bool_decide_eq_true H2%bool_decide_eq_true H3. split; [split|split].
  - exact H1.
  - by apply small_counts.
  - assert (total_grams (map (raw_text ascii_low) input) <= 200).
    { rewrite Forall_forall in H2. apply H2. unfold raw_counts. right. left. }
    eapply N.le_lt_trans; [done|]. vm_compute. reflexivity.
  - unfold prices_parse. apply Forall_forall. intros raw Hr%elem_of_list_In. rewrite forallb_forall in H3. specialize (H3 raw Hr).
    unfold priced. destruct (sample_parse (r_price_min_amount raw)) as [x|]; [by exists x|done].
Qed.
Lemma all_testable : testable sample_raw /\ testable in_turn_raw /\ testable spaced_raw /\ testable priceless_raw.
Proof. repeat split; apply testable_check; vm_compute; reflexivity. Qed.
Lemma test_setting : valid_build_order hash_order /\ valid_ser_order sample_order /\ low_ok ascii_low /\ parse_ok sample_parse /\
  (1 <= round_trip_size)%nat /\ size_ok host64 (N.of_nat round_trip_size).
Proof.
  destruct end_hyps as (A & B & C & D & _). repeat (split; [done|]). split; [unfold round_trip_size; lia|]. by vm_compute.
Qed.
Definition run (input : list raw_product) : res unit :=
  round_trip_test ascii_low sample_parse host64 round_trip_size hash_order sample_order input.
Lemma test_results : run in_turn_raw = Done tt /\ run sample_raw = Panic /\ run spaced_raw = Panic /\ run priceless_raw = Panic.
Proof. repeat split; vm_compute; reflexivity. Qed.
Lemma test_fails : exists low parse P bo so input, valid_build_order bo /\ valid_ser_order so /\ low_ok low /\ parse_ok parse /\
  raw_fits P low input /\ total_grams (map (raw_text low) input) < 2 ^ 32 /\ prices_numeric parse input /\
  round_trip_test low parse P round_trip_size bo so input = Panic.
Proof.
  exists ascii_low, sample_parse, host64, hash_order, sample_order, sample_raw.
  destruct test_setting as (A & B & C & D & _). destruct all_testable as ((E1 & E2 & E3) & _).
  repeat (split; [done|]). split; [|apply test_results].
  assert (G : forallb (fun raw => match sample_parse (r_price_min_amount raw) with Some x => negb (is_nan x) | None => false end) sample_raw = true)
    by (vm_compute; reflexivity).
  unfold prices_numeric. apply Forall_forall. intros raw Hr%elem_of_list_In. rewrite forallb_forall in G. specialize (G raw Hr).
  unfold priced. destruct (sample_parse (r_price_min_amount raw)) as [x|] eqn:Ex; [|done]. exists x. split; [done|].
  split; [by apply (sample_parse_ok (r_price_min_amount raw))|]. by intros ->.
Qed.
(** Each of the three conditions fails on its own. *)
Lemma conditions_apart :
  ~ categories_in_turn (map r_options sample_raw) /\ categories_in_turn (map r_options in_turn_raw) /\
  categories_in_turn (map r_options spaced_raw) /\ categories_in_turn (map r_options priceless_raw) /\
  lost_text (r_description raw_spaced) /\ sample_parse str_nan = Some S754_nan /\ ~ classified raw_spaced /\ classified raw_lamp.
Proof.
  split; [|split; [|split; [|split; [|split; [|split; [|split]]]]]].
  - assert (G : bool_decide (categories_in_turn (map r_options sample_raw)) = false) by (vm_compute; reflexivity).
    by apply bool_decide_eq_false in G.
  - assert (G : bool_decide (categories_in_turn (map r_options in_turn_raw)) = true) by (vm_compute; reflexivity).
    by apply bool_decide_eq_true in G.
  - reflexivity.
  - reflexivity.
  - apply Codec_lemmas.lost_description. split; [done|]. vm_compute. reflexivity.
  - vm_compute. reflexivity.
  - intros [H|(o & H & _)]; [done|]. by apply elem_of_nil in H.
  - left. done.
Qed.
