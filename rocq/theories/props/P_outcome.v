(** C104: how indexing ends, whatever the products. No [RefCell] borrow of
    src/ngram/indexer.rs panics, and the only arithmetic that can is counting. *)
From Verif.model Require Import Base F32 Utf8 Prim Coll Data Gram Indexer Nodes Classic Lit Raw Js Lib Json.
From Verif.spec Require Import Spec Data_spec Gram_spec Classic_spec Raw_spec Js_spec Lib_spec End_spec Outcome_spec Samples Raw_samples
  Gram_samples Lib_samples Json_spec Json_samples Outcome_samples.
From Verif.proofs Require Import Json_samples_facts Outcome_facts Outcome_props Outcome_samples_facts.

Theorem C104_index_from : forall P n o source pc, (1 <= n)%nat -> valid_build_order o ->
  (overflows P (map snd source) -> index_from P n o source pc = Panic) /\
  (~ overflows P (map snd source) -> exists gi, index_from P n o source pc = Done gi).
Proof. exact index_outcomes. Qed.
Print Assumptions C104_index_from.
Example C104_panics : overflows checked32 [endless_text] /\ ~ overflows host64 [endless_text].
Proof. exact endless_overflows. Qed.
(** Grams of no characters: the first character that is fed panics (src/ngram/indexer.rs:88). *)
Theorem C104_zero : forall P o source pc, valid_build_order o ->
  ((exists p t, (p, t) ∈ source /\ t <> []) -> index_from P 0 o source pc = Panic) /\
  (~ (exists p t, (p, t) ∈ source /\ t <> []) -> index_from P 0 o source pc = Done (GramIndex ∅ ∅ pc)).
Proof. exact index_zero. Qed.
Print Assumptions C104_zero.
(** From raw products to the file. *)
Theorem C104_file : forall low parse P bo ro so, valid_build_order bo -> forall n input, (1 <= n <= 764)%nat ->
  (prices_parse parse input /\ ~ overflows P (map (raw_text low) input) ->
     exists bytes, index_and_serialize_with_n low parse P n bo ro so input = Done bytes) /\
  (~ prices_parse parse input \/ overflows P (map (raw_text low) input) ->
     index_and_serialize_with_n low parse P n bo ro so input = Panic).
Proof. exact file_outcomes. Qed.
Print Assumptions C104_file.
Example C104_file_done : prices_parse sample_parse sample_raw /\ ~ overflows checked32 (map (raw_text ascii_low) sample_raw) /\
  ~ overflows host64 (map (raw_text ascii_low) sample_raw).
Proof. exact sample_raw_fits. Qed.
Example C104_file_panics : prices_parse sample_parse [endless_raw] /\
  overflows checked32 (map (raw_text ascii_low) [endless_raw]).
Proof. exact endless_raw_overflows. Qed.
(** From a JSON text to the file. *)
Theorem C104_text : forall low parse P bo ro so, valid_build_order bo -> forall mo, valid_order mo -> forall t entries l,
  is_catalogue verbatim entries t -> survivors entries l ->
  (prices_parse parse (map snd l) /\ ~ overflows P (map (raw_text low) (map snd l)) ->
     exists bytes, index low parse P mo bo ro so t = Done bytes) /\
  (~ prices_parse parse (map snd l) \/ overflows P (map (raw_text low) (map snd l)) ->
     index low parse P mo bo ro so t = Panic).
Proof. exact text_outcomes. Qed.
Print Assumptions C104_text.
Example C104_text_hyps : is_catalogue verbatim sample_entries sample_text /\ survivors sample_entries sample_entries /\
  total_grams (map (raw_text ascii_low) (map snd sample_entries)) < 2 ^ 32 /\
  prices_parse sample_parse (map snd sample_entries).
Proof. exact sample_outcome. Qed.
