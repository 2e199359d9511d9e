(** C114, C115: what a file says. *)
From Verif.model Require Import Base F32 Utf8 Prim Coll Data Gram Indexer Nodes Classic Lit Raw Js Lib.
From Verif.spec Require Import Spec Data_spec Gram_spec Classic_spec Raw_spec Js_spec Lib_spec End_spec
  Samples Raw_samples Gram_samples Lib_samples End_samples.
From Verif.proofs Require End_samples_facts.
From Verif.proofs Require Import Sample_facts Again_facts Again_props.

(** C114. A file says where it ends, and two different contents never have the same file. *)
Theorem C114_unique : forall P n o o' gi gi' cl cl' rest rest', valid_ser_order o -> valid_ser_order o' ->
  gram_index_ok P n gi -> classic_ok P (c_products (gi_container gi)) cl ->
  gram_index_ok P n gi' -> classic_ok P (c_products (gi_container gi')) cl' ->
  serialize_all o gi cl ++ rest = serialize_all o' gi' cl' ++ rest' ->
  rest = rest' /\ stored_gram_index gi = stored_gram_index gi' /\ stored_classic cl = stored_classic cl'.
Proof. exact file_unique. Qed.
Print Assumptions C114_unique.
(** Of the files of two catalogues, none is the start of the other. *)
Theorem C114_no_prefix : forall low parse P P' Q bo bo' ro ro' so so' input input',
  valid_build_order bo -> valid_build_order bo' -> valid_ser_order so -> valid_ser_order so' -> low_ok low -> parse_ok parse ->
  raw_fits Q low input -> raw_fits Q low input' ->
  total_grams (map (raw_text low) input) < 2 ^ 32 -> total_grams (map (raw_text low) input') < 2 ^ 32 ->
  forall bytes more, index_and_serialize low parse P bo ro so input = Done bytes ->
  index_and_serialize low parse P' bo' ro' so' input' = Done (bytes ++ more) -> more = [] /\ length input = length input'.
Proof. exact no_file_starts_another. Qed.
Print Assumptions C114_no_prefix.
Example C114_hyps : valid_ser_order sample_order /\ gram_index_ok wasm32 2 sample_index /\
  classic_ok wasm32 (c_products (gi_container sample_index)) sample_classic.
Proof. split; [exact sample_order_valid|]. split; [exact sample_index_ok|exact sample_classic_ok]. Qed.
Example C114_raw_hyps : valid_build_order hash_order /\ valid_ser_order sample_order /\ low_ok ascii_low /\ parse_ok sample_parse /\
  raw_fits host64 ascii_low sample_raw /\ raw_fits wasm32 ascii_low sample_raw /\
  total_grams (map (raw_text ascii_low) sample_raw) < 2 ^ 32 /\ prices_parse sample_parse sample_raw.
Proof. exact End_samples_facts.end_hyps. Qed.

(** C115. What was loaded can be written again, on any platform and in any order, and what is loaded
    from that is the same. *)
Theorem C115_again : forall P Q n o o' gi cl rest gi' cl' rest', valid_ser_order o -> valid_ser_order o' ->
  gram_index_ok P n gi -> classic_ok P (c_products (gi_container gi)) cl ->
  gram_index_ok Q n gi -> classic_ok Q (c_products (gi_container gi)) cl ->
  deserialize_all P n (serialize_all o gi cl ++ rest) = Done (gi', cl') ->
  deserialize_all Q n (serialize_all o' gi' cl' ++ rest') = Done (gi', cl').
Proof. exact written_again. Qed.
Print Assumptions C115_again.
Example C115_hyps : valid_ser_order sample_order /\ gram_index_ok wasm32 2 sample_index /\
  classic_ok wasm32 (c_products (gi_container sample_index)) sample_classic /\
  gram_index_ok host64 2 sample_index /\
  classic_ok host64 (c_products (gi_container sample_index)) sample_classic /\
  exists gi cl, deserialize_all wasm32 2 (serialize_all sample_order sample_index sample_classic) = Done (gi, cl).
Proof.
  split; [exact sample_order_valid|]. split; [exact sample_index_ok|]. split; [exact sample_classic_ok|].
  split; [exact sample_index_ok64|]. split; [exact sample_classic_ok64|]. eexists _, _. vm_compute; reflexivity.
Qed.
