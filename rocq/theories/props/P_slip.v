(** C134: one slip of the finger does not hide a product. *)
From Coq Require Import String.
From Verif.model Require Import Base F32 Utf8 Prim Coll Data Gram Indexer Nodes Classic Lit Raw Js Lib.
From Verif.spec Require Import Spec Data_spec Gram_spec Classic_spec Raw_spec Js_spec Lib_spec End_spec Reorder_spec Choice_spec
  Slip_spec Samples Raw_samples Gram_samples Lib_samples Choice_samples Typing_samples Slip_samples.
From Verif.proofs Require Import Slip_facts Slip_end.

(** C134. A product is found by a part of its text typed with one slip, if enough chars are right
    and nothing else resembles what was typed. *)
Theorem C134_found : forall P n o source pc gi, (3 <= n <= 5)%nat -> valid_build_order o ->
  total_grams (map snd source) < 2 ^ 32 -> index_from P n o source pc = Done gi ->
  lenN (c_products pc) < 2 ^ 64 -> lenN (c_products pc) <= usize_max P ->
  NoDup (map (fun s => p_id s.1) source) ->
  forall os input res p t w q, valid_order os -> gram_search n os gi input = Done res ->
  (p, t) ∈ source -> occurs w t -> slip n w q -> occurs q input ->
  (forall limit, cutoff_for (lenN (c_products pc)) limit -> unmistakable n (map snd source) limit t q) ->
  exists x, (p, x) ∈ res.
Proof. exact slip_found. Qed.
Print Assumptions C134_found.
(** In the library: it is delivered, if it meets the filters that were set. *)
Theorem C134_delivered : forall low parse P Q bo ro so input,
  valid_build_order bo -> valid_ser_order so -> low_ok low -> parse_ok parse ->
  raw_fits Q low input -> total_grams (map (raw_text low) input) < 2 ^ 32 -> NoDup (map r_id input) ->
  lenN input <= usize_max P ->
  forall u ops1 bytes ops2, index_and_serialize low parse P bo ro so input = Done bytes ->
  let st := lib_run low u Q lib_init ops1 in
  loads Q st (InitOp bytes) -> no_loads low u Q (lib_step low u Q st (InitOp bytes)) ops2 ->
  forall o query categories tags order entries st' p raw w q,
  let st1 := lib_run low u Q lib_init (ops1 ++ InitOp bytes :: ops2) in
  valid_search_order o -> handlers_ok categories tags ->
  s_classic st1 = Some (ch_handle categories) -> s_classic st1 = Some (th_handle tags) ->
  search low u o st1 query categories tags order entries = (st', Done p) ->
  Forall (fun e => exists props, plain_object e.2 props) entries ->
  raw ∈ input -> suits categories tags raw -> let_pass parse entries raw ->
  occurs w (raw_text low raw) -> slip ngram_index_size w q -> occurs q (lower low query) ->
  (forall limit, cutoff_for (lenN input) limit ->
     unmistakable ngram_index_size (map (raw_text low) input) limit (raw_text low raw) q) ->
  exists n j, Some j ∈ calls pp_next n p /\ delivers parse raw j.
Proof. exact slip_delivered. Qed.
Print Assumptions C134_delivered.
(** Each kind of slip occurs; and the numbers of right chars asked for are the least: with one less,
    at the worst place, nothing is found. *)
Example C134_hyps : Forall (fun '(w, q) => slip 5 w q /\ occurs w lit_alphabet /\
    forall limit, cutoff_for (lenN (c_products (plain_container letters))) limit ->
      unmistakable 5 (map snd letters) limit lit_alphabet q) slips /\
  exists gi, index_from wasm32 5 hash_order letters (plain_container letters) = Done gi /\
    map (found gi) (map snd slips) = [Done [0]; Done [0]; Done [0]; Done [0]] /\
    map (found gi) hopeless = [Done []; Done []; Done []; Done []].
Proof. exact (conj letters_slips letters_found). Qed.
Example C134_library : slip ngram_index_size four_legs fuor_legs /\ occurs four_legs (raw_text ascii_low raw_table) /\
  (forall limit, cutoff_for (lenN sample_raw) limit ->
     unmistakable ngram_index_size (map (raw_text ascii_low) sample_raw) limit (raw_text ascii_low raw_table) fuor_legs) /\
  answer (after [InitOp sample_file]) fuor_legs no_cats no_tags None [] = Done [2].
Proof. exact legs_slip. Qed.
