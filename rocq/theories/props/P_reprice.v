(** C138: a price that was changed in the file. *)
From Coq Require Import String.
From Verif.model Require Import Base F32 Utf8 Prim Coll Data Gram Indexer Nodes Classic Lit Raw Js Lib.
From Verif.spec Require Import Spec Data_spec Gram_spec Classic_spec Raw_spec Js_spec Lib_spec End_spec Reprice_spec Samples Raw_samples
  Gram_samples Lib_samples.
From Verif.proofs Require Import Reprice_facts Reprice_end.

(** C138. In no file is it noticed that a price was overwritten, whatever the four bytes: the file
    is accepted, the other price is reported, and every search without filters delivers what it
    delivered before, also a search by price. *)
Theorem C138_noticed_refuted : forall low parse P Q bo ro so input bytes i raw x,
  valid_build_order bo -> valid_ser_order so -> low_ok low -> parse_ok parse ->
  raw_fits Q low input -> total_grams (map (raw_text low) input) < 2 ^ 32 ->
  index_and_serialize low parse P bo ro so input = Done bytes ->
  input !! i = Some raw -> priced parse raw x ->
  exists before after, bytes = before ++ enc_f32 x ++ after /\
  forall b0 b1 b2 b3 st, s_index_dead st = false -> s_classic_dead st = false ->
    exists gi gi' cl, initialize Q st bytes = (loaded gi cl, Done true) /\
    initialize Q st (before ++ [b0; b1; b2; b3] ++ after) = (loaded gi' cl, Done true) /\
    (forall k raw' x', input !! k = Some raw' -> priced parse raw' x' ->
       jp_numeric (JsProduct (gi_container gi') (N.of_nat k)) s_price =
       Done (f64_of_f32 (if decide (k = i) then f32_of_bits (b0 * 2 ^ 24 + b1 * 2 ^ 16 + b2 * 2 ^ 8 + b3) else x'))) /\
    (forall low' uw o query cats tags order,
       positions_of (search low' uw o (loaded gi' cl) query cats tags order []).2 =
       positions_of (search low' uw o (loaded gi cl) query cats tags order []).2).
Proof. exact changed_price_file. Qed.
Print Assumptions C138_noticed_refuted.
(** What holds: nothing but that price is different. *)
Theorem C138_noticed_partial : forall P n o gi cl col i x, valid_ser_order o -> gram_index_ok P n gi ->
  classic_ok P (c_products (gi_container gi)) cl ->
  c_features (gi_container gi) !! s_price = Some (FFloat col) -> col !! i = Some x ->
  exists before after, serialize_all o gi cl = before ++ enc_f32 x ++ after /\
    forall b0 b1 b2 b3, deserialize_all P n (before ++ [b0; b1; b2; b3] ++ after) =
      Done (index_repriced i (f32_of_bits (b0 * 2 ^ 24 + b1 * 2 ^ 16 + b2 * 2 ^ 8 + b3)) (stored_gram_index gi), stored_classic cl).
Proof. exact changed_price. Qed.
Print Assumptions C138_noticed_partial.
(** The chair that cost 0.5 costs 32 and still comes first by price, before two that cost 2. *)
Example C138_hyps : take 4 (drop 86 sample_file) = enc_f32 half_f32 /\
  answer (after [InitOp sample_file]) three_words no_cats no_tags (Some s_price_up) [] = Done [1; 0; 2] /\
  (initialize host64 lib_init (<[86%nat := 66]> sample_file)).2 = Done true /\
  answer (after [InitOp (<[86%nat := 66]> sample_file)]) three_words no_cats no_tags (Some s_price_up) [] = Done [1; 0; 2] /\
  match s_index (after [InitOp (<[86%nat := 66]> sample_file)]) with
  | Some gi => map (fun k => jp_numeric (JsProduct (gi_container gi) k) s_price) [1; 0; 2]
  | None => []
  end = map (fun k => Done (f64_of_f32 (f32_of_N k))) [32; 2; 2].
Proof. exact dear_chair. Qed.
