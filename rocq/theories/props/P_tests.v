(** C122, C123: the repository's tests of its codec, and its statistics. *)
From Coq Require Import String.
From Verif.model Require Import Base F32 Utf8 Prim Coll Data Gram Indexer Lit Tests.
From Verif.spec Require Import Spec Data_spec Gram_spec Samples Gram_samples Tests_spec.
From Verif.proofs Require Import Tests_facts.
Local Open Scope N_scope.

(** C122: a round trip test passes exactly if each value is read back from its bytes, all of them. *)
Theorem C122_any : forall A (enc : encoder A) (dec : decoder A) (eqb : A -> A -> bool), (forall x y, eqb x y = true <-> x = y) ->
  forall l, many_serialize_deserialize enc dec eqb l = Done tt <-> Forall (fun x => dec (enc x) = Done ([], x)) l.
Proof. exact (@any_test). Qed.
Print Assumptions C122_any.
(** The round trip test of numbers fails exactly if it is given one from 2^56 up to 2^63 - 1. *)
Theorem C122_numbers : forall l, Forall (fun v => v < 2 ^ 64) l ->
  (many_serialize_deserialize enc_u64 dec_u64 N.eqb l = Done tt <-> Forall (fun v => ~ (2 ^ 56 <= v < 2 ^ 63)) l) /\
  (many_serialize_deserialize enc_u64 dec_u64 N.eqb l = Panic <-> Exists (fun v => 2 ^ 56 <= v < 2 ^ 63) l).
Proof. exact u64_test_iff. Qed.
Print Assumptions C122_numbers.
(** The other tests pass whatever they are given. *)
Theorem C122_others : forall P,
  (forall l, Forall (fun c => is_scalar c = true) l -> many_serialize_deserialize enc_char dec_char N.eqb l = Done tt) /\
  (forall l, many_serialize_deserialize enc_bool dec_bool Bool.eqb l = Done tt) /\
  (forall l, Forall (str_ok P) l -> many_serialize_deserialize enc_str (dec_str P) str_eqb l = Done tt).
Proof. exact other_tests. Qed.
Print Assumptions C122_others.
(** The tests as they are pass; one more number and they would not. *)
Example C122_tests : test_char_serialization = Done tt /\ test_u64_serialization = Done tt /\
  test_bool_serialization = Done tt /\ test_string_serialization wasm32 = Done tt /\
  many_serialize_deserialize enc_u64 dec_u64 N.eqb [2 ^ 64 - 1; 2 ^ 63 - 1] = Panic.
Proof. repeat split; vm_compute; reflexivity. Qed.
Example C122_limit_test : limit_test = [lit ""; lit "asudfhj"; lit "as ias ias"; (lit "oai ais" ++ [230; 248])%list; [128125; 32; 128125]].
Proof. vm_compute; reflexivity. Qed.
(** A benchmark's query is the start of the text, and panics unless a char ends there. *)
Theorem C122_slices : forall s len,
  (forall t, slice_to s len = Done t <-> exists u, s = (t ++ u)%list /\ str_len t = len) /\
  (slice_to s len = Panic <-> ~ exists t u, s = (t ++ u)%list /\ str_len t = len).
Proof. exact slices. Qed.
Print Assumptions C122_slices.
Example C122_benches : (exists queries, bench_queries = Done queries /\ map str_len queries = [3; 5; 7; 10; 15; 20; 25; 34]) /\
  slice_to bench_query 21 = Panic.
Proof. split; [|vm_compute; reflexivity]. eexists. split; vm_compute; reflexivity. Qed.

(** C123: the table has a row for each length of a list, in ascending order, with the number of
    grams that have such a list, whatever the orders of the hash maps. *)
Theorem C123_rows : forall P white o o' data, valid_order o -> valid_order o' -> N.of_nat (size data) < 2 ^ 31 ->
  exists ones products_for_gram, gram_popularity P white o data = Done (Z.of_N ones, products_for_gram) /\
  number_of (fun g k => k = 1 /\ Exists (fun c => white c = true) g) data ones /\
  let rows := popularity_rows o' products_for_gram in
  rising rows /\ forall k c, (k, c) ∈ rows <-> 0 < c /\ number_of (fun _ k' => k' = k) data c.
Proof. exact popularity. Qed.
Print Assumptions C123_rows.
Theorem C123_orders : forall P white o1 o2 o1' o2' data r1 r2,
  valid_order o1 -> valid_order o2 -> valid_order o1' -> valid_order o2' -> N.of_nat (size data) < 2 ^ 31 ->
  gram_popularity P white o1 data = Done r1 -> gram_popularity P white o2 data = Done r2 ->
  r1.1 = r2.1 /\ popularity_csv (popularity_rows o1' r1.2) = popularity_csv (popularity_rows o2' r2.2).
Proof. exact popularity_orders. Qed.
Print Assumptions C123_orders.
Theorem C123_table : forall rows, exists lines,
  popularity_csv rows = (lit "product_amount;ngrams" ++ [10] ++ concat lines)%list /\ Forall2 table_line rows lines.
Proof. exact table. Qed.
Print Assumptions C123_table.
(** So of an index: how many grams occur how many times, below the cut-off. *)
Theorem C123_catalogue : forall P n bo source pc gi white o o', (1 <= n)%nat -> valid_build_order bo ->
  total_grams (map snd source) < 2 ^ 31 -> index_from P n bo source pc = Done gi ->
  lenN (c_products pc) < 2 ^ 64 -> lenN (c_products pc) <= usize_max P -> valid_order o -> valid_order o' ->
  exists limit ones products_for_gram, cutoff_for (lenN (c_products pc)) limit /\
  gram_popularity P white o (gi_data gi) = Done (ones, products_for_gram) /\
  let rows := popularity_rows o' products_for_gram in
  rising rows /\ forall k c, (k, c) ∈ rows <-> 0 < c /\ 0 < k < limit /\ occur_times n source k c.
Proof. exact catalogue_popularity. Qed.
Print Assumptions C123_catalogue.
(** The column is called product_amount, but a product that repeats a gram counts again: here a
    gram is said to have two products, and every gram is in the text of one. *)
Theorem C123_product_amount_refuted : exists gi products_for_gram,
  index_from wasm32 2 hash_order stutter (plain_container stutter) = Done gi /\
  gram_popularity wasm32 (fun _ => false) no_order (gi_data gi) = Done (0%Z, products_for_gram) /\
  popularity_rows no_order products_for_gram = [(1, 5); (2, 1)] /\
  forall g, is_Some (gi_data gi !! g) -> length (filter (fun '(p, t) => g ∈ windows 2 t) stutter) = 1%nat.
Proof. exact amount_is_not_products. Qed.
Print Assumptions C123_product_amount_refuted.
Example C123_csv : popularity_csv [(1, 5); (2, 1)] =
  (lit "product_amount;ngrams" ++ [10] ++ lit "1;5" ++ [10] ++ lit "2;1" ++ [10])%list /\
  total_grams (map snd stutter) < 2 ^ 31.
Proof. split; vm_compute; reflexivity. Qed.
