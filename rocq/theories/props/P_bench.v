(** C131: the benchmarks and the tables of index sizes. *)
From Coq Require Import String.
From Verif.model Require Import Base F32 Utf8 Prim Coll Data Gram Indexer Nodes Classic Lit Raw Js Lib Tests Bench.
From Verif.spec Require Import Spec Data_spec Gram_spec Raw_spec End_spec Samples Raw_samples Gram_samples Lib_samples Bench_spec Bench_samples.
Local Open Scope list_scope.
From Verif.proofs Require Import Bench_facts Bench_more Raw_samples_facts.

(** C131, as expected, would say that the number in a benchmark's name is what it measures. Not so:
    c160_products asks for 180 products, and c25_chars_search searches for 24 chars. *)
Theorem C131_names_refuted :
  (forall input, (lit "c160_products", 180%nat) ∈ amount_benches input) /\ named (lit "c160_products") = 160 /\
  exists name len q, (name, len) ∈ query_len_benches /\ named name = 25 /\ slice_to bench_query len = Done q /\ length q = 24%nat.
Proof. exact names_differ. Qed.
Print Assumptions C131_names_refuted.
(** Exactly: all others ask for what they are named after; and those that search for so many chars do it
    up to 20. *)
Theorem C131_amounts_partial : forall input name k, (name, k) ∈ amount_benches input ->
  name = lit "c160_products" \/ name = lit "all_products" /\ k = length input \/ named name = N.of_nat k.
Proof. exact amounts_named. Qed.
Print Assumptions C131_amounts_partial.
Theorem C131_lengths_partial : forall name len, (name, len) ∈ query_len_benches -> named name = len /\
  exists q, slice_to bench_query len = Done q /\ (N.of_nat (length q) = len <-> len <= 20).
Proof. exact lens_named. Qed.
Print Assumptions C131_lengths_partial.
(** Whatever the catalogue, if its prices are numbers: all of them finish, and so do the tables. *)
Theorem C131_finish : forall low parse P bo, valid_build_order bo ->
  forall input, prices_parse parse input -> total_grams (map (raw_text low) input) < 2 ^ 32 ->
  forall ro so (shuffle : order_of raw_product), valid_order shuffle ->
  (exists u, test_index_generation low parse P bo input = Done u) /\
  (forall n, (1 <= n <= 764)%nat -> exists r, bench_gram_search low parse P bo ro n input = Done r) /\
  (forall name len, (name, len) ∈ query_len_benches -> exists r, bench_len_search low parse P bo ro len input = Done r) /\
  (forall n, (1 <= n)%nat -> exists gi, bench_indexing low parse P bo n input = Done gi) /\
  (forall amount, exists gi, bench_amount low parse P bo shuffle amount input = Done gi) /\
  (exists rows, index_size_by_ngram low parse P bo so input = Done rows) /\
  (forall shuffles, Forall valid_order shuffles -> exists rows, index_size_pr_product low parse P bo so shuffles input = Done rows).
Proof. exact bench_finish. Qed.
Print Assumptions C131_finish.
(** The searches that are timed find every product with three to five chars of the query in a row (as
    many as the gram size), if these are not too frequent and spelled like nothing else. *)
Theorem C131_timed : forall low parse P bo input, valid_build_order bo ->
  total_grams (map (raw_text low) input) < 2 ^ 32 -> lenN input < 2 ^ 64 -> lenN input <= usize_max P ->
  forall ro raw w, valid_order ro -> raw ∈ input -> 0 ∉ w -> occurs w (raw_text low raw) ->
  (forall limit, cutoff_for (lenN input) limit -> total_occurrences w (map (raw_text low) input) < limit) -> distinctive low input w ->
  (forall n res, (3 <= n <= 5)%nat -> length w = n -> bench_gram_search low parse P bo ro n input = Done res ->
     occurs w (lower low bench_query) -> exists p x, (p, x) ∈ res /\ p_id p = r_id raw) /\
  (forall len q res, length w = 3%nat -> bench_len_search low parse P bo ro len input = Done res ->
     slice_to bench_query len = Done q -> occurs w (lower low q) -> exists p x, (p, x) ∈ res /\ p_id p = r_id raw).
Proof. exact timed_found. Qed.
Print Assumptions C131_timed.
Example C131_found : orange ∈ posters /\ 0 ∉ ora /\ length ora = 3%nat /\ occurs ora (raw_text ascii_low orange) /\
  (forall limit, cutoff_for (lenN posters) limit -> total_occurrences ora (map (raw_text ascii_low) posters) < limit) /\
  distinctive ascii_low posters ora /\
  (exists q, slice_to bench_query 15 = Done q /\ occurs ora (lower ascii_low q)) /\
  total_grams (map (raw_text ascii_low) posters) < 2 ^ 32 /\
  (r ← bench_len_search ascii_low sample_parse host64 hash_order no_order 15 posters; Done (map (fun x => p_id x.1) r)) = Done [r_id orange; lit "2"].
Proof. exact ora_timed. Qed.
(** Each row has the size of the file that the indexer would write, up to rounding. *)
Theorem C131_by_ngram : forall low parse P bo so input rows, index_size_by_ngram low parse P bo so input = Done rows ->
  Forall2 (fun n '(label, kb) => label = N.of_nat n /\
    forall ro, exists bytes, index_and_serialize_with_n low parse P n bo ro so input = Done bytes /\
      (lenN bytes < 2 ^ 24 -> thousands kb (lenN bytes)))
    [2; 3; 4; 5; 6; 7; 8; 9]%nat rows.
Proof. exact ngram_rows. Qed.
Print Assumptions C131_by_ngram.
Theorem C131_pr_product : forall low parse P bo so shuffles input rows, Forall valid_order shuffles -> length shuffles = 8%nat ->
  index_size_pr_product low parse P bo so shuffles input = Done rows ->
  Forall2 (fun k '(label, kb) => exists chosen, chosen_from input (Nat.min k (length input)) chosen /\ label = lenN chosen /\
    forall ro, exists bytes, index_and_serialize low parse P bo ro so chosen = Done bytes /\
      (lenN bytes < 2 ^ 24 -> thousands kb (lenN bytes)))
    [1; 5; 10; 20; 40; 80; 160; 320]%nat rows.
Proof. exact product_rows. Qed.
Print Assumptions C131_pr_product.
(** Running the first of them again gives the same table. *)
Theorem C131_again : forall low parse P bo1 bo2 so1 so2 input rows1 rows2,
  valid_build_order bo1 -> valid_build_order bo2 -> valid_ser_order so1 -> valid_ser_order so2 ->
  index_size_by_ngram low parse P bo1 so1 input = Done rows1 -> index_size_by_ngram low parse P bo2 so2 input = Done rows2 ->
  rows1 = rows2.
Proof. exact ngram_rows_same. Qed.
Print Assumptions C131_again.
(** The table is written as a first line and a line for each row. *)
Theorem C131_text : forall show_f32 first rows, size_csv show_f32 first rows =
  (first ++ lit ";size_in_kb" ++ [10]) ++ concat (map (fun '(label, kb) => show label ++ lit ";" ++ show_f32 kb ++ [10]) rows).
Proof. exact csv_text. Qed.
Print Assumptions C131_text.
Example C131_hyps : valid_build_order hash_order /\ prices_parse sample_parse sample_raw /\
  total_grams (map (raw_text (fun x => [x])) sample_raw) < 2 ^ 32.
Proof. destruct sample_prices as (A & B & C). split; [exact A|]. split; [exact B|]. destruct C as [_ C]. rewrite C. reflexivity. Qed.
