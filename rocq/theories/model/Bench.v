(** The benchmarks, and the tests that tabulate index sizes. Each starts from [input], the list of
    products of test.json in whatever order the hash map yields it (parsing: Json.v), and builds an
    index as [index_and_serialize_with_n] does. Times are not modelled. *)
From Coq Require Import String.
From Verif.model Require Import Base F32 Utf8 Prim Coll Data Gram Indexer Nodes Classic Lit Raw Js Lib Tests.
Local Open Scope N_scope.

Section benches.
  Context (low : N -> list N) (parse : rstr -> option f32) (P : platform) (bo : build_order).

  (** The index that is built: src/ngram/index.rs:268-307 [make_index],
      benches/searching/by_query_len.rs:24-47 [make_index], benches/searching/by_gram_size.rs:24-44,
      benches/indexing/gram_size.rs:23-45, benches/indexing/product_amount.rs:30-52,
      tests/index_size_pr_product.rs:35-56, tests/index_size_by_ngram.rs:19-40. The second part is kept
      by the last two only. *)
  Definition make_index (n : nat) (input : list raw_product) : res (gram_index * classic) :=
    '(prods, classic_index) ← optimize parse bo input;
    index ← index_from P n bo (map (fun p => (p, product_grams low p)) (c_products prods)) prods;
    Done (index, classic_index).

  (** src/ngram/index.rs:309-314, [test_index_generation]. *)
  Definition test_index_generation (input : list raw_product) : res unit :=
    _ ← make_index 5 input; Done tt.

  (** benches/searching/by_gram_size.rs:23-51 [test], and 53-83: gram sizes 2 to 9. *)
  Definition bench_gram_search (ro : order_of (rstr * (product * f32))) (n : nat) (input : list raw_product)
    : res (list (product * f32)) :=
    '(index, _) ← make_index n input;
    gram_search n ro index (lower low bench_query).
  (** benches/searching/by_query_len.rs:11 [N], 51-58 [search], 60-83: how each is named and which
      length it asks for. *)
  Definition bench_len_search (ro : order_of (rstr * (product * f32))) (len : N) (input : list raw_product)
    : res (list (product * f32)) :=
    query ← slice_to bench_query len;
    '(index, _) ← make_index 3 input;
    gram_search 3 ro index (lower low query).
  Definition query_len_benches : list (rstr * N) :=
    [(lit "b3_chars_search", 3); (lit "b5_chars_search", 5); (lit "b7_chars_search", 7); (lit "c10_chars_search", 10);
     (lit "c15_chars_search", 15); (lit "c20_chars_search", 20); (lit "c25_chars_search", 25); (lit "c34_chars_search", 34)].

  (** benches/indexing/gram_size.rs:22-81: gram sizes 2 to 9. *)
  Definition bench_indexing (n : nat) (input : list raw_product) : res gram_index :=
    '(index, _) ← make_index n input; Done index.
  (** benches/indexing/product_amount.rs:23-56, [test]; [shuffle] is the shuffle of line 26. *)
  Definition bench_amount (shuffle : order_of raw_product) (amount : nat) (input : list raw_product) : res gram_index :=
    '(index, _) ← make_index 3 (take amount (shuffle input)); Done index.
  (** benches/indexing/product_amount.rs:58-75: how each is named and the amount it asks for. *)
  Definition amount_benches (input : list raw_product) : list (rstr * nat) :=
    [(lit "b10_products", 10%nat); (lit "b20_products", 20%nat); (lit "b40_products", 40%nat); (lit "b80_products", 80%nat);
     (lit "c160_products", 180%nat); (lit "all_products", length input)].

  (** tests/index_size_pr_product.rs:60 and tests/index_size_by_ngram.rs:44,
      [(output.len() as f32) / 1000.0]. *)
  Definition kilobytes (output : list N) : f32 := f32_div (f32_of_N (lenN output)) (f32_of_N 1000).
  (** tests/index_size_by_ngram.rs:18-45, [do_test]: the row. *)
  Definition ngram_row (so : ser_order) (n : nat) (input : list raw_product) : res (N * f32) :=
    '(index, classic_index) ← make_index n input;
    Done (N.of_nat n, kilobytes (serialize_all so index classic_index)).
  (** tests/index_size_by_ngram.rs:47-64, [index_size_by_ngram]: the rows of the table. *)
  Definition index_size_by_ngram (so : ser_order) (input : list raw_product) : res (list (N * f32)) :=
    mapR (fun n => ngram_row so n input) [2; 3; 4; 5; 6; 7; 8; 9]%nat.
  (** tests/index_size_pr_product.rs:27-60: the row for one size. *)
  Definition product_row (so : ser_order) (shuffle : order_of raw_product) (amount : nat) (input : list raw_product)
    : res (N * f32) :=
    let products := take amount (shuffle input) in
    '(index, classic_index) ← make_index 5 products;
    Done (lenN products, kilobytes (serialize_all so index classic_index)).
  (** tests/index_size_pr_product.rs:21-66, [index_size_pr_product]: the rows; there is a shuffle for
      each. *)
  Definition index_size_pr_product (so : ser_order) (shuffles : list (order_of raw_product)) (input : list raw_product)
    : res (list (N * f32)) :=
    mapR (fun '(shuffle, amount) => product_row so shuffle amount input)
      (zip shuffles [1; 5; 10; 20; 40; 80; 160; 320]%nat).
  (** tests/index_size_by_ngram.rs:44 and 50, tests/index_size_pr_product.rs:24 and 60: the text that is
      written. [show_f32] is [Display] of an [f32]. *)
  Definition size_csv (show_f32 : f32 -> rstr) (first : rstr) (rows : list (N * f32)) : rstr :=
    fold_left (fun csv '(label, kb) => (csv ++ show label ++ [59] ++ show_f32 kb ++ [10])%list) rows
      (first ++ [59] ++ lit "size_in_kb" ++ [10])%list.
End benches.
