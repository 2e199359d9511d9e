(** The repository's own tests and statistics, apart from the round trip of src/serialize/mod.rs
    (Equal.v). A failed [assert!] and the [unwrap] of [None] panic. *)
From Coq Require Import String.
From Verif.model Require Import Base F32 Utf8 Prim Coll Data Gram Lit.
Local Open Scope N_scope.

(** src/serialize/primitives.rs:162-171, [serialize_deserialize]. *)
Definition serialize_deserialize {A} (enc : encoder A) (dec : decoder A) (input : A) : res A :=
  '(remaining_bytes, output) ← match dec (enc input) with Nope => Panic | r => r end;
  match remaining_bytes with [] => Done output | _ => Panic end.
(** src/serialize/primitives.rs:173-183, [many_serialize_deserialize]; [eqb] is [==]. *)
Fixpoint many_serialize_deserialize {A} (enc : encoder A) (dec : decoder A) (eqb : A -> A -> bool) (input : list A) : res unit :=
  match input with
  | [] => Done tt
  | item :: input' =>
    deserialized ← serialize_deserialize enc dec item;
    if eqb item deserialized then many_serialize_deserialize enc dec eqb input' else Panic
  end.
(** src/serialize/primitives.rs:185-188, [test_char_serialization]. *)
Definition test_char_serialization : res unit :=
  many_serialize_deserialize enc_char dec_char N.eqb [97; 0; 0; 230; 128125].
(** src/serialize/primitives.rs:190-200, [test_u64_serialization]. *)
Definition test_u64_serialization : res unit :=
  many_serialize_deserialize enc_u64 dec_u64 N.eqb [128; 127; 0; 2 ^ 64 - 1; 255; 2 ^ 32 - 1].
(** src/serialize/primitives.rs:202-205, [test_bool_serialization]. *)
Definition test_bool_serialization : res unit :=
  many_serialize_deserialize enc_bool dec_bool Bool.eqb [true; false].
(** src/serialize/primitives.rs:207-212, [test_string_serialization]. *)
Definition test_string_serialization (P : platform) : res unit :=
  many_serialize_deserialize enc_str (dec_str P) str_eqb
    [lit ""; lit "Hello"; lit "hello";
     (lit " assadio" ++ [128125] ++ lit " s da sad" ++ [128125] ++ lit "i oasid" ++ [10; 9; 10])%list].

(** src/serialize/collections.rs:108-119, [test]: the texts it prints, between apostrophes. *)
Definition limit_test : list rstr :=
  map (fun str => limit_string_len str 12)
    [lit ""; lit "asudfhj asiudf"; lit "as ias ias is a";
     (lit "oai ais" ++ [230; 248; 32; 248; 229; 230; 229])%list;
     [128125; 32; 128125; 32; 128125; 128125; 32; 128125; 128125]].

(** [+= 1] on an [i32], the type of [ones_with_space] at src/ngram/index.rs:323. *)
Definition add_one_i32 (P : platform) (x : Z) : res Z :=
  if (x + 1 <? 2 ^ 31)%Z then Done (x + 1)%Z
  else if overflow_checks P then Panic else Done (x + 1 - 2 ^ 32)%Z.
(** src/ngram/index.rs:321-333, the loop of [test_gram_popularity]; [white] is
    [char::is_whitespace], [o] the order in which the map yields the grams. *)
Definition gram_popularity (P : platform) (white : N -> bool) (o : order_of (list N * list product))
    (data : gmap (list N) (list product)) : res (Z * gmap N N) :=
  foldM (fun '(ones_with_space, products_for_gram) '(gram, products) =>
    ones_with_space ← (if (lenN products =? 1) && existsb white gram
                       then add_one_i32 P ones_with_space else Done ones_with_space);
    count ← match products_for_gram !! lenN products with
            | Some v => add_bits P 32 v 1
            | None => Done 1
            end;
    Done (ones_with_space, <[lenN products := count]> products_for_gram)) (o (map_to_list data)) (0%Z, ∅).
(** src/ngram/index.rs:341-345, [ordered_products_for_gram]. *)
Definition popularity_rows (o : order_of (N * N)) (products_for_gram : gmap N N) : list (N * N) :=
  sort_by (fun a b => N.compare a.1 b.1) (o (map_to_list products_for_gram)).
(** [Display] of an unsigned integer: its decimal digits. One digit per unit of fuel. *)
Fixpoint show_fuel (fuel : nat) (v : N) : rstr :=
  match fuel with
  | O => []
  | S fuel' => if v <? 10 then [48 + v] else (show_fuel fuel' (v / 10) ++ [48 + v mod 10])%list
  end.
Definition show (v : N) : rstr := show_fuel (S (N.size_nat v)) v.
(** src/ngram/index.rs:347-350, the text of the table. *)
Definition popularity_csv (rows : list (N * N)) : rstr :=
  fold_left (fun csv '(product_amount, ngrams) => (csv ++ show product_amount ++ [59] ++ show ngrams ++ [10])%list)
    rows (lit "product_amount;ngrams" ++ [10])%list.

(** [&s[0..len]]: panics unless a char ends there. *)
Fixpoint slice_to (s : rstr) (len : N) : res rstr :=
  if len =? 0 then Done []
  else match s with
       | [] => Panic
       | c :: s' => if char_len c <=? len then t ← slice_to s' (len - char_len c); Done (c :: t) else Panic
       end.
(** benches/searching/by_query_len.rs:54 and by_gram_size.rs:23, [QUERY]. *)
Definition bench_query : rstr := (lit "Kunsplakter orang bl" ++ [229] ++ lit " Nya hedeg" ++ [229] ++ lit "rd")%list.
(** benches/searching/by_query_len.rs:51-83: the queries of the eight benchmarks. *)
Definition bench_queries : res (list rstr) := mapR (slice_to bench_query) [3; 5; 7; 10; 15; 20; 25; 34].
