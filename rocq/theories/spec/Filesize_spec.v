(** How many bytes the file of an index takes. *)
From Coq Require Import String.
From Verif.model Require Import Base Utf8 Coll Data Gram Nodes Classic Lit Raw.
From Verif.spec Require Import Spec Gram_spec Data_spec Classic_spec Raw_spec.

(** A byte for each started seven bits. *)
Definition number_bytes (v : N) : N := N.log2 v / 7 + 1.

(** ** The trie: the pieces of the texts of one to [n] chars, each once. *)
Definition pieces_of (n : nat) (t : list N) : list (list N) :=
  concat (map (fun i => map (fun k => take k (drop i t)) (seq 1 n)) (seq 0 (length t))).
Definition pieces (n : nat) (texts : list (list N)) : list (list N) := remove_dups (concat (map (pieces_of n) texts)).
Definition last_char (w : list N) : N := List.last w 0.
(** The last char, a weight of four bytes, and how many pieces are longer by one char. *)
Definition piece_bytes (ws : list (list N)) (w : list N) : N :=
  number_bytes (last_char w) + 4 + number_bytes (lenN (filter (fun v => removelast v = w) ws)).
Definition single (w : list N) : Prop := length w = 1%nat.
#[export] Instance single_dec w : Decision (single w) := ltac:(unfold single; apply _).
(** Chars are written once more, as the keys of the map of roots. *)
Definition trie_bytes (n : nat) (texts : list (list N)) : N :=
  let ws := pieces n texts in
  number_bytes (lenN (filter single ws)) + sum_N (map (fun w => number_bytes (last_char w)) (filter single ws)) +
  sum_N (map (piece_bytes ws) ws).

(** ** The posting lists: for each window in fewer than [limit] places, the numbers of the texts it is in. *)
Definition places (n : nat) (texts : list (list N)) (key : list N) : list N :=
  concat (imap (fun i t => replicate (length (filter (fun w => w = key) (windows n t))) (N.of_nat i)) texts).
(** Each number as the difference from the one before. *)
Fixpoint gaps_bytes (previous : N) (l : list N) : N :=
  match l with
  | [] => 0
  | x :: l' => number_bytes (x - previous) + gaps_bytes x l'
  end.
Definition list_bytes (l : list N) : N := number_bytes (lenN l) + gaps_bytes 0 l.
Definition key_bytes (key : list N) : N := number_bytes (lenN key) + sum_N (map number_bytes key).
Definition kept_windows (n : nat) (limit : N) (texts : list (list N)) : list (list N) :=
  filter (fun key => lenN (places n texts key) < limit) (remove_dups (concat (map (windows n) texts))).
Definition posting_bytes (n : nat) (limit : N) (texts : list (list N)) : N :=
  let ks := kept_windows n limit texts in
  number_bytes (lenN ks) + sum_N (map (fun key => key_bytes key + list_bytes (places n texts key)) ks).

(** ** Everything else, from the raw catalogue *)
Definition char_bytes (c : N) : N := if c <? 128 then 1 else if c <? 2048 then 2 else if c <? 65536 then 3 else 4.
Definition text_bytes (s : list N) : N := let b := sum_N (map char_bytes s) in number_bytes b + b.
Definition texts_bytes (l : list (list N)) : N := number_bytes (lenN l) + sum_N (map text_bytes l).
Fixpoint index_of (x : list N) (l : list (list N)) : N :=
  match l with
  | [] => 0
  | y :: l' => if decide (x = y) then 0 else 1 + index_of x l'
  end.
Definition vendor_names (input : list raw_product) : list (list N) := first_seen (map r_vendor input).
(** A description is cut after about 100 bytes, as C09 says. *)
Definition product_bytes (input : list raw_product) (raw : raw_product) : N :=
  text_bytes (limit_string_len (r_description raw) 100) + text_bytes (r_title raw) + text_bytes (r_id raw) +
  number_bytes (index_of (r_vendor raw) (vendor_names input)).
Definition products_bytes (input : list raw_product) : N :=
  number_bytes (lenN input) + sum_N (map (product_bytes input) input).
(** A column for the prices and one for the images, unless they are empty: its name, its kind, its values. *)
Definition columns_bytes (input : list raw_product) : N :=
  1 + (if decide (input = []) then 0 else text_bytes (lit "price"%string) + 1 + (number_bytes (lenN input) + 4 * lenN input)) +
  (if decide (first_images input = []) then 0 else text_bytes (lit "image_url"%string) + 1 + texts_bytes (first_images input)).
(** The numbers of the rows, each as often as [count] says. *)
Definition row_numbers {A} (count : A -> nat) (rows : list A) : list N :=
  concat (imap (fun i r => replicate (count r) (N.of_nat i)) rows).
Definition has_option (k v : list N) (options : list raw_option) : Prop :=
  Exists (fun o => ro_name o = k /\ v ∈ ro_values o) options.
#[export] Instance has_option_dec k v options : Decision (has_option k v options) := ltac:(unfold has_option; apply _).
Definition option_bytes (raw : list (list raw_option)) (k v : list N) : N :=
  text_bytes v + list_bytes (row_numbers (fun options => if decide (has_option k v options) then 1%nat else 0%nat) raw).
Definition category_bytes (raw : list (list raw_option)) (k : list N) : N :=
  let values := first_seen (value_mentions raw k) in
  1 + text_bytes k + number_bytes (lenN values) + sum_N (map (option_bytes raw k) values).
Definition categories_bytes (raw : list (list raw_option)) : N :=
  let names := first_seen (category_mentions raw) in
  number_bytes (lenN names) + sum_N (map (category_bytes raw) names).
Definition tag_bytes (raw : list (list rstr)) (t : list N) : N :=
  text_bytes t + list_bytes (row_numbers (fun tags => length (filter (fun s => s = t) tags)) raw).
Definition tags_bytes (raw : list (list rstr)) : N :=
  let names := first_seen (concat raw) in
  number_bytes (lenN names) + sum_N (map (tag_bytes raw) names).
(** A rank for each product in each of the three orders. *)
Definition order_bytes (input : list raw_product) (key : list N) : N :=
  text_bytes key + (number_bytes (lenN input) + sum_N (map (fun i => number_bytes (N.of_nat i)) (seq 0 (length input)))).
Definition orders_bytes (input : list raw_product) : N :=
  1 + sum_N (map (order_bytes input) [lit "Alphabetical"%string; lit "Price low to high"%string; lit "Price high to low"%string]).
Definition catalogue_bytes (input : list raw_product) : N :=
  texts_bytes (vendor_names input) + products_bytes input + columns_bytes input +
  categories_bytes (map r_options input) + tags_bytes (map r_tags input) + orders_bytes input.
Definition file_bytes (low : N -> list N) (n : nat) (limit : N) (input : list raw_product) : N :=
  catalogue_bytes input + trie_bytes n (map (raw_text low) input) + posting_bytes n limit (map (raw_text low) input).
