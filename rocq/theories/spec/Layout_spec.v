(** What is written for an index, byte for byte. *)
From Coq Require Import Sorted.
From Verif.model Require Import Base F32 Utf8 Coll Data Gram Nodes Classic.
From Verif.spec Require Import Spec Gram_spec Grammar_spec.

(** ** Numbers, floats, truth values and texts *)
(** Digits in base 128, the lowest first; all but the last with the top bit; no digit is superfluous. *)
Definition numeral (v : N) (bs : list N) : Prop := exists ds d, bs = ds ++ [d] /\ Forall continues ds /\ d < 128 /\
  (ds = [] \/ d <> 0) /\ base128 bs = v.
(** The fields of IEEE 754: sign, exponent and fraction. *)
Inductive fields : f32 -> bool -> N -> N -> Prop :=
| Fields_zero s : fields (S754_zero s) s 0 0
| Fields_infinity s : fields (S754_infinity s) s 255 0
| Fields_nan : fields S754_nan false 255 (2 ^ 22)
| Fields_small s m e : N.pos m < 2 ^ 23 -> fields (S754_finite s m e) s 0 (N.pos m)
| Fields_normal s m e fraction : N.pos m = 2 ^ 23 + fraction -> fields (S754_finite s m e) s (Z.to_N (e + 150)) fraction.
(** Four bytes, the highest first. *)
Inductive float_bytes : f32 -> list N -> Prop :=
| Float_bytes x sign exponent fraction b3 b2 b1 b0 : fields x sign exponent fraction ->
    is_byte b2 -> is_byte b1 -> is_byte b0 ->
    ((b3 * 256 + b2) * 256 + b1) * 256 + b0 = (if sign then 2 ^ 31 else 0) + exponent * 2 ^ 23 + fraction ->
    float_bytes x [b3; b2; b1; b0].
Definition truth_bytes (b : bool) (bs : list N) : Prop := bs = if b then [1] else [0].
(** First how many bytes of UTF-8 there are, then these. *)
Definition text_written (s : list N) (bs : list N) : Prop := exists n, numeral (lenN (utf8 s)) n /\ bs = n ++ utf8 s.

(** ** Lists and tables *)
Definition in_turn {A} (w : A -> list N -> Prop) (l : list A) (bs : list N) : Prop :=
  exists parts, Forall2 w l parts /\ bs = concat parts.
(** How many there are, then each. *)
Definition counted {A} (w : A -> list N -> Prop) (l : list A) (bs : list N) : Prop :=
  exists n parts, numeral (lenN l) n /\ in_turn w l parts /\ bs = n ++ parts.
Definition both {A B} (w : A -> list N -> Prop) (w' : B -> list N -> Prop) (x : A * B) (bs : list N) : Prop :=
  exists bs1 bs2, w (fst x) bs1 /\ w' (snd x) bs2 /\ bs = bs1 ++ bs2.
(** The entries in any order. *)
Definition table `{Countable K} {V} (w : K -> list N -> Prop) (w' : V -> list N -> Prop) (m : gmap K V) (bs : list N) : Prop :=
  exists entries, entries ≡ₚ map_to_list m /\ counted (both w w') entries bs.
(** Numbers in ascending order, each as the difference from the one before; the first as it is. *)
Definition differences (l ds : list N) : Prop := length ds = length l /\
  forall i v, l !! i = Some v -> v = sum_N (take (S i) ds).
Definition ids_written (ids : list N) (bs : list N) : Prop :=
  exists sorted ds, sorted ≡ₚ ids /\ StronglySorted N.le sorted /\ differences sorted ds /\ counted numeral ds bs.
Definition refs_written (l : list product) : list N -> Prop := ids_written (map p_sid l).

(** ** The catalogue *)
(** The names of the vendors, in the order of their ids. *)
Definition vendors_written (vm : vendor_manager) (bs : list N) : Prop :=
  exists vs, vs ≡ₚ map snd (map_to_list (vm_tags vm)) /\ StronglySorted (fun a b => v_id a <= v_id b) vs /\
    counted (fun v => text_written (v_name v)) vs bs.
(** A description is cut at the last space within its first hundred bytes, or after these if there is none. *)
Definition shortened (s r : list N) : Prop :=
  (r = s /\ forall pre c post, s = pre ++ c :: post -> lenN (utf8 pre) <= 100) \/
  (exists pre c post, s = pre ++ c :: post /\ 100 < lenN (utf8 pre) /\
     (forall p d q, pre = p ++ d :: q -> lenN (utf8 p) <= 100) /\
     ((exists w, pre = r ++ 32 :: w /\ 32 ∉ w) \/ (r = pre /\ 32 ∉ pre))).
Definition product_written (p : product) (bs : list N) : Prop :=
  exists description b1 b2 b3 b4, shortened (p_description p) description /\ text_written description b1 /\
    text_written (p_title p) b2 /\ text_written (p_id p) b3 /\ numeral (v_id (p_vendor p)) b4 /\
    bs = b1 ++ b2 ++ b3 ++ b4.
(** A byte for the kind of a column, then its values. *)
Inductive column_written : feature -> list N -> Prop :=
| Column_texts l bs : counted text_written l bs -> column_written (FString l) (0 :: bs)
| Column_floats l bs : counted float_bytes l bs -> column_written (FFloat l) (1 :: bs)
| Column_numbers l bs : counted numeral l bs -> column_written (FInteger l) (2 :: bs).

(** ** The trie: char, weight, children *)
Inductive tree_written : node -> list N -> Prop :=
| Tree_written c w kids b1 b2 n parts : numeral c b1 -> float_bytes w b2 -> numeral (lenN kids) n ->
    Forall2 tree_written kids parts -> tree_written (Node c w kids) (b1 ++ b2 ++ n ++ concat parts).

(** ** Categories *)
Definition option_written (o : cat_option) : list N -> Prop :=
  both text_written refs_written (o_name o, o_content o).
Definition category_written (c : category) (bs : list N) : Prop :=
  exists b1 b2 b3, truth_bytes (cat_exclusive c) b1 /\ text_written (cat_name c) b2 /\
    counted option_written (cat_options c) b3 /\ bs = b1 ++ b2 ++ b3.
Definition tag_written (t : tag) : list N -> Prop := both text_written refs_written (t_name t, t_products t).

(** ** The file *)
Definition file_written (gi : gram_index) (cl : classic) (bs : list N) : Prop :=
  exists vendors products columns roots windows categories tags orders,
    vendors_written (c_vendors (gi_container gi)) vendors /\
    counted product_written (c_products (gi_container gi)) products /\
    table text_written column_written (c_features (gi_container gi)) columns /\
    table numeral tree_written (gi_roots gi) roots /\
    table (counted numeral) refs_written (gi_data gi) windows /\
    counted category_written (cl_categories cl) categories /\
    counted tag_written (cl_tags cl) tags /\
    table text_written (counted numeral) (cl_order cl) orders /\
    bs = vendors ++ products ++ columns ++ roots ++ windows ++ categories ++ tags ++ orders.
