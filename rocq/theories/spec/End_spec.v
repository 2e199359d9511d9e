(** The whole way from a raw catalogue to delivered products. *)
From Verif.model Require Import Base F32 Utf8 Prim Coll Data Gram Indexer Nodes Classic Lit Raw Js Lib.
From Verif.spec Require Import Spec Data_spec Gram_spec Classic_spec Raw_spec Js_spec Lib_spec.

(** ** Catalogues whose files can be read on the platform [P] *)
Definition raw_strings_ok (P : platform) (raw : raw_product) : Prop :=
  valid_str (r_description raw) /\
  Forall (str_ok P) ([r_title raw; r_vendor raw; r_id raw] ++ r_tags raw ++ r_media raw) /\
  Forall (fun o => str_ok P (ro_name o) /\ Forall (str_ok P) (ro_values o)) (r_options raw).
(** All that the file counts: products, chars of texts after lower-casing, mentions of tags,
    options and categories. *)
Definition raw_counts (low : N -> list N) (input : list raw_product) : list N :=
  [lenN input; total_grams (map (raw_text low) input); lenN (concat (map r_tags input));
   lenN (pair_mentions (map r_options input)); lenN (category_mentions (map r_options input)); 104].
Definition raw_fits (P : platform) (low : N -> list N) (input : list raw_product) : Prop :=
  Forall (raw_strings_ok P) input /\
  Forall (fun n => size_ok P n /\ forall k, n <= cap_max P k) (raw_counts low input).
(** [char::to_lowercase] returns chars; [str::parse] returns floats. *)
Definition low_ok (low : N -> list N) : Prop := forall c, is_scalar c = true -> valid_str (low c).
Definition parse_ok (parse : rstr -> option f32) : Prop := forall s x, parse s = Some x -> valid_f32 x.

(** The delivered product [j] is the raw product, with a shortened description (C09). *)
Definition delivers (parse : rstr -> option f32) (raw : raw_product) (j : js_product) : Prop :=
  jp_title j = Done (r_title raw) /\ jp_id j = Done (r_id raw) /\
  jp_description j = Done (limit_string_len (r_description raw) 100) /\
  (exists q, jp_product j = Done q /\ v_name (p_vendor q) = r_vendor raw) /\
  forall x, priced parse raw x -> jp_numeric j s_price = Done (f64_of_f32 x).
(** [g] is [w] with at most one char after the first replaced, or with one inserted and the
    last one dropped. *)
Definition one_correction (w g : list N) : Prop :=
  exists q0 q m, w = q0 :: q /\ g = q0 :: m /\ length m = length q /\
    ((differences m q <= 1)%nat \/ exists a y b z, m = a ++ y :: b /\ q = a ++ b ++ [z]).
(** The raw product has a piece of text that is, up to one correction, one of the query, and
    that occurs somewhere in the catalogue. Pieces before the fifth char are filled up with NUL
    on the left; if no text of the catalogue has a NUL those do not count, and both pieces are
    really there. *)
Definition relevant (low : N -> list N) (input : list raw_product) (query : rstr) (raw : raw_product) : Prop :=
  exists w g, w ∈ windows ngram_index_size (lower low query) /\ one_correction w g /\
    g ∈ windows ngram_index_size (raw_text low raw) /\
    (exists raw', raw' ∈ input /\ occurs g (raw_text low raw')) /\
    (Forall (fun raw' => 0 ∉ raw_text low raw') input -> occurs w (lower low query) /\ occurs g (raw_text low raw)).
(** The raw product has all that is switched on in the handlers. *)
Definition raw_has_options (input : list raw_product) (h : cat_handler) (i : nat) : Prop :=
  forall key cat opt, key ∈ ch_active h -> option_at (ch_handle h) key cat opt ->
    lists_option (map r_options input) i (cat_name cat) (o_name opt).
Definition raw_has_tags (input : list raw_product) (h : tag_handler) (i : nat) : Prop :=
  forall id t, id ∈ th_active h -> tag_at (th_handle h) id t -> lists_tag (map r_tags input) i (t_name t).
(** The piece [w] of five chars is spelled like nothing else in the catalogue: whatever is
    one correction away is [w] itself. *)
Definition distinctive (low : N -> list N) (input : list raw_product) (w : list N) : Prop :=
  forall raw g, raw ∈ input -> occurs g (raw_text low raw) -> one_correction w g -> g = w.
