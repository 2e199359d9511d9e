(** What is left of catalogues and results when the order of the catalogue is forgotten. *)
From Verif.model Require Import Base F32 Utf8 Prim Coll Data Gram Indexer Nodes Classic Lit Raw Js Lib.
From Verif.spec Require Import Spec Data_spec Gram_spec Classic_spec Raw_spec Js_spec Lib_spec End_spec.

(** Texts with the ids of their products, which do not depend on positions in the catalogue. *)
Definition labelled (source : list (product * list N)) : list (rstr * list N) :=
  map (fun '(p, t) => (p_id p, t)) source.
(** The ids found, with their confidences. *)
Definition scores (res : list (product * f32)) : list (rstr * f32) :=
  map (fun r => (p_id r.1, r.2)) res.

(** The option named [v] of the category named [k] is switched on. *)
Definition chosen_option (h : cat_handler) (k v : rstr) : Prop :=
  exists key cat opt, key ∈ ch_active h /\ option_at (ch_handle h) key cat opt /\ cat_name cat = k /\ o_name opt = v.
(** The tag named [t] is switched on. *)
Definition chosen_tag (h : tag_handler) (t : rstr) : Prop :=
  exists id tg, id ∈ th_active h /\ tag_at (th_handle h) id tg /\ t_name tg = t.
Definition same_choice (cats1 cats2 : cat_handler) (tags1 tags2 : tag_handler) : Prop :=
  (forall k v, chosen_option cats1 k v <-> chosen_option cats2 k v) /\
  (forall t, chosen_tag tags1 t <-> chosen_tag tags2 t).
(** The raw product has all that is switched on. *)
Definition suits (cats : cat_handler) (tags : tag_handler) (raw : raw_product) : Prop :=
  (forall k v, chosen_option cats k v -> exists o, o ∈ r_options raw /\ ro_name o = k /\ v ∈ ro_values o) /\
  (forall t, chosen_tag tags t -> t ∈ r_tags raw).
(** Iterating over the results yields a product with this id. *)
Definition delivered (p : producer) (id : rstr) : Prop :=
  exists n j, Some j ∈ calls pp_next n p /\ jp_id j = Done id.

(** Of a raw product: its id, its text run together and lower-cased, its options and its tags. *)
Definition view (low : N -> list N) (raw : raw_product) : rstr * list N * list raw_option * list rstr :=
  (r_id raw, raw_text low raw, r_options raw, r_tags raw).
(** Upper and lower case of the same string; [low] is idempotent, as Unicode's mapping is. *)
Definition same_letters (low : N -> list N) (s1 s2 : rstr) : Prop := concat (map low s1) = concat (map low s2).
(** Two raw products that differ in the case of their texts only, as far as a search can see. *)
Definition same_but_case (low : N -> list N) (raw1 raw2 : raw_product) : Prop :=
  r_id raw1 = r_id raw2 /\ r_options raw1 = r_options raw2 /\ r_tags raw1 = r_tags raw2 /\
  same_letters low (r_description raw1) (r_description raw2) /\ same_letters low (r_title raw1) (r_title raw2) /\
  same_letters low (r_vendor raw1) (r_vendor raw2).
(** Some piece of five chars of one field of the product is a piece of the query, up to one
    correction. *)
Definition field_relevant (low : N -> list N) (query : rstr) (raw : raw_product) : Prop :=
  exists w g field, field ∈ [r_description raw; r_title raw; r_vendor raw] /\
    length w = ngram_index_size /\ occurs w (lower low query) /\ one_correction w g /\ occurs g (lower low field).
