(** What a raw catalogue says. *)
From Verif.model Require Import Base F32 Utf8 Prim Coll Data Gram Nodes Classic Lit Raw.
From Verif.spec Require Import Spec Data_spec.

(** The product [p] carries the data of [raw]. *)
Definition describes (raw : raw_product) (p : product) : Prop :=
  p_title p = r_title raw /\ p_id p = r_id raw /\ p_description p = r_description raw /\
  v_name (p_vendor p) = r_vendor raw.

(** The minimum price of [raw], read by [parse], is [x]. *)
Definition priced (parse : rstr -> option f32) (raw : raw_product) (x : f32) : Prop :=
  parse (r_price_min_amount raw) = Some x.
(** Every minimum price can be read. *)
Definition prices_parse (parse : rstr -> option f32) (input : list raw_product) : Prop :=
  Forall (fun raw => exists x, priced parse raw x) input.
(** ... and is a number, possibly infinite. *)
Definition prices_numeric (parse : rstr -> option f32) (input : list raw_product) : Prop :=
  Forall (fun raw => exists x, priced parse raw x /\ f32_number x) input.

(** The first images of those products that have one, in catalogue order. *)
Definition first_images (input : list raw_product) : list rstr :=
  omap (fun raw => head (r_media raw)) input.

(** The grams of a product's text: description, title and vendor name run together, each
    char put through [low]. *)
Definition raw_text (low : N -> list N) (raw : raw_product) : list N :=
  concat (map low (r_description raw ++ r_title raw ++ r_vendor raw)).
