(** What a search answers, in terms of the catalogue's text: prices in cents. *)
From Coq Require Import Reals.
From Flocq Require Import Core.Core IEEE754.BinarySingleNaN.
From Verif.model Require Import Base F32 Utf8 Lit Raw Js Lib Json.
From Verif.spec Require Import Spec Classic_spec Raw_spec Js_spec Json_spec Parse_spec.
Local Open Scope N_scope.

(** The products that remain have different ids. *)
Definition ids_differ (entries : list (rstr * raw_product)) : Prop := forall key raw key' raw',
  last_entry entries key raw -> last_entry entries key' raw' -> r_id raw = r_id raw' -> key = key'.
(** The price of each is a number of cents up to 131072.00. *)
Definition all_in_cents (entries : list (rstr * raw_product)) : Prop := forall key raw,
  last_entry entries key raw -> exists k, costs_at_most raw k.
(** A product may stand before another, by cents or by title. *)
Definition may_precede (key : rstr) (ra rb : raw_product) : Prop :=
  (key = s_alphabetical -> ~ title_before (r_title rb) (r_title ra)) /\
  (forall ka kb, costs_at_most ra ka -> costs_at_most rb kb ->
     (key = s_price_up -> ka <= kb) /\ (key = s_price_down -> kb <= ka)).
(** The bound is no number, or a float more than 1/256 away from [k] cents. *)
Definition clear_bound (v : jsval) (k : N) : Prop := forall a, v = JNum a ->
  finite_f64 a /\ (/ 256 < Rabs (SF2R radix2 a - IZR (Z.of_N k) / 100))%R.
(** [k] cents lie between the bounds. *)
Definition cents_within (from to : jsval) (k : N) : Prop :=
  (forall a, from = JNum a -> (SF2R radix2 a <= IZR (Z.of_N k) / 100)%R) /\
  (forall b, to = JNum b -> (IZR (Z.of_N k) / 100 <= SF2R radix2 b)%R).
(** [let_pass] in cents. *)
Definition cents_pass (entries : list (rstr * jsval)) (k : N) : Prop :=
  forall key v props, (key, v) ∈ entries -> plain_object v props ->
    (~ is_number (property props s_from) /\ ~ is_number (property props s_to)) \/
    (key = s_price /\ cents_within (property props s_from) (property props s_to) k).
(** All its bounds are clear of the price. *)
Definition clear_bounds (entries : list (rstr * jsval)) (k : N) : Prop :=
  forall key v props, (key, v) ∈ entries -> plain_object v props ->
    clear_bound (property props s_from) k /\ clear_bound (property props s_to) k.
