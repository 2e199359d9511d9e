(** What the orders of a search mean for the raw products. *)
From Verif.model Require Import Base F32 Utf8 Prim Coll Data Gram Indexer Nodes Classic Lit Raw Js Lib.
From Verif.spec Require Import Spec Data_spec Gram_spec Classic_spec Raw_spec Js_spec.

(** The order named [key] puts [r1] before [r2]: its title comes first in the dictionary, it is
    cheaper, or it is dearer. *)
Definition goes_before (parse : rstr -> option f32) (key : rstr) (r1 r2 : raw_product) : Prop :=
  (key = s_alphabetical /\ title_before (r_title r1) (r_title r2)) \/
  (exists x1 x2, priced parse r1 x1 /\ priced parse r2 x2 /\
     (key = s_price_up /\ f32_lt x1 x2 \/ key = s_price_down /\ f32_lt x2 x1)).
(** Delivered products stand in that order, those that it does not tell apart as in the catalogue. *)
Definition stand_in_order (parse : rstr -> option f32) (key : rstr) (input : list raw_product) (js : list js_product) : Prop :=
  forall a b ja jb ra rb, (a < b)%nat -> js !! a = Some ja -> js !! b = Some jb ->
    input !! N.to_nat (jp_sid ja) = Some ra -> input !! N.to_nat (jp_sid jb) = Some rb ->
    goes_before parse key ra rb \/ (~ goes_before parse key rb ra /\ jp_sid ja < jp_sid jb).
