(** Concrete histories and tables, for the satisfiability examples. *)
From Verif.model Require Import Base F32 Utf8 Prim Coll Data Gram Nodes Classic Lit Raw Js.
From Verif.spec Require Import Spec Data_spec Js_spec Samples Raw_samples.

(** Options 0 and 1 of category 0 of [sample_raw] are Red and Blue. *)
Definition sample_cat_ops : list (handler_op export_option) :=
  let red := ExportOption [] 0 0 in let blue := ExportOption [] 0 1 in
  [AddGeneral 5; AddFor blue 7; Toggle red; Toggle blue; AddFor blue 8; AddFor blue 9; RemoveFor blue 8;
   AddGeneral 6; Toggle red].
(** Tag 1 is switched on and off, tag 0 on. *)
Definition sample_tag_ops (cl : classic) : list (handler_op js_tag) :=
  [Toggle (JSTag cl 1); AddGeneral 5; Toggle (JSTag cl 0); AddFor (JSTag cl 0) 8; Toggle (JSTag cl 1)].
Definition sample_prices_table : feature_set := {[s_price := FFloat [two_f32; half_f32]]}.
Definition sample_at (sid : N) : product := Product [] [] (Vendor [] 0) [] sid.
