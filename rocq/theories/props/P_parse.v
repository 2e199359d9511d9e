(** C86 to C89: prices are read by [str::parse::<f32>], src/data/raw_parser.rs:82; here [parse]
    is the model of that function. *)
From Coq Require Import String Reals.
From Flocq Require Import Core.Core IEEE754.BinarySingleNaN.
From Verif.model Require Import Base F32 Utf8 Prim Coll Data Gram Indexer Nodes Classic Lit Raw Js Lib Json Parse.
From Verif.spec Require Import Spec Data_spec Gram_spec Classic_spec Raw_spec Js_spec End_spec Gram_samples Raw_samples
  Json_spec Parse_spec Parse_samples.
From Verif.proofs Require Import Parse_facts Parse_props Parse_samples_facts.
Local Open Scope N_scope.

(** C86: which texts are read, and as what. *)
Theorem C86_accepts : forall s, (exists x, parse_f32 s = Some x) <->
  (exists negative m e, decimal_text s negative m e) \/ (exists negative, infinity_text s negative) \/ nan_text s.
Proof. exact parse_accepts. Qed.
Print Assumptions C86_accepts.
Theorem C86_unambiguous : forall s negative m e negative' m' e',
  decimal_text s negative m e -> decimal_text s negative' m' e' -> negative = negative' /\ m = m' /\ e = e'.
Proof. exact decimal_unique. Qed.
Print Assumptions C86_unambiguous.
Theorem C86_nearest : forall s negative m e, decimal_text s negative m e -> lenN s < 65000 ->
  exists x, parse_f32 s = Some x /\ nearest prec32 emax32 negative (dec_val negative m e) x.
Proof. exact parse_decimal. Qed.
Print Assumptions C86_nearest.
Theorem C86_infinity : forall s negative, infinity_text s negative -> parse_f32 s = Some (S754_infinity negative).
Proof. exact parse_infinity. Qed.
Print Assumptions C86_infinity.
Theorem C86_nan : forall s, parse_f32 s = Some S754_nan <-> nan_text s.
Proof. exact parse_nan_iff. Qed.
Print Assumptions C86_nan.
Theorem C86_monotone : forall s n m e s' n' m' e' x y, decimal_text s n m e -> decimal_text s' n' m' e' ->
  lenN s < 65000 -> lenN s' < 65000 -> parse_f32 s = Some x -> parse_f32 s' = Some y ->
  (dec_val n m e <= dec_val n' m' e')%R -> f32_le x y.
Proof. exact parse_monotone. Qed.
Print Assumptions C86_monotone.
(** The hypothesis of C73, C79 and C85. *)
Theorem C86_valid : parse_ok parse_f32.
Proof. exact parse_f32_ok. Qed.
Print Assumptions C86_valid.
(** So these are the catalogues that can be indexed. *)
Theorem C86_optimize : forall o input,
  (Forall (fun raw => float_text (r_price_min_amount raw)) input -> exists out, optimize parse_f32 o input = Done out) /\
  (~ Forall (fun raw => float_text (r_price_min_amount raw)) input -> optimize parse_f32 o input = Panic).
Proof. exact optimize_floats. Qed.
Print Assumptions C86_optimize.
Theorem C86_index : forall low P mo bo ro so, valid_order mo -> valid_build_order bo -> forall t entries l,
  is_catalogue verbatim entries t -> survivors entries l ->
  total_grams (map (raw_text low) (map snd l)) < 2 ^ 32 ->
  (Forall (fun raw => float_text (r_price_min_amount raw)) (map snd l) ->
     exists bytes, index low parse_f32 P mo bo ro so t = Done bytes) /\
  (~ Forall (fun raw => float_text (r_price_min_amount raw)) (map snd l) ->
     index low parse_f32 P mo bo ro so t = Panic).
Proof. exact index_floats. Qed.
Print Assumptions C86_index.
Example C86_texts :
  decimal_text (lit "19.99") false 1999 (-2) /\ decimal_text (lit ".2e2") false 2 1 /\
  decimal_text (lit "-1e-200") true 1 (-200) /\ infinity_text (lit "-InF") true /\ nan_text (lit "NaN") /\
  map (fun s => parse_f32 (lit s)) ["19.99"; ".2e2"; "-1e-200"; "1e39"; "-InF"; "NaN"; "5."; "+3";
      "340282356779733661637539395458142568447"; "340282356779733661637539395458142568448"]%string =
    [Some (S754_finite false 10480517 (-19)); Some (S754_finite false 10485760 (-19)); Some (S754_zero true);
     Some (S754_infinity false); Some (S754_infinity true); Some S754_nan; Some (S754_finite false 10485760 (-21));
     Some (S754_finite false 12582912 (-22)); Some (S754_finite false 16777215 104); Some (S754_infinity false)] /\
  map (fun s => parse_f32 (lit s)) [""; "."; "-"; " 1"; "1 "; "1,5"; "e5"; "1e"; "1e+"; "0x10"; "1_000"; "+-1"; "infi";
      "1.2.3"]%string = repeat None 14.
Proof. exact read_samples. Qed.
Example C86_catalogues : ~ Forall (fun raw => float_text (r_price_min_amount raw)) unread_raw /\
  Forall (fun raw => float_text (r_price_min_amount raw)) shop_raw.
Proof. exact unread_panics. Qed.

(** C87: the reported price is below the number that JavaScript means by the same decimals. *)
Theorem C87_same_number_refuted : exists o input c cl y x, input !! 0%nat = Some (price_raw "19.99") /\
  optimize parse_f32 o input = Done (c, cl) /\ jp_numeric (JsProduct c 0) s_price = Done y /\
  nearest prec64 emax64 false (1999 / 100) x /\ SFltb y x = true /\
  jp_numeric (JsProduct (stored_container c) 0) s_price = Done y.
Proof. exact reported_differs. Qed.
Print Assumptions C87_same_number_refuted.
(** What holds: a whole number of cents up to 131072.00 is reported closely enough ... *)
Theorem C87_close_partial : forall o input c cl i raw k, optimize parse_f32 o input = Done (c, cl) ->
  input !! i = Some raw -> costs_at_most raw k ->
  exists y, jp_numeric (JsProduct c (N.of_nat i)) s_price = Done y /\
    jp_numeric (JsProduct (stored_container c) (N.of_nat i)) s_price = Done y /\ is_finite_SF y = true /\
    (Rabs (SF2R radix2 y - IZR (Z.of_N k) / 100) <= / 256)%R.
Proof. exact reported_cents. Qed.
Print Assumptions C87_close_partial.
(** ... that rounding to cents gives the price back. *)
Theorem C87_nearest_cent : forall y k k', (Rabs (y - IZR (Z.of_N k) / 100) <= / 256)%R ->
  (Rabs (y - IZR (Z.of_N k') / 100) <= / 200)%R -> k = k'.
Proof. exact nearest_cent. Qed.
Print Assumptions C87_nearest_cent.
(** Prices without cents are reported exactly. *)
Theorem C87_whole : forall o input c cl i raw m e z, optimize parse_f32 o input = Done (c, cl) ->
  input !! i = Some raw -> decimal_text (r_price_min_amount raw) false m e ->
  lenN (r_price_min_amount raw) < 65000 -> z < 2 ^ 24 -> dec_val false m e = IZR (Z.of_N z) ->
  exists y, jp_numeric (JsProduct c (N.of_nat i)) s_price = Done y /\
    jp_numeric (JsProduct (stored_container c) (N.of_nat i)) s_price = Done y /\ is_finite_SF y = true /\
    SF2R radix2 y = IZR (Z.of_N z).
Proof. exact reported_whole. Qed.
Print Assumptions C87_whole.
Example C87_hyps : costs_at_most (price_raw "19.99") 1999 /\
  (decimal_text (r_price_min_amount (price_raw "5")) false 5 0 /\ dec_val false 5 0 = IZR (Z.of_N 5)) /\
  (exists out, optimize parse_f32 hash_order cheap_raw = Done out).
Proof. exact reported_hyps. Qed.

(** C88: the dearer of the two products comes first. *)
Theorem C88_cents_refuted : exists o input cents c cl u ri rj,
  Forall2 (fun raw k => costs (r_price_min_amount raw) k) input cents /\
  optimize parse_f32 o input = Done (c, cl) /\ get_orders (cl_order cl) s_price_up = Some u /\
  cents !! 0%nat = Some 13107202 /\ cents !! 1%nat = Some 13107201 /\
  u !! 0%nat = Some ri /\ u !! 1%nat = Some rj /\ ri < rj.
Proof. exact dear_disorder. Qed.
Print Assumptions C88_cents_refuted.
(** What holds: up to 131072.00 the orders are those of the prices in cents, ties by position. *)
Theorem C88_cents_partial : forall o input c cl cents, optimize parse_f32 o input = Done (c, cl) ->
  Forall2 costs_at_most input cents ->
  exists u d, get_orders (cl_order cl) s_price_up = Some u /\ rank_table N.lt cents u /\
    get_orders (cl_order cl) s_price_down = Some d /\ rank_table (fun a b => N.lt b a) cents d.
Proof. exact cents_orders. Qed.
Print Assumptions C88_cents_partial.
Example C88_hyps : Forall2 costs_at_most shop_raw shop_cents /\
  match optimize parse_f32 hash_order shop_raw with
  | Done (_, cl) => (get_orders (cl_order cl) s_price_up, get_orders (cl_order cl) s_price_down)
  | _ => (None, None) end = (Some [2; 0; 1; 3], Some [1; 3; 2; 0]).
Proof. exact (conj shop_costs shop_orders). Qed.

(** C89: a product of price 19.99 fails the filter "from 19.99". *)
Theorem C89_bound_refuted : exists o input c cl p a, input !! 0%nat = Some (price_raw "19.99") /\
  optimize parse_f32 o input = Done (c, cl) /\ c_products c !! 0%nat = Some p /\
  nearest prec64 emax64 false (1999 / 100) a /\
  filter_accepts (FeatureFilter (Range (JNum a) JUndef) s_price) (c_features c) p = false.
Proof. exact filter_misses. Qed.
Print Assumptions C89_bound_refuted.
(** What holds: bounds at least 1/256 away from the price decide as they should ... *)
Theorem C89_keeps_partial : forall o input c cl i raw k from to p, optimize parse_f32 o input = Done (c, cl) ->
  input !! i = Some raw -> costs_at_most raw k -> p_sid p = N.of_nat i ->
  (forall a, from = JNum a -> finite_f64 a /\ (SF2R radix2 a + / 256 <= IZR (Z.of_N k) / 100)%R) ->
  (forall b, to = JNum b -> finite_f64 b /\ (IZR (Z.of_N k) / 100 <= SF2R radix2 b - / 256)%R) ->
  filter_accepts (FeatureFilter (Range from to) s_price) (c_features c) p = true.
Proof. exact filter_keeps. Qed.
Print Assumptions C89_keeps_partial.
Theorem C89_drops_partial : forall o input c cl i raw k from to p, optimize parse_f32 o input = Done (c, cl) ->
  input !! i = Some raw -> costs_at_most raw k -> p_sid p = N.of_nat i ->
  (exists a, from = JNum a /\ finite_f64 a /\ (IZR (Z.of_N k) / 100 + / 256 < SF2R radix2 a)%R) \/
  (exists b, to = JNum b /\ finite_f64 b /\ (SF2R radix2 b < IZR (Z.of_N k) / 100 - / 256)%R) ->
  filter_accepts (FeatureFilter (Range from to) s_price) (c_features c) p = false.
Proof. exact filter_drops. Qed.
Print Assumptions C89_drops_partial.
(** ... and all bounds do if the price is a float, like a whole number up to 2^24. *)
Theorem C89_exact : forall o input c cl i raw n m e from to p, optimize parse_f32 o input = Done (c, cl) ->
  input !! i = Some raw -> decimal_text (r_price_min_amount raw) n m e ->
  lenN (r_price_min_amount raw) < 65000 -> rounded prec32 emax32 (dec_val n m e) = dec_val n m e ->
  (Rabs (dec_val n m e) < bpow radix2 emax32)%R -> p_sid p = N.of_nat i ->
  (forall a, from = JNum a -> finite_f64 a) -> (forall b, to = JNum b -> finite_f64 b) ->
  filter_accepts (FeatureFilter (Range from to) s_price) (c_features c) p = true <->
  (forall a, from = JNum a -> (SF2R radix2 a <= dec_val n m e)%R) /\
  (forall b, to = JNum b -> (dec_val n m e <= SF2R radix2 b)%R).
Proof. exact filter_exact. Qed.
Print Assumptions C89_exact.
Example C89_hyps : costs_at_most (price_raw "19.99") 1999 /\
  (finite_f64 js_1998 /\ (SF2R radix2 js_1998 + / 256 <= IZR (Z.of_N 1999) / 100)%R) /\
  (finite_f64 js_2000 /\ (IZR (Z.of_N 1999) / 100 <= SF2R radix2 js_2000 - / 256)%R) /\
  (decimal_text (lit "5") false 5 0 /\ rounded prec32 emax32 (dec_val false 5 0) = dec_val false 5 0 /\
   (Rabs (dec_val false 5 0) < bpow radix2 emax32)%R) /\
  match optimize parse_f32 hash_order cheap_raw with
  | Done (c, _) => map (filter_accepts (FeatureFilter (Range (JNum js_1998) (JNum js_2000)) s_price) (c_features c)) (c_products c)
  | _ => [] end = [true; false; false; true].
Proof. exact filter_hyps. Qed.
