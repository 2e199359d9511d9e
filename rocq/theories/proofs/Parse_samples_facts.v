(** Facts about the concrete prices. *)
From Coq Require Import String ZArith Reals Lia Lra ZifyN ZifyBool.
From Flocq Require Import Core.Core IEEE754.BinarySingleNaN.
From Verif.model Require Import Base F32 Utf8 Prim Coll Data Gram Indexer Nodes Classic Lit Raw Js Lib Parse.
From Verif.spec Require Import Spec Data_spec Classic_spec Raw_spec Js_spec End_spec Gram_samples Raw_samples Parse_spec Parse_samples.
From Verif.proofs Require Import Base_facts Float_facts F64_facts Js_facts Raw_props Parse_facts Parse_props.

Ltac digits := repeat (apply Forall_cons_2; [cbv; split; discriminate|]); apply Forall_nil_2.
Ltac plain int frac := exists [], (lit int), (lit "."), (lit frac), [], 0%Z;
  split; [done|]; split; [by left|]; split; [digits|]; split; [digits|]; split; [by left|];
  split; [done|]; split; [by left|]; done.
Lemma text_1999 : decimal_text (lit "19.99") false 1999 (-2).
Proof. plain "19"%string "99"%string. Qed.
Lemma text_1998 : decimal_text (lit "19.98") false 1998 (-2).
Proof. plain "19"%string "98"%string. Qed.
Lemma text_13107202 : decimal_text (lit "131072.02") false 13107202 (-2).
Proof. plain "131072"%string "02"%string. Qed.
Lemma text_13107201 : decimal_text (lit "131072.01") false 13107201 (-2).
Proof. plain "131072"%string "01"%string. Qed.
Lemma text_5 : decimal_text (lit "5") false 5 0.
Proof.
  exists [], (lit "5"), [], [], [], 0%Z. split; [done|]. split; [by left|]. split; [digits|]. split; [constructor|].
  split; [by right|]. split; [done|]. split; [by left|]. done.
Qed.
Lemma text_2e2 : decimal_text (lit ".2e2") false 2 1.
Proof.
  exists [], [], (lit "."), (lit "2"), (lit "e2"), 2%Z. split; [done|]. split; [by left|]. split; [constructor|]. split; [digits|].
  split; [by left|]. split; [done|]. split; [|done]. right. exists 101, [], false, (lit "2").
  split; [done|]. split; [by left|]. split; [by left|]. split; [done|]. split; [digits|]. done.
Qed.
Lemma text_minus : decimal_text (lit "-1e-200") true 1 (-200).
Proof.
  exists (lit "-"), (lit "1"), [], [], (lit "e-200"), (-200)%Z. split; [done|]. split; [by right; right|].
  split; [digits|]. split; [constructor|]. split; [by right|]. split; [done|]. split; [|done].
  right. exists 101, (lit "-"), true, (lit "200").
  split; [done|]. split; [by left|]. split; [by right; right|]. split; [done|]. split; [digits|]. done.
Qed.
Lemma read_samples :
  decimal_text (lit "19.99") false 1999 (-2) /\ decimal_text (lit ".2e2") false 2 1 /\
  decimal_text (lit "-1e-200") true 1 (-200) /\ infinity_text (lit "-InF") true /\ nan_text (lit "NaN") /\
  map (fun s => parse_f32 (lit s)) ["19.99"; ".2e2"; "-1e-200"; "1e39"; "-InF"; "NaN"; "5."; "+3"; "340282356779733661637539395458142568447"; "340282356779733661637539395458142568448"]%string =
    [Some (S754_finite false 10480517 (-19)); Some (S754_finite false 10485760 (-19)); Some (S754_zero true);
     Some (S754_infinity false); Some (S754_infinity true); Some S754_nan; Some (S754_finite false 10485760 (-21));
     Some (S754_finite false 12582912 (-22)); Some (S754_finite false 16777215 104); Some (S754_infinity false)] /\
  map (fun s => parse_f32 (lit s)) [""; "."; "-"; " 1"; "1 "; "1,5"; "e5"; "1e"; "1e+"; "0x10"; "1_000"; "+-1"; "infi"; "1.2.3"]%string =
    repeat None 14.
Proof.
  split; [exact text_1999|]. split; [exact text_2e2|]. split; [exact text_minus|].
  split; [left; exists (lit "-"), (lit "InF"); split; [done|]; split; [by right; right|done]|].
  split; [exists false, [], (lit "NaN"); split; [done|]; split; [by left|done]|].
  split; vm_compute; reflexivity.
Qed.

Local Open Scope R_scope.
Lemma val_cents m : dec_val false m (-2) = IZR (Z.of_N m) / 100.
Proof.
  unfold dec_val, F2R. cbn [cond_Zopp Fnum Fexp]. f_equal.
Qed.
Lemma costs_1999 : costs (lit "19.99") 1999.
Proof. split; [done|]. exists 1999%N, (-2)%Z. split; [exact text_1999|exact (val_cents _)]. Qed.
Lemma costs_1998 : costs (lit "19.98") 1998.
Proof. split; [done|]. exists 1998%N, (-2)%Z. split; [exact text_1998|exact (val_cents _)]. Qed.
Lemma costs_13107202 : costs (lit "131072.02") 13107202.
Proof. split; [done|]. exists 13107202%N, (-2)%Z. split; [exact text_13107202|exact (val_cents _)]. Qed.
Lemma costs_13107201 : costs (lit "131072.01") 13107201.
Proof. split; [done|]. exists 13107201%N, (-2)%Z. split; [exact text_13107201|exact (val_cents _)]. Qed.
Lemma val_5 : dec_val false 5 0 = 5.
Proof. unfold dec_val, F2R. simpl. lra. Qed.
Lemma costs_5 : costs (lit "5") 500.
Proof.
  split; [done|]. exists 5%N, 0%Z. split; [exact text_5|]. rewrite val_5. simpl. lra.
Qed.
Lemma costs_2e2 : costs (lit ".2e2") 2000.
Proof.
  split; [done|]. exists 2%N, 1%Z. split; [exact text_2e2|]. unfold dec_val, F2R. simpl. lra.
Qed.
Lemma shop_costs : Forall2 costs_at_most shop_raw shop_cents.
Proof.
  repeat apply Forall2_cons_2; [..|apply Forall2_nil_2]; (split; [|done]);
    [exact costs_1999|exact costs_5|exact costs_1998|exact costs_2e2].
Qed.
Lemma shop_orders : match optimize parse_f32 hash_order shop_raw with
  | Done (_, cl) => (get_orders (cl_order cl) s_price_up, get_orders (cl_order cl) s_price_down)
  | _ => (None, None) end = (Some [2; 0; 1; 3]%N, Some [1; 3; 2; 0]%N).
Proof. vm_compute. reflexivity. Qed.
Lemma dear_costs : Forall2 (fun raw k => costs (r_price_min_amount raw) k) dear_raw dear_cents.
Proof. repeat apply Forall2_cons_2; [exact costs_13107202|exact costs_13107201|apply Forall2_nil_2]. Qed.
Lemma dear_disorder : exists o input cents c cl u ri rj, Forall2 (fun raw k => costs (r_price_min_amount raw) k) input cents /\
  optimize parse_f32 o input = Done (c, cl) /\ get_orders (cl_order cl) s_price_up = Some u /\
  cents !! 0%nat = Some 13107202%N /\ cents !! 1%nat = Some 13107201%N /\
  u !! 0%nat = Some ri /\ u !! 1%nat = Some rj /\ (ri < rj)%N.
Proof.
  assert (E : match optimize parse_f32 hash_order dear_raw with
    | Done (_, cl) => get_orders (cl_order cl) s_price_up = Some [0%N; 1%N] | _ => False end) by (vm_compute; reflexivity).
  destruct (optimize parse_f32 hash_order dear_raw) as [[c cl]| | |] eqn:O; [|destruct E..].
  exists hash_order, dear_raw, dear_cents, c, cl, [0%N; 1%N], 0%N, 1%N. split; [exact dear_costs|].
  by repeat split.
Qed.

Lemma js_1999_nearest : nearest prec64 emax64 false (1999 / 100) js_1999.
Proof.
  pose proof (nearest_decimal_correct prec64 emax64 eq_refl eq_refl false 1999 (-2)) as H.
  by rewrite val_cents in H.
Qed.
Lemma reported_differs : exists o input c cl y x, input !! 0%nat = Some (price_raw "19.99") /\
  optimize parse_f32 o input = Done (c, cl) /\ jp_numeric (JsProduct c 0) s_price = Done y /\
  nearest prec64 emax64 false (1999 / 100) x /\ SFltb y x = true /\
  jp_numeric (JsProduct (stored_container c) 0) s_price = Done y.
Proof.
  assert (E : match optimize parse_f32 hash_order cheap_raw with
    | Done (c, _) => jp_numeric (JsProduct c 0) s_price = Done (f64_of_f32 (S754_finite false 10480517 (-19))) /\
       jp_numeric (JsProduct (stored_container c) 0) s_price = Done (f64_of_f32 (S754_finite false 10480517 (-19)))
    | _ => False end) by (vm_compute; split; reflexivity).
  destruct (optimize parse_f32 hash_order cheap_raw) as [[c cl]| | |] eqn:O; [|destruct E..]. destruct E as [E1 E2].
  exists hash_order, cheap_raw, c, cl, (f64_of_f32 (S754_finite false 10480517 (-19))), js_1999.
  split; [done|]. split; [exact O|]. split; [exact E1|]. split; [exact js_1999_nearest|]. split; [vm_compute; reflexivity|exact E2].
Qed.
Lemma reported_hyps : costs_at_most (price_raw "19.99") 1999 /\
  (decimal_text (r_price_min_amount (price_raw "5")) false 5 0 /\ dec_val false 5 0 = IZR (Z.of_N 5)) /\
  (exists out, optimize parse_f32 hash_order cheap_raw = Done out).
Proof.
  split; [split; [exact costs_1999|done]|]. split; [split; [exact text_5|exact val_5]|].
  assert (E : match optimize parse_f32 hash_order cheap_raw with Done _ => True | _ => False end) by (vm_compute; exact Logic.I).
  destruct (optimize parse_f32 hash_order cheap_raw) as [out| | |]; [by exists out|destruct E..].
Qed.
Lemma filter_misses : exists o input c cl p a, input !! 0%nat = Some (price_raw "19.99") /\
  optimize parse_f32 o input = Done (c, cl) /\ c_products c !! 0%nat = Some p /\
  nearest prec64 emax64 false (1999 / 100) a /\
  filter_accepts (FeatureFilter (Range (JNum a) JUndef) s_price) (c_features c) p = false.
Proof.
  assert (E : match optimize parse_f32 hash_order cheap_raw with
    | Done (c, _) => match c_products c !! 0%nat with
       | Some p => filter_accepts (FeatureFilter (Range (JNum js_1999) JUndef) s_price) (c_features c) p = false
       | None => False end
    | _ => False end) by (vm_compute; reflexivity).
  destruct (optimize parse_f32 hash_order cheap_raw) as [[c cl]| | |] eqn:O; [|destruct E..].
  destruct (c_products c !! 0%nat) as [p|] eqn:Hp; [|destruct E].
  exists hash_order, cheap_raw, c, cl, p, js_1999. split; [done|]. split; [exact O|]. split; [exact Hp|].
  split; [exact js_1999_nearest|exact E].
Qed.
Lemma unread_panics : ~ Forall (fun raw => float_text (r_price_min_amount raw)) unread_raw /\
  Forall (fun raw => float_text (r_price_min_amount raw)) shop_raw.
Proof.
  split.
  - rewrite Forall_forall. intros H. specialize (H (price_raw "19,99")).
    assert (exists x, parse_f32 (lit "19,99") = Some x) as [x Hx] by (apply parse_accepts, H; right; left).
    vm_compute in Hx. discriminate.
  - assert (H : Forall (fun raw => exists x, parse_f32 (r_price_min_amount raw) = Some x) shop_raw).
    { repeat (apply Forall_cons_2; [vm_compute; eexists; reflexivity|]). apply Forall_nil_2. }
    eapply Forall_impl; [exact H|]. intros raw Hr. by apply parse_accepts in Hr.
Qed.
Lemma filter_hyps : costs_at_most (price_raw "19.99") 1999 /\
  (finite_f64 js_1998 /\ SF2R radix2 js_1998 + / 256 <= IZR (Z.of_N 1999) / 100) /\
  (finite_f64 js_2000 /\ IZR (Z.of_N 1999) / 100 <= SF2R radix2 js_2000 - / 256) /\
  (decimal_text (lit "5") false 5 0 /\ rounded prec32 emax32 (dec_val false 5 0) = dec_val false 5 0 /\
   Rabs (dec_val false 5 0) < bpow radix2 emax32) /\
  match optimize parse_f32 hash_order cheap_raw with
  | Done (c, _) => map (filter_accepts (FeatureFilter (Range (JNum js_1998) (JNum js_2000)) s_price) (c_features c)) (c_products c)
  | _ => [] end = [true; false; false; true].
Proof.
  split; [split; [exact costs_1999|done]|].
  split. { split; [vm_compute; split; reflexivity|]. assert (E : js_1998 = S754_finite false 5623870034678907 (-48)) by (vm_compute; reflexivity).
    rewrite E. unfold SF2R, F2R. simpl. lra. }
  split. { split; [vm_compute; split; reflexivity|]. assert (E : js_2000 = S754_finite false 5629499534213120 (-48)) by (vm_compute; reflexivity).
    rewrite E. unfold SF2R, F2R. simpl. lra. }
  split; [|vm_compute; reflexivity].
  split; [exact text_5|]. rewrite val_5. split; [apply (rnd32_int 5); lia|].
  rewrite Rabs_pos_eq by lra. apply (IZR_lt 5 (2 ^ 128)). lia.
Qed.
