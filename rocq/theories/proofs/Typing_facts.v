(** Longer queries: sums of confidences grow, and the hits of a query are among those of a longer one. *)
From Coq Require Import Reals Lra.
From Flocq Require Import Core IEEE754.BinarySingleNaN.
From Verif.model Require Import Base F32 Utf8 Prim Coll Data Gram.
From Verif.spec Require Import Spec Data_spec Gram_spec.
From Verif.proofs Require Import Base_facts Float_facts.
Local Open Scope R_scope.
#[local] Existing Instance prec32_gt.
#[local] Existing Instance prec32_lt.

Lemma sum_key x y : f32_number x -> f32_number y -> 0 <= key32 x -> 0 <= key32 y ->
  key32 (f32_add x y) = Rmin (rnd32 (key32 x + key32 y)) (bpow radix2 emax32).
Proof.
  intros [Hx Nx] [Hy Ny] Px Py. set (B := bpow radix2 emax32). pose proof (bpow_gt_0 radix2 emax32) as Hb. fold B in Hb.
  assert (RB : rnd32 B = B).
  { apply round_generic; [apply _|]. apply generic_format_bpow. unfold SpecFloat.fexp, prec32, emax32, SpecFloat.emin. lia. }
  assert (Inf : forall z, B <= z -> Rmin (rnd32 z) B = B).
  { intros z Hz. apply Rmin_right. rewrite <- RB at 1. by apply rnd32_le. }
  assert (K : key32 (S754_infinity false) = B) by done. assert (K' : key32 (S754_infinity true) = - B) by done.
  destruct (fin x) eqn:Fx; [destruct (fin y) eqn:Fy|].
  - rewrite (key_fin emax32 x), (key_fin emax32 y) in * by done.
    destruct (Rlt_dec (rnd32 (val x + val y)) B) as [L|L].
    + destruct (add_val prec32 emax32 prec32_gt prec32_lt x y) as [E F]; try done.
      { rewrite Rabs_pos_eq; [done|]. rewrite <- (round_0 radix2 fexp32 ZnearestE). apply rnd32_le. lra. }
      change (SFadd prec32 emax32) with f32_add in *. rewrite (key_fin emax32) by done. rewrite E. rewrite Rmin_left; [done|]. apply Rlt_le, L.
    + rewrite Rmin_right by lra.
      destruct (lift prec32 emax32 x Hx) as [a Ea]. destruct (lift prec32 emax32 y Hy) as [b Eb]. subst x y.
      rewrite (fin_B prec32 emax32) in Fx, Fy. rewrite !(val_B2R prec32 emax32) in *.
      pose proof (Bplus_correct prec32 emax32 prec32_gt prec32_lt mode_NE a b Fx Fy) as H.
      change (round_mode mode_NE) with ZnearestE in H. rewrite Rlt_bool_false in H.
      2: { rewrite Rabs_pos_eq; [fold B; lra|]. fold B in Hb. lra. }
      destruct H as (H1 & H2).
      assert (Hs : Bsign a = false \/ Bsign b = false).
      { destruct (Bsign a) eqn:Sa; [|by left]. destruct (Bsign b) eqn:Sb; [|by right]. exfalso.
        assert (Hz : forall c : binary_float prec32 emax32, is_finite c = true -> Bsign c = true -> 0 <= B2R c -> B2R c = 0).
        { intros [| | |s m e Hm]; try done. simpl. intros _ -> Pc.
          assert (F2R (Float radix2 (Z.neg m) e) < 0) by by apply F2R_lt_0.
          by apply Rlt_not_le in Pc. }
        rewrite (Hz a), (Hz b), Rplus_0_r, round_0 in L by (done || apply _). lra. }
      unfold f32_add. rewrite (add_equiv prec32 emax32 prec32_gt prec32_lt).
      assert (H3 : B2SF (Bplus mode_NE a b) = S754_infinity false).
      { rewrite H1. destruct Hs as [->|Hs]; [done|]. by rewrite H2, Hs. }
      by rewrite H3.
  - destruct y as [|[]| |]; try done; [rewrite K' in Py; lra|].
    assert (f32_add x (S754_infinity false) = S754_infinity false) as -> by by destruct x as [[]|[]| |[]].
    rewrite K, Inf; [done|]. lra.
  - destruct x as [|[]| |]; try done; [rewrite K' in Px; lra|].
    assert (f32_add (S754_infinity false) y = S754_infinity false) as ->.
    { destruct y as [[]|[]| |[]]; try done. rewrite K' in Py. lra. }
    rewrite K, Inf; [done|]. lra.
Qed.
Lemma f32_add_mono x y z : f32_number x -> f32_number y -> f32_number z ->
  f32_le f32_zero x -> f32_le f32_zero z -> f32_le x y -> f32_le (f32_add x z) (f32_add y z).
Proof.
  intros Hx Hy Hz Px Pz L. assert (Py : f32_le f32_zero y).
  { eapply f32_le_trans; [done|apply Hx|apply Hy|done|done]. }
  destruct (f32_add_nonneg x z) as (Nx & _); [done..|]. destruct (f32_add_nonneg y z) as (Ny & _); [done..|].
  apply f32_le_key in L; [|done..]. apply f32_le_key in Px; [|done..]. apply f32_le_key in Py; [|done..]. apply f32_le_key in Pz; [|done..].
  rewrite key_zero in *. apply f32_le_key; [done..|]. rewrite !sum_key by done. apply Rle_min_compat_r, rnd32_le. lra.
Qed.

Local Close Scope R_scope.
