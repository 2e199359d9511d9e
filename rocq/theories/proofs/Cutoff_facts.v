(** The cut-off for posting lists, for catalogues of any size. *)
From Coq Require Import Reals Lra Lia ZArith.
From Flocq Require Import Core IEEE754.BinarySingleNaN Relative.
From Coq Require Import SpecFloat.
From Verif.model Require Import Base F32 Indexer.
From Verif.spec Require Import Spec Gram_spec.
From Verif.proofs Require Import Float_facts.
Local Open Scope R_scope.

Lemma rnd32_relative x : 1 / 2 <= x -> x * (1 - / 16777216) <= rnd32 x <= x * (1 + / 16777216).
Proof.
  intros Hx.
  pose proof (relative_error_N_FLT radix2 (-149) 24 ltac:(done) (fun t => negb (Z.even t)) x) as E.
  rewrite (Rabs_pos_eq x) in E by lra.
  assert (B : bpow radix2 (-149 + 24 - 1) <= x).
  { apply (Rle_trans _ (bpow radix2 (-1))); [by apply bpow_le|]. simpl. lra. }
  specialize (E B). replace (/ 2 * bpow radix2 (- (24) + 1) * x) with (x * / 16777216) in E by (simpl; lra).
  change (round radix2 (FLT_exp (-149) 24) ZnearestE x) with (rnd32 x) in E.
  apply Rabs_le_inv in E. lra.
Qed.
Lemma of_N_val_big n : (n < 2 ^ 64)%N ->
  val (f32_of_N n) = rnd32 (IZR (Z.of_N n)) /\ fin (f32_of_N n) = true.
Proof.
  intros Hn.
  assert (E : F2R (Float radix2 (Z.of_N n) 0) = IZR (Z.of_N n)) by (unfold F2R; simpl; lra).
  assert (L : 0 <= rnd32 (IZR (Z.of_N n))).
  { rewrite <- (rnd_0 prec32 emax32). apply rnd32_le. apply IZR_le. lia. }
  assert (U : rnd32 (IZR (Z.of_N n)) <= bpow radix2 64).
  { rewrite <- (rnd32_pow 64) by lia. apply rnd32_le.
    change (bpow radix2 64) with (IZR (2 ^ 64)). apply IZR_le. lia. }
  destruct (normalize_val prec32 emax32 eq_refl eq_refl (Z.of_N n) 0 false) as (V & F & _).
  { rewrite E, Rabs_pos_eq by done. eapply Rle_lt_trans; [exact U|]. by apply bpow_lt. }
  rewrite E in V. unfold f32_of_N. rewrite V. done.
Qed.
Lemma cutoff_close P n : (n < 2 ^ 64)%N -> (n <= usize_max P)%N ->
  (5 * maximum_product_amount P n <= 4 * n + n / 2 ^ 20)%N /\
  (4 * n <= 5 * maximum_product_amount P n + 5 + n / 2 ^ 20)%N.
Proof.
  intros Hn HP. destruct (N.eq_dec n 0) as [->|H0].
  { assert (E : maximum_product_amount P 0 = 0%N) by done. rewrite E. done. }
  destruct (of_N_val_big n Hn) as (V & F).
  assert (C : val f32_0_8 = 13421773 / 16777216).
  { unfold val, f32_0_8, SF2R, F2R. simpl. lra. }
  set (z := IZR (Z.of_N n)) in *.
  assert (Z1 : 1 <= z) by (apply IZR_le; lia).
  assert (Z2 : z <= 18446744073709551616) by (apply IZR_le; lia).
  pose proof (rnd32_relative z ltac:(lra)) as R1. set (a := rnd32 z) in *.
  set (x := a * (13421773 / 16777216)).
  assert (X : z * (1 - / 16777216) * (13421773 / 16777216) <= x <= z * (1 + / 16777216) * (13421773 / 16777216))
    by (unfold x; split; apply Rmult_le_compat_r; lra).
  pose proof (rnd32_relative x ltac:(lra)) as R2. set (y := rnd32 x) in *.
  assert (Y : z * (4 / 5 - / 5 / 1048577) <= y <= z * (4 / 5 + / 5 / 1048577)).
  { split.
    - apply (Rle_trans _ (z * (1 - / 16777216) * (13421773 / 16777216) * (1 - / 16777216))); [lra|].
      apply (Rle_trans _ (x * (1 - / 16777216))); [|lra]. apply Rmult_le_compat_r; lra.
    - apply (Rle_trans _ (z * (1 + / 16777216) * (13421773 / 16777216) * (1 + / 16777216))); [|lra].
      apply (Rle_trans _ (x * (1 + / 16777216))); [lra|]. apply Rmult_le_compat_r; lra. }
  destruct (mul_val prec32 emax32 eq_refl eq_refl (f32_of_N n) f32_0_8) as (E & F' & _);
    [apply f32_of_N_valid|done|done|done| |].
  { rewrite V, C. fold x. fold y. rewrite Rabs_pos_eq by lra.
    apply (Rle_lt_trans _ (bpow radix2 65)); [|by apply bpow_lt]. simpl. lra. }
  change (SFmul prec32 emax32) with f32_mul in E, F'. rewrite V, C in E. fold x in E. fold y in E.
  unfold maximum_product_amount. rewrite to_usize_floor by (done || rewrite E; lra). rewrite E.
  pose proof (Zfloor_lb y) as B1. pose proof (Zfloor_ub y) as B2. set (k := Zfloor y) in *.
  assert (K0 : (0 <= k)%Z) by (apply Zfloor_lub; simpl; lra).
  assert (Q : (5 * k * 1048577 <= (4 * 1048577 + 1) * Z.of_N n)%Z).
  { apply le_IZR. rewrite !mult_IZR. fold z. change (IZR (4 * 1048577 + 1)) with 4194309. lra. }
  assert (Q' : (4 * 1048577 * Z.of_N n < (5 * k + 5) * 1048577 + Z.of_N n)%Z).
  { apply lt_IZR. rewrite plus_IZR, !mult_IZR, plus_IZR, mult_IZR. fold z. 
    change (IZR (4 * 1048577)) with 4194308. lra. }
  rewrite N.min_l by lia.
  pose proof (N.div_mod n (2 ^ 20) ltac:(done)) as D. pose proof (N.mod_lt n (2 ^ 20) ltac:(done)) as M.
  change (2 ^ 20)%N with 1048576%N in *. set (d := (n / 1048576)%N) in *. set (m := (n mod 1048576)%N) in *.
  lia.
Qed.
Lemma cutoff_spec P n : (n < 2 ^ 64)%N -> (n <= usize_max P)%N -> cutoff_for n (maximum_product_amount P n).
Proof. intros Hn HP. split; [|by apply cutoff_close]. intros Hs. by apply cutoff_small. Qed.
