(** Facts about [f32]/[f64] arithmetic, obtained from Flocq. Real numbers stay inside
    this file; the last section restates what other files need without them. *)
From Verif.model Require Import Base F32 Utf8 Prim.
From Verif.spec Require Import Spec.
From Verif.proofs Require Import Sort_facts.
From Coq Require Import ZArith Reals Lia Lra.
From Flocq Require Import Core.Core IEEE754.BinarySingleNaN.
Local Open Scope R_scope.

(** ** Any binary format: SpecFloat's operations are Flocq's, rounding to nearest even *)
Section format.
Context (prec emax : Z) (Hp : Prec_gt_0 prec) (He : Prec_lt_emax prec emax).
Notation fexp := (SpecFloat.fexp prec emax).
Notation rnd := (round radix2 fexp ZnearestE).
Notation valid x := (valid_binary prec emax x = true).
Notation bf := (binary_float prec emax).

Lemma aux_equiv sx mx ex lx :
  SpecFloat.binary_round_aux prec emax sx mx ex lx
  = binary_round_aux prec emax mode_NE sx mx ex lx.
Proof.
  unfold SpecFloat.binary_round_aux, binary_round_aux.
  set (mrse' := shr_fexp _ _ _). destruct mrse' as [mrs' e']; simpl.
  assert (R : forall m l, round_nearest_even m l = choice_mode mode_NE sx m l).
  { intros m [|[]]; simpl; try reflexivity. unfold Round.cond_incr. by destruct (Z.even m). }
  by rewrite R.
Qed.
Lemma round_equiv s m e :
  SpecFloat.binary_round prec emax s m e = binary_round prec emax mode_NE s m e.
Proof.
  unfold SpecFloat.binary_round, binary_round, shl_align_fexp.
  destruct (shl_align _ _ _) as [mz ez]. apply aux_equiv.
Qed.
Lemma normalize_equiv m e sz :
  SpecFloat.binary_normalize prec emax m e sz
  = B2SF (binary_normalize prec emax Hp He mode_NE m e sz).
Proof.
  destruct m; simpl; [done|..]; rewrite B2SF_SF2B; apply round_equiv.
Qed.
Lemma mul_equiv (x y : bf) : SFmul prec emax (B2SF x) (B2SF y) = B2SF (Bmult mode_NE x y).
Proof. destruct x, y; try done. simpl. rewrite B2SF_SF2B. apply aux_equiv. Qed.
Lemma add_equiv (x y : bf) : SFadd prec emax (B2SF x) (B2SF y) = B2SF (Bplus mode_NE x y).
Proof.
  destruct x, y; try (done || (simpl; by destruct (Bool.eqb _ _))). apply normalize_equiv.
Qed.
Lemma div_equiv (x y : bf) : SFdiv prec emax (B2SF x) (B2SF y) = B2SF (Bdiv mode_NE x y).
Proof.
  destruct x, y; try (done || (simpl; by destruct (Bool.eqb _ _))).
  simpl. rewrite B2SF_SF2B. destruct (SFdiv_core_binary _ _ _ _ _ _) as [[mz ez] lz].
  apply aux_equiv.
Qed.

Lemma lift x : valid x -> exists b : bf, B2SF b = x.
Proof. intros H. exists (SF2B x H). apply B2SF_SF2B. Qed.
Lemma mul_valid x y : valid x -> valid y -> valid (SFmul prec emax x y).
Proof. intros [a <-]%lift [b <-]%lift. rewrite mul_equiv. apply valid_binary_B2SF. Qed.
Lemma add_valid x y : valid x -> valid y -> valid (SFadd prec emax x y).
Proof. intros [a <-]%lift [b <-]%lift. rewrite add_equiv. apply valid_binary_B2SF. Qed.
Lemma div_valid x y : valid x -> valid y -> valid (SFdiv prec emax x y).
Proof. intros [a <-]%lift [b <-]%lift. rewrite div_equiv. apply valid_binary_B2SF. Qed.
Lemma normalize_valid m e s : valid (SpecFloat.binary_normalize prec emax m e s).
Proof. rewrite normalize_equiv. apply valid_binary_B2SF. Qed.

(** *** Values *)
Definition val (x : spec_float) : R := SF2R radix2 x.
Definition fin (x : spec_float) : bool := is_finite_SF x.
Definition sgn (x : spec_float) : bool := sign_SF x.

Lemma val_B2R (b : bf) : val (B2SF b) = B2R b.
Proof. apply SF2R_B2SF. Qed.
Lemma fin_B (b : bf) : fin (B2SF b) = is_finite b.
Proof. by destruct b. Qed.
Lemma sgn_B (b : bf) : sgn (B2SF b) = Bsign b.
Proof. by destruct b. Qed.

Lemma rnd_le x y : x <= y -> rnd x <= rnd y.
Proof. intros H. apply round_le; [apply fexp_correct; apply Hp | apply valid_rnd_N | done]. Qed.
Lemma rnd_exact x : generic_format radix2 fexp x -> rnd x = x.
Proof. intros H. apply round_generic; [apply valid_rnd_N | done]. Qed.
Lemma rnd_0 : rnd 0 = 0.
Proof. apply round_0, valid_rnd_N. Qed.
Lemma format_val x : valid x -> generic_format radix2 fexp (val x).
Proof. intros [b <-]%lift. rewrite val_B2R. apply generic_format_B2R. Qed.
Lemma val_lt_max x : valid x -> Rabs (val x) < bpow radix2 emax.
Proof. intros [b <-]%lift. rewrite val_B2R. apply abs_B2R_lt_emax. Qed.

(** Multiplication of finite numbers whose rounded product is in range. *)
Lemma mul_val x y : valid x -> valid y -> fin x = true -> fin y = true ->
  Rabs (rnd (val x * val y)) < bpow radix2 emax ->
  val (SFmul prec emax x y) = rnd (val x * val y) /\ fin (SFmul prec emax x y) = true /\
  sgn (SFmul prec emax x y) = xorb (sgn x) (sgn y).
Proof.
  intros [a <-]%lift [b <-]%lift Fa Fb Hlt. rewrite mul_equiv.
  pose proof (Bmult_correct prec emax Hp He mode_NE a b) as H.
  rewrite !val_B2R in *. rewrite !sgn_B, !fin_B in *.
  rewrite Rlt_bool_true in H by done. destruct H as (H1 & H2 & H3).
  rewrite Fa, Fb in H2. split; [done|]. split; [done|]. apply H3.
  destruct (Bmult mode_NE a b); done.
Qed.
Lemma div_val x y : valid x -> valid y -> fin x = true -> val y <> 0 ->
  Rabs (rnd (val x / val y)) < bpow radix2 emax ->
  val (SFdiv prec emax x y) = rnd (val x / val y) /\ fin (SFdiv prec emax x y) = true /\
  sgn (SFdiv prec emax x y) = xorb (sgn x) (sgn y).
Proof.
  intros [a <-]%lift [b <-]%lift Fa Hb Hlt. rewrite div_equiv.
  rewrite !val_B2R in *. rewrite !sgn_B, !fin_B in *.
  pose proof (Bdiv_correct prec emax Hp He mode_NE a b Hb) as H.
  rewrite Rlt_bool_true in H by done. destruct H as (H1 & H2 & H3).
  rewrite Fa in H2. split; [done|]. split; [done|]. apply H3.
  destruct (Bdiv mode_NE a b); done.
Qed.
Lemma add_val x y : valid x -> valid y -> fin x = true -> fin y = true ->
  Rabs (rnd (val x + val y)) < bpow radix2 emax ->
  val (SFadd prec emax x y) = rnd (val x + val y) /\ fin (SFadd prec emax x y) = true.
Proof.
  intros [a <-]%lift [b <-]%lift Fa Fb Hlt. rewrite add_equiv.
  rewrite !val_B2R in *. rewrite !fin_B in *.
  pose proof (Bplus_correct prec emax Hp He mode_NE a b Fa Fb) as H.
  change (round_mode mode_NE) with ZnearestE in H.
  rewrite Rlt_bool_true in H by done. by destruct H as (H1 & H2 & _).
Qed.
Lemma normalize_val m e s :
  Rabs (rnd (F2R (Float radix2 m e))) < bpow radix2 emax ->
  val (SpecFloat.binary_normalize prec emax m e s) = rnd (F2R (Float radix2 m e)) /\
  fin (SpecFloat.binary_normalize prec emax m e s) = true /\
  sgn (SpecFloat.binary_normalize prec emax m e s) =
    match Rcompare (F2R (Float radix2 m e)) 0 with Eq => s | Lt => true | Gt => false end.
Proof.
  intros Hlt. rewrite normalize_equiv, val_B2R, fin_B, sgn_B.
  pose proof (binary_normalize_correct prec emax Hp He mode_NE m e s) as H. cbv zeta in H.
  change (round_mode mode_NE) with ZnearestE in H.
  by rewrite Rlt_bool_true in H.
Qed.

(** Order: a numeric key that includes the infinities. *)
Definition key (x : spec_float) : R :=
  match x with
  | S754_infinity true => - bpow radix2 emax
  | S754_infinity false => bpow radix2 emax
  | _ => val x
  end.
Lemma key_fin x : fin x = true -> key x = val x.
Proof. by destruct x as [|[]| |]. Qed.

Lemma cmp_key x y : valid x -> valid y -> x <> S754_nan -> y <> S754_nan ->
  SFcompare x y = Some (Rcompare (key x) (key y)).
Proof.
  intros Hx Hy Nx Ny.
  destruct (fin x) eqn:Fx, (fin y) eqn:Fy.
  - rewrite !key_fin by done.
    revert Fx Fy Hx Hy Nx Ny. intros Fx Fy [a <-]%lift [b <-]%lift Nx Ny.
    rewrite !val_B2R. rewrite <- Bcompare_correct by (rewrite <- fin_B; done). by destruct a, b.
  - pose proof (val_lt_max x Hx) as H. apply Rabs_def2 in H as [H1 H2].
    destruct y as [sy|sy| |sy my ey]; try done.
    rewrite (key_fin x Fx). destruct sy; simpl.
    + rewrite Rcompare_Gt by done. destruct x as [[]|[]| |[]]; done.
    + rewrite Rcompare_Lt by done. destruct x as [[]|[]| |[]]; done.
  - pose proof (val_lt_max y Hy) as H. apply Rabs_def2 in H as [H1 H2].
    destruct x as [sx|sx| |sx mx ex]; try done.
    rewrite (key_fin y Fy). destruct sx; simpl.
    + rewrite Rcompare_Lt by done. destruct y as [[]|[]| |[]]; done.
    + rewrite Rcompare_Gt by done. destruct y as [[]|[]| |[]]; done.
  - pose proof (bpow_gt_0 radix2 emax) as Hb.
    destruct x as [|[]| |], y as [|[]| |]; try done; simpl.
    + by rewrite Rcompare_Eq.
    + rewrite Rcompare_Lt; [done|lra].
    + rewrite Rcompare_Gt; [done|lra].
    + by rewrite Rcompare_Eq.
Qed.

(** Addition of two non-negative numbers (infinity included). *)
Lemma add_nonneg x y : valid x -> valid y -> x <> S754_nan -> y <> S754_nan ->
  0 <= key x -> 0 <= key y ->
  SFadd prec emax x y <> S754_nan /\ key x <= key (SFadd prec emax x y) /\
  key y <= key (SFadd prec emax x y).
Proof.
  intros Hx Hy Nx Ny Px Py.
  pose proof (bpow_gt_0 radix2 emax) as Hb.
  assert (Hinf : forall z, valid z -> key z <= bpow radix2 emax).
  { intros z Hz. destruct (fin z) eqn:Fz.
    - rewrite key_fin by done. pose proof (val_lt_max z Hz) as H. apply Rabs_def2 in H. lra.
    - destruct z as [|[]| |]; try done; simpl; lra. }
  destruct (fin x) eqn:Fx; [destruct (fin y) eqn:Fy|].
  - rewrite (key_fin x), (key_fin y) in * by done.
    assert (Hge : forall u v, valid u -> valid v -> 0 <= val v -> val u <= rnd (val u + val v)).
    { intros u v Hu Hv Pv. rewrite <- (rnd_exact (val u)) at 1 by by apply format_val.
      apply rnd_le. lra. }
    pose proof (Hge x y Hx Hy Py) as Gx. pose proof (Hge y x Hy Hx Px) as Gy.
    rewrite (Rplus_comm (val y)) in Gy. clear Hge.
    revert Fx Fy Hx Hy Nx Ny Px Py Gx Gy. intros Fx Fy [a <-]%lift [b <-]%lift Nx Ny Px Py Gx Gy.
    rewrite fin_B in Fx, Fy. rewrite !val_B2R in *.
    pose proof (Bplus_correct prec emax Hp He mode_NE a b Fx Fy) as H.
    change (round_mode mode_NE) with ZnearestE in H.
    rewrite add_equiv. destruct (Rlt_bool _ _) eqn:Hr.
    + destruct H as (H1 & H2 & _). rewrite key_fin by by rewrite fin_B. rewrite val_B2R, H1.
      split; [|done]. by destruct (Bplus mode_NE a b).
    + destruct H as (H1 & H2).
      assert (Hs : Bsign a = false \/ Bsign b = false).
      { destruct (Bsign a) eqn:Sa; [|by left]. destruct (Bsign b) eqn:Sb; [|by right]. exfalso.
        assert (Hz : forall c : bf, is_finite c = true -> Bsign c = true -> 0 <= B2R c -> B2R c = 0).
        { intros [| | |s m e Hm]; try done. simpl. intros _ -> Pc.
          assert (F2R (Float radix2 (Z.neg m) e) < 0) by by apply F2R_lt_0.
          by apply Rlt_not_le in Pc. }
        rewrite (Hz a), (Hz b), Rplus_0_r, rnd_0, Rabs_R0 in Hr by done.
        rewrite Rlt_bool_true in Hr; done. }
      assert (H3 : B2SF (Bplus mode_NE a b) = S754_infinity false).
      { rewrite H1. destruct Hs as [->|Hs]; [done|]. by rewrite H2, Hs. }
      rewrite H3. simpl. split; [done|].
      pose proof (abs_B2R_lt_emax _ _ a) as A1. apply Rabs_def2 in A1.
      pose proof (abs_B2R_lt_emax _ _ b) as A2. apply Rabs_def2 in A2. lra.
  - pose proof (Hinf x Hx) as Q.
    destruct y as [|[]| |]; try done; simpl in Py; [lra|].
    assert (SFadd prec emax x (S754_infinity false) = S754_infinity false) as ->
      by by destruct x as [[]|[]| |[]].
    split; [done|]. split; [exact Q|apply Rle_refl].
  - pose proof (Hinf y Hy) as Q.
    destruct x as [|[]| |]; try done; simpl in Px; [lra|].
    assert (SFadd prec emax (S754_infinity false) y = S754_infinity false) as ->.
    { destruct y as [[]|[]| |[]]; try done. simpl in Py. lra. }
    split; [done|]. split; [apply Rle_refl|exact Q].
Qed.
End format.

(** ** [f32] *)
#[local] Instance prec32_gt : Prec_gt_0 prec32 := eq_refl.
#[local] Instance prec32_lt : Prec_lt_emax prec32 emax32 := eq_refl.
#[local] Instance prec64_gt : Prec_gt_0 prec64 := eq_refl.
#[local] Instance prec64_lt : Prec_lt_emax prec64 emax64 := eq_refl.
Notation fexp32 := (SpecFloat.fexp prec32 emax32).
Notation rnd32 := (round radix2 fexp32 ZnearestE).
Notation key32 := (key emax32).

Lemma f32_mul_valid x y : valid_f32 x -> valid_f32 y -> valid_f32 (f32_mul x y).
Proof. apply (mul_valid prec32 emax32); exact _. Qed.
Lemma f32_add_valid x y : valid_f32 x -> valid_f32 y -> valid_f32 (f32_add x y).
Proof. apply (add_valid prec32 emax32); exact _. Qed.
Lemma f32_div_valid x y : valid_f32 x -> valid_f32 y -> valid_f32 (f32_div x y).
Proof. apply (div_valid prec32 emax32); exact _. Qed.
Lemma f32_of_N_valid n : valid_f32 (f32_of_N n).
Proof. apply (normalize_valid prec32 emax32); exact _. Qed.

(** *** Comparison *)
Lemma f32_cmp_key x y : f32_number x -> f32_number y ->
  f32_cmp x y = Some (Rcompare (key32 x) (key32 y)).
Proof. intros [] []. apply (cmp_key prec32 emax32); try exact _; done. Qed.
Lemma f32_le_nan x y : f32_le x y -> x <> S754_nan /\ y <> S754_nan.
Proof. unfold f32_le, SFleb. destruct x, y; done. Qed.
Lemma f32_le_key x y : f32_number x -> f32_number y -> f32_le x y <-> key32 x <= key32 y.
Proof.
  intros Hx Hy. unfold f32_le, SFleb.
  pose proof (f32_cmp_key x y Hx Hy) as E. unfold f32_cmp in E. rewrite E.
  destruct (Rcompare_spec (key32 x) (key32 y)); split; (done || lra).
Qed.
Lemma f32_lt_key x y : f32_number x -> f32_number y -> f32_lt x y <-> key32 x < key32 y.
Proof.
  intros Hx Hy. unfold f32_lt, SFltb.
  pose proof (f32_cmp_key x y Hx Hy) as E. unfold f32_cmp in E. rewrite E.
  destruct (Rcompare_spec (key32 x) (key32 y)); split; (done || lra).
Qed.
Lemma f32_gt_iff x y : f32_gt x y = true <-> f32_lt y x.
Proof. done. Qed.
Lemma f32_gt_false x y : f32_number x -> f32_number y -> f32_gt x y = false <-> f32_le x y.
Proof.
  intros Hx Hy. rewrite f32_le_key by done.
  destruct (f32_gt x y) eqn:E.
  - apply f32_gt_iff, f32_lt_key in E; [|done..]. split; [done|lra].
  - split; [|done]. intros _. apply Rnot_lt_le. intros H.
    apply f32_lt_key in H; [|done..]. apply f32_gt_iff in H. congruence.
Qed.
Lemma f32_le_refl x : f32_number x -> f32_le x x.
Proof. intros H. apply f32_le_key; [done..|]. lra. Qed.
Lemma f32_le_trans x y z : valid_f32 x -> valid_f32 y -> valid_f32 z ->
  f32_le x y -> f32_le y z -> f32_le x z.
Proof.
  intros Vx Vy Vz H1 H2.
  destruct (f32_le_nan _ _ H1) as [Nx Ny]. destruct (f32_le_nan _ _ H2) as [_ Nz].
  apply f32_le_key in H1; [|by split..]. apply f32_le_key in H2; [|by split..].
  apply f32_le_key; [by split..|]. lra.
Qed.
Lemma f32_lt_le x y : f32_lt x y -> f32_le x y.
Proof. unfold f32_lt, f32_le, SFltb, SFleb. by destruct (SFcompare x y) as [[]|]. Qed.
Lemma f32_le_total x y : f32_number x -> f32_number y -> f32_le x y \/ f32_le y x.
Proof. intros Hx Hy. rewrite !f32_le_key by done. lra. Qed.

Lemma key_zero : key32 f32_zero = 0.
Proof. done. Qed.
Lemma key_one : key32 f32_one = 1.
Proof. change (key32 f32_one) with (F2R (Float radix2 8388608 (-23))). unfold F2R. simpl. lra. Qed.
Lemma zero_number : f32_number f32_zero.
Proof. done. Qed.
Lemma one_number : f32_number f32_one.
Proof. done. Qed.

Lemma f32_unit_number x : f32_unit x -> f32_number x.
Proof. intros (V & L & _). apply f32_le_nan in L as [_ N]. by split. Qed.
Lemma f32_ratio_unit x : f32_ratio x -> f32_unit x.
Proof. intros (V & L & U). split; [done|]. split; [by apply f32_lt_le|done]. Qed.
Lemma f32_unit_key x : valid_f32 x -> f32_unit x <-> (x <> S754_nan /\ 0 <= key32 x <= 1).
Proof.
  intros V. split.
  - intros H. pose proof (f32_unit_number x H) as N. destruct H as (_ & L & U).
    apply f32_le_key in L; [|done..]. apply f32_le_key in U; [|done..].
    rewrite key_zero in L. rewrite key_one in U. by destruct N.
  - intros (N & L & U). assert (f32_number x) by by split. split; [done|]. split.
    + apply f32_le_key; [done..|]. by rewrite key_zero.
    + apply f32_le_key; [done..|]. by rewrite key_one.
Qed.

Lemma small_key x : valid_f32 x -> x <> S754_nan -> 0 <= key32 x <= 1 -> fin x = true.
Proof.
  intros V N [L U]. destruct x as [|[]| |]; try done; simpl in L, U; exfalso.
  - change (Z.pow_pos 2 128) with (2 ^ 128)%Z in *.
    assert (1 < IZR (2 ^ 128)) by (apply IZR_lt; done). lra.
  - assert (1 < IZR (2 ^ 128)) by (apply IZR_lt; done).
    change (Z.pow_pos 2 128) with (2 ^ 128)%Z in *. lra.
Qed.

Lemma max32 : 1 < bpow radix2 emax32.
Proof. simpl. apply IZR_lt. done. Qed.
Lemma rnd32_1 : rnd32 1 = 1.
Proof.
  apply rnd_exact. rewrite <- key_one. change (key32 f32_one) with (val f32_one).
  apply (format_val prec32 emax32); done.
Qed.
Lemma rnd32_le x y : x <= y -> rnd32 x <= rnd32 y.
Proof. apply (rnd_le prec32 emax32 _). Qed.
Lemma rnd32_unit x : 0 <= x <= 1 -> 0 <= rnd32 x <= 1.
Proof.
  intros [L U]. apply rnd32_le in L, U. rewrite rnd32_1 in U.
  rewrite (rnd_0 prec32 emax32) in L. lra.
Qed.

(** The product of two numbers of [0,1] is in [0,1], and at most each of them. *)
Lemma f32_mul_unit x y : f32_unit x -> f32_unit y ->
  f32_unit (f32_mul x y) /\ f32_le (f32_mul x y) x.
Proof.
  intros Hx Hy. pose proof (f32_unit_number x Hx) as Nx. pose proof (f32_unit_number y Hy) as Ny.
  assert (Vx : valid_f32 x) by apply Hx. assert (Vy : valid_f32 y) by apply Hy.
  apply f32_unit_key in Hx as (_ & Lx & Ux); [|done].
  apply f32_unit_key in Hy as (_ & Ly & Uy); [|done].
  assert (Fx : fin x = true) by (apply small_key; [done|by destruct Nx|done]).
  assert (Fy : fin y = true) by (apply small_key; [done|by destruct Ny|done]).
  rewrite key_fin in Lx, Ux, Ly, Uy by done.
  assert (P : 0 <= val x * val y <= 1).
  { split; [by apply Rmult_le_pos|]. rewrite <- (Rmult_1_l 1). by apply Rmult_le_compat. }
  pose proof (rnd32_unit _ P) as [RL RU].
  assert (Q : val x * val y <= val x).
  { rewrite <- (Rmult_1_r (val x)) at 2. by apply Rmult_le_compat_l. }
  apply rnd32_le in Q.
  rewrite (rnd_exact prec32 emax32 (val x)) in Q by by apply (format_val prec32 emax32).
  destruct (mul_val prec32 emax32 _ _ x y Vx Vy Fx Fy) as (E & F & _).
  { rewrite Rabs_pos_eq by done. pose proof max32. lra. }
  fold f32_mul in E, F. change (SFmul prec32 emax32 x y) with (f32_mul x y) in E, F.
  pose proof (f32_mul_valid x y Vx Vy) as V.
  assert (N : f32_mul x y <> S754_nan) by (intros C; by rewrite C in F).
  split.
  - apply f32_unit_key; [done|]. split; [done|]. rewrite key_fin by done. by rewrite E.
  - apply f32_le_key; [by split|done|]. rewrite !key_fin by done. by rewrite E.
Qed.

(** *** Integers *)
Lemma rnd32_pow k : (-149 <= k <= 127)%Z -> rnd32 (bpow radix2 k) = bpow radix2 k.
Proof.
  intros Hk. apply rnd_exact, generic_format_bpow. unfold SpecFloat.fexp, emin, prec32, emax32. lia.
Qed.
Lemma rnd32_int z : (0 <= z < 2 ^ 24)%Z -> rnd32 (IZR z) = IZR z.
Proof.
  intros Hz. apply rnd_exact. apply (generic_format_FLT radix2 (-149) 24).
  exists (Float radix2 z 0); simpl; [unfold F2R; simpl; lra| |lia].
  rewrite Z.abs_eq by lia. change (Z.pow_pos 2 24) with (2 ^ 24)%Z. lia.
Qed.
Lemma of_N_val n : (n < 2 ^ 32)%N ->
  val (f32_of_N n) = rnd32 (IZR (Z.of_N n)) /\ fin (f32_of_N n) = true /\
  0 <= val (f32_of_N n) <= bpow radix2 32.
Proof.
  intros Hn.
  assert (E : F2R (Float radix2 (Z.of_N n) 0) = IZR (Z.of_N n)) by (unfold F2R; simpl; lra).
  assert (L : 0 <= rnd32 (IZR (Z.of_N n))).
  { rewrite <- (rnd_0 prec32 emax32). apply rnd32_le. apply IZR_le. lia. }
  assert (U : rnd32 (IZR (Z.of_N n)) <= bpow radix2 32).
  { rewrite <- (rnd32_pow 32) by lia. apply rnd32_le.
    change (bpow radix2 32) with (IZR (2 ^ 32)). apply IZR_le. lia. }
  destruct (normalize_val prec32 emax32 _ _ (Z.of_N n) 0 false) as (V & F & _).
  { rewrite E, Rabs_pos_eq by done. eapply Rle_lt_trans; [exact U|]. apply bpow_lt. done. }
  rewrite E in V. unfold f32_of_N. rewrite V. done.
Qed.
Lemma of_N_key n : (n < 2 ^ 32)%N -> key32 (f32_of_N n) = rnd32 (IZR (Z.of_N n)).
Proof. intros H. destruct (of_N_val n H) as (V & F & _). by rewrite key_fin. Qed.
Lemma of_N_number n : (n < 2 ^ 32)%N -> f32_number (f32_of_N n).
Proof.
  intros H. split; [apply f32_of_N_valid|]. destruct (of_N_val n H) as (_ & F & _).
  intros C. by rewrite C in F.
Qed.

(** The quotient of two counts is in (0, 1], and larger counts give larger quotients. *)
Lemma f32_div_ratio this total : (0 < this)%N -> (this <= total)%N -> (total < 2 ^ 32)%N ->
  f32_ratio (f32_div (f32_of_N this) (f32_of_N total)) /\
  val (f32_div (f32_of_N this) (f32_of_N total)) =
    rnd32 (rnd32 (IZR (Z.of_N this)) / rnd32 (IZR (Z.of_N total))) /\
  fin (f32_div (f32_of_N this) (f32_of_N total)) = true.
Proof.
  intros H0 Hle Hlt.
  destruct (of_N_val this) as (Va & Fa & La & Ua); [lia|].
  destruct (of_N_val total) as (Vb & Fb & Lb & Ub); [lia|].
  assert (A1 : 1 <= rnd32 (IZR (Z.of_N this))).
  { rewrite <- rnd32_1 at 1. apply rnd32_le. apply IZR_le. lia. }
  assert (AB : rnd32 (IZR (Z.of_N this)) <= rnd32 (IZR (Z.of_N total))).
  { apply rnd32_le, IZR_le. lia. }
  rewrite <- Va, <- Vb in *.
  assert (B0 : 0 < val (f32_of_N total)) by lra.
  assert (Q : bpow radix2 (-32) <= val (f32_of_N this) / val (f32_of_N total) <= 1).
  { split.
    - change (bpow radix2 (-32)) with (/ bpow radix2 32). unfold Rdiv.
      rewrite <- (Rmult_1_l (/ bpow radix2 32)).
      apply Rmult_le_compat; [lra| |done|].
      + left. apply Rinv_0_lt_compat, bpow_gt_0.
      + by apply Rinv_le.
    - apply (Rmult_le_reg_r (val (f32_of_N total))); [done|].
      unfold Rdiv. rewrite Rmult_assoc, Rinv_l by lra. lra. }
  assert (R : bpow radix2 (-32) <= rnd32 (val (f32_of_N this) / val (f32_of_N total)) <= 1).
  { destruct Q as [Q1 Q2]. apply rnd32_le in Q1, Q2. rewrite rnd32_1 in Q2.
    rewrite rnd32_pow in Q1 by lia. done. }
  pose proof (bpow_gt_0 radix2 (-32)) as P.
  destruct (div_val prec32 emax32 _ _ (f32_of_N this) (f32_of_N total)) as (E & F & _);
    [apply f32_of_N_valid|apply f32_of_N_valid|done|lra| |].
  { rewrite Rabs_pos_eq by lra. pose proof max32. lra. }
  change (SFdiv prec32 emax32) with f32_div in E, F.
  assert (V : valid_f32 (f32_div (f32_of_N this) (f32_of_N total)))
    by (apply f32_div_valid; apply f32_of_N_valid).
  assert (N : f32_number (f32_div (f32_of_N this) (f32_of_N total))).
  { split; [done|]. intros C. by rewrite C in F. }
  split; [|done]. split; [done|]. split.
  - apply f32_lt_key; [done..|]. rewrite key_zero, key_fin, E by done. lra.
  - apply f32_le_key; [done..|]. rewrite key_one, key_fin, E by done. lra.
Qed.
Lemma f32_div_mono a b total : (0 < a)%N -> (a <= b)%N -> (b <= total)%N -> (total < 2 ^ 32)%N ->
  f32_le (f32_div (f32_of_N a) (f32_of_N total)) (f32_div (f32_of_N b) (f32_of_N total)).
Proof.
  intros H0 Hab Hb Ht.
  destruct (f32_div_ratio a total) as (Ra & Ea & Fa); [lia..|].
  destruct (f32_div_ratio b total) as (Rb & Eb & Fb); [lia..|].
  apply f32_le_key; [by apply f32_unit_number, f32_ratio_unit..|].
  rewrite !key_fin, Ea, Eb by done. apply rnd32_le.
  apply Rmult_le_compat_r.
  - left. apply Rinv_0_lt_compat.
    assert (1 <= rnd32 (IZR (Z.of_N total))); [|lra].
    rewrite <- rnd32_1 at 1. apply rnd32_le. apply IZR_le. lia.
  - apply rnd32_le, IZR_le. lia.
Qed.

(** [x as usize] is the integer part. *)
Lemma to_usize_floor P x : fin x = true -> 0 <= val x ->
  f32_to_usize P x = N.min (Z.to_N (Zfloor (val x))) (usize_max P).
Proof.
  intros F L. destruct x as [s|s| |s m e]; try done.
  - simpl. unfold val. simpl. rewrite Zfloor_IZR. by rewrite N.min_0_l.
  - destruct s.
    { exfalso. unfold val in L. simpl in L.
      assert (F2R (Float radix2 (Z.neg m) e) < 0) by by apply F2R_lt_0.
      by apply Rlt_not_le in L. }
    unfold f32_to_usize. f_equal. unfold val, SF2R, F2R. cbn [Fnum Fexp cond_Zopp].
    destruct e as [|p|p].
    + simpl. rewrite Rmult_1_r, Zfloor_IZR. done.
    + rewrite <- IZR_Zpower by done. rewrite <- mult_IZR, Zfloor_IZR.
      rewrite N.shiftl_mul_pow2. rewrite Z2N.inj_mul by (try apply Zpower_ge_0; lia).
      f_equal. change (radix2 ^ Z.pos p)%Z with (2 ^ Z.pos p)%Z.
      rewrite Z2N.inj_pow by lia. done.
    + rewrite N.shiftr_div_pow2.
      replace (IZR (Z.pos m) * bpow radix2 (Z.neg p)) with (IZR (Z.pos m) / IZR (2 ^ Z.pos p)).
      2:{ done. }
      rewrite Zfloor_div by lia. rewrite Z2N.inj_div by lia. f_equal.
      rewrite Z2N.inj_pow by lia. done.
Qed.

(** *** The cut-off *)
Lemma cutoff_val n : (n <= 5242879)%N ->
  Zfloor (rnd32 (IZR (Z.of_N n) * val f32_0_8)) = (4 * Z.of_N n / 5)%Z.
Proof.
  intros Hn. set (z := Z.of_N n). assert (Hz : (0 <= z <= 5242879)%Z) by lia.
  assert (C : val f32_0_8 = 13421773 / 16777216).
  { unfold val, f32_0_8, SF2R, F2R. simpl. lra. }
  rewrite C. set (x := IZR z * (13421773 / 16777216)).
  pose proof (Z.div_mod (4 * z) 5 ltac:(done)) as D.
  pose proof (Z.mod_pos_bound (4 * z) 5 ltac:(done)) as M.
  set (k := (4 * z / 5)%Z) in *. set (r := ((4 * z) mod 5)%Z) in *.
  assert (Hk : (0 <= k < 2 ^ 22)%Z) by lia.
  assert (Zr : 0 <= IZR z <= 5242879) by (split; apply IZR_le; lia).
  assert (Kr : 4 * IZR z = 5 * IZR k + IZR r).
  { rewrite <- !mult_IZR, <- plus_IZR. by f_equal. }
  assert (Rr : 0 <= IZR r <= 4) by (split; apply IZR_le; lia).
  assert (X1 : IZR k <= x) by (unfold x; lra).
  assert (X2 : x < IZR k + 7 / 8) by (unfold x; lra).
  assert (X3 : x < 4194304).
  { unfold x. lra. }
  apply Zfloor_imp. rewrite plus_IZR. split.
  - rewrite <- (rnd32_int k) by lia. by apply rnd32_le.
  - destruct (Req_dec x 0) as [Ex|Nx].
    { rewrite Ex, (rnd_0 prec32 emax32). rewrite Ex in X2.
      assert (0 <= IZR k) by (apply IZR_le; lia). lra. }
    assert (U : ulp radix2 fexp32 x <= / 4).
    { rewrite ulp_neq_0 by done. unfold cexp.
      assert (mag radix2 x <= 22)%Z.
      { apply mag_le_bpow; [done|]. rewrite Rabs_pos_eq; simpl; [lra|].
        assert (0 <= IZR k) by (apply IZR_le; lia). lra. }
      change (/ 4) with (bpow radix2 (-2)). apply bpow_le.
      unfold SpecFloat.fexp, emin, prec32, emax32. lia. }
    pose proof (error_le_half_ulp radix2 fexp32 (fun t => negb (Z.even t)) x) as Er.
    apply Rabs_le_inv in Er. lra.
Qed.
Lemma cutoff_small P n : (n <= 5242880)%N -> (n <= usize_max P)%N ->
  f32_to_usize P (f32_mul (f32_of_N n) f32_0_8) = (4 * n / 5)%N.
Proof.
  intros Hn HP.
  assert (Hm : N.min (4 * n / 5) (usize_max P) = (4 * n / 5)%N).
  { apply N.min_l. etransitivity; [|exact HP]. apply N.div_le_upper_bound; lia. }
  destruct (N.eq_dec n 5242880) as [->|Hne].
  { change (f32_mul (f32_of_N 5242880) f32_0_8) with (S754_finite false 8388608 (-1)).
    rewrite <- Hm. done. }
  destruct (of_N_val n) as (V & F & L & _); [lia|].
  rewrite rnd32_int in V by lia.
  assert (L8 : 0 <= val f32_0_8 <= 1).
  { unfold val, f32_0_8, SF2R, F2R. simpl. lra. }
  assert (N0 : 0 <= IZR (Z.of_N n)) by (apply IZR_le; lia).
  assert (N1 : IZR (Z.of_N n) <= 5242880) by (apply IZR_le; lia).
  assert (R0 : 0 <= rnd32 (IZR (Z.of_N n) * val f32_0_8)).
  { rewrite <- (rnd_0 prec32 emax32). apply rnd32_le, Rmult_le_pos; lra. }
  destruct (mul_val prec32 emax32 _ _ (f32_of_N n) f32_0_8) as (E & F' & _);
    [apply f32_of_N_valid|done|done|done| |].
  { rewrite V, Rabs_pos_eq by done.
    apply (Rle_lt_trans _ (bpow radix2 32)); [|by apply bpow_lt].
    rewrite <- (rnd32_pow 32) by lia. apply rnd32_le.
    change (bpow radix2 32) with 4294967296.
    apply (Rle_trans _ (IZR (Z.of_N n) * 1)); [|lra]. apply Rmult_le_compat_l; lra. }
  change (SFmul prec32 emax32) with f32_mul in E, F'. rewrite V in E.
  rewrite to_usize_floor by (done || by rewrite E).
  rewrite E, cutoff_val by lia. rewrite <- Hm. f_equal.
  rewrite Z2N.inj_div by lia. f_equal. lia.
Qed.

(** *** Sums *)
Lemma f32_add_nonneg x y : f32_number x -> f32_number y -> f32_le f32_zero x -> f32_le f32_zero y ->
  f32_number (f32_add x y) /\ f32_le x (f32_add x y) /\ f32_le y (f32_add x y) /\
  f32_le f32_zero (f32_add x y).
Proof.
  intros Nx Ny Lx Ly.
  apply f32_le_key in Lx; [|done..]. apply f32_le_key in Ly; [|done..].
  rewrite key_zero in Lx, Ly.
  destruct (add_nonneg prec32 emax32 _ _ x y) as (N & Ax & Ay); try done; try apply Nx; try apply Ny.
  change (SFadd prec32 emax32) with f32_add in *.
  assert (f32_number (f32_add x y)).
  { split; [|done]. apply f32_add_valid; [apply Nx|apply Ny]. }
  split; [done|]. rewrite !f32_le_key by done. rewrite key_zero. lra.
Qed.

(** *** Sorting by numbers *)
Definition f32_norm (x : f32) : f32 :=
  if valid_binary 24 128 x then match x with S754_nan => f32_zero | _ => x end else f32_zero.
Lemma f32_norm_number x : f32_number (f32_norm x).
Proof.
  unfold f32_norm. destruct (valid_binary 24 128 x) eqn:V; [|done]. by destruct x.
Qed.
Lemma f32_norm_id x : f32_number x -> f32_norm x = x.
Proof. intros [V N]. unfold f32_norm. unfold valid_f32 in V. rewrite V. by destruct x. Qed.
Lemma Rcompare_trans a b c : Rcompare a b <> Gt -> Rcompare b c <> Gt -> Rcompare a c <> Gt.
Proof.
  destruct (Rcompare_spec a b), (Rcompare_spec b c); try done; intros _ _;
    destruct (Rcompare_spec a c); try done; exfalso; lra.
Qed.
Definition f32_total_cmp (x y : f32) : comparison :=
  unwrap_or_equal (f32_cmp (f32_norm x) (f32_norm y)).
Lemma f32_total_cmp_key x y :
  f32_total_cmp x y = Rcompare (key32 (f32_norm x)) (key32 (f32_norm y)).
Proof. unfold f32_total_cmp. rewrite f32_cmp_key by apply f32_norm_number. done. Qed.
Lemma f32_total : total_cmp f32_total_cmp.
Proof.
  split.
  - intros x. rewrite f32_total_cmp_key. by apply Rcompare_Eq.
  - intros x y. rewrite !f32_total_cmp_key. rewrite Rcompare_sym. by destruct (Rcompare _ _).
  - intros x y z. rewrite !f32_total_cmp_key. apply Rcompare_trans.
Qed.
Lemma f32_total_cmp_agrees x y : f32_number x -> f32_number y ->
  f32_total_cmp x y = unwrap_or_equal (f32_cmp x y).
Proof. intros Hx Hy. unfold f32_total_cmp. by rewrite !f32_norm_id. Qed.
Lemma f32_cmp_le x y : f32_number x -> f32_number y ->
  unwrap_or_equal (f32_cmp x y) <> Gt <-> f32_le x y.
Proof.
  intros Hx Hy. rewrite f32_le_key by done. rewrite f32_cmp_key by done. simpl.
  destruct (Rcompare_spec (key32 x) (key32 y)); split; (done || lra).
Qed.
