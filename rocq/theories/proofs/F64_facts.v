(** Conversions to [f64] lose nothing. *)
From Verif.model Require Import Base F32 Utf8 Prim.
From Verif.spec Require Import Spec.
From Verif.proofs Require Import Float_facts.
From Coq Require Import ZArith Reals Lia Lra.
From Flocq Require Import Core.Core IEEE754.BinarySingleNaN.
Local Open Scope R_scope.

#[local] Instance prec32_gt : Prec_gt_0 prec32 := eq_refl.
#[local] Instance prec32_lt : Prec_lt_emax prec32 emax32 := eq_refl.
#[local] Instance prec64_gt : Prec_gt_0 prec64 := eq_refl.
#[local] Instance prec64_lt : Prec_lt_emax prec64 emax64 := eq_refl.
Notation fexp64 := (SpecFloat.fexp prec64 emax64).

Lemma format_32_64 x : generic_format radix2 fexp32 x -> generic_format radix2 fexp64 x.
Proof.
  apply generic_inclusion_mag. intros _. unfold SpecFloat.fexp, emin, prec32, emax32, prec64, emax64. lia.
Qed.
Lemma valid_exponent s m e : valid_f32 (S754_finite s m e) -> (-149 <= e)%Z.
Proof.
  unfold valid_f32. simpl. unfold bounded. intros [H _]%andb_prop. unfold canonical_mantissa in H.
  apply Zeq_bool_eq in H. unfold SpecFloat.fexp, emin in H. lia.
Qed.
Lemma valid_exponent64 s m e : valid_binary prec64 emax64 (S754_finite s m e) = true -> (-1074 <= e)%Z.
Proof.
  simpl. unfold bounded. intros [H _]%andb_prop. unfold canonical_mantissa in H.
  apply Zeq_bool_eq in H. unfold SpecFloat.fexp, emin, prec64, emax64 in H. lia.
Qed.
Lemma same_reals s m e m' e' : (-1200 <= e)%Z -> (-1200 <= e')%Z ->
  F2R (Float radix2 (cond_Zopp s (Zpos m)) e) = F2R (Float radix2 (cond_Zopp s (Zpos m')) e') ->
  (Zpos m * 2 ^ (e + 1200) = Zpos m' * 2 ^ (e' + 1200))%Z.
Proof.
  intros He He' H. unfold F2R in H. simpl Fnum in H. simpl Fexp in H.
  apply eq_IZR. rewrite !mult_IZR. change 2%Z with (radix_val radix2) at 1 2.
  rewrite !IZR_Zpower by lia. rewrite !bpow_plus, <- !Rmult_assoc. f_equal.
  destruct s; simpl in H; [|done]. change (Z.neg m) with (- Zpos m)%Z in H. change (Z.neg m') with (- Zpos m')%Z in H.
  rewrite !opp_IZR in H. lra.
Qed.
(** Normalising a number that the format contains. *)
Lemma normalize_exact s m e : (-1200 <= e)%Z ->
  generic_format radix2 fexp64 (F2R (Float radix2 (cond_Zopp s (Zpos m)) e)) ->
  Rabs (F2R (Float radix2 (cond_Zopp s (Zpos m)) e)) < bpow radix2 emax64 ->
  same_value (S754_finite s m e) (SpecFloat.binary_normalize prec64 emax64 (cond_Zopp s (Zpos m)) e s) /\
  valid_binary prec64 emax64 (SpecFloat.binary_normalize prec64 emax64 (cond_Zopp s (Zpos m)) e s) = true.
Proof.
  intros He Hf Hlt. pose proof (normalize_valid prec64 emax64 _ _ (cond_Zopp s (Zpos m)) e s) as V. split; [|done].
  rewrite <- (rnd_exact prec64 emax64 _ Hf) in Hlt.
  destruct (normalize_val prec64 emax64 _ _ (cond_Zopp s (Zpos m)) e s Hlt) as (E & F & S).
  rewrite (rnd_exact prec64 emax64 _ Hf) in E.
  set (y := SpecFloat.binary_normalize _ _ _ _ _) in *. clearbody y.
  assert (N : F2R (Float radix2 (cond_Zopp s (Zpos m)) e) <> 0).
  { destruct s; simpl; [apply Rlt_not_eq, F2R_lt_0|apply Rgt_not_eq, F2R_gt_0]; done. }
  destruct y as [s'|s'| |s' m' e']; try done.
  assert (s' = s) as ->.
  { simpl in S. rewrite S. destruct s; simpl; [rewrite Rcompare_Lt; [done|by apply F2R_lt_0]|rewrite Rcompare_Gt; [done|by apply F2R_gt_0]]. }
  apply valid_exponent64 in V. simpl in E.
  split; [done|]. split; [done|]. split; [lia|]. eapply same_reals; [done|lia|]. symmetry. exact E.
Qed.
Lemma f64_of_f32_exact x : valid_f32 x -> same_value x (f64_of_f32 x) /\ valid_binary prec64 emax64 (f64_of_f32 x) = true.
Proof.
  intros V. destruct x as [s|s| |s m e]; try done.
  pose proof (valid_exponent _ _ _ V) as He.
  pose proof (format_val prec32 emax32 _ V) as F. pose proof (val_lt_max prec32 emax32 _ V) as L.
  change (val (S754_finite s m e)) with (F2R (Float radix2 (cond_Zopp s (Zpos m)) e)) in F, L.
  change (f64_of_f32 (S754_finite s m e)) with
    (SpecFloat.binary_normalize prec64 emax64 (cond_Zopp s (Zpos m)) e s).
  apply normalize_exact; [lia|by apply format_32_64|]. eapply Rlt_trans; [exact L|]. by apply bpow_lt.
Qed.
Lemma f64_of_u32_exact p : (Npos p < 2 ^ 32)%N ->
  same_value (S754_finite false p 0) (f64_of_u32 (Npos p)) /\ valid_binary prec64 emax64 (f64_of_u32 (Npos p)) = true.
Proof.
  intros Hp.
  assert (E : F2R (Float radix2 (cond_Zopp false (Zpos p)) 0) = IZR (Zpos p)) by (unfold F2R; simpl; lra).
  apply (normalize_exact false p 0); [done|..].
  - apply (generic_format_FLT radix2 (-1074) 53). exists (Float radix2 (Zpos p) 0); [done| |done].
    simpl Fnum. rewrite Z.abs_eq by lia. change (Z.pow_pos 2 53) with (2 ^ 53)%Z. simpl Z.pow. lia.
  - rewrite E. rewrite Rabs_pos_eq by by apply IZR_le. apply Rlt_trans with (bpow radix2 32); [|by apply bpow_lt].
    change (bpow radix2 32) with (IZR (2 ^ 32)). apply IZR_lt. lia.
Qed.

(** Comparing the converted numbers compares the originals. *)
Lemma same_val x y : same_value x y -> SF2R radix2 x = SF2R radix2 y.
Proof.
  destruct x as [s|s| |s m e], y as [s'|s'| |s' m' e']; try done. simpl. intros (-> & He & He' & E).
  unfold F2R. simpl. assert (B : forall f, (-1200 <= f)%Z -> bpow radix2 f = IZR (2 ^ (f + 1200)) * bpow radix2 (-1200)).
  { intros f Hf. change 2%Z with (radix_val radix2). rewrite IZR_Zpower by lia. rewrite <- bpow_plus. f_equal. lia. }
  rewrite (B e He), (B e' He'). rewrite <- !Rmult_assoc, <- !mult_IZR.
  f_equal. f_equal. destruct s'; simpl; lia.
Qed.
Lemma f64_compare x y : valid_f32 x -> valid_f32 y -> SFcompare (f64_of_f32 x) (f64_of_f32 y) = SFcompare x y.
Proof.
  intros Vx Vy. destruct (f64_of_f32_exact x Vx) as [Sx Vx']. destruct (f64_of_f32_exact y Vy) as [Sy Vy'].
  destruct (is_finite_SF x && is_finite_SF y) eqn:F.
  - apply andb_prop in F as [Fx Fy].
    rewrite (cmp_key prec32 emax32 x y) by (done || (intros ->; done)).
    assert (Fin : forall a b, same_value a b -> is_finite_SF a = true -> is_finite_SF b = true) by (intros [] []; done).
    pose proof (Fin _ _ Sx Fx) as Fx'. pose proof (Fin _ _ Sy Fy) as Fy'.
    rewrite (cmp_key prec64 emax64) by (done || (intros E; rewrite E in *; done)).
    rewrite !key_fin by done. unfold val. by rewrite (same_val _ _ Sx), (same_val _ _ Sy).
  - revert Sx Sy. generalize (f64_of_f32 x), (f64_of_f32 y). intros x' y' Sx Sy.
    destruct x, x'; try done; destruct y, y'; try done; simpl in *; by intuition subst.
Qed.
Lemma f64_of_f32_le x y : valid_f32 x -> valid_f32 y -> f64_le (f64_of_f32 x) (f64_of_f32 y) = SFleb x y.
Proof. intros Vx Vy. unfold f64_le, SFleb. by rewrite f64_compare. Qed.
Lemma f64_of_f32_eq x y : valid_f32 x -> valid_f32 y -> f64_eq (f64_of_f32 x) (f64_of_f32 y) = SFeqb x y.
Proof. intros Vx Vy. unfold f64_eq, SFeqb. by rewrite f64_compare. Qed.
Lemma f64_of_u32_compare m n : (m < 2 ^ 32)%N -> (n < 2 ^ 32)%N -> SFcompare (f64_of_u32 m) (f64_of_u32 n) = Some (m ?= n)%N.
Proof.
  intros Hm Hn.
  assert (R : forall n, (n < 2 ^ 32)%N -> val (f64_of_u32 n) = IZR (Z.of_N n) /\ is_finite_SF (f64_of_u32 n) = true /\
    valid_binary prec64 emax64 (f64_of_u32 n) = true).
  { clear. intros [|p] Hp; [done|]. destruct (f64_of_u32_exact p Hp) as [S V]. split.
    - unfold val. rewrite <- (same_val _ _ S). simpl. unfold F2R. simpl. lra.
    - split; [|done]. by destruct (f64_of_u32 (Npos p)). }
  destruct (R m Hm) as (Rm & Fm & Vm), (R n Hn) as (Rn & Fn & Vn).
  rewrite (cmp_key prec64 emax64) by (done || (intros E; rewrite E in *; done)).
  rewrite !key_fin by done. rewrite Rm, Rn. rewrite Rcompare_IZR. f_equal. apply N2Z.inj_compare.
Qed.
