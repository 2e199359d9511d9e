(** [f32] bit patterns round-trip. *)
From Verif.model Require Import Base F32 Utf8 Prim.
From Verif.spec Require Import Spec.
From Verif.proofs Require Import Base_facts.
From Coq Require Import ZifyBool ZifyNat ZifyN.
Ltac Zify.zify_post_hook ::= Z.div_mod_to_equations.

(** A well-formed binary32 number (every Rust [f32] is one). *)

Lemma digits2_pos_size m : digits2_pos m = Pos.size m.
Proof. induction m; simpl; congruence. Qed.
Lemma digits2_upper m : (Zpos m < 2 ^ Zpos (digits2_pos m))%Z.
Proof.
  rewrite digits2_pos_size. pose proof (Pos.size_gt m) as H.
  rewrite <- Pos2Z.inj_pow. change 2%Z with (Zpos 2) in *. lia.
Qed.
Lemma digits2_lower m : (2 ^ (Zpos (digits2_pos m) - 1) <= Zpos m)%Z.
Proof.
  rewrite digits2_pos_size. pose proof (Pos.size_le m) as H.
  assert (2 ^ Zpos (Pos.size m) <= Zpos m~0)%Z as H2 by (rewrite <- Pos2Z.inj_pow; lia).
  replace (Zpos (Pos.size m)) with (Z.succ (Zpos (Pos.size m) - 1)) in H2 by lia.
  rewrite Z.pow_succ_r in H2 by lia. lia.
Qed.

Lemma bounded_cases m e : bounded prec32 emax32 m e = true ->
  (Zpos m < 2 ^ 24 /\ -149 <= e <= 104 /\ (e = -149 \/ 2 ^ 23 <= Zpos m))%Z.
Proof.
  unfold bounded, canonical_mantissa, fexp, emin, prec32, emax32.
  intros [H1 H2]%andb_prop. apply Zeq_bool_eq in H1.
  pose proof (digits2_upper m) as Hu. pose proof (digits2_lower m) as Hl.
  set (d := Zpos (digits2_pos m)) in *.
  assert (d >= 1)%Z by lia.
  assert (Hd : (d <= 24)%Z) by lia.
  split.
  { eapply Z.lt_le_trans; [exact Hu|]. apply Z.pow_le_mono_r; lia. }
  split; [lia|].
  destruct (Z.eq_dec e (-149)) as [|Hne]; [by left|]. right.
  assert (d = 24)%Z as Hd24 by lia. rewrite Hd24 in Hl. exact Hl.
Qed.

Lemma f32_bits_roundtrip x : valid_f32 x -> f32_of_bits (f32_to_bits x) = x.
Proof.
  destruct x as [s|s| |s m e]; intros Hv.
  - by destruct s.
  - by destruct s.
  - done.
  - apply bounded_cases in Hv as (Hm & He & Hn).
    unfold f32_to_bits, f32_of_bits.
    change (2 ^ 24)%Z with 16777216%Z in *. change (2 ^ 23)%Z with 8388608%Z in *.
    change (2 ^ 31) with 2147483648. change (2 ^ 23) with 8388608.
    destruct (N.ltb_spec (Npos m) 8388608) as [Hs|Hs].
    + assert (e = -149)%Z as -> by lia.
      set (b := (if s then 2147483648 else 0) + N.pos m).
      assert (Hb1 : (2147483648 <=? b) = s) by (unfold b; destruct s; lia).
      assert (Hb2 : (b / 8388608) mod 256 = 0) by (unfold b; destruct s; lia).
      assert (Hb3 : b mod 8388608 = Npos m) by (unfold b; destruct s; lia).
      rewrite Hb1, Hb2, Hb3. done.
    + set (E := Z.to_N (e + 150)).
      assert (HE : 1 <= E <= 254) by (unfold E; lia).
      set (b := (if s then 2147483648 else 0) + (E * 8388608 + (N.pos m - 8388608))).
      assert (Hb1 : (2147483648 <=? b) = s) by (unfold b; destruct s; lia).
      assert (Hb2 : (b / 8388608) mod 256 = E) by (unfold b; destruct s; lia).
      assert (Hb3 : b mod 8388608 = Npos m - 8388608) by (unfold b; destruct s; lia).
      rewrite Hb1, Hb2, Hb3.
      replace (E =? 255) with false by lia. replace (E =? 0) with false by lia.
      replace (N.pos m - 8388608 + 8388608) with (Npos m) by lia.
      f_equal. unfold E. lia.
Qed.
Lemma f32_to_bits_bound x : valid_f32 x -> f32_to_bits x < 2 ^ 32.
Proof.
  destruct x as [s|s| |s m e]; intros Hv; [by destruct s|by destruct s|done|].
  apply bounded_cases in Hv as (Hm & He & Hn). unfold f32_to_bits.
  change (2 ^ 24)%Z with 16777216%Z in *. change (2 ^ 23)%Z with 8388608%Z in *.
  change (2 ^ 31) with 2147483648. change (2 ^ 23) with 8388608. change (2 ^ 32) with 4294967296.
  destruct (N.ltb_spec (Npos m) 8388608) as [Hs|Hs]; destruct s; lia.
Qed.

(** Any four bytes decode to a well-formed number. *)
Lemma f32_of_bits_valid b : b < 2 ^ 32 -> valid_f32 (f32_of_bits b).
Proof.
  intros Hb. change (2 ^ 32) with 4294967296 in Hb. unfold f32_of_bits, valid_f32.
  change (2 ^ 31) with 2147483648. change (2 ^ 23) with 8388608.
  set (s := 2147483648 <=? b). set (ex := (b / 8388608) mod 256). set (mx := b mod 8388608).
  assert (ex < 256) by (unfold ex; lia). assert (mx < 8388608) by (unfold mx; lia).
  destruct (N.eqb_spec ex 255); [by destruct (mx =? 0)|].
  destruct (N.eqb_spec ex 0).
  - destruct mx as [|m]; [done|]. simpl. unfold bounded, canonical_mantissa, fexp, emin, prec32, emax32.
    pose proof (digits2_lower m) as Hl.
    assert (Hd : (Zpos (digits2_pos m) <= 23)%Z).
    { destruct (Z.le_gt_cases (Zpos (digits2_pos m)) 23) as [|Hgt]; [done|].
      assert (2 ^ 23 <= 2 ^ (Zpos (digits2_pos m) - 1))%Z by (apply Z.pow_le_mono_r; lia).
      change (2 ^ 23)%Z with 8388608%Z in *. lia. }
    apply andb_true_intro. split; [|done]. apply Zeq_is_eq_bool. lia.
  - destruct (mx + 8388608) as [|m] eqn:E; [done|]. simpl.
    unfold bounded, canonical_mantissa, fexp, emin, prec32, emax32.
    pose proof (digits2_lower m) as Hl. pose proof (digits2_upper m) as Hu.
    assert (Hd : (Zpos (digits2_pos m) = 24)%Z).
    { destruct (Z.lt_trichotomy (Zpos (digits2_pos m)) 24) as [Hlt|[|Hgt]]; [|done|].
      - assert (2 ^ Zpos (digits2_pos m) <= 2 ^ 23)%Z by (apply Z.pow_le_mono_r; lia).
        change (2 ^ 23)%Z with 8388608%Z in *. lia.
      - assert (2 ^ 24 <= 2 ^ (Zpos (digits2_pos m) - 1))%Z by (apply Z.pow_le_mono_r; lia).
        change (2 ^ 24)%Z with 16777216%Z in *. lia. }
    apply andb_true_intro. split; [apply Zeq_is_eq_bool|]; lia.
Qed.
