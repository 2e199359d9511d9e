(** Round trips of the primitive codecs on top of [u64]. *)
From Verif.model Require Import Base F32 Utf8 Prim.
From Verif.spec Require Import Spec.
From Verif.proofs Require Import Base_facts Prim_facts F32_bits.
From Coq Require Import ZifyBool ZifyNat ZifyN.
Ltac Zify.zify_post_hook ::= Z.div_mod_to_equations.

Notation rt := reads_back.

(** Numbers that survive the [u64] codec. *)
Definition u64_ok (v : N) : Prop := v < 2 ^ 56 \/ 2 ^ 63 <= v < 2 ^ 64.

Lemma rt_u64 v : u64_ok v -> rt enc_u64 dec_u64 v v.
Proof. intros [H|H] rest; [by apply dec_enc_u64_small|by apply dec_enc_u64_big]. Qed.

Lemma rt_usize P v : u64_ok v -> v <= usize_max P -> rt enc_usize (dec_usize P) v v.
Proof.
  intros H1 H2 rest. unfold dec_usize, enc_usize. rewrite (rt_u64 v H1). simpl.
  apply N.leb_le in H2. by rewrite H2.
Qed.
Lemma rt_u32 v : v < 2 ^ 32 -> rt enc_u32 dec_u32 v v.
Proof.
  intros H rest. unfold dec_u32, enc_u32. rewrite rt_u64.
  - simpl. apply N.ltb_lt in H. by rewrite H.
  - left. eapply N.lt_trans; [exact H|done].
Qed.
Lemma is_scalar_bound c : is_scalar c = true -> c <= 1114111.
Proof. unfold is_scalar. lia. Qed.
Lemma rt_char c : is_scalar c = true -> rt enc_char dec_char c c.
Proof.
  intros H rest. unfold dec_char, enc_char. rewrite rt_u32.
  - simpl. by rewrite H.
  - apply is_scalar_bound in H. eapply N.le_lt_trans; [exact H|done].
Qed.
Lemma rt_f32 x : valid_f32 x -> rt enc_f32 dec_f32 x x.
Proof.
  intros H rest. unfold enc_f32, dec_f32. simpl.
  pose proof (f32_to_bits_bound x H) as Hb. rewrite <- (f32_bits_roundtrip x H) at 5.
  do 3 f_equal. set (b := f32_to_bits x) in *. change (2 ^ 32) with 4294967296 in Hb.
  change (2 ^ 24) with 16777216. change (2 ^ 16) with 65536. change (2 ^ 8) with 256. lia.
Qed.
Lemma rt_bool b : rt enc_bool dec_bool b b.
Proof. intros rest. by destruct b. Qed.
Lemma rt_u8 b : rt enc_u8 dec_u8 b b.
Proof. intros rest. done. Qed.

(** ** Decoder safety *)
(** Not panicking, consuming: what every primitive decoder guarantees. *)
(** A decoder that consumes at least [k] bytes and always leaves a suffix. *)
Definition eats {A} (k : nat) (dec : decoder A) : Prop :=
  forall input rest v, dec input = Done (rest, v) ->
    exists pre, input = pre ++ rest /\ (k <= length pre)%nat.
Definition no_panic {A} (dec : decoder A) : Prop := forall input, dec input <> Panic.
Definition no_stuck {A} (dec : decoder A) : Prop := forall input, dec input <> Stuck.
(** Every decoded value satisfies [Q]. *)
Definition gives {A} (dec : decoder A) (Q : A -> Prop) : Prop :=
  forall input rest v, dec input = Done (rest, v) -> Q v.

Lemma dec_u64_no_panic : no_panic dec_u64.
Proof. intros i. destruct (dec_u64_total i) as [(?&?&?&E&_)|[E _]]; congruence. Qed.
Lemma dec_u64_no_stuck : no_stuck dec_u64.
Proof. intros i. destruct (dec_u64_total i) as [(?&?&?&E&_)|[E _]]; congruence. Qed.
Lemma dec_u64_eats : eats 1 dec_u64.
Proof.
  intros i r v H. apply dec_u64_suffix in H as (pre & -> & Hp). exists pre. split; [done|].
  destruct pre; [done|simpl; lia].
Qed.
Lemma dec_usize_no_panic P : no_panic (dec_usize P).
Proof.
  intros i. unfold dec_usize. destruct (dec_u64 i) as [[r v]| | |] eqn:E; simpl; try done.
  - by destruct (v <=? usize_max P).
  - by apply dec_u64_no_panic in E.
Qed.
Lemma dec_usize_no_stuck P : no_stuck (dec_usize P).
Proof.
  intros i. unfold dec_usize. destruct (dec_u64 i) as [[r v]| | |] eqn:E; simpl; try done.
  - by destruct (v <=? usize_max P).
  - by apply dec_u64_no_stuck in E.
Qed.
Lemma dec_usize_inv P i r v : dec_usize P i = Done (r, v) -> dec_u64 i = Done (r, v) /\ v <= usize_max P.
Proof.
  unfold dec_usize. intros H. inv_bind H. destruct x as [r' v'].
  destruct (N.leb_spec v' (usize_max P)); [|done]. injection H as <- <-. done.
Qed.
Lemma dec_usize_eats P : eats 1 (dec_usize P).
Proof. intros i r v [H _]%dec_usize_inv. by apply dec_u64_eats in H. Qed.
Lemma dec_u32_inv i r v : dec_u32 i = Done (r, v) -> dec_u64 i = Done (r, v) /\ v < 2 ^ 32.
Proof.
  unfold dec_u32. intros H. inv_bind H. destruct x as [r' v'].
  destruct (N.ltb_spec v' (2 ^ 32)); [|done]. injection H as <- <-. done.
Qed.
Lemma dec_u32_no_panic : no_panic dec_u32.
Proof.
  intros i. unfold dec_u32. destruct (dec_u64 i) as [[r v]| | |] eqn:E; simpl; try done.
  - by destruct (v <? 2 ^ 32).
  - by apply dec_u64_no_panic in E.
Qed.
Lemma dec_u32_no_stuck : no_stuck dec_u32.
Proof.
  intros i. unfold dec_u32. destruct (dec_u64 i) as [[r v]| | |] eqn:E; simpl; try done.
  - by destruct (v <? 2 ^ 32).
  - by apply dec_u64_no_stuck in E.
Qed.
Lemma dec_u32_eats : eats 1 dec_u32.
Proof. intros i r v [H _]%dec_u32_inv. by apply dec_u64_eats in H. Qed.
Lemma dec_char_inv i r v : dec_char i = Done (r, v) -> dec_u32 i = Done (r, v) /\ is_scalar v = true.
Proof.
  unfold dec_char. intros H. inv_bind H. destruct x as [r' v'].
  destruct (is_scalar v') eqn:E'; [|done]. injection H as <- <-. done.
Qed.
Lemma dec_char_no_panic : no_panic dec_char.
Proof.
  intros i. unfold dec_char. destruct (dec_u32 i) as [[r v]| | |] eqn:E; simpl; try done.
  - by destruct (is_scalar v).
  - by apply dec_u32_no_panic in E.
Qed.
Lemma dec_char_no_stuck : no_stuck dec_char.
Proof.
  intros i. unfold dec_char. destruct (dec_u32 i) as [[r v]| | |] eqn:E; simpl; try done.
  - by destruct (is_scalar v).
  - by apply dec_u32_no_stuck in E.
Qed.
Lemma dec_char_eats : eats 1 dec_char.
Proof. intros i r v [H _]%dec_char_inv. by apply dec_u32_eats in H. Qed.
Lemma dec_char_gives : gives dec_char (fun c => is_scalar c = true).
Proof. intros i r v [_ H]%dec_char_inv. done. Qed.

Lemma dec_f32_eats : eats 4 dec_f32.
Proof.
  intros i r v. unfold dec_f32. destruct i as [|b0 [|b1 [|b2 [|b3 i]]]]; try done.
  intros [= <- <-]. exists [b0; b1; b2; b3]. simpl. auto.
Qed.
Lemma dec_f32_no_panic : no_panic dec_f32.
Proof. intros [|b0 [|b1 [|b2 [|b3 i]]]]; done. Qed.
Lemma dec_f32_no_stuck : no_stuck dec_f32.
Proof. intros [|b0 [|b1 [|b2 [|b3 i]]]]; done. Qed.
Lemma dec_bool_eats : eats 1 dec_bool.
Proof. intros [|b i] r v; [done|]. intros [= <- <-]. exists [b]. auto. Qed.
Lemma dec_bool_no_panic : no_panic dec_bool.
Proof. by intros [|b i]. Qed.
Lemma dec_bool_no_stuck : no_stuck dec_bool.
Proof. by intros [|b i]. Qed.
Lemma dec_u8_eats : eats 1 dec_u8.
Proof. intros [|b i] r v; [done|]. intros [= <- <-]. exists [b]. auto. Qed.
Lemma dec_u8_no_panic : no_panic dec_u8.
Proof. by intros [|b i]. Qed.
Lemma dec_u8_no_stuck : no_stuck dec_u8.
Proof. by intros [|b i]. Qed.
