(** The integer codec and the other primitives. *)
From Verif.model Require Import Base F32 Utf8 Prim.
From Verif.proofs Require Import Base_facts.
From Coq Require Import ZifyBool ZifyNat ZifyN.
Ltac Zify.zify_post_hook ::= Z.div_mod_to_equations.

(** ** Bit operations as arithmetic *)
Lemma land_127 v : N.land (v mod 256) 127 = v mod 128.
Proof.
  change 127 with (N.ones 7). rewrite N.land_ones. change (2 ^ 7) with 128.
  change 256 with (128 * 2). rewrite N.mod_mul_r by lia.
  rewrite N.mul_comm, N.mod_add by lia. apply N.mod_mod. lia.
Qed.
Lemma land_disjoint a b n : a < 2 ^ n -> N.land a (N.shiftl b n) = 0.
Proof.
  intros Ha. apply N.bits_inj. intros i. rewrite N.land_spec, N.bits_0.
  destruct (N.lt_ge_cases i n).
  - rewrite N.shiftl_spec_low by done. by rewrite andb_false_r.
  - destruct (N.eq_dec a 0) as [->|Hz]; [by rewrite N.bits_0|].
    rewrite N.bits_above_log2; [done|]. eapply N.lt_le_trans; [|done].
    apply N.log2_lt_pow2; [lia|done].
Qed.
Lemma lor_disjoint a b n : a < 2 ^ n -> N.lor a (N.shiftl b n) = a + b * 2 ^ n.
Proof.
  intros Ha. pose proof (land_disjoint a b n Ha) as Hl.
  rewrite <- N.shiftl_mul_pow2, N.add_nocarry_lxor by done. symmetry. by apply N.lxor_lor.
Qed.
Lemma lor_128 x : x < 128 -> N.lor x 128 = x + 128.
Proof. intros H. change 128 with (N.shiftl 1 7) at 1. by rewrite lor_disjoint. Qed.
Lemma land_128 b : (N.land b 128 =? 128) = (128 <=? b mod 256).
Proof.
  assert (H : N.land b 128 = if N.testbit b 7 then 128 else 0).
  { apply N.bits_inj. intros i. change 128 with (2 ^ 7). rewrite N.land_spec, N.pow2_bits_eqb.
    destruct (N.eqb_spec 7 i) as [<-|Hi].
    - rewrite andb_true_r. by destruct (N.testbit b 7).
    - rewrite andb_false_r. destruct (N.testbit b 7); [|by rewrite N.bits_0].
      rewrite N.pow2_bits_eqb. symmetry. by apply N.eqb_neq. }
  rewrite H, N.testbit_eqb. change (2 ^ 7) with 128.
  destruct (N.eqb_spec ((b / 128) mod 2) 1); lia.
Qed.
Lemma byte7_mod b : (N.shiftl b 1) mod 256 = 2 * (b mod 128).
Proof. rewrite N.shiftl_mul_pow2. change (2 ^ 1) with 2. lia. Qed.

(** ** Encoding *)
Lemma size_nat_div v : v <> 0 -> (N.size_nat (N.shiftr v 7) < N.size_nat v)%nat.
Proof.
  intros Hv. rewrite N.shiftr_div_pow2. change (2 ^ 7) with 128.
  assert (forall x, x <> 0 -> N.size_nat x = S (N.to_nat (N.log2 x))) as Hs.
  { intros x Hx. rewrite <- N2Nat.inj_succ, <- N.size_log2 by done.
    destruct x as [|p]; [done|]. simpl. clear. induction p; simpl; lia. }
  destruct (N.eq_dec (v / 128) 0) as [E|E].
  - rewrite E. simpl. rewrite Hs by done. lia.
  - rewrite !Hs by done.
    assert (N.log2 (v / 128) < N.log2 v); [|lia].
    change 128 with (2 ^ 7). rewrite <- N.shiftr_div_pow2, N.log2_shiftr.
    assert (7 <= N.log2 v); [|lia].
    change 7 with (N.log2 128). apply N.log2_le_mono. lia.
Qed.
Lemma enc_u64_fuel_enough f1 f2 v :
  (N.size_nat v < f1)%nat -> (N.size_nat v < f2)%nat -> enc_u64_fuel f1 v = enc_u64_fuel f2 v.
Proof.
  revert f2 v. induction f1 as [|f1 IH]; intros [|f2] v H1 H2; try lia.
  cbn [enc_u64_fuel]. cbv zeta. destruct (N.eqb_spec (N.shiftr v 7) 0) as [E|E]; [done|].
  f_equal. assert (v <> 0) by (intros ->; by apply E).
  pose proof (size_nat_div v ltac:(done)). apply IH; lia.
Qed.
Lemma enc_u64_unfold v :
  enc_u64 v = if v <? 128 then [v] else (v mod 128 + 128) :: enc_u64 (v / 128).
Proof.
  unfold enc_u64 at 1. cbn [enc_u64_fuel]. cbv zeta. rewrite land_127, N.shiftr_div_pow2. change (2 ^ 7) with 128.
  destruct (N.ltb_spec v 128).
  - replace (v / 128 =? 0) with true by lia. f_equal. lia.
  - replace (v / 128 =? 0) with false by lia. rewrite lor_128 by lia. f_equal.
    apply enc_u64_fuel_enough; [|lia].
    pose proof (size_nat_div v ltac:(lia)) as Hs. rewrite N.shiftr_div_pow2 in Hs. exact Hs.
Qed.

(** Number of 7-bit groups. *)
Definition groups (v : N) : N := N.max 1 ((N.size v + 6) / 7).

Lemma size_div_128 v : 128 <= v -> N.size v = N.size (v / 128) + 7.
Proof.
  intros H. rewrite !N.size_log2 by lia.
  change 128 with (2 ^ 7). rewrite <- N.shiftr_div_pow2, N.log2_shiftr.
  assert (7 <= N.log2 v); [|lia]. change 7 with (N.log2 128). by apply N.log2_le_mono.
Qed.
Lemma size_small v : v < 128 -> N.size v <= 7.
Proof.
  intros H. destruct (N.eq_dec v 0) as [->|]; [done|]. rewrite N.size_log2 by done.
  assert (N.log2 v < 7); [|lia]. apply N.log2_lt_pow2; [lia|done].
Qed.

Lemma enc_u64_ind (Q : N -> list N -> Prop) :
  (forall v, v < 128 -> Q v [v]) ->
  (forall v l, 128 <= v -> Q (v / 128) l -> Q v ((v mod 128 + 128) :: l)) ->
  forall v, Q v (enc_u64 v).
Proof.
  intros H0 HS. apply (well_founded_induction N.lt_wf_0). intros v IH.
  rewrite enc_u64_unfold. destruct (N.ltb_spec v 128); [auto|].
  apply HS; [done|]. apply IH. lia.
Qed.

Lemma enc_u64_length v : lenN (enc_u64 v) = groups v.
Proof.
  apply (enc_u64_ind (fun v l => lenN l = groups v)); unfold groups.
  - intros w H. pose proof (size_small w H). rewrite lenN_cons, (@lenN_nil N). lia.
  - intros w l H IH. rewrite lenN_cons, IH, (size_div_128 w H).
    assert (N.size (w / 128) >= 1); [|lia].
    rewrite N.size_log2; lia.
Qed.
Lemma enc_u64_nonempty v : enc_u64 v <> [].
Proof. rewrite enc_u64_unfold. by destruct (v <? 128). Qed.
(** All bytes but the last have the top bit, the last does not. *)
Lemma enc_u64_shape v : exists pre b, enc_u64 v = pre ++ [b] /\ b < 128 /\
  Forall (fun c => 128 <= c < 256) pre.
Proof.
  apply (enc_u64_ind (fun v l => exists pre b, l = pre ++ [b] /\ b < 128 /\
    Forall (fun c => 128 <= c < 256) pre)).
  - intros w H. exists [], w. auto.
  - intros w l H (pre & b & -> & Hb & Hp). exists ((w mod 128 + 128) :: pre), b.
    split; [done|]. split; [done|]. constructor; [lia|done].
Qed.
Lemma enc_u64_bytes v : Forall (fun c => c < 256) (enc_u64 v).
Proof.
  destruct (enc_u64_shape v) as (pre & b & -> & Hb & Hp). apply Forall_app. split.
  - eapply Forall_impl; [exact Hp|]. simpl. lia.
  - repeat constructor. lia.
Qed.

(** The number spelled by a list of 7-bit groups, least significant first. *)
Fixpoint value (bs : list N) : N :=
  match bs with [] => 0 | b :: bs' => b mod 128 + 128 * value bs' end.
Lemma value_enc v : value (enc_u64 v) = v.
Proof.
  apply (enc_u64_ind (fun v l => value l = v)); simpl.
  - intros w H. lia.
  - intros w l H ->. lia.
Qed.
Lemma value_app a b : value (a ++ b) = value a + 128 ^ lenN a * value b.
Proof.
  induction a as [|x a IH]; [change (128 ^ lenN (@nil N)) with 1; simpl; lia|].
  simpl. rewrite IH. rewrite (lenN_cons x a), N.pow_add_r. change (128 ^ 1) with 128. lia.
Qed.
Lemma value_bound bs : value bs < 128 ^ lenN bs.
Proof.
  induction bs as [|b bs IH]; [done|]. simpl value. rewrite lenN_cons, N.pow_add_r.
  change (128 ^ 1) with 128. lia.
Qed.

(** Prefix-freeness. *)
Lemma enc_u64_prefix_free v w r s : enc_u64 v ++ r = enc_u64 w ++ s -> v = w /\ r = s.
Proof.
  revert w r s.
  apply (enc_u64_ind (fun v l => forall w r s, l ++ r = enc_u64 w ++ s -> v = w /\ r = s)).
  - intros x Hx w r s. rewrite (enc_u64_unfold w). destruct (N.ltb_spec w 128); simpl; intros [= E1 E2].
    + done.
    + lia.
  - intros x l Hx IH w r s. rewrite (enc_u64_unfold w). destruct (N.ltb_spec w 128); simpl; intros [= E1 E2].
    + lia.
    + apply IH in E2 as [? ->]. split; [lia|done].
Qed.

(** ** Decoding *)
(** The bytes consumed by the loop and the rest. *)
Fixpoint span (rounds : nat) (bs : list N) : list N * list N :=
  match rounds, bs with
  | O, _ | _, [] => ([], bs)
  | S r, b :: bs' =>
    if 128 <=? b mod 256 then let '(c, rest) := span r bs' in (b :: c, rest) else ([b], bs')
  end.

Lemma span_app r bs c rest : span r bs = (c, rest) -> bs = c ++ rest.
Proof.
  revert bs c rest. induction r as [|r IH]; intros [|b bs] c rest; simpl; try (intros [= <- <-]; done).
  destruct (128 <=? b mod 256).
  - destruct (span r bs) as [c' rest'] eqn:E. intros [= <- <-]. apply IH in E. simpl. by f_equal.
  - intros [= <- <-]. done.
Qed.
Lemma span_length r bs c rest : span r bs = (c, rest) -> (length c <= r)%nat.
Proof.
  revert bs c rest. induction r as [|r IH]; intros [|b bs] c rest; simpl; try (intros [= <- <-]; simpl; lia).
  destruct (128 <=? b mod 256).
  - destruct (span r bs) as [c' rest'] eqn:E. intros [= <- <-]. apply IH in E. simpl. lia.
  - intros [= <- <-]. simpl. lia.
Qed.
Lemma span_nil r bs c rest : span (S r) bs = (c, rest) -> c = [] <-> bs = [].
Proof.
  destruct bs as [|b bs]; simpl; [intros [= <- <-]; done|].
  destruct (128 <=? b mod 256); [destruct (span r bs)|]; intros [= <- <-]; done.
Qed.

Lemma pow_split k : k <= 8 -> 2 ^ 57 = 2 ^ (7 * k) * 2 ^ (64 - 7 * (k + 1)).
Proof. intros H. rewrite <- N.pow_add_r. f_equal. lia. Qed.

Lemma dec_u64_loop_span r bs V k c rest :
  k + N.of_nat r = 9 -> V < 2 ^ (7 * k) -> span r bs = (c, rest) ->
  dec_u64_loop r bs (V * 2 ^ (64 - 7 * k)) k =
  (rest, (V + 2 ^ (7 * k) * value c) * 2 ^ (64 - 7 * (k + lenN c)), k + lenN c).
Proof.
  revert bs V k c rest. induction r as [|r IH]; intros bs V k c rest Hk HV; simpl.
  - intros [= <- <-]. simpl value. rewrite (@lenN_nil N), N.mul_0_r, !N.add_0_r. done.
  - destruct bs as [|b bs];
      [intros [= <- <-]; simpl value; rewrite (@lenN_nil N), N.mul_0_r, !N.add_0_r; done|].
    rewrite land_128, byte7_mod.
    assert (Hout : N.lor (N.shiftr (V * 2 ^ (64 - 7 * k)) 7) (N.shiftl (2 * (b mod 128)) 56)
                   = (V + 2 ^ (7 * k) * (b mod 128)) * 2 ^ (64 - 7 * (k + 1))).
    { replace (N.shiftl (2 * (b mod 128)) 56) with (N.shiftl (b mod 128) 57).
      2: { rewrite !N.shiftl_mul_pow2. change (2 ^ 57) with (2 * 2 ^ 56). lia. }
      rewrite N.shiftr_div_pow2.
      replace (V * 2 ^ (64 - 7 * k)) with (V * 2 ^ (64 - 7 * (k + 1)) * 2 ^ 7).
      2: { rewrite <- N.mul_assoc, <- N.pow_add_r. do 2 f_equal. lia. }
      rewrite N.div_mul by done.
      rewrite lor_disjoint.
      - rewrite (pow_split k) by lia. lia.
      - rewrite (pow_split k) by lia. apply N.mul_lt_mono_pos_r; [|done].
        apply N.neq_0_lt_0, N.pow_nonzero. done. }
    rewrite Hout. clear Hout.
    assert (HV' : V + 2 ^ (7 * k) * (b mod 128) < 2 ^ (7 * (k + 1))).
    { replace (7 * (k + 1)) with (7 * k + 7) by lia. rewrite N.pow_add_r. change (2 ^ 7) with 128.
      assert (b mod 128 <= 127) by lia.
      assert (2 ^ (7 * k) * (b mod 128) <= 2 ^ (7 * k) * 127) by (by apply N.mul_le_mono_l).
      lia. }
    destruct (128 <=? b mod 256).
    + destruct (span r bs) as [c' rest'] eqn:E. intros [= <- <-].
      erewrite IH by (eauto; lia).
      rewrite lenN_cons. simpl value.
      replace (k + (1 + lenN c')) with (k + 1 + lenN c') by lia.
      f_equal. f_equal.
      replace (2 ^ (7 * (k + 1))) with (2 ^ (7 * k) * 128).
      2: { change 128 with (2 ^ 7). rewrite <- N.pow_add_r. f_equal. lia. }
      lia.
    + intros [= <- <-]. rewrite lenN_cons, (@lenN_nil N). simpl value.
      replace (k + (1 + 0)) with (k + 1) by lia. f_equal. f_equal. lia.
Qed.

(** What [dec_u64] computes, in terms of the consumed bytes. *)
Lemma dec_u64_span bs c rest : span 9 bs = (c, rest) ->
  dec_u64 bs =
    if lenN c =? 9 then
      match rest with
      | [] => Nope
      | b :: rest' => Done (rest', value c + (if b =? 1 then 2 ^ 63 else 0))
      end
    else match c with [] => Nope | _ => Done (rest, value c) end.
Proof.
  intros E. unfold dec_u64.
  pose proof (dec_u64_loop_span 9 bs 0 0 c rest ltac:(done) ltac:(done) E) as H.
  change (0 * 2 ^ (64 - 7 * 0)) with 0 in H. rewrite H. clear H.
  change (2 ^ (7 * 0)) with 1.
  replace (0 + 1 * value c) with (value c) by lia. replace (0 + lenN c) with (lenN c) by lia.
  pose proof (span_length _ _ _ _ E) as Hl.
  assert (lenN c <= 9) by (unfold lenN; lia). clear Hl.
  pose proof (value_bound c) as Hb.
  destruct (N.eqb_spec (lenN c) 9) as [E9|E9].
  - rewrite E9 in *. change (64 - 7 * 9) with 1. rewrite N.shiftr_div_pow2, N.div_mul by done.
    destruct rest as [|b rest]; [done|]. f_equal. f_equal.
    destruct (b =? 1); [|lia].
    rewrite lor_disjoint; [lia|]. eapply N.lt_le_trans; [exact Hb|]. done.
  - destruct (N.eqb_spec (lenN c) 0) as [E0|E0].
    + destruct c; [done|]. rewrite lenN_cons in E0. lia.
    + replace (lenN c * 7) with (7 * lenN c) by lia.
      rewrite N.shiftr_div_pow2, N.div_mul by (apply N.pow_nonzero; done).
      destruct c; [rewrite (@lenN_nil N) in E0; lia|done].
Qed.

Lemma groups_le v k : 1 <= k -> v < 2 ^ (7 * k) -> groups v <= k.
Proof.
  intros Hk H. unfold groups. destruct (N.eq_dec v 0) as [->|Hv]; [simpl; lia|].
  rewrite N.size_log2 by done. assert (N.log2 v < 7 * k) by (apply N.log2_lt_pow2; lia). lia.
Qed.
Lemma groups_gt v k : 2 ^ (7 * k) <= v -> k < groups v.
Proof.
  intros H. unfold groups. assert (v <> 0).
  { intros ->. assert (2 ^ (7 * k) <> 0) by (by apply N.pow_nonzero). lia. }
  rewrite N.size_log2 by done.
  assert (7 * k <= N.log2 v) by (rewrite <- (N.log2_pow2 (7 * k)) by lia; by apply N.log2_le_mono).
  lia.
Qed.

Lemma span_all r pre b rest : Forall (fun c => 128 <= c < 256) pre -> b < 128 ->
  (length pre < r)%nat -> span r (pre ++ b :: rest) = (pre ++ [b], rest).
Proof.
  intros Hp Hb. revert r. induction Hp as [|c pre Hc Hp IH]; intros [|r] Hr; simpl in *; try lia.
  - replace (128 <=? b mod 256) with false by lia. done.
  - replace (128 <=? c mod 256) with true by lia. rewrite IH by lia. done.
Qed.
Lemma span_cont r pre rest : Forall (fun c => 128 <= c < 256) pre -> length pre = r ->
  span r (pre ++ rest) = (pre, rest).
Proof.
  intros Hp <-. induction Hp as [|c pre Hc Hp IH]; simpl; [by destruct rest|].
  replace (128 <=? c mod 256) with true by lia. by rewrite IH.
Qed.
Lemma span_short r pre : Forall (fun c => 128 <= c < 256) pre -> (length pre <= r)%nat ->
  span r pre = (pre, []).
Proof.
  intros Hp. revert r. induction Hp as [|c pre Hc Hp IH]; intros [|r] Hr; simpl in *; try lia; try done.
  replace (128 <=? c mod 256) with true by lia. rewrite IH by lia. done.
Qed.

Lemma span_enc v rest : v < 2 ^ 63 -> span 9 (enc_u64 v ++ rest) = (enc_u64 v, rest).
Proof.
  intros Hv. pose proof (enc_u64_length v) as Hl.
  pose proof (groups_le v 9 ltac:(done) Hv) as Hg.
  destruct (enc_u64_shape v) as (pre & b & E & Hb & Hp). rewrite E in *.
  rewrite <- app_assoc. apply span_all; auto.
  rewrite lenN_app, lenN_cons, (@lenN_nil N) in Hl. unfold lenN in Hl. lia.
Qed.
Lemma span_enc_big v rest : 2 ^ 63 <= v < 2 ^ 64 -> exists c,
  enc_u64 v = c ++ [1] /\ span 9 (enc_u64 v ++ rest) = (c, 1 :: rest) /\ lenN c = 9 /\
  value c + 2 ^ 63 = v.
Proof.
  intros [H1 H2]. pose proof (enc_u64_length v) as Hl.
  pose proof (groups_gt v 9 H1) as Hg.
  pose proof (groups_le v 10 ltac:(done) ltac:(eapply N.lt_trans; [exact H2|done])) as Hg'.
  pose proof (value_enc v) as Hv.
  destruct (enc_u64_shape v) as (pre & b & E & Hb & Hp). rewrite E in *.
  rewrite lenN_app, lenN_cons, (@lenN_nil N) in Hl.
  assert (Hlp : lenN pre = 9) by lia.
  rewrite value_app, Hlp in Hv. simpl value in Hv.
  pose proof (value_bound pre) as Hvb. rewrite Hlp in Hvb. change (128 ^ 9) with (2 ^ 63) in *.
  assert (b = 1) as ->. { change (2 ^ 64) with (2 * 2 ^ 63) in H2. nia. }
  exists pre. split; [done|]. split.
  - rewrite <- app_assoc. apply span_cont; [done|]. unfold lenN in Hlp. lia.
  - split; [done|]. simpl in Hv. lia.
Qed.

(** *** Round trip and the bad band *)
Lemma dec_enc_u64_small v rest : v < 2 ^ 56 -> dec_u64 (enc_u64 v ++ rest) = Done (rest, v).
Proof.
  intros Hv. erewrite dec_u64_span by (apply span_enc; eapply N.lt_trans; [exact Hv|done]).
  rewrite enc_u64_length. pose proof (groups_le v 8 ltac:(done) Hv).
  replace (groups v =? 9) with false by lia. rewrite value_enc.
  destruct (enc_u64 v) eqn:E; [by apply enc_u64_nonempty in E|done].
Qed.
Lemma dec_enc_u64_big v rest : 2 ^ 63 <= v < 2 ^ 64 -> dec_u64 (enc_u64 v ++ rest) = Done (rest, v).
Proof.
  intros Hv. destruct (span_enc_big v rest Hv) as (c & _ & Hs & Hl & Hval).
  erewrite dec_u64_span by exact Hs. rewrite Hl. simpl. by rewrite Hval.
Qed.
Lemma dec_enc_u64_band v rest : 2 ^ 56 <= v < 2 ^ 63 ->
  dec_u64 (enc_u64 v ++ rest) =
    match rest with
    | [] => Nope
    | b :: rest' => Done (rest', v + (if b =? 1 then 2 ^ 63 else 0))
    end.
Proof.
  intros [H1 H2]. erewrite dec_u64_span by (by apply span_enc).
  rewrite enc_u64_length.
  pose proof (groups_gt v 8 H1). pose proof (groups_le v 9 ltac:(done) H2).
  replace (groups v =? 9) with true by lia. by rewrite value_enc.
Qed.

(** Safety on arbitrary bytes. *)
Lemma dec_u64_total bs :
  (exists pre rest v, dec_u64 bs = Done (rest, v) /\ bs = pre ++ rest /\
     1 <= lenN pre <= 10 /\ v < 2 ^ 64) \/
  (dec_u64 bs = Nope /\ (bs = [] \/ (lenN bs = 9 /\ span 9 bs = (bs, [])))).
Proof.
  destruct (span 9 bs) as [c rest] eqn:E. rewrite (dec_u64_span _ _ _ E).
  pose proof (span_app _ _ _ _ E) as ->. pose proof (span_length _ _ _ _ E) as Hl.
  pose proof (value_bound c) as Hb.
  destruct (N.eqb_spec (lenN c) 9) as [E9|E9].
  - rewrite E9 in Hb. change (128 ^ 9) with (2 ^ 63) in Hb. destruct rest as [|b rest].
    + right. rewrite app_nil_r in *. auto.
    + left. exists (c ++ [b]), rest, (value c + (if b =? 1 then 2 ^ 63 else 0)).
      split; [done|]. split; [by rewrite <- app_assoc|].
      rewrite lenN_app, E9. split; [rewrite lenN_cons, (@lenN_nil N); lia|].
      change (2 ^ 64) with (2 * 2 ^ 63). destruct (b =? 1); lia.
  - destruct c as [|x c].
    + right. split; [done|]. left. by apply (span_nil _ _ _ _ E).
    + left. exists (x :: c), rest, (value (x :: c)). split; [done|]. split; [done|].
      assert (lenN (x :: c) <= 8) by (unfold lenN in *; simpl in *; lia).
      split; [rewrite lenN_cons in *; lia|].
      eapply N.lt_le_trans; [exact Hb|]. change (2 ^ 64) with (2 ^ 64).
      change 128 with (2 ^ 7). rewrite <- N.pow_mul_r. apply N.pow_le_mono_r; lia.
Qed.
Lemma dec_u64_bound bs rest v : dec_u64 bs = Done (rest, v) -> v < 2 ^ 64.
Proof. destruct (dec_u64_total bs) as [(pre & r & w & E & _ & _ & H)|[E _]]; congruence. Qed.
Lemma dec_u64_suffix bs rest v : dec_u64 bs = Done (rest, v) ->
  exists pre, bs = pre ++ rest /\ pre <> [].
Proof.
  destruct (dec_u64_total bs) as [(pre & r & w & E & E2 & H & _)|[E _]]; [|congruence].
  intros E'. rewrite E' in E. injection E as <- <-. exists pre. split; [done|].
  intros ->. rewrite (@lenN_nil N) in H. lia.
Qed.

(** Truncated encodings: a proper non-empty prefix decodes to its own groups. *)
Lemma dec_u64_truncated v k :
  v < 2 ^ 64 -> (0 < k < length (enc_u64 v))%nat ->
  dec_u64 (take k (enc_u64 v)) =
    if Nat.eqb k 9 then Nope else Done ([], v mod 128 ^ N.of_nat k).
Proof.
  intros Hv Hk. destruct (enc_u64_shape v) as (pre & b & E & Hb & Hp).
  pose proof (enc_u64_length v) as Hl.
  pose proof (groups_le v 10 ltac:(done) ltac:(eapply N.lt_trans; [exact Hv|done])) as Hg.
  pose proof (value_enc v) as Hval.
  rewrite E in *. rewrite app_length in Hk. simpl in Hk.
  rewrite take_app_le by lia.
  assert (Hpk : Forall (fun c => 128 <= c < 256) (take k pre)) by (by apply Forall_take).
  rewrite lenN_app in Hl. unfold lenN in Hl. simpl in Hl.
  assert (length (take k pre) = k) as Hlk by (rewrite take_length; lia).
  erewrite dec_u64_span by (apply span_short; [done|lia]).
  unfold lenN. rewrite Hlk.
  replace (N.of_nat k =? 9) with (Nat.eqb k 9) by (destruct (Nat.eqb_spec k 9); lia).
  destruct (Nat.eqb_spec k 9); [done|].
  destruct (take k pre) eqn:Et; [simpl in Hlk; lia|]. rewrite <- Et.
  do 2 f_equal.
  rewrite <- Hval. rewrite <- (take_drop k pre) at 2. rewrite <- app_assoc, value_app.
  pose proof (value_bound (take k pre)) as Hvb. unfold lenN in *. rewrite Et in *. rewrite Hlk in *.
  rewrite N.mul_comm, N.mod_add by (apply N.pow_nonzero; done). symmetry. by apply N.mod_small.
Qed.
