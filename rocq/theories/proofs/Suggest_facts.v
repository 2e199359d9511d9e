(** C66, C67: tag suggestions. Real numbers stay inside this file. *)
From Verif.model Require Import Base F32 Utf8 Prim Coll Data Gram Indexer Nodes Classic Lit Raw Js Lib.
From Verif.spec Require Import Spec Data_spec Js_spec Lib_spec.
From Verif.proofs Require Import Base_facts Float_facts.
From Coq Require Import ZArith Reals Lia Lra.
From Flocq Require Import Core.Core IEEE754.BinarySingleNaN.
#[local] Instance prec32_gt : Prec_gt_0 prec32 := eq_refl.
#[local] Instance prec32_lt : Prec_lt_emax prec32 emax32 := eq_refl.

(** ** Keeping the best *)
Section best.
Context {X : Type} (good : X -> bool) (better : X -> X -> bool).
Definition keep_best (best : option X) (x : X) : option X :=
  if good x then
    match best with
    | Some b => if better x b then Some x else Some b
    | None => Some x
    end
  else best.
Context (irrefl : forall x, good x = true -> better x x = false)
  (asym : forall x y, good x = true -> good y = true -> better x y = true -> better y x = false)
  (negtrans : forall x y z, good x = true -> good y = true -> good z = true ->
     better x y = false -> better y z = false -> better x z = false).
Lemma keep_best_spec l :
  match foldl keep_best None l with
  | Some x => first_best (fun x => good x = true) (fun x y => better x y = true) l x
  | None => forall x, x ∈ l -> good x = false
  end.
Proof.
  induction l as [|x l IH] using rev_ind; [by intros x Hx%elem_of_nil|]. rewrite foldl_app. cbn [foldl].
  destruct (foldl keep_best None l) as [b|]; unfold keep_best; destruct (good x) eqn:Gx.
  - destruct IH as (i & Hi & Gb & Hall & Hbef). assert (Li : (i < length l)%nat) by by eapply lookup_lt_Some.
    assert (Hl : forall j y, (l ++ [x]) !! j = Some y -> (j < length l)%nat /\ l !! j = Some y \/ j = length l /\ y = x).
    { intros j y Hj. apply lookup_app_Some in Hj as [Hj|[Hle Hj]]; [left; split; [by eapply lookup_lt_Some|done]|].
      apply list_lookup_singleton_Some in Hj as [Hj ->]. right. split; [lia|done]. }
    destruct (better x b) eqn:B.
    + exists (length l). split; [by rewrite lookup_app_r, Nat.sub_diag|]. split; [done|]. split.
      * intros j y [[Lj Hj]|[-> ->]]%Hl Gy; [|by rewrite irrefl].
        specialize (Hall j y Hj Gy). apply not_true_is_false in Hall.
        rewrite (negtrans y b x); try done. by apply asym.
      * intros j y Lj [[_ Hj]|[-> ->]]%Hl Gy; [|lia]. specialize (Hall j y Hj Gy). apply not_true_is_false in Hall.
        destruct (better x y) eqn:C; [done|]. by rewrite (negtrans x y b) in B.
    + exists i. split; [by rewrite lookup_app_l|]. split; [done|]. split.
      * intros j y [[Lj Hj]|[-> ->]]%Hl Gy; [by eapply Hall|by rewrite B].
      * intros j y Lj [[_ Hj]|[-> ->]]%Hl Gy; [by eapply Hbef|lia].
  - destruct IH as (i & Hi & Gb & Hall & Hbef). assert (Li : (i < length l)%nat) by by eapply lookup_lt_Some.
    exists i. split; [by rewrite lookup_app_l|]. split; [done|]. split.
    + intros j y Hj Gy. apply lookup_app_Some in Hj as [Hj|[Hle Hj]]; [by eapply Hall|].
      apply list_lookup_singleton_Some in Hj as [_ ->]. congruence.
    + intros j y Lj Hj Gy. rewrite lookup_app_l in Hj by lia. by eapply Hbef.
  - exists (length l). split; [by rewrite lookup_app_r, Nat.sub_diag|]. split; [done|]. split.
    + intros j y Hj Gy. apply lookup_app_Some in Hj as [Hj|[Hle Hj]].
      * apply elem_of_list_lookup_2, IH in Hj. congruence.
      * apply list_lookup_singleton_Some in Hj as [_ ->]. by rewrite irrefl.
    + intros j y Lj Hj Gy. rewrite lookup_app_l in Hj by lia. apply elem_of_list_lookup_2, IH in Hj. congruence.
  - intros y [Hy|Hy%elem_of_list_singleton]%elem_of_app; [by apply IH|by subst].
Qed.
End best.

(** ** Splitting at spaces *)
Lemma split_space_ok s : splits s (split_space s).
Proof.
  induction s as [|c s [(w & ws & E & J) F]]; [by split; [exists [], []|repeat constructor; apply not_elem_of_nil]|].
  cbn [split_space]. destruct (N.eqb_spec c 32) as [->|Nc].
  - split.
    + exists [], (split_space s). split; [done|]. rewrite E. simpl. by rewrite J.
    + constructor; [apply not_elem_of_nil|done].
  - rewrite E in *. split.
    + exists (c :: w), ws. by rewrite J.
    + inversion F; subst. constructor; [|done]. by intros [?|?]%elem_of_cons.
Qed.
Lemma splits_unique s : forall ws ws', splits s ws -> splits s ws' -> ws = ws'.
Proof.
  assert (C : forall w ws, 32 ∉ w -> Forall (fun w => 32 ∉ w) ws ->
    split_space (w ++ concat (map (fun w => 32 :: w) ws)) = w :: ws); [|].
  { intros w ws. revert w. induction ws as [|v ws IH]; intros w Hw Hws.
    - induction w as [|c w IHw]; [done|]. simpl in *. apply not_elem_of_cons in Hw as [Hc Hw].
      destruct (N.eqb_spec c 32); [done|]. by rewrite IHw.
    - inversion Hws; subst. induction w as [|c w IHw].
      + simpl. by rewrite IH.
      + apply not_elem_of_cons in Hw as [Hc Hw]. specialize (IHw Hw). cbn [app split_space].
        destruct (N.eqb_spec c 32); [done|]. by rewrite IHw. }
  assert (U : forall ws, splits s ws -> split_space s = ws).
  { intros ? [(w & ws & -> & ->) F]. inversion F; subst. by apply C. }
  intros ws ws' H H'. by rewrite <- (U _ H), <- (U _ H').
Qed.

(** ** Choosing by rounded overlap *)
Lemma overlap_sum_valid a b : valid_f32 (overlap_sum a b).
Proof.
  unfold overlap_sum.
  assert (F : Forall valid_f32 (zip_with (fun a b => if a =? b then f32_one else f32_zero) a b)).
  { revert b. induction a as [|x a IH]; intros [|y b]; [constructor..|]. simpl. constructor; [by destruct (_ =? _)|apply IH]. }
  destruct F as [|x l Hx F]; [done|]. revert x Hx. induction F as [|y l Hy F IH]; intros x Hx; [done|].
  cbn [foldl]. apply IH. by apply f32_add_valid.
Qed.
Lemma overlap_valid a b m : valid_f32 (overlap a b m).
Proof.
  unfold overlap. destruct (_ <? _); [done|]. apply f32_div_valid; [apply overlap_sum_valid|apply f32_of_N_valid].
Qed.
Definition score (x : rstr * tag) : f32 := overlap (t_name x.2) x.1 3.
Definition good_b (x : rstr * tag) : bool := f32_gt (score x) f32_0_8.
Definition better_b (x y : rstr * tag) : bool := f32_gt (score x) (score y).
Lemma good_number x : good_b x = true -> f32_number (score x).
Proof.
  intros H. split; [apply overlap_valid|]. intros E. unfold good_b in H. rewrite E in H. done.
Qed.
Lemma suggest_fold tags ws best :
  foldl (fun most_likely keyword => foldl (suggest_step keyword) most_likely tags)
    ((fun x => (score x, t_id x.2, x.1)) <$> best) ws =
  (fun x => (score x, t_id x.2, x.1)) <$> foldl (keep_best good_b better_b) best (pairs ws tags).
Proof.
  revert best. induction ws as [|w ws IH]; intros best; [done|].
  unfold pairs. cbn [map concat foldl]. rewrite foldl_app. rewrite <- IH. f_equal.
  clear IH ws. generalize best as best'. induction (tags : list tag) as [|t tags' IH]; intros best'; [done|]. cbn [map foldl].
  rewrite <- IH. f_equal. unfold suggest_step, keep_best, good_b, better_b.
  change (overlap (t_name t) w 3) with (score (w, t)).
  destruct (f32_gt (score (w, t)) f32_0_8); [|done]. destruct best' as [b|]; [|done]. simpl.
  by destruct (f32_gt _ _).
Qed.
Lemma suggest_best tags query ws : splits query ws ->
  match suggest tags query with
  | None => forall x, x ∈ pairs ws tags -> good_b x = false
  | Some (ov, id, keyword) => exists x,
      first_best (fun x => good_b x = true) (fun x y => better_b x y = true) (pairs ws tags) x /\
      ov = score x /\ id = t_id x.2 /\ keyword = x.1
  end.
Proof.
  intros H. rewrite (splits_unique _ _ _ H (split_space_ok query)). 
  assert (suggest tags query = (fun x => (score x, t_id x.2, x.1)) <$>
    foldl (keep_best good_b better_b) None (pairs (split_space query) tags)) as ->
    by exact (suggest_fold tags (split_space query) None).
  pose proof (keep_best_spec good_b better_b) as K.
  specialize (K ltac:(intros x Gx; apply f32_gt_false; [by apply good_number..|]; by apply f32_le_refl, good_number)).
  specialize (K ltac:(intros x y Gx Gy Hxy; apply f32_gt_false; [by apply good_number..|]; by apply f32_lt_le, f32_gt_iff)).
  specialize (K ltac:(intros x y z Gx Gy Gz Hxy Hyz; apply f32_gt_false; [by apply good_number..|];
    apply f32_gt_false in Hxy; [|by apply good_number..]; apply f32_gt_false in Hyz; [|by apply good_number..];
    eapply f32_le_trans; [..|exact Hxy|exact Hyz]; apply good_number; done)).
  specialize (K (pairs (split_space query) tags)).
  destruct (foldl _ None _) as [x|]; simpl; [|done]. by exists x.
Qed.

(** ** Exact shares *)
Lemma agreeing_sym a b : agreeing a b = agreeing b a.
Proof.
  revert b. induction a as [|x a IH]; intros [|y b]; [done..|]. simpl. rewrite IH.
  destruct (decide (x = y)), (decide (y = x)); congruence.
Qed.
Lemma agreeing_le a b : agreeing a b <= N.min (lenN a) (lenN b).
Proof.
  revert b. induction a as [|x a IH]; intros [|y b]; [done..|]. simpl. specialize (IH b). rewrite !lenN_cons.
  destruct (decide _); lia.
Qed.
Lemma utf8_len s : lenN s <= lenN (utf8 s).
Proof.
  induction s as [|c s IH]; [done|]. change (utf8 (c :: s)) with (utf8_char c ++ utf8 s). rewrite lenN_cons, lenN_app.
  assert (1 <= lenN (utf8_char c)); [|lia]. unfold utf8_char. repeat case_match; done.
Qed.
Lemma agreeing_self a : agreeing a a = lenN a.
Proof. induction a as [|x a IH]; [done|]. simpl. rewrite decide_True, lenN_cons, IH by done. lia. Qed.

Local Open Scope R_scope.
Lemma sum_val a b : (agreeing a b < 2 ^ 24)%N ->
  val (overlap_sum a b) = IZR (Z.of_N (agreeing a b)) /\ fin (overlap_sum a b) = true.
Proof.
  intros H. unfold overlap_sum.
  assert (V1 : val f32_one = 1 /\ val f32_zero = 0).
  { rewrite <- !(key_fin emax32) by done. by rewrite key_one, key_zero. }
  destruct V1 as [V1 V0].
  destruct a as [|x a]; [by split; [exact V0|]|]. destruct b as [|y b]; [by split; [exact V0|]|]. cbn [zip_with]. simpl in H.
  assert (G : forall a b acc k, valid_f32 acc -> fin acc = true -> val acc = IZR (Z.of_N k) ->
    (k + agreeing a b < 2 ^ 24)%N ->
    let r := foldl f32_add acc (zip_with (fun a b => if (a =? b)%N then f32_one else f32_zero) a b) in
    val r = IZR (Z.of_N (k + agreeing a b)) /\ fin r = true).
  { clear. intros a. induction a as [|x a IH]; intros b acc k Va Fa Ea L.
    { simpl. rewrite N.add_0_r. done. }
    destruct b as [|y b]; [simpl; by rewrite N.add_0_r|]. simpl zip_with. cbn [foldl]. simpl in L.
    set (d := if decide (x = y) then 1%N else 0%N) in *.
    assert (Hd : val (if (x =? y)%N then f32_one else f32_zero) = IZR (Z.of_N d) /\
      fin (if (x =? y)%N then f32_one else f32_zero) = true /\ valid_f32 (if (x =? y)%N then f32_one else f32_zero)).
    { unfold d. destruct (N.eqb_spec x y) as [->|Nxy].
      - rewrite decide_True by done. rewrite <- (key_fin emax32), key_one by done. done.
      - rewrite decide_False by done. rewrite <- (key_fin emax32), key_zero by done. done. }
    destruct Hd as (Vd & Fd & Wd).
    assert (S : rnd32 (val acc + val (if (x =? y)%N then f32_one else f32_zero)) = IZR (Z.of_N (k + d))).
    { rewrite Ea, Vd, <- plus_IZR. rewrite N2Z.inj_add. apply rnd32_int. lia. }
    destruct (add_val prec32 emax32 _ _ acc (if (x =? y)%N then f32_one else f32_zero) Va Wd Fa Fd) as [E F].
    { rewrite S. rewrite Rabs_pos_eq by (apply IZR_le; lia). apply Rlt_trans with (bpow radix2 24); [|by apply bpow_lt].
      change (bpow radix2 24) with (IZR (2 ^ 24)). apply IZR_lt. lia. }
    rewrite S in E. change (SFadd prec32 emax32) with f32_add in *.
    destruct (IH b (f32_add acc (if (x =? y)%N then f32_one else f32_zero)) (k + d)%N) as [E' F']; [|done|done|lia|].
    { by apply f32_add_valid. }
    change (agreeing (x :: a) (y :: b)) with (d + agreeing a b)%N. rewrite N.add_assoc. done. }
  set (d := if decide (x = y) then 1%N else 0%N) in *.
  change (agreeing (x :: a) (y :: b)) with (d + agreeing a b)%N.
  apply G; [by destruct (x =? y)%N|by destruct (x =? y)%N| |done].
  unfold d. destruct (N.eqb_spec x y) as [->|Nxy]; [by rewrite decide_True|by rewrite decide_False].
Qed.
Lemma score_val x : (3 <= shorter x)%N -> (shorter x < 2 ^ 24)%N ->
  f32_number (score x) /\ key32 (score x) = rnd32 (IZR (Z.of_N (agreeing x.1 (t_name x.2))) / IZR (Z.of_N (shorter x))).
Proof.
  intros L3 L. unfold score, overlap.
  assert (E : N.min (str_len (t_name x.2)) (str_len x.1) = shorter x) by (unfold shorter, str_len; lia).
  rewrite E. destruct (N.ltb_spec (shorter x) 3) as [?|_]; [lia|]. rewrite (agreeing_sym x.1).
  assert (A : (agreeing (t_name x.2) x.1 <= shorter x)%N).
  { pose proof (agreeing_le (t_name x.2) x.1). pose proof (utf8_len (t_name x.2)). pose proof (utf8_len x.1).
    unfold shorter. lia. }
  destruct (sum_val (t_name x.2) x.1) as [Vs Fs]; [lia|].
  destruct (of_N_val (shorter x)) as (Vd & Fd & _); [lia|]. rewrite rnd32_int in Vd by lia.
  assert (P : 0 < IZR (Z.of_N (shorter x))) by (apply IZR_lt; lia).
  destruct (div_val prec32 emax32 _ _ (overlap_sum (t_name x.2) x.1) (f32_of_N (shorter x))) as (Eq & F & _);
    [apply overlap_sum_valid|apply f32_of_N_valid|done|rewrite Vd; lra| |].
  { rewrite Vs, Vd.
    assert (U : 0 <= IZR (Z.of_N (agreeing (t_name x.2) x.1)) / IZR (Z.of_N (shorter x)) <= 1).
    { split.
      - apply Rmult_le_pos; [apply IZR_le; lia|]. left. by apply Rinv_0_lt_compat.
      - apply (Rmult_le_reg_r (IZR (Z.of_N (shorter x)))); [done|]. unfold Rdiv. rewrite Rmult_assoc, Rinv_l by lra.
        rewrite Rmult_1_r, Rmult_1_l. apply IZR_le. lia. }
    apply rnd32_unit in U. rewrite Rabs_pos_eq by lra. pose proof max32. lra. }
  rewrite Vs, Vd in Eq. change (SFdiv prec32 emax32) with f32_div in *.
  split; [|by rewrite key_fin, Eq]. split; [apply f32_div_valid; [apply overlap_sum_valid|apply f32_of_N_valid]|].
  intros C. by rewrite C in F.
Qed.
Lemma score_short x : (shorter x < 3)%N -> score x = f32_zero.
Proof.
  intros L. unfold score, overlap.
  assert (N.min (str_len (t_name x.2)) (str_len x.1) = shorter x) as -> by (unfold shorter, str_len; lia).
  by destruct (N.ltb_spec (shorter x) 3) as [_|?]; [|lia].
Qed.
Lemma key_0_8 : key32 f32_0_8 = IZR 13421773 * bpow radix2 (-24).
Proof. rewrite key_fin by done. done. Qed.
Lemma rnd32_24 z : (0 <= z <= 2 ^ 24)%Z -> rnd32 (IZR z * bpow radix2 (-24)) = IZR z * bpow radix2 (-24).
Proof.
  intros Hz. apply rnd_exact. destruct (Z.eq_dec z (2 ^ 24)) as [->|Nz].
  - change (IZR (2 ^ 24)) with (bpow radix2 24). rewrite <- bpow_plus. apply generic_format_bpow.
    unfold SpecFloat.fexp, emin, prec32, emax32. lia.
  - apply (generic_format_FLT radix2 (-149) 24). exists (Float radix2 z (-24)); simpl; [done| |lia].
    rewrite Z.abs_eq by lia. change (Z.pow_pos 2 24) with (2 ^ 24)%Z. lia.
Qed.
Lemma bpow_24 : bpow radix2 (-24) = / IZR (2 ^ 24).
Proof. done. Qed.
Lemma good_similar x : (shorter x < 2 ^ 21)%N -> good_b x = true <-> similar x.
Proof.
  intros L. unfold good_b, similar. destruct (decide (3 <= shorter x)%N) as [L3|L3].
  2: { rewrite score_short by lia. split; [done|lia]. }
  destruct (score_val x) as [Nx Kx]; [lia|lia|].
  rewrite f32_gt_iff, f32_lt_key by done. rewrite Kx, key_0_8.
  set (a := agreeing _ _). assert (P : 0 < IZR (Z.of_N (shorter x))) by (apply IZR_lt; lia).
  assert (B : forall z, (0 <= z)%Z -> IZR z * bpow radix2 (-24) <= IZR (Z.of_N a) / IZR (Z.of_N (shorter x)) <->
    (z * Z.of_N (shorter x) <= Z.of_N a * 2 ^ 24)%Z).
  { intros z Hz. rewrite bpow_24. split.
    - intros Hle. apply le_IZR. rewrite !mult_IZR.
      apply (Rmult_le_compat_r (IZR (Z.of_N (shorter x)))) in Hle; [|lra].
      apply (Rmult_le_compat_r (IZR (2 ^ 24))) in Hle; [|apply IZR_le; lia].
      replace (IZR (Z.of_N a) / IZR (Z.of_N (shorter x)) * IZR (Z.of_N (shorter x)) * IZR (2 ^ 24))
        with (IZR (Z.of_N a) * IZR (2 ^ 24)) in Hle by (field; lra).
      replace (IZR z * / IZR (2 ^ 24) * IZR (Z.of_N (shorter x)) * IZR (2 ^ 24))
        with (IZR z * IZR (Z.of_N (shorter x))) in Hle by (field; apply IZR_neq; lia). done.
    - intros Hle. apply IZR_le in Hle. rewrite !mult_IZR in Hle.
      apply (Rmult_le_reg_r (IZR (Z.of_N (shorter x)))); [done|].
      apply (Rmult_le_reg_r (IZR (2 ^ 24))); [apply IZR_lt; lia|].
      replace (IZR (Z.of_N a) / IZR (Z.of_N (shorter x)) * IZR (Z.of_N (shorter x)) * IZR (2 ^ 24))
        with (IZR (Z.of_N a) * IZR (2 ^ 24)) by (field; lra).
      replace (IZR z * / IZR (2 ^ 24) * IZR (Z.of_N (shorter x)) * IZR (2 ^ 24))
        with (IZR z * IZR (Z.of_N (shorter x))) by (field; apply IZR_neq; lia). done. }
  split.
  - intros H. split; [done|]. apply N.lt_nge. intros Hle.
    assert (Q : IZR (Z.of_N a) / IZR (Z.of_N (shorter x)) <= IZR 13421773 * bpow radix2 (-24)).
    { apply (Rmult_le_reg_r (IZR (Z.of_N (shorter x)))); [done|].
      unfold Rdiv. rewrite Rmult_assoc, Rinv_l, Rmult_1_r by lra. rewrite bpow_24.
      apply (Rmult_le_reg_r (IZR (2 ^ 24))); [apply IZR_lt; lia|].
      replace (IZR 13421773 * / IZR (2 ^ 24) * IZR (Z.of_N (shorter x)) * IZR (2 ^ 24))
        with (IZR 13421773 * IZR (Z.of_N (shorter x))) by (field; apply IZR_neq; lia).
      rewrite <- !mult_IZR. apply IZR_le. lia. }
    apply rnd32_le in Q. rewrite rnd32_24 in Q by lia. lra.
  - intros [_ H].
    assert (Q : IZR 13421774 * bpow radix2 (-24) <= IZR (Z.of_N a) / IZR (Z.of_N (shorter x))).
    { apply B; [lia|]. lia. }
    apply rnd32_le in Q. rewrite rnd32_24 in Q by lia.
    assert (IZR 13421773 * bpow radix2 (-24) < IZR 13421774 * bpow radix2 (-24)); [|lra].
    apply Rmult_lt_compat_r; [apply bpow_gt_0|]. apply IZR_lt. lia.
Qed.
Lemma rnd32_error r : 1 / 2 <= r <= 1 -> Rabs (rnd32 r - r) <= bpow radix2 (-25).
Proof.
  intros [H1 H2]. destruct (Req_dec r 1) as [->|N1].
  { rewrite rnd32_1, Rminus_diag_eq, Rabs_R0 by done. apply bpow_ge_0. }
  pose proof (error_le_half_ulp radix2 fexp32 (fun n => negb (Z.even n)) r) as E.
  rewrite ulp_neq_0 in E by lra. unfold cexp in E.
  rewrite (mag_unique radix2 r 0) in E.
  - change (fexp32 0) with (-24)%Z in E. change (bpow radix2 (-25)) with (/ IZR (2 ^ 25)).
    change (bpow radix2 (-24)) with (/ IZR (2 ^ 24)) in E.
    replace (/ IZR (2 ^ 25)) with (/ 2 * / IZR (2 ^ 24)); [done|].
    change (2 ^ 25)%Z with (2 * 2 ^ 24)%Z. rewrite mult_IZR. field. apply IZR_neq. lia.
  - rewrite Rabs_pos_eq by lra. simpl. lra.
Qed.
Lemma better_closer x y : (shorter x < 4096)%N -> (shorter y < 4096)%N -> similar x -> similar y ->
  better_b x y = true <-> closer x y.
Proof.
  intros Lx Ly [L3x Sx] [L3y Sy]. unfold better_b, closer.
  destruct (score_val x) as [Nx Kx]; [lia|lia|]. destruct (score_val y) as [Ny Ky]; [lia|lia|].
  rewrite f32_gt_iff, f32_lt_key by done. rewrite Kx, Ky. clear Kx Ky Nx Ny.
  assert (Ax : (agreeing x.1 (t_name x.2) <= shorter x)%N).
  { pose proof (agreeing_le x.1 (t_name x.2)). pose proof (utf8_len (t_name x.2)). pose proof (utf8_len x.1). unfold shorter. lia. }
  assert (Ay : (agreeing y.1 (t_name y.2) <= shorter y)%N).
  { pose proof (agreeing_le y.1 (t_name y.2)). pose proof (utf8_len (t_name y.2)). pose proof (utf8_len y.1). unfold shorter. lia. }
  set (a := agreeing x.1 _) in *. set (b := agreeing y.1 _) in *. set (m := shorter x) in *. set (n := shorter y) in *.
  assert (Pm : 0 < IZR (Z.of_N m)) by (apply IZR_lt; lia). assert (Pn : 0 < IZR (Z.of_N n)) by (apply IZR_lt; lia).
  split.
  - intros H. apply N.lt_nge. intros Hle.
    assert (Q : IZR (Z.of_N a) / IZR (Z.of_N m) <= IZR (Z.of_N b) / IZR (Z.of_N n)).
    { apply (Rmult_le_reg_r (IZR (Z.of_N m))); [done|]. apply (Rmult_le_reg_r (IZR (Z.of_N n))); [done|].
      replace (IZR (Z.of_N a) / IZR (Z.of_N m) * IZR (Z.of_N m) * IZR (Z.of_N n)) with (IZR (Z.of_N a) * IZR (Z.of_N n)) by (field; lra).
      replace (IZR (Z.of_N b) / IZR (Z.of_N n) * IZR (Z.of_N m) * IZR (Z.of_N n)) with (IZR (Z.of_N b) * IZR (Z.of_N m)) by (field; lra).
      rewrite <- !mult_IZR. apply IZR_le. lia. }
    apply rnd32_le in Q. lra.
  - intros H.
    assert (Hd : IZR (Z.of_N a) / IZR (Z.of_N m) - IZR (Z.of_N b) / IZR (Z.of_N n) > bpow radix2 (-24)).
    { rewrite bpow_24. apply Rlt_gt.
      assert (Pmn : 0 < IZR (Z.of_N m) * IZR (Z.of_N n)) by (by apply Rmult_lt_0_compat).
      apply Rlt_le_trans with (/ (IZR (Z.of_N m) * IZR (Z.of_N n))).
      - apply Rinv_lt_contravar; [apply Rmult_lt_0_compat; [done|apply IZR_lt; lia]|].
        rewrite <- mult_IZR. apply IZR_lt. nia.
      - apply (Rmult_le_reg_r (IZR (Z.of_N m) * IZR (Z.of_N n))); [done|]. rewrite Rinv_l by lra.
        replace ((IZR (Z.of_N a) / IZR (Z.of_N m) - IZR (Z.of_N b) / IZR (Z.of_N n)) * (IZR (Z.of_N m) * IZR (Z.of_N n)))
          with (IZR (Z.of_N a) * IZR (Z.of_N n) - IZR (Z.of_N b) * IZR (Z.of_N m)) by (field; lra).
        rewrite <- !mult_IZR, <- minus_IZR. apply IZR_le. lia. }
    assert (Half : forall a m : N, 0 < IZR (Z.of_N m) -> (4 * m < 5 * a)%N -> (a <= m)%N -> 1 / 2 <= IZR (Z.of_N a) / IZR (Z.of_N m) <= 1).
    { clear. intros a m Pm H1 H2. split.
      - apply (Rmult_le_reg_r (IZR (Z.of_N m))); [done|]. unfold Rdiv at 2. rewrite Rmult_assoc, Rinv_l, Rmult_1_r by lra.
        apply (Rmult_le_reg_r 2); [lra|]. replace (1 / 2 * IZR (Z.of_N m) * 2) with (IZR (Z.of_N m)) by field.
        rewrite <- mult_IZR. apply IZR_le. lia.
      - apply (Rmult_le_reg_r (IZR (Z.of_N m))); [done|]. unfold Rdiv. rewrite Rmult_assoc, Rinv_l, Rmult_1_r, Rmult_1_l by lra.
        apply IZR_le. lia. }
    pose proof (rnd32_error _ (Half a m Pm Sx Ax)) as Ea. pose proof (rnd32_error _ (Half b n Pn Sy Ay)) as Eb.
    assert (D : bpow radix2 (-24) = bpow radix2 (-25) + bpow radix2 (-25)).
    { change (bpow radix2 (-24)) with (/ IZR (2 ^ 24)). change (bpow radix2 (-25)) with (/ IZR (2 ^ 25)).
      change (2 ^ 25)%Z with (2 * 2 ^ 24)%Z. rewrite mult_IZR. field. apply IZR_neq. lia. }
    apply Rabs_le_inv in Ea, Eb. lra.
Qed.
Local Close Scope R_scope.

(** What is suggested, for names and keywords of fewer than 4096 bytes. *)
Lemma first_best_iff {A} (g g' : A -> Prop) (b b' : A -> A -> Prop) l x :
  (forall y, y ∈ l -> g y <-> g' y) -> (forall y z, y ∈ l -> z ∈ l -> g y -> g z -> b y z <-> b' y z) ->
  first_best g b l x -> first_best g' b' l x.
Proof.
  intros Hg Hb (i & Hi & Gx & H1 & H2). pose proof (elem_of_list_lookup_2 _ _ _ Hi) as Ex.
  exists i. split; [done|]. split; [by apply Hg|]. split.
  - intros j y Hj Gy. pose proof (elem_of_list_lookup_2 _ _ _ Hj) as Ey. apply Hg in Gy; [|done].
    rewrite <- Hb by done. by eapply H1.
  - intros j y Lj Hj Gy. pose proof (elem_of_list_lookup_2 _ _ _ Hj) as Ey. apply Hg in Gy; [|done].
    apply Hb; [done..|]. by eapply H2.
Qed.
Lemma suggestion_rounded gi cl query ws : splits query ws -> 
  match tag_suggestion (loaded gi cl) query with
  | Done r => exists keyword t,
      first_best (fun x => f32_gt (overlap (t_name x.2) x.1 3) f32_0_8 = true)
        (fun x y => f32_gt (overlap (t_name x.2) x.1 3) (overlap (t_name y.2) y.1 3) = true) (pairs ws (cl_tags cl)) (keyword, t) /\
      r = TagSuggestion (JSTag cl (t_id t)) keyword
  | Nope => forall x, x ∈ pairs ws (cl_tags cl) -> f32_gt (overlap (t_name x.2) x.1 3) f32_0_8 = false
  | _ => False
  end.
Proof.
  intros H. pose proof (suggest_best (cl_tags cl) query ws H) as S.
  unfold tag_suggestion. cbn [lock_unwrap loaded s_classic_dead s_classic of_opt mbind res_bind].
  destruct (suggest (cl_tags cl) query) as [[[ov id] keyword]|]; simpl; [|exact S].
  destruct S as ([k t] & F & -> & -> & ->). by exists k, t.
Qed.
Lemma suggestion_exact gi cl query ws : splits query ws ->
  (forall x, x ∈ pairs ws (cl_tags cl) -> shorter x < 4096) ->
  match tag_suggestion (loaded gi cl) query with
  | Done r => exists keyword t,
      first_best similar closer (pairs ws (cl_tags cl)) (keyword, t) /\
      r = TagSuggestion (JSTag cl (t_id t)) keyword
  | Nope => forall x, x ∈ pairs ws (cl_tags cl) -> ~ similar x
  | _ => False
  end.
Proof.
  intros H L. pose proof (suggestion_rounded gi cl query ws H) as S.
  assert (G : forall x, x ∈ pairs ws (cl_tags cl) -> good_b x = true <-> similar x).
  { intros x Hx%L. apply good_similar. lia. }
  destruct (tag_suggestion (loaded gi cl) query) as [r| | |]; [|..|done|done].
  - destruct S as (k & t & F & ->). exists k, t. split; [|done]. revert F. apply first_best_iff; [exact G|].
    intros y z Hy Hz Gy Gz. apply better_closer; [by apply L..|by apply G|by apply G].
  - intros x Hx Sx. specialize (S x Hx). apply (G x Hx) in Sx. unfold good_b, score in Sx. congruence.
Qed.
Lemma elem_of_pairs w t ws tags : (w, t) ∈ pairs ws tags <-> w ∈ ws /\ t ∈ tags.
Proof.
  unfold pairs. induction ws as [|v ws IH]; simpl; [split; [by intros ?%elem_of_nil|by intros [?%elem_of_nil _]]|].
  rewrite elem_of_app, IH, elem_of_cons. split.
  - intros [(t' & [= -> ->] & Ht)%elem_of_list_fmap|[? ?]]; eauto.
  - intros [[->|Hw] Ht]; [|by right]. left. apply elem_of_list_fmap. by exists t.
Qed.
Lemma exact_name_suggested gi cl query ws t : splits query ws ->
  t_name t ∈ ws -> t ∈ cl_tags cl ->
  3 <= lenN (utf8 (t_name t)) < 2 ^ 21 -> 4 * lenN (utf8 (t_name t)) < 5 * lenN (t_name t) ->
  exists r, tag_suggestion (loaded gi cl) query = Done r.
Proof.
  intros H Hw Ht [L3 L] H5. pose proof (suggestion_rounded gi cl query ws H) as S.
  destruct (tag_suggestion (loaded gi cl) query) as [r| | |]; [by eexists|..|done|done]. exfalso.
  assert (Hx : (t_name t, t) ∈ pairs ws (cl_tags cl)) by by apply elem_of_pairs.
  assert (G : good_b (t_name t, t) = true).
  { apply good_similar; unfold similar, shorter; simpl; [lia|]. rewrite agreeing_self. lia. }
  specialize (S _ Hx). unfold good_b, score in G. simpl in *. congruence.
Qed.
Lemma ascii_len s : Forall (fun c => c < 128) s -> lenN (utf8 s) = lenN s.
Proof.
  induction 1 as [|c s Hc _ IH]; [done|]. change (utf8 (c :: s)) with (utf8_char c ++ utf8 s).
  rewrite lenN_app, lenN_cons, IH. unfold utf8_char. destruct (N.ltb_spec c 128); [|lia]. change (lenN [c]) with 1. lia.
Qed.
Lemma ascii_name_suggested gi cl query ws t : splits query ws ->
  t_name t ∈ ws -> t ∈ cl_tags cl -> Forall (fun c => c < 128) (t_name t) ->
  3 <= lenN (t_name t) < 2 ^ 21 ->
  exists r, tag_suggestion (loaded gi cl) query = Done r.
Proof.
  intros H Hw Ht A L. pose proof (ascii_len _ A) as E. eapply exact_name_suggested; [done..|lia|lia].
Qed.
Lemma keywords_exist query : exists ws, splits query ws /\ forall ws', splits query ws' -> ws' = ws.
Proof.
  exists (split_space query). split; [apply split_space_ok|]. intros ws' H. exact (splits_unique _ _ _ H (split_space_ok query)).
Qed.
