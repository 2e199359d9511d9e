(** The codec with machine words takes the same steps as the one on numbers. *)
From Verif.model Require Import Base F32 Utf8 Prim Coll Words.
From Verif.proofs Require Import Base_facts Prim_facts Utf8_facts Coll_facts.

Lemma shift_amount_ok P k : (0 <= k < 64)%Z -> shift_amount P k = Done (Z.to_N k).
Proof. intros H. unfold shift_amount. replace ((0 <=? k) && (k <? 64))%Z with true by lia. done. Qed.
Lemma int32_ok P z : (- 2 ^ 31 <= z < 2 ^ 31)%Z -> int32 P z = Done z.
Proof. intros H. unfold int32. replace ((- 2 ^ 31 <=? z) && (z <? 2 ^ 31))%Z with true by lia. done. Qed.
Lemma shr64_ok P a k : k < 64 -> shr64 P a (Z.of_N k) = Done (N.shiftr a k).
Proof. intros H. unfold shr64. rewrite shift_amount_ok by lia. cbn [mbind res_bind]. by rewrite N2Z.id. Qed.
Lemma shl64_ok P a : a < 2 ^ 8 -> shl64 P a 56 = Done (N.shiftl a 56).
Proof.
  intros H. unfold shl64. rewrite shift_amount_ok by lia. cbn [mbind res_bind]. change (Z.to_N 56) with 56. f_equal.
  rewrite N.shiftl_mul_pow2. apply N.mod_small. change (2 ^ 64) with (2 ^ 8 * 2 ^ 56). nia.
Qed.

Lemma enc_words_go P f v out : v < 2 ^ (7 * N.of_nat f) -> (1 <= f)%nat ->
  enc_u64_words P f v out = Done (out ++ enc_u64 v).
Proof.
  revert v out. induction f as [|f IH]; intros v out H Hf; [lia|].
  cbn [enc_u64_words]. cbv zeta. change 7%Z with (Z.of_N 7); rewrite (shr64_ok P v 7) by lia. cbn [mbind res_bind].
  rewrite enc_u64_unfold, land_127, N.shiftr_div_pow2. change (2 ^ 7) with 128.
  destruct (N.ltb_spec v 128) as [L|L].
  - replace (v / 128 =? 0) with true by lia. by rewrite N.mod_small by lia.
  - replace (v / 128 =? 0) with false by lia. rewrite lor_128 by lia.
    destruct f as [|f]; [change (2 ^ (7 * N.of_nat 1)) with 128 in H; lia|].
    rewrite IH; [by rewrite <- app_assoc| |lia].
    apply N.div_lt_upper_bound; [done|]. change 128 with (2 ^ 7). rewrite <- N.pow_add_r.
    by replace (7 + 7 * N.of_nat (S f)) with (7 * N.of_nat (S (S f))) by lia.
Qed.
Lemma enc_words P v : v < 2 ^ 64 -> enc_u64_words P 10 v [] = Done (enc_u64 v).
Proof.
  intros H. apply (enc_words_go P 10 v []); [|lia].
  eapply N.lt_le_trans; [exact H|]. apply N.pow_le_mono_r; lia.
Qed.

Lemma dec_words_loop P r f input out eaten : (r < f)%nat -> eaten + N.of_nat r = 9 ->
  dec_u64_words_loop P f input out (Z.of_N eaten) =
  let '(i, o, e) := dec_u64_loop r input out eaten in Done (i, o, Z.of_N e).
Proof.
  revert f input out eaten. induction r as [|r IH]; intros [|f] input out eaten Hf He; try lia.
  - cbn [dec_u64_words_loop dec_u64_loop]. by replace (Z.of_N eaten <? 9)%Z with false by lia; rewrite andb_false_r.
  - cbn [dec_u64_words_loop dec_u64_loop].
    destruct input as [|b input]; [done|].
    replace (Z.of_N eaten <? 9)%Z with true by lia.
    replace (lenN (b :: input) =? 0) with false by (rewrite lenN_cons; lia). cbn [negb andb].
    replace (getN (b :: input) 0) with (Some b) by (by rewrite getN_lookup). cbn [unwrap mbind res_bind]. cbv zeta.
    change 7%Z with (Z.of_N 7); rewrite (shr64_ok P out 7) by lia. cbn [mbind res_bind]. change (64 - 8)%Z with 56%Z.
    rewrite shl64_ok by (apply N.mod_lt; done). cbn [mbind res_bind from_one].
    rewrite int32_ok by lia. cbn [mbind res_bind].
    destruct (N.land b 128 =? 128); cbn [negb].
    + replace (10 <? Z.of_N eaten + 1)%Z with false by lia.
      replace (Z.of_N eaten + 1)%Z with (Z.of_N (eaten + 1)) by lia. apply IH; lia.
    + f_equal. f_equal. lia.
Qed.
Lemma dec_loop_eaten r input out eaten : let '(_, _, e) := dec_u64_loop r input out eaten in eaten <= e <= eaten + N.of_nat r.
Proof.
  revert input out eaten. induction r as [|r IH]; intros input out eaten; cbn [dec_u64_loop]; [lia|].
  destruct input as [|b input]; [lia|]. cbv zeta. destruct (_ =? 128); [|lia].
  specialize (IH input (N.lor (N.shiftr out 7) (N.shiftl (N.shiftl b 1 mod 256) 56)) (eaten + 1)).
  destruct (dec_u64_loop _ _ _ _) as [[i o] e]. lia.
Qed.
Lemma dec_words P input : dec_u64_words P input = dec_u64 input.
Proof.
  unfold dec_u64_words, dec_u64. change (dec_u64_words_loop P 11 input 0 0%Z) with (dec_u64_words_loop P 11 input 0 (Z.of_N 0)); rewrite (dec_words_loop P 9 11 input 0 0) by lia.
  pose proof (dec_loop_eaten 9 input 0 0) as B. destruct (dec_u64_loop 9 input 0 0) as [[i o] e]. cbn [mbind res_bind].
  destruct (N.eqb_spec e 9) as [->|N9].
  - change (Z.of_N 9 =? 9)%Z with true. cbv match. change 1%Z with (Z.of_N 1); rewrite (shr64_ok P o 1) by lia. cbn [mbind res_bind].
    destruct i as [|b i]; [done|]. replace (getN (b :: i) 0) with (Some b) by (by rewrite getN_lookup). done.
  - replace (Z.of_N e =? 9)%Z with false by lia. destruct (N.eqb_spec e 0) as [->|N0]; [done|].
    replace (Z.of_N e =? 0)%Z with false by lia. rewrite int32_ok by lia. cbn [mbind res_bind].
    rewrite int32_ok by lia. cbn [mbind res_bind].
    replace (64 - Z.of_N e * 7)%Z with (Z.of_N (64 - e * 7)) by lia. by rewrite shr64_ok by lia.
Qed.

Lemma utf8_first c s : exists b l, utf8 (c :: s) = b :: l /\ (b < 128 \/ 192 <= b).
Proof.
  unfold utf8. cbn [map concat]. unfold utf8_char.
  destruct (N.ltb_spec c 128); [eexists _, _; split; [reflexivity|lia]|].
  destruct (N.ltb_spec c 2048); [eexists _, _; split; [reflexivity|lia]|].
  destruct (N.ltb_spec c 65536); eexists _, _; (split; [reflexivity|lia]).
Qed.
Lemma slice_boundary a b : str_slice_to (utf8 (a ++ b)) (str_len a) = Done (utf8 a).
Proof.
  unfold str_slice_to, str_len. rewrite utf8_app, lenN_app. destruct b as [|c b].
  - change (utf8 []) with (@nil N). rewrite (@lenN_nil N), app_nil_r.
    by replace (lenN (utf8 a) =? lenN (utf8 a) + 0) with true by lia.
  - destruct (utf8_first c b) as (x & l & E & Hx). rewrite E, lenN_cons.
    replace (lenN (utf8 a) =? _) with false by lia.
    rewrite getN_lookup. unfold lenN at 1. rewrite Nat2N.id, list_lookup_middle by done.
    replace ((128 <=? x) && (x <? 192)) with false by lia. unfold lenN. by rewrite Nat2N.id, take_app.
Qed.
Lemma limit_words_same max rest seen last : (forall w, last = Some w -> exists t, seen = w ++ t) ->
  limit_words_go max (utf8 (seen ++ rest)) (char_indices (str_len seen) rest) (str_len <$> last) =
  Done (utf8 (limit_go max rest seen (str_len seen) last)).
Proof.
  revert seen last. induction rest as [|c rest IH]; intros seen last H; cbn [char_indices limit_words_go limit_go].
  - by rewrite app_nil_r.
  - destruct (max <? str_len seen).
    + destruct last as [w|]; cbn [fmap option_fmap option_map]; [|apply slice_boundary].
      destruct (H w eq_refl) as [t ->]. rewrite <- app_assoc. apply slice_boundary.
    + assert (L : str_len seen + char_len c = str_len (seen ++ [c])).
      { unfold str_len. rewrite utf8_app, lenN_app. f_equal. unfold utf8. cbn [map concat]. by rewrite app_nil_r. }
      rewrite L. replace (seen ++ c :: rest) with ((seen ++ [c]) ++ rest) by (by rewrite <- app_assoc).
      cbv zeta. refine (eq_trans _ (IH (seen ++ [c]) (if c =? 32 then Some seen else last) _)).
      * by destruct (c =? 32).
      * intros w E. destruct (c =? 32); [injection E as <-; by exists [c]|].
        destruct (H w E) as [t ->]. exists (t ++ [c]). by rewrite <- app_assoc.
Qed.
Lemma limit_words s max : limit_string_len_words s max = Done (utf8 (limit_string_len s max)).
Proof. apply (limit_words_same max s [] None). done. Qed.
