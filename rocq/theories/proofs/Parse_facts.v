(** [parse_f32] reads exactly the decimal texts and returns the nearest float. *)
From Coq Require Import String ZArith Reals Lia Lra ZifyN ZifyBool.
From Flocq Require Import Core.Core IEEE754.BinarySingleNaN.
From Verif.model Require Import Base F32 Utf8 Prim Lit Parse.
From Verif.spec Require Import Spec Parse_spec.
From Verif.proofs Require Import Base_facts Float_facts.
Local Open Scope N_scope.

(** ** Rounding *)
Lemma pow10_N n : Npos (pow10 n) = 10 ^ n.
Proof.
  unfold pow10. rewrite N.succ_pos_spec. apply N.succ_pred. apply N.pow_nonzero. done.
Qed.
Lemma pow10_R n : IZR (Zpos (pow10 n)) = bpow radix10 (Z.of_N n).
Proof.
  change (Zpos (pow10 n)) with (Z.of_N (Npos (pow10 n))). rewrite pow10_N, N2Z.inj_pow.
  change (Z.of_N 10) with (radix_val radix10). apply IZR_Zpower. lia.
Qed.
Section format.
Context (prec emax : Z) (Hp : Prec_gt_0 prec) (He : Prec_lt_emax prec emax).
Lemma nearest_ratio_correct negative num den :
  nearest prec emax negative (IZR (cond_Zopp negative (Z.of_N num)) / IZR (Zpos den))
    (nearest_ratio prec emax negative num den).
Proof.
  unfold nearest_ratio. destruct num as [|n].
  - assert (E : rounded prec emax (IZR (cond_Zopp negative (Z.of_N 0)) / IZR (Zpos den)) = 0%R).
    { replace (cond_Zopp negative (Z.of_N 0)) with 0%Z by (by destruct negative).
      unfold Rdiv. rewrite Rmult_0_l. apply round_0, valid_rnd_N. }
    split; [done|]. rewrite E, Rabs_R0. split; [done|]. intros H.
    pose proof (bpow_gt_0 radix2 emax). lra.
  - pose proof (Bdiv_correct_aux prec emax Hp He mode_NE negative n 0 false den 0) as H. cbv zeta in H.
    destruct (SFdiv_core_binary prec emax (Zpos n) 0 (Zpos den) 0) as [[m e] l].
    rewrite xorb_false_r, <- aux_equiv in H. destruct H as [H1 H2].
    replace (F2R (Float radix2 (cond_Zopp negative (Zpos n)) 0)) with (IZR (cond_Zopp negative (Zpos n))) in H2
      by (unfold F2R; simpl; lra).
    replace (F2R (Float radix2 (cond_Zopp false (Zpos den)) 0)) with (IZR (Zpos den)) in H2
      by (unfold F2R; simpl; lra).
    change (Z.of_N (Npos n)) with (Zpos n).
    change (round radix2 (SpecFloat.fexp prec emax) (round_mode mode_NE)) with (rounded prec emax) in H2.
    split; [exact H1|]. split; intros Hlt.
    + rewrite Rlt_bool_true in H2 by done. exact H2.
    + rewrite Rlt_bool_false in H2 by done. exact H2.
Qed.
Lemma nearest_decimal_correct negative m e :
  nearest prec emax negative (dec_val negative m e) (nearest_decimal prec emax negative m e).
Proof.
  unfold nearest_decimal.
  pose proof (nearest_ratio_correct negative (m * Npos (pow10 (Z.to_N e))) (pow10 (Z.to_N (- e)))) as H.
  replace (dec_val negative m e) with
    (IZR (cond_Zopp negative (Z.of_N (m * Npos (pow10 (Z.to_N e))))) / IZR (Zpos (pow10 (Z.to_N (- e)))))%R; [done|].
  unfold dec_val, F2R. cbn [Fnum Fexp].
  replace (cond_Zopp negative (Z.of_N (m * Npos (pow10 (Z.to_N e)))))
    with (cond_Zopp negative (Z.of_N m) * Zpos (pow10 (Z.to_N e)))%Z.
  2:{ rewrite N2Z.inj_mul. change (Z.of_N (Npos (pow10 (Z.to_N e)))) with (Zpos (pow10 (Z.to_N e))).
      destruct negative; cbn [cond_Zopp]; lia. }
  rewrite mult_IZR, !pow10_R. destruct (Z.le_ge_cases 0 e).
  - rewrite Z2N.id by done. replace (Z.to_N (- e)) with 0 by lia. cbn [Z.of_N bpow]. lra.
  - replace (Z.to_N e) with 0 by lia. rewrite Z2N.id by lia. rewrite (bpow_opp radix10 e). cbn [Z.of_N bpow].
    pose proof (bpow_gt_0 radix10 e). field. lra.
Qed.
End format.

(** ** Digits *)
Notation unchar := (fun c : N => c - 48)%N.
Lemma digit_of_iff c d : digit_of c = Some d <-> digit_char c /\ d = c - 48.
Proof. unfold digit_of, digit_char. destruct ((48 <=? c) && (c <=? 57)) eqn:E; split; intros; try lia; [split; [lia|congruence]|f_equal; lia|congruence]. Qed.
Lemma digit_of_none c : digit_of c = None <-> ~ digit_char c.
Proof. unfold digit_of, digit_char. destruct ((48 <=? c) && (c <=? 57)) eqn:E; split; intros; try done; lia. Qed.
Definition no_digit_first (s : rstr) : Prop := match s with c :: _ => ~ digit_char c | [] => True end.
Lemma take_digits_app ds r : Forall digit_char ds -> no_digit_first r ->
  take_digits (ds ++ r) = (map unchar ds, r).
Proof.
  intros H Hr. induction H as [|c ds Hc _ IH]; cbn.
  - destruct r as [|c r]; [done|]. cbn. cbn in Hr. apply digit_of_none in Hr. by rewrite Hr.
  - rewrite (proj2 (digit_of_iff c (c - 48)) (conj Hc eq_refl)), IH. done.
Qed.
Lemma take_digits_inv s : forall ds r, take_digits s = (ds, r) ->
  exists t, s = t ++ r /\ Forall digit_char t /\ ds = map unchar t /\ no_digit_first r.
Proof.
  induction s as [|c s IH]; cbn; intros ds r.
  - intros [= <- <-]. by exists [].
  - destruct (digit_of c) as [d|] eqn:E.
    + destruct (take_digits s) as [ds' r'] eqn:Et. intros [= <- <-].
      destruct (IH _ _ eq_refl) as (t & -> & Ht & -> & Hr). apply digit_of_iff in E as [Hc ->].
      exists (c :: t). split_and!; try done. by constructor.
    + intros [= <- <-]. exists []. split_and!; try done. cbn. by apply digit_of_none.
Qed.
Lemma mantissa_snoc ds d : mantissa (ds ++ [d]) = 10 * mantissa ds + d.
Proof. unfold mantissa. by rewrite fold_left_app. Qed.
Lemma digits_value_snoc s c : digits_value (s ++ [c]) = 10 * digits_value s + (c - 48).
Proof.
  induction s as [|x s IH]; cbn [app digits_value].
  - cbn. lia.
  - rewrite IH. replace (lenN (s ++ [c])) with (N.succ (lenN s)) by (unfold lenN; rewrite app_length; cbn; lia).
    rewrite N.pow_succ_r'. lia.
Qed.
Lemma mantissa_value s : mantissa (map unchar s) = digits_value s.
Proof.
  induction s as [|c s IH] using rev_ind; [done|]. rewrite map_app. cbn [map]. 
  by rewrite mantissa_snoc, digits_value_snoc, IH.
Qed.
Lemma digits_value_lt s : Forall digit_char s -> digits_value s < 10 ^ lenN s.
Proof.
  induction s as [|c s IH] using rev_ind; intros H; [done|]. apply Forall_app in H as [H Hc].
  apply Forall_cons_1 in Hc as [Hc _]. rewrite digits_value_snoc. specialize (IH H). unfold digit_char in Hc.
  replace (lenN (s ++ [c])) with (N.succ (lenN s)) by (unfold lenN; rewrite app_length; cbn; lia).
  rewrite N.pow_succ_r'. lia.
Qed.
Lemma saturating_value s : saturating (map unchar s) = digits_value s \/
  (65536 <= saturating (map unchar s) /\ 65536 <= digits_value s).
Proof.
  induction s as [|c s IH] using rev_ind; [by left|]. rewrite map_app. cbn [map].
  rewrite digits_value_snoc. unfold saturating in *. rewrite fold_left_app. cbn [fold_left].
  destruct (fold_left _ (map _ s) 0 <? 65536) eqn:E; lia.
Qed.

(** ** Numbers *)
(** The exponent as it is read. *)
Definition exponent_read (s : rstr) (k : Z) : Prop :=
  (s = [] /\ k = 0%Z) \/
  exists letter sign negative ds, s = letter :: sign ++ ds /\ (letter = 101 \/ letter = 69) /\
    sign_text sign negative /\ ds <> [] /\ Forall digit_char ds /\
    k = (if negative then - Z.of_N (saturating (map unchar ds))
         else Z.of_N (saturating (map unchar ds)))%Z.
Lemma parse_scientific_iff s k : parse_scientific s = Some (k, []) <->
  exists sign negative ds, s = sign ++ ds /\ sign_text sign negative /\ ds <> [] /\ Forall digit_char ds /\
    k = (if negative then - Z.of_N (saturating (map unchar ds))
         else Z.of_N (saturating (map unchar ds)))%Z.
Proof.
  unfold parse_scientific. split.
  - intros H.
    assert (exists sign negative r, s = sign ++ r /\ sign_text sign negative /\
      match take_digits r with
      | ([], _) => None
      | (ds, r) => Some (if negative then - Z.of_N (saturating ds) else Z.of_N (saturating ds), r)%Z
      end = Some (k, [])) as (sign & negative & r & -> & Hs & E).
    { destruct s as [|c s]; [exists [], false, []; split_and!; [done|by left|done]|].
      destruct (c =? 45) eqn:E1; [|destruct (c =? 43) eqn:E2].
      - apply N.eqb_eq in E1 as ->. exists (lit "-"), true, s. split_and!; [done|by right; right|done].
      - apply N.eqb_eq in E2 as ->. exists (lit "+"), false, s. split_and!; [done|by right; left|done].
      - exists [], false, (c :: s). split_and!; [done|by left|done]. }
    destruct (take_digits r) as [ds r'] eqn:Et. apply take_digits_inv in Et as (t & -> & Ht & -> & _).
    destruct t as [|c t]; [done|]. cbn [map] in E. injection E as <- ->. exists sign, negative, (c :: t).
    split_and!; try done. by rewrite app_nil_r.
  - intros (sign & negative & ds & -> & Hs & Hne & Hds & ->).
    assert (Et : take_digits ds = (map unchar ds, [])).
    { pose proof (take_digits_app ds [] Hds Logic.I) as E. by rewrite app_nil_r in E. }
    destruct ds as [|c ds]; [done|]. cbn [map] in Et |- *. pose proof (Forall_inv Hds) as Hc. unfold digit_char in Hc.
    destruct Hs as [[-> ->]|[[-> ->]|[-> ->]]].
    + cbn [app]. destruct (c =? 45) eqn:E1; [lia|]. destruct (c =? 43) eqn:E2; [lia|]. by rewrite Et.
    + change (lit "+" ++ c :: ds) with (43 :: c :: ds). cbv iota beta.
      change (43 =? 45) with false. change (43 =? 43) with true. cbv iota beta. by rewrite Et.
    + change (lit "-" ++ c :: ds) with (45 :: c :: ds). cbv iota beta.
      change (45 =? 45) with true. cbv iota beta. by rewrite Et.
Qed.
Definition number_read (s : rstr) (m : N) (e : Z) : Prop :=
  exists int point frac expo k, s = int ++ point ++ frac ++ expo /\
    Forall digit_char int /\ Forall digit_char frac /\
    (point = lit "." \/ (point = [] /\ frac = [])) /\ int ++ frac <> [] /\
    exponent_read expo k /\ m = digits_value (int ++ frac) /\ e = (k - Z.of_N (lenN frac))%Z.
Lemma exponent_read_first expo k : exponent_read expo k -> no_digit_first expo /\ (match expo with c :: _ => c <> 46 | [] => True end).
Proof.
  intros [[-> _]|(letter & sign & neg & ds & -> & Hl & _)]; [done|]. cbn. unfold digit_char. lia.
Qed.
Lemma parse_number_complete s m e : number_read s m e -> parse_number s = Some (m, e).
Proof.
  intros (int & point & frac & expo & k & -> & Hi & Hf & Hp & Hne & Hk & -> & ->).
  destruct (exponent_read_first _ _ Hk) as [Hd H46]. unfold parse_number.
  assert (Et : take_digits (int ++ point ++ frac ++ expo) = (map unchar int, point ++ frac ++ expo)).
  { apply take_digits_app; [done|]. destruct Hp as [->|[-> ->]]; [cbn; unfold digit_char; lia|done]. }
  rewrite Et. clear Et.
  assert (E : parse_fraction (point ++ frac ++ expo) = (map unchar frac, expo)).
  { unfold parse_fraction. destruct Hp as [->|[-> ->]].
    - change (lit "." ++ frac ++ expo) with (46 :: frac ++ expo). cbv iota beta.
      change (46 =? 46) with true. cbv iota beta. by apply take_digits_app.
    - cbn [app map]. destruct expo as [|c expo]; [done|]. destruct (c =? 46) eqn:E; [lia|done]. }
  rewrite E. clear E. rewrite <- map_app.
  destruct (map unchar (int ++ frac)) as [|d ds] eqn:Em.
  { apply fmap_nil_inv in Em. done. }
  rewrite <- Em, mantissa_value, map_length. clear Em.
  destruct Hk as [[-> ->]|(letter & sign & neg & ds' & -> & Hl & Hs & Hds & Hdd & ->)].
  - do 2 f_equal. unfold lenN. lia.
  - replace ((letter =? 101) || (letter =? 69)) with true by lia.
    assert (Es : parse_scientific (sign ++ ds') = Some ((if neg then - Z.of_N (saturating (map unchar ds'))
      else Z.of_N (saturating (map unchar ds')))%Z, [])) by (apply parse_scientific_iff; by exists sign, neg, ds').
    rewrite Es.
    do 2 f_equal. unfold lenN. lia.
Qed.
Lemma parse_number_sound s m e : parse_number s = Some (m, e) -> number_read s m e.
Proof.
  unfold parse_number. destruct (take_digits s) as [ids s1] eqn:E1.
  apply take_digits_inv in E1 as (int & -> & Hi & -> & H1).
  assert (exists point frac s2, s1 = point ++ frac ++ s2 /\ Forall digit_char frac /\
    (point = lit "." \/ (point = [] /\ frac = [])) /\
    parse_fraction s1 = (map unchar frac, s2)) as (point & frac & s2 & -> & Hf & Hp & E).
  { unfold parse_fraction. destruct s1 as [|c s1]; [exists [], [], []; split_and!; by try right|].
    destruct (c =? 46) eqn:Ec.
    - apply N.eqb_eq in Ec as ->. destruct (take_digits s1) as [fds s2] eqn:E2.
      apply take_digits_inv in E2 as (frac & -> & Hf & -> & _). exists (lit "."), frac, s2.
      split_and!; [done|done|by left|done].
    - exists [], [], (c :: s1). split_and!; by try right. }
  rewrite E. clear E. rewrite <- map_app. intros H.
  assert (Hne : int ++ frac <> []) by (intros Hn; by rewrite Hn in H).
  destruct (map unchar (int ++ frac)) as [|d ds] eqn:Em; [done|].
  rewrite <- Em, mantissa_value, map_length in H. clear Em d ds.
  destruct s2 as [|c r].
  - injection H as <- <-. exists int, point, frac, [], 0%Z. split_and!; try done; [by left|unfold lenN; lia].
  - destruct ((c =? 101) || (c =? 69)) eqn:Ec; [|done].
    destruct (parse_scientific r) as [[k [|? ?]]|] eqn:Es; try done. injection H as <- <-.
    apply parse_scientific_iff in Es as (sign & neg & ds & -> & Hs & Hds & Hdd & ->).
    exists int, point, frac, (c :: sign ++ ds), (if neg then - Z.of_N (saturating (map unchar ds))
      else Z.of_N (saturating (map unchar ds)))%Z. split_and!; try done; [|unfold lenN; lia].
    right. exists c, sign, neg, ds. split_and!; try done. lia.
Qed.

(** ** Signs and names *)
Lemma fold_case_lower c : fold_case c = ascii_lower c.
Proof. unfold fold_case, ascii_lower. destruct (decide _); destruct ((65 <=? c) && (c <=? 90)) eqn:E; lia. Qed.
Lemma sign_text_unique a b x y r r' : sign_text a x -> sign_text b y ->
  (match r with c :: _ => c <> 43 /\ c <> 45 | [] => True end) ->
  (match r' with c :: _ => c <> 43 /\ c <> 45 | [] => True end) ->
  a ++ r = b ++ r' -> a = b /\ x = y /\ r = r'.
Proof.
  intros [[-> ->]|[[-> ->]|[-> ->]]] [[-> ->]|[[-> ->]|[-> ->]]] Hr Hr' E; cbn in E; try done;
    try (by injection E as ->); try (by subst r; cbn in Hr; lia); try (by subst r'; cbn in Hr'; lia).
Qed.
(** The text after the sign, and the sign. *)
Lemma number_first s m e : number_read s m e -> match s with c :: _ => c <> 43 /\ c <> 45 | [] => False end.
Proof.
  intros (int & point & frac & expo & k & -> & Hi & Hf & Hp & Hne & _).
  destruct int as [|c int]; cbn.
  - destruct Hp as [->|[-> ->]]; [cbn; lia|done].
  - apply Forall_inv in Hi. unfold digit_char in Hi. lia.
Qed.
Lemma named_first r name : map ascii_lower r = name -> name = lit "nan" \/ name = lit "inf" \/ name = lit "infinity" ->
  match r with c :: _ => c <> 43 /\ c <> 45 | [] => False end.
Proof.
  intros <- H. destruct r as [|c r]; [by destruct H as [H|[H|H]]|].
  assert (Hc : ascii_lower c = 110 \/ ascii_lower c = 105).
  { destruct H as [H|[H|H]]; cbn in H; injection H as H _; lia. }
  unfold ascii_lower in Hc. destruct (decide _); lia.
Qed.
(** What [parse_f32] does after the sign. *)
Definition parse_unsigned (s : rstr) (negative : bool) : option f32 :=
  match parse_number s with
  | Some (m, e) => Some (nearest_decimal prec32 emax32 negative m e)
  | None => parse_inf_nan s negative
  end.
Lemma parse_signed sign negative r : sign_text sign negative ->
  match r with c :: _ => c <> 43 /\ c <> 45 | [] => False end ->
  parse_f32 (sign ++ r) = parse_unsigned r negative.
Proof.
  intros Hs Hr. destruct r as [|c r]; [done|]. destruct Hs as [[-> ->]|[[-> ->]|[-> ->]]].
  - cbn [app]. unfold parse_f32. destruct Hr as [H1 H2].
    replace (c =? 45) with false by lia. replace (c =? 43) with false by lia. done.
  - done.
  - done.
Qed.
Lemma parse_inf_nan_cases s negative x : parse_inf_nan s negative = Some x ->
  (map ascii_lower s = lit "nan" /\ x = S754_nan) \/
  ((map ascii_lower s = lit "inf" \/ map ascii_lower s = lit "infinity") /\ x = S754_infinity negative).
Proof.
  unfold parse_inf_nan. rewrite (map_ext _ _ fold_case_lower).
  destruct (decide _) as [E|_]; [intros [= <-]; by left|].
  destruct (decide _) as [E|_]; [intros [= <-]; right; by auto|].
  destruct (decide _) as [E|_]; [intros [= <-]; right; by auto|done].
Qed.
Lemma parse_inv s x : parse_f32 s = Some x -> exists sign r negative, s = sign ++ r /\ sign_text sign negative /\
  ((exists m e, number_read r m e /\ x = nearest_decimal prec32 emax32 negative m e) \/
   (map ascii_lower r = lit "nan" /\ x = S754_nan) \/
   ((map ascii_lower r = lit "inf" \/ map ascii_lower r = lit "infinity") /\ x = S754_infinity negative)).
Proof.
  intros H.
  assert (exists sign r negative, s = sign ++ r /\ sign_text sign negative /\ parse_unsigned r negative = Some x)
    as (sign & r & negative & -> & Hs & E).
  { unfold parse_f32 in H. destruct s as [|c s]; [done|].
    destruct (c =? 45) eqn:E1; [|destruct (c =? 43) eqn:E2].
    - apply N.eqb_eq in E1 as ->. cbn [orb] in H. exists (lit "-"), s, true.
      split_and!; [done|by right; right|]. by destruct s.
    - apply N.eqb_eq in E2 as ->. cbn [orb] in H. exists (lit "+"), s, false.
      split_and!; [done|by right; left|]. by destruct s.
    - cbn [orb] in H. exists [], (c :: s), false. split_and!; [done|by left|done]. }
  exists sign, r, negative. split_and!; [done..|]. unfold parse_unsigned in E.
  destruct (parse_number r) as [[m e]|] eqn:En.
  - injection E as <-. left. exists m, e. split; [by apply parse_number_sound|done].
  - right. by apply parse_inf_nan_cases.
Qed.
Lemma letters_no_number r m e : map ascii_lower r = lit "nan" \/ map ascii_lower r = lit "inf" \/ map ascii_lower r = lit "infinity" ->
  ~ number_read r m e.
Proof.
  intros H (int & point & frac & expo & k & -> & Hi & Hf & Hp & Hne & _).
  assert (exists c t, int ++ point ++ frac ++ expo = c :: t /\ (digit_char c \/ c = 46)) as (c & t & E & Hc).
  { destruct int as [|c int].
    - destruct Hp as [->|[-> ->]]; [|done]. eexists _, _. split; [done|by right].
    - apply Forall_inv in Hi. eexists _, _. split; [done|by left]. }
  rewrite E in H. cbn [map] in H.
  assert (ascii_lower c = 110 \/ ascii_lower c = 105) as Hl
    by (destruct H as [H|[H|H]]; cbn in H; injection H as H _; lia).
  unfold ascii_lower in Hl. unfold digit_char in Hc. destruct (decide _); lia.
Qed.
Lemma parse_named sign negative r : sign_text sign negative ->
  map ascii_lower r = lit "nan" \/ map ascii_lower r = lit "inf" \/ map ascii_lower r = lit "infinity" ->
  parse_f32 (sign ++ r) = Some (if decide (map ascii_lower r = lit "nan") then S754_nan else S754_infinity negative).
Proof.
  intros Hs Hr. rewrite (parse_signed _ negative) by (done || by eapply named_first).
  unfold parse_unsigned. destruct (parse_number r) as [[m e]|] eqn:En.
  { apply parse_number_sound in En. by apply letters_no_number in En. }
  unfold parse_inf_nan. rewrite (map_ext _ _ fold_case_lower).
  destruct (decide _) as [E|E1]; [done|]. destruct (decide _) as [E|E2]; [done|].
  destruct (decide _) as [E|E3]; [done|]. exfalso. by destruct Hr as [?|[?|?]].
Qed.

(** ** The reader *)
(** The exponent that is read and the one that is written are the same or both huge. *)
Lemma exponent_iff s : (exists k, exponent_text s k) <-> (exists k, exponent_read s k).
Proof.
  split; intros [k H]; (destruct H as [[-> _]|(letter & sign & neg & ds & -> & Hl & Hs & Hds & Hdd & _)];
    [exists 0%Z; by left|eexists; right; exists letter, sign, neg, ds; by split_and!]).
Qed.
Lemma exponent_agree s k k' : exponent_text s k -> exponent_read s k' ->
  k = k' \/ (65536 <= k /\ 65536 <= k')%Z \/ (k <= -65536 /\ k' <= -65536)%Z.
Proof.
  intros [[-> ->]|(letter & sign & neg & ds & -> & Hl & Hs & Hds & Hdd & ->)]
    [[E ->]|(letter' & sign' & neg' & ds' & E & Hl' & Hs' & Hds' & Hdd' & ->)]; try done; [by left|].
  injection E as -> E.
  assert (F : forall ds, ds <> [] -> Forall digit_char ds -> match ds with c :: _ => c <> 43 /\ c <> 45 | [] => True end).
  { intros [|c l] _ H; [done|]. apply Forall_inv in H. unfold digit_char in H. lia. }
  destruct (sign_text_unique _ _ _ _ _ _ Hs Hs' (F _ Hds Hdd) (F _ Hds' Hdd') E) as (_ & -> & ->).
  destruct (saturating_value ds') as [->|[H1 H2]]; [by left|right]. destruct neg'; [right|left]; lia.
Qed.

(** ** Out of range *)
Notation rounded32 := (rounded prec32 emax32).
#[local] Instance p32 : Prec_gt_0 prec32 := eq_refl.
#[local] Instance pe32 : Prec_lt_emax prec32 emax32 := eq_refl.
Lemma rounded_abs v : Rabs (rounded32 v) = rounded32 (Rabs v).
Proof. unfold rounded. symmetry. apply round_NE_abs. apply FLT_exp_valid. exact p32. Qed.
Lemma rounded_le v w : (v <= w)%R -> (rounded32 v <= rounded32 w)%R.
Proof. apply round_le; [apply FLT_exp_valid; exact p32|apply valid_rnd_N]. Qed.
Lemma rounded_huge v : (bpow radix2 128 <= Rabs v)%R -> (bpow radix2 emax32 <= Rabs (rounded32 v))%R.
Proof.
  intros H. rewrite rounded_abs. apply rounded_le in H. eapply Rle_trans; [|exact H].
  unfold rounded. rewrite round_generic; [apply Rle_refl|apply valid_rnd_N|].
  apply generic_format_bpow. unfold FLT_exp, prec32, emax32. lia.
Qed.
Lemma rounded_tiny v : (Rabs v <= bpow radix2 (-151))%R -> rounded32 v = 0%R.
Proof.
  intros H. apply rounded_le in H. rewrite <- rounded_abs in H.
  assert (E : rounded32 (bpow radix2 (-151)) = 0%R).
  { unfold rounded. apply (round_N_small radix2 _ _ _ (-150)).
    - rewrite Rabs_pos_eq by apply bpow_ge_0. split; [apply Rle_refl|]. apply bpow_lt. lia.
    - unfold FLT_exp, prec32, emax32. lia. }
  rewrite E in H. pose proof (Rabs_pos (rounded32 v)). apply Rabs_eq_R0. lra.
Qed.
Lemma dec_val_abs negative m e : Rabs (dec_val negative m e) = (IZR (Z.of_N m) * bpow radix10 e)%R.
Proof.
  unfold dec_val, F2R. cbn [Fnum Fexp]. rewrite Rabs_mult, (Rabs_pos_eq (bpow _ _)) by apply bpow_ge_0.
  f_equal. rewrite <- abs_IZR. f_equal. destruct negative; cbn [cond_Zopp]; lia.
Qed.
Lemma pow10_40 : (bpow radix2 151 <= bpow radix10 50)%R.
Proof. rewrite <- !IZR_Zpower by lia. apply IZR_le. vm_compute. discriminate. Qed.
Lemma dec_huge negative m e : 1 <= m -> (50 <= e)%Z -> (bpow radix2 128 <= Rabs (dec_val negative m e))%R.
Proof.
  intros Hm He. rewrite dec_val_abs. assert (1 <= IZR (Z.of_N m))%R by (apply IZR_le; lia).
  assert (bpow radix10 50 <= bpow radix10 e)%R by (by apply bpow_le).
  assert (bpow radix2 128 <= bpow radix2 151)%R by (by apply bpow_le).
  pose proof pow10_40. pose proof (bpow_ge_0 radix10 e).
  eapply Rle_trans; [|apply Rmult_le_compat_r; [done|exact H]]. rewrite Rmult_1_l. lra.
Qed.
Lemma dec_tiny negative m e l : m < 10 ^ l -> (e + Z.of_N l <= -50)%Z ->
  (Rabs (dec_val negative m e) <= bpow radix2 (-151))%R.
Proof.
  intros Hm He. rewrite dec_val_abs.
  assert (IZR (Z.of_N m) <= bpow radix10 (Z.of_N l))%R.
  { rewrite <- IZR_Zpower by lia. apply IZR_le. change (radix_val radix10) with (Z.of_N 10).
    rewrite <- N2Z.inj_pow. lia. }
  apply Rle_trans with (bpow radix10 (Z.of_N l) * bpow radix10 e)%R.
  { apply Rmult_le_compat_r; [apply bpow_ge_0|done]. }
  rewrite <- bpow_plus. apply Rle_trans with (bpow radix10 (- (50))).
  { apply bpow_le. lia. }
  rewrite (bpow_opp radix10 50). change (-151)%Z with (- (151))%Z. rewrite (bpow_opp radix2 151).
  apply Rinv_le; [apply bpow_gt_0|apply pow10_40].
Qed.
Lemma nearest_huge negative v w x : (bpow radix2 128 <= Rabs v)%R -> (bpow radix2 128 <= Rabs w)%R ->
  nearest prec32 emax32 negative v x -> nearest prec32 emax32 negative w x.
Proof.
  intros Hv Hw (H1 & _ & H3). apply rounded_huge in Hv, Hw. split; [done|]. split; [|intros _; by apply H3].
  intros H. lra.
Qed.
Lemma nearest_tiny negative v w x : (Rabs v <= bpow radix2 (-151))%R -> (Rabs w <= bpow radix2 (-151))%R ->
  nearest prec32 emax32 negative v x -> nearest prec32 emax32 negative w x.
Proof.
  intros Hv Hw H. apply rounded_tiny in Hv, Hw. unfold nearest in *. by rewrite Hw, <- Hv.
Qed.

Lemma parse_decimal s negative m e : decimal_text s negative m e -> lenN s < 65000 ->
  exists x, parse_f32 s = Some x /\ nearest prec32 emax32 negative (dec_val negative m e) x.
Proof.
  intros (sign & int & point & frac & expo & k & -> & Hs & Hi & Hf & Hp & Hne & Hk & -> & ->) Hlen.
  destruct (proj1 (exponent_iff expo) (ex_intro _ k Hk)) as [k' Hk'].
  assert (Hr : number_read (int ++ point ++ frac ++ expo) (digits_value (int ++ frac)) (k' - Z.of_N (lenN frac))).
  { by exists int, point, frac, expo, k'. }
  exists (nearest_decimal prec32 emax32 negative (digits_value (int ++ frac)) (k' - Z.of_N (lenN frac))).
  split.
  { rewrite (parse_signed _ negative); [|done|pose proof (number_first _ _ _ Hr) as H; by destruct (int ++ _)].
    unfold parse_unsigned. by rewrite (parse_number_complete _ _ _ Hr). }
  pose proof (nearest_decimal_correct prec32 emax32 p32 pe32 negative (digits_value (int ++ frac)) (k' - Z.of_N (lenN frac))) as Hn.
  assert (HL : lenN int + lenN frac < 65000) by (unfold lenN in *; rewrite !app_length in Hlen; lia).
  assert (Hm : digits_value (int ++ frac) < 10 ^ (lenN int + lenN frac)).
  { replace (lenN int + lenN frac) with (lenN (int ++ frac)) by (unfold lenN; rewrite app_length; lia).
    apply digits_value_lt, Forall_app. done. }
  destruct (exponent_agree _ _ _ Hk Hk') as [->|[[H1 H2]|[H1 H2]]]; [done|..].
  - destruct (N.eq_dec (digits_value (int ++ frac)) 0) as [E|E].
    + rewrite E in *. unfold dec_val, F2R in *. cbn [Fnum] in *.
      replace (cond_Zopp negative (Z.of_N 0)) with 0%Z in * by (by destruct negative). by rewrite Rmult_0_l in *.
    + eapply nearest_huge; [| |exact Hn]; (apply dec_huge; [lia|lia]).
  - eapply nearest_tiny; [| |exact Hn]; (eapply dec_tiny; [exact Hm|lia]).
Qed.

Lemma nearest_number negative v x : nearest prec32 emax32 negative v x -> f32_number x.
Proof.
  intros (H1 & H2 & H3). split; [done|]. intros ->.
  destruct (Rlt_le_dec (Rabs (rounded32 v)) (bpow radix2 emax32)) as [H|H].
  - by destruct (H2 H) as (_ & ? & _).
  - by specialize (H3 H).
Qed.
Lemma decimal_read s negative m e : decimal_text s negative m e -> exists sign r m' e', s = sign ++ r /\
  sign_text sign negative /\ number_read r m' e'.
Proof.
  intros (sign & int & point & frac & expo & k & -> & Hs & Hi & Hf & Hp & Hne & Hk & -> & ->).
  destruct (proj1 (exponent_iff expo) (ex_intro _ k Hk)) as [k' Hk'].
  eexists sign, _, _, _. split_and!; [done|done|]. by exists int, point, frac, expo, k'.
Qed.
Lemma read_decimal sign r negative m e : sign_text sign negative -> number_read r m e ->
  exists e', decimal_text (sign ++ r) negative m e'.
Proof.
  intros Hs (int & point & frac & expo & k & -> & Hi & Hf & Hp & Hne & Hk & -> & ->).
  destruct (proj2 (exponent_iff expo) (ex_intro _ k Hk)) as [k' Hk'].
  eexists. by exists sign, int, point, frac, expo, k'.
Qed.
Lemma parse_infinity s negative : infinity_text s negative -> parse_f32 s = Some (S754_infinity negative).
Proof.
  intros [(sign & r & -> & Hs & Hr)|(sign & r & -> & Hs & Hr)];
    (rewrite (parse_named _ _ _ Hs) by (rewrite Hr; auto); destruct (decide _) as [E|_]; [rewrite Hr in E|]; done).
Qed.
Lemma parse_nan s : nan_text s -> parse_f32 s = Some S754_nan.
Proof.
  intros (negative & sign & r & -> & Hs & Hr). rewrite (parse_named _ _ _ Hs) by (rewrite Hr; auto).
  by destruct (decide _).
Qed.
Lemma parse_accepts s : (exists x, parse_f32 s = Some x) <->
  (exists negative m e, decimal_text s negative m e) \/ (exists negative, infinity_text s negative) \/ nan_text s.
Proof.
  split.
  - intros [x H]. apply parse_inv in H as (sign & r & negative & -> & Hs & [(m & e & Hr & _)|[[Hr _]|[Hr _]]]).
    + left. destruct (read_decimal _ _ _ _ _ Hs Hr) as [e' H]. by exists negative, m, e'.
    + right; right. exists negative. by exists sign, r.
    + right; left. exists negative. destruct Hr as [Hr|Hr]; [left|right]; by exists sign, r.
  - intros [(negative & m & e & H)|[(negative & H)|H]].
    + destruct (decimal_read _ _ _ _ H) as (sign & r & m' & e' & -> & Hs & Hr).
      rewrite (parse_signed _ negative); [|done|pose proof (number_first _ _ _ Hr) as Hr'; by destruct r].
      unfold parse_unsigned. rewrite (parse_number_complete _ _ _ Hr). by eexists.
    + eexists. by apply parse_infinity.
    + eexists. by apply parse_nan.
Qed.
Lemma parse_valid s x : parse_f32 s = Some x -> valid_f32 x.
Proof.
  intros H. apply parse_inv in H as (sign & r & negative & -> & Hs & [(m & e & Hr & ->)|[[Hr ->]|[Hr ->]]]); try done.
  apply (nearest_decimal_correct prec32 emax32 p32 pe32).
Qed.
Lemma parse_nan_iff s : parse_f32 s = Some S754_nan <-> nan_text s.
Proof.
  split; [|apply parse_nan].
  intros H. apply parse_inv in H as (sign & r & negative & -> & Hs & [(m & e & Hr & E)|[[Hr _]|[Hr E]]]); try done.
  - exfalso. pose proof (nearest_decimal_correct prec32 emax32 p32 pe32 negative m e) as Hn. apply nearest_number in Hn.
    rewrite <- E in Hn. by destruct Hn.
  - exists negative. by exists sign, r.
Qed.
Lemma first_split a b r r' : Forall digit_char a -> Forall digit_char b -> no_digit_first r -> no_digit_first r' ->
  a ++ r = b ++ r' -> a = b /\ r = r'.
Proof.
  intros Ha Hb Hr Hr' E. pose proof (take_digits_app a r Ha Hr) as E1. rewrite E, (take_digits_app b r' Hb Hr') in E1.
  injection E1 as _ ->. split; [by eapply app_inv_tail|done].
Qed.
Lemma exponent_unique s k k' : exponent_text s k -> exponent_text s k' -> k = k'.
Proof.
  intros [[-> ->]|(letter & sign & neg & ds & -> & Hl & Hs & Hds & Hdd & ->)]
    [[E ->]|(letter' & sign' & neg' & ds' & E & Hl' & Hs' & Hds' & Hdd' & ->)]; try done.
  injection E as -> E.
  assert (F : forall ds, ds <> [] -> Forall digit_char ds -> match ds with c :: _ => c <> 43 /\ c <> 45 | [] => True end).
  { intros [|c l] _ H; [done|]. apply Forall_inv in H. unfold digit_char in H. lia. }
  by destruct (sign_text_unique _ _ _ _ _ _ Hs Hs' (F _ Hds Hdd) (F _ Hds' Hdd') E) as (_ & -> & ->).
Qed.
Lemma decimal_unique s negative m e negative' m' e' : decimal_text s negative m e -> decimal_text s negative' m' e' ->
  negative = negative' /\ m = m' /\ e = e'.
Proof.
  intros (sign & int & point & frac & expo & k & -> & Hs & Hi & Hf & Hp & Hne & Hk & -> & ->)
    (sign' & int' & point' & frac' & expo' & k' & E & Hs' & Hi' & Hf' & Hp' & Hne' & Hk' & -> & ->).
  assert (R : forall int point frac expo k, Forall digit_char int -> Forall digit_char frac ->
    (point = lit "." \/ (point = [] /\ frac = [])) -> int ++ frac <> [] -> exponent_text expo k ->
    (match int ++ point ++ frac ++ expo with c :: _ => c <> 43 /\ c <> 45 | [] => True end) /\
    no_digit_first (point ++ frac ++ expo) /\ no_digit_first expo /\ match expo with c :: _ => c <> 46 | [] => True end).
  { clear. intros int point frac expo k Hi Hf Hp Hne Hk.
    destruct (proj1 (exponent_iff expo) (ex_intro _ k Hk)) as [k' Hk'].
    destruct (exponent_read_first _ _ Hk') as [H1 H2]. split.
    - assert (Hr : number_read (int ++ point ++ frac ++ expo) (digits_value (int ++ frac)) (k' - Z.of_N (lenN frac)))
        by (by exists int, point, frac, expo, k').
      pose proof (number_first _ _ _ Hr) as H. by destruct (int ++ point ++ frac ++ expo).
    - split; [|done]. destruct Hp as [->|[-> ->]]; [cbn; unfold digit_char; lia|done]. }
  destruct (R _ _ _ _ _ Hi Hf Hp Hne Hk) as (R1 & R2 & R3 & R4).
  destruct (R _ _ _ _ _ Hi' Hf' Hp' Hne' Hk') as (R1' & R2' & R3' & R4'). clear R.
  destruct (sign_text_unique _ _ _ _ _ _ Hs Hs' R1 R1' E) as (_ & -> & E1).
  destruct (first_split _ _ _ _ Hi Hi' R2 R2' E1) as [-> E2].
  assert (frac = frac' /\ expo = expo') as [-> ->].
  { destruct Hp as [->|[-> ->]], Hp' as [->|[-> ->]].
    - cbn in E2. injection E2 as E2. by apply first_split in E2.
    - exfalso. cbn in E2. subst expo'. done.
    - exfalso. cbn in E2. subst expo. done.
    - cbn in E2. by subst. }
  split; [done|]. split; [done|]. by rewrite (exponent_unique _ _ _ Hk Hk').
Qed.
