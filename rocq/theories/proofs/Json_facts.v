(** Reading JSON: the reader accepts the grammar and nothing else. *)
From Coq Require Import String Lia ZifyBool ZifyN.
From Verif.model Require Import Base F32 Utf8 Data Classic Lit Raw Json.
From Verif.spec Require Import Json_spec.
Local Open Scope N_scope.

(** ** Whitespace *)
Lemma is_space_true c : is_space c = true <-> c = 32 \/ c = 10 \/ c = 9 \/ c = 13.
Proof. unfold is_space. lia. Qed.
Lemma skip_space_app w s : ws w -> skip_space (w ++ s) = skip_space s.
Proof.
  induction 1 as [|c w Hc _ IH]; [done|]. cbn [app skip_space].
  by rewrite (proj2 (is_space_true c) Hc).
Qed.
Definition starts (s : rstr) : Prop := match s with c :: _ => is_space c = false | [] => True end.
Lemma skip_space_id s : starts s -> skip_space s = s.
Proof. destruct s as [|c s]; [done|]. cbn. by intros ->. Qed.
Lemma skip_space_split s : exists w, ws w /\ s = w ++ skip_space s /\ starts (skip_space s).
Proof.
  induction s as [|c s (w & Hw & Hs & Hst)]; [by exists []; repeat split; constructor|].
  cbn [skip_space]. destruct (is_space c) eqn:E.
  - exists (c :: w). split_and!; [constructor; [by apply is_space_true|done]|cbn; by f_equal|done].
  - exists []. split_and!; [constructor|done|done].
Qed.

(** ** Strings *)
Lemma escape_meaning_Some e c : escape_meaning e = Some c <-> escapes e c.
Proof.
  unfold escape_meaning, escapes. split.
  - intros H. repeat case_match; simplify_eq;
      repeat match goal with E : (_ =? _) = true |- _ => apply N.eqb_eq in E; subst end;
      apply (bool_decide_unpack _); vm_compute; done.
  - rewrite !elem_of_cons, elem_of_nil. intros H.
    repeat (destruct H as [H|H]; [injection H as -> ->; done|]). done.
Qed.
Lemma escape_letter e : e ∈ lit """\/bfnrt" <-> exists c, escapes e c.
Proof.
  change (lit """\/bfnrt") with [34; 92; 47; 98; 102; 110; 114; 116]. unfold escapes. split.
  - rewrite !elem_of_cons, elem_of_nil. intros H.
    repeat (destruct H as [->|H]; [eexists; rewrite !elem_of_cons, !pair_equal_spec; tauto|]). done.
  - intros [c H]. rewrite !elem_of_cons, elem_of_nil in H. rewrite !elem_of_cons.
    repeat (destruct H as [H|H]; [injection H as -> ->; tauto|]). done.
Qed.
Lemma hex_val_Some c v : hex_val c = Some v <-> hex_digit c v.
Proof.
  unfold hex_val, hex_digit. split.
  - intros H. repeat case_match; simplify_eq; lia.
  - intros H. destruct ((48 <=? c) && (c <=? 57)) eqn:E1; [f_equal; lia|].
    destruct ((65 <=? c) && (c <=? 70)) eqn:E2; [f_equal; lia|].
    destruct ((97 <=? c) && (c <=? 102)) eqn:E3; [f_equal; lia|]. lia.
Qed.
Lemma hex4_Some a b c d n : hex4 a b c d = Some n <->
  exists va vb vc vd, hex_digit a va /\ hex_digit b vb /\ hex_digit c vc /\ hex_digit d vd /\
    n = va * 4096 + vb * 256 + vc * 16 + vd.
Proof.
  unfold hex4. split.
  - intros H. destruct (hex_val a) as [va|] eqn:Ea; [|done]. destruct (hex_val b) as [vb|] eqn:Eb; [|done].
    destruct (hex_val c) as [vc|] eqn:Ec; [|done]. destruct (hex_val d) as [vd|] eqn:Ed; [|done].
    cbn [mbind option_bind] in H. injection H as <-.
    exists va, vb, vc, vd. rewrite <- !hex_val_Some. split_and!; try done. lia.
  - intros (va & vb & vc & vd & Ha & Hb & Hc & Hd & ->). rewrite <- hex_val_Some in Ha, Hb, Hc, Hd.
    rewrite Ha, Hb, Hc, Hd. cbn [mbind option_bind]. f_equal. lia.
Qed.

Lemma read_string_complete ps k rest : string_text ps k -> read_string (k ++ 34 :: rest) = Some (rest, ps).
Proof.
  induction 1 as [|c ps s H1 H2 H3 _ IH|e ps s He _ IH|a b c d va vb vc vd ps s Ha Hb Hc Hd _ IH]; [done|..];
    cbn [app read_string].
  - rewrite (proj2 (N.eqb_neq _ _) H2), (proj2 (N.eqb_neq _ _) H3), (proj2 (N.ltb_ge _ _) H1), IH. done.
  - cbn. assert (E : (e =? 117) = false).
    { apply N.eqb_neq. intros ->. revert He. apply (bool_decide_unpack (_ ∉ _)). vm_compute. done. }
    rewrite E. apply escape_letter in He as [c He]. apply escape_meaning_Some in He. rewrite He.
    cbn [mbind option_bind]. by rewrite IH.
  - cbn. assert (E : hex4 a b c d = Some (va * 4096 + vb * 256 + vc * 16 + vd)).
    { apply hex4_Some. eauto 10. }
    rewrite E. cbn [mbind option_bind]. by rewrite IH.
Qed.
Lemma read_string_sound : forall s rest ps, read_string s = Some (rest, ps) ->
  exists k, s = k ++ 34 :: rest /\ string_text ps k.
Proof.
  intros s. induction s as [s IH] using (induction_ltof1 _ (@List.length N)). unfold ltof in IH.
  intros rest ps H. destruct s as [|c r]; [done|]. cbn [read_string] in H.
  destruct (c =? 34) eqn:E1.
  { injection H as -> <-. apply N.eqb_eq in E1 as ->. exists []. split; [done|constructor]. }
  destruct (c =? 92) eqn:E2.
  - apply N.eqb_eq in E2 as ->. destruct r as [|e r1]; [done|]. destruct (e =? 117) eqn:E3.
    + apply N.eqb_eq in E3 as ->. destruct r1 as [|h1 [|h2 [|h3 [|h4 r2]]]]; try done.
      destruct (hex4 h1 h2 h3 h4) as [n|] eqn:En; [|done]. cbn [mbind option_bind] in H.
      destruct (read_string r2) as [[rest' ps']|] eqn:Er; [|done]. cbn [mbind option_bind] in H.
      injection H as <- <-. apply IH in Er as (k & -> & Hk); [|cbn; lia].
      apply hex4_Some in En as (va & vb & vc & vd & Ha & Hb & Hc & Hd & ->).
      eexists (92 :: 117 :: h1 :: h2 :: h3 :: h4 :: k). split; [done|]. by constructor.
    + destruct (escape_meaning e) as [c|] eqn:Ee; [|done]. cbn [mbind option_bind] in H.
      destruct (read_string r1) as [[rest' ps']|] eqn:Er; [|done]. cbn [mbind option_bind] in H.
      injection H as <- <-. apply IH in Er as (k & -> & Hk); [|cbn; lia].
      exists (92 :: e :: k). split; [done|]. constructor; [|done].
      apply escape_letter. exists c. by apply escape_meaning_Some.
  - destruct (c <? 32) eqn:E3; [done|].
    destruct (read_string r) as [[rest' ps']|] eqn:Er; [|done]. cbn [mbind option_bind] in H.
    injection H as <- <-. apply IH in Er as (k & -> & Hk); [|cbn; lia].
    exists (c :: k). split; [done|]. constructor; [lia|lia|lia|done].
Qed.

(** ** Numbers *)
Definition not_digit_first (s : rstr) : Prop := match s with c :: _ => is_digit c = false | [] => True end.
Lemma is_digit_true c : is_digit c = true <-> digit c.
Proof. unfold is_digit, digit. lia. Qed.
Lemma read_digits_app ds rest : Forall digit ds -> not_digit_first rest -> read_digits (ds ++ rest) = (rest, ds).
Proof.
  intros Hds Hr. induction Hds as [|c ds Hc _ IH].
  - destruct rest as [|c rest]; [done|]. cbn in *. by rewrite Hr.
  - cbn [app read_digits]. by rewrite (proj2 (is_digit_true c) Hc), IH.
Qed.
Lemma read_digits_split s : forall rest ds, read_digits s = (rest, ds) ->
  s = ds ++ rest /\ Forall digit ds /\ not_digit_first rest.
Proof.
  induction s as [|c s IH]; intros rest ds H; cbn [read_digits] in H; [by injection H as <- <-|].
  destruct (is_digit c) eqn:E.
  - destruct (read_digits s) as [rest' ds']. injection H as <- <-.
    destruct (IH _ _ eq_refl) as (-> & Hd & Hn). split_and!; [done| |done].
    constructor; [by apply is_digit_true|done].
  - injection H as <- <-. by split_and!; [|constructor|].
Qed.
Lemma read_digits1_app ds rest : digits ds -> not_digit_first rest -> read_digits1 (ds ++ rest) = Some (rest, ds).
Proof.
  intros [Hne Hds] Hr. unfold read_digits1. rewrite read_digits_app by done. by destruct ds.
Qed.
Lemma read_digits1_split s rest ds : read_digits1 s = Some (rest, ds) -> s = ds ++ rest /\ digits ds /\ not_digit_first rest.
Proof.
  unfold read_digits1. destruct (read_digits s) as [rest' ds'] eqn:E. apply read_digits_split in E as (-> & H & Hn).
  destruct ds'; [done|]. intros [= <- <-]. by split_and!.
Qed.
(** What may follow a number. *)
Definition ends_number (s : rstr) : Prop :=
  match s with c :: _ => is_digit c = false /\ c <> 46 /\ c <> 101 /\ c <> 69 | [] => True end.
Lemma read_number_complete s rest : number_text s -> ends_number rest -> read_number (s ++ rest) = Some (rest, s).
Proof.
  intros (sign & int & fraction & exponent & -> & Hsign & Hint & Hzero & Hfr & Hex) Hr.
  unfold read_number.
  assert (Hexp : read_exponent (exponent ++ rest) = Some (rest, exponent)).
  { destruct Hex as [->|(e & sg & ds & -> & He & Hsg & Hds)].
    - destruct rest as [|c rest]; [done|]. cbn. cbn in Hr.
      assert (E : (c =? 101) || (c =? 69) = false) by lia. by rewrite E.
    - cbn [app read_exponent]. assert (E : (e =? 101) || (e =? 69) = true) by lia. rewrite E.
      assert (Hn : not_digit_first rest) by (destruct rest; [done|apply Hr]).
      destruct Hsg as [->|Hsg].
      + cbn [app]. destruct Hds as [Hne Hds]. destruct ds as [|d ds]; [done|].
        assert (E' : (d =? 43) || (d =? 45) = false).
        { apply Forall_cons in Hds as [Hd _]. unfold digit in Hd. lia. }
        change ((d :: ds) ++ rest) with (d :: ds ++ rest). cbv iota beta. rewrite E'.
        change (d :: ds ++ rest) with ((d :: ds) ++ rest). rewrite read_digits1_app; [done|by split|done].
      + assert (Hg : exists g, sg = [g] /\ (g =? 43) || (g =? 45) = true).
        { destruct Hsg as [->| ->]; eexists; done. }
        destruct Hg as (g & -> & Eg). cbn [app]. rewrite Eg. by rewrite read_digits1_app. }
  assert (Hexn : not_digit_first (exponent ++ rest)).
  { destruct Hex as [->|(e & sg & ds & -> & He & _)]; [destruct rest; [done|apply Hr]|].
    cbn. destruct He as [->| ->]; done. }
  assert (Hfrac : read_fraction (fraction ++ exponent ++ rest) = Some (exponent ++ rest, fraction)).
  { destruct Hfr as [->|(ds & -> & Hds)].
    - cbn [app]. assert (H46 : match exponent ++ rest with c :: _ => c <> 46 | [] => True end).
      { destruct Hex as [->|(e & sg & ds & -> & He & _)]; [destruct rest; [done|cbn; apply Hr]|].
        cbn. lia. }
      destruct (exponent ++ rest) as [|c r]; [done|]. cbn. by rewrite (proj2 (N.eqb_neq _ _) H46).
    - cbn [app read_fraction]. by rewrite read_digits1_app. }
  assert (Hfn : not_digit_first (fraction ++ exponent ++ rest)).
  { destruct Hfr as [->|(ds & -> & Hds)]; done. }
  assert (Hi : read_int (int ++ fraction ++ exponent ++ rest) = Some (fraction ++ exponent ++ rest, int)).
  { unfold read_int. rewrite read_digits1_app by done. cbn [mbind option_bind].
    destruct int as [|z [|z' int]]; [done|done|]. destruct (z =? 48) eqn:E; [|done].
    apply N.eqb_eq in E as ->. by specialize (Hzero eq_refl). }
  rewrite <- !app_assoc. destruct Hsign as [->| ->].
  - cbn [app]. destruct int as [|z int]; [by destruct Hint|].
    assert (E : (z =? 45) = false).
    { destruct Hint as [_ Hint]. apply Forall_cons in Hint as [Hz _]. unfold digit in Hz. lia. }
    change ((z :: int) ++ fraction ++ exponent ++ rest) with (z :: int ++ fraction ++ exponent ++ rest) in *.
    cbv iota beta. rewrite E. cbv iota beta. rewrite Hi. cbn [mbind option_bind]. rewrite Hfrac. cbn [mbind option_bind]. by rewrite Hexp.
  - cbn [app]. change (45 =? 45) with true. cbv iota beta. rewrite Hi. cbn [mbind option_bind].
    rewrite Hfrac. cbn [mbind option_bind]. by rewrite Hexp.
Qed.
Lemma read_int_split s rest int : read_int s = Some (rest, int) ->
  s = int ++ rest /\ digits int /\ (head int = Some 48 -> int = [48]).
Proof.
  unfold read_int. destruct (read_digits1 s) as [[r ds]|] eqn:E; [|done]. cbn [mbind option_bind].
  apply read_digits1_split in E as (-> & Hd & _).
  destruct ds as [|z [|z' ds]]; [by destruct Hd| |]; intros H.
  - injection H as <- <-. split_and!; [done|done|]. cbn. congruence.
  - destruct (z =? 48) eqn:E; [done|]. injection H as <- <-. split_and!; [done|done|].
    cbn. intros [= ->]. done.
Qed.
Lemma read_fraction_split s rest f : read_fraction s = Some (rest, f) ->
  s = f ++ rest /\ (f = [] \/ exists ds, f = 46 :: ds /\ digits ds).
Proof.
  destruct s as [|c r]; cbn [read_fraction]; [intros [= <- <-]; auto|].
  destruct (c =? 46) eqn:E; [|intros [= <- <-]; auto]. apply N.eqb_eq in E as ->.
  destruct (read_digits1 r) as [[r' ds]|] eqn:E; [|done]. cbn [mbind option_bind]. intros [= <- <-].
  apply read_digits1_split in E as (-> & Hd & _). split; [done|]. eauto.
Qed.
Lemma read_exponent_split s rest x : read_exponent s = Some (rest, x) ->
  s = x ++ rest /\ (x = [] \/ exists e sg ds, x = e :: sg ++ ds /\ (e = 101 \/ e = 69) /\
     (sg = [] \/ sg = [43] \/ sg = [45]) /\ digits ds).
Proof.
  destruct s as [|c r]; cbn [read_exponent]; [intros [= <- <-]; auto|].
  destruct ((c =? 101) || (c =? 69)) eqn:E; [|intros [= <- <-]; auto].
  assert (Hc : c = 101 \/ c = 69) by lia. destruct r as [|g r]; [done|].
  destruct ((g =? 43) || (g =? 45)) eqn:Eg.
  - destruct (read_digits1 r) as [[r' ds]|] eqn:Er; [|done]. cbn [mbind option_bind]. intros [= <- <-].
    apply read_digits1_split in Er as (-> & Hd & _). split; [done|]. right. exists c, [g], ds.
    split_and!; [done|done|right|done]. assert (g = 43 \/ g = 45) as [->| ->] by lia; auto.
  - destruct (read_digits1 (g :: r)) as [[r' ds]|] eqn:Er; [|done]. cbn [mbind option_bind]. intros [= <- <-].
    apply read_digits1_split in Er as (-> & Hd & _). split; [done|]. right. exists c, [], ds.
    split_and!; [done|done|by left|done].
Qed.
Lemma read_number_sound s rest n : read_number s = Some (rest, n) -> s = n ++ rest /\ number_text n.
Proof.
  unfold read_number. intros H.
  assert (Hs : exists sign s', (sign = [] \/ sign = [45]) /\ s = sign ++ s' /\
    ('(s, int) ← read_int s'; '(s, fraction) ← read_fraction s; '(s, exponent) ← read_exponent s;
     Some (s, sign ++ int ++ fraction ++ exponent)) = Some (rest, n)).
  { destruct s as [|c r]; [by exists [], []; auto|]. destruct (c =? 45) eqn:E.
    - apply N.eqb_eq in E as ->. exists [45], r. auto.
    - exists [], (c :: r). auto. }
  clear H. destruct Hs as (sign & s' & Hsign & -> & H).
  destruct (read_int s') as [[s1 int]|] eqn:E1; [|done]. cbn [mbind option_bind] in H.
  destruct (read_fraction s1) as [[s2 f]|] eqn:E2; [|done]. cbn [mbind option_bind] in H.
  destruct (read_exponent s2) as [[s3 x]|] eqn:E3; [|done]. cbn [mbind option_bind] in H.
  injection H as <- <-. apply read_int_split in E1 as (-> & Hi & Hz).
  apply read_fraction_split in E2 as (-> & Hf). apply read_exponent_split in E3 as (-> & Hx).
  rewrite <- !app_assoc. split; [done|]. exists sign, int, f, x. by split_and!.
Qed.

(** ** Values *)
Lemma strip_app word rest : strip word (word ++ rest) = Some rest.
Proof. induction word as [|w word IH]; [done|]. cbn. by rewrite N.eqb_refl. Qed.
Lemma strip_Some word : forall s rest, strip word s = Some rest -> s = word ++ rest.
Proof.
  induction word as [|w word IH]; intros s rest H; cbn in H; [by injection H as ->|].
  destruct s as [|c s]; [done|]. destruct (w =? c) eqn:E; [|done]. apply N.eqb_eq in E as ->.
  cbn. f_equal. by apply IH.
Qed.

Scheme value_text_ind' := Minimality for value_text Sort Prop
  with items_text_ind' := Minimality for items_text Sort Prop
  with members_text_ind' := Minimality for members_text Sort Prop.
Combined Scheme text_ind from value_text_ind', items_text_ind', members_text_ind'.

(** The first char of a value. *)
Lemma number_text_first s : number_text s -> exists c r, s = c :: r /\ (c = 45 \/ digit c).
Proof.
  intros (sign & int & f & x & -> & Hsign & [Hne Hint] & _). destruct int as [|z int]; [done|].
  apply Forall_cons in Hint as [Hz _]. destruct Hsign as [->| ->]; eexists _, _; (split; [done|]); auto.
Qed.
Definition value_first (c : N) : Prop := c ∈ [34; 45; 91; 102; 110; 116; 123] \/ digit c.
Lemma value_text_first v s : value_text v s -> exists c r, s = c :: r /\ value_first c.
Proof.
  unfold value_first.
  destruct 1 as [| | |s H| | | | |];
    try (eexists _, _; split; [reflexivity|left; apply (bool_decide_unpack _); vm_compute; done]).
  apply number_text_first in H as (c & r & -> & [->|Hc]); eexists _, _; (split; [done|]); [|by right].
  left; apply (bool_decide_unpack _); vm_compute; done.
Qed.
Lemma value_first_starts c r : value_first c -> starts (c :: r).
Proof.
  unfold value_first, starts, is_space, digit. rewrite !elem_of_cons, elem_of_nil. lia.
Qed.
Lemma value_text_starts v s r : value_text v s -> starts (s ++ r).
Proof. intros (c & r' & -> & H)%value_text_first. by apply value_first_starts. Qed.
Lemma value_first_neq c : value_first c -> c <> 93 /\ c <> 125.
Proof. unfold value_first, digit. rewrite !elem_of_cons, elem_of_nil. lia. Qed.
Lemma ends_number_ws w c r : ws w -> is_digit c = false -> c <> 46 -> c <> 101 -> c <> 69 ->
  ends_number (w ++ c :: r).
Proof.
  intros Hw. destruct Hw as [|x w Hx _]; [done|]. cbn. unfold is_digit. intros. lia.
Qed.
Lemma ends_number_nil w : ws w -> ends_number w.
Proof. destruct 1 as [|x w Hx _]; [done|]. cbn. unfold is_digit. lia. Qed.
Lemma skip_space_stop w c r : ws w -> is_space c = false -> skip_space (w ++ c :: r) = c :: r.
Proof. intros Hw Hc. rewrite skip_space_app by done. by apply skip_space_id. Qed.

Definition V (v : tree) (s : rstr) : Prop := forall fuel w rest,
  ws w -> (2 * List.length s < fuel)%nat -> ends_number rest ->
  read_value fuel (w ++ s ++ rest) = Some (rest, v).
Definition I (l : list tree) (s : rstr) : Prop := forall fuel rest,
  (2 * List.length s + 1 < fuel)%nat -> read_items fuel (s ++ 93 :: rest) = Some (rest, l).
Definition M (l : list (list piece * tree)) (s : rstr) : Prop := forall fuel rest,
  (2 * List.length s + 1 < fuel)%nat -> read_members fuel (s ++ 125 :: rest) = Some (rest, l).
Lemma items_first l s : items_text l s -> exists w c r, s = w ++ c :: r /\ ws w /\ value_first c.
Proof.
  destruct 1 as [w1 v s w2 Hw Hv _|w1 v s w2 l s' Hw Hv _ _];
    apply value_text_first in Hv as (c & r & -> & Hc); eexists w1, c, _; split_and!; try done;
    cbn; rewrite <- ?app_assoc; done.
Qed.
Lemma members_first l s : members_text l s -> exists w r, s = w ++ 34 :: r /\ ws w.
Proof. destruct 1; eexists _, _; (split; [reflexivity|done]). Qed.

Lemma read_complete : (forall v s, value_text v s -> V v s) /\ (forall l s, items_text l s -> I l s) /\
  (forall l s, members_text l s -> M l s).
Proof.
  apply text_ind; unfold V, I, M.
  - intros fuel w rest Hw Hf _. destruct fuel as [|fuel]; [lia|]. cbn [read_value].
    change (lit "null" ++ rest) with (110 :: lit "ull" ++ rest). rewrite skip_space_stop by done.
    cbn -[strip lit]. by rewrite strip_app.
  - intros fuel w rest Hw Hf _. destruct fuel as [|fuel]; [lia|]. cbn [read_value].
    change (lit "true" ++ rest) with (116 :: lit "rue" ++ rest). rewrite skip_space_stop by done.
    cbn -[strip lit]. by rewrite strip_app.
  - intros fuel w rest Hw Hf _. destruct fuel as [|fuel]; [lia|]. cbn [read_value].
    change (lit "false" ++ rest) with (102 :: lit "alse" ++ rest). rewrite skip_space_stop by done.
    cbn -[strip lit]. by rewrite strip_app.
  - intros s Hs fuel w rest Hw Hf Hr. destruct fuel as [|fuel]; [lia|]. cbn [read_value].
    rewrite skip_space_app by done. pose proof (number_text_first _ Hs) as (c & r & -> & Hc).
    rewrite skip_space_id by (unfold starts, is_space, digit in *; cbn; lia).
    cbn [app]. assert (c <> 34 /\ c <> 91 /\ c <> 123) as (H1 & H2 & H3) by (unfold digit in Hc; lia).
    rewrite (proj2 (N.eqb_neq _ _) H1), (proj2 (N.eqb_neq _ _) H2), (proj2 (N.eqb_neq _ _) H3).
    assert (E : (c =? 45) || is_digit c = true) by (unfold is_digit, digit in *; lia). rewrite E.
    change (c :: r ++ rest) with ((c :: r) ++ rest). by rewrite read_number_complete.
  - intros ps s Hs fuel w rest Hw Hf Hr. destruct fuel as [|fuel]; [lia|]. cbn [read_value app].
    rewrite skip_space_stop by done. cbn. rewrite <- app_assoc. cbn [app]. by rewrite (read_string_complete _ _ _ Hs).
  - intros w' Hw' fuel w rest Hw Hf Hr. destruct fuel as [|fuel]; [lia|]. cbn [read_value app].
    rewrite skip_space_stop by done. cbn. rewrite <- app_assoc. cbn [app]. by rewrite skip_space_stop.
  - intros l s Hs IH fuel w rest Hw Hf Hr. destruct fuel as [|fuel]; [lia|]. cbn [read_value app].
    rewrite skip_space_stop by done. cbn -[read_items]. rewrite <- app_assoc. cbn [app].
    pose proof (items_first _ _ Hs) as (w1 & c & r & -> & Hw1 & Hc).
    rewrite <- app_assoc. cbn [app]. rewrite skip_space_stop; [|done|by apply (value_first_starts c [])].
    rewrite (proj2 (N.eqb_neq _ _) (proj1 (value_first_neq _ Hc))).
    replace (w1 ++ c :: r ++ 93 :: rest) with ((w1 ++ c :: r) ++ 93 :: rest) by (by rewrite <- app_assoc).
    rewrite IH; [done|]. cbn in Hf. rewrite !app_length in *. cbn in *. lia.
  - intros w' Hw' fuel w rest Hw Hf Hr. destruct fuel as [|fuel]; [lia|]. cbn [read_value app].
    rewrite skip_space_stop by done. cbn. rewrite <- app_assoc. cbn [app]. by rewrite skip_space_stop.
  - intros l s Hs IH fuel w rest Hw Hf Hr. destruct fuel as [|fuel]; [lia|]. cbn [read_value app].
    rewrite skip_space_stop by done. cbn -[read_members]. rewrite <- app_assoc. cbn [app].
    pose proof (members_first _ _ Hs) as (w1 & r & -> & Hw1).
    rewrite <- app_assoc. cbn [app]. rewrite skip_space_stop by done. cbn -[read_members].
    replace (w1 ++ 34 :: r ++ 125 :: rest) with ((w1 ++ 34 :: r) ++ 125 :: rest) by (by rewrite <- app_assoc).
    rewrite IH; [done|]. cbn in Hf. rewrite !app_length in *. cbn in *. lia.
  - intros w1 v s w2 Hw1 _ IH Hw2 fuel rest Hf. destruct fuel as [|fuel]; [lia|]. cbn [read_items].
    rewrite <- !app_assoc. rewrite IH; [|done|rewrite !app_length in Hf; lia|by apply ends_number_ws].
    cbn [mbind option_bind]. by rewrite skip_space_stop.
  - intros w1 v s w2 l s' Hw1 Hv IH Hw2 _ IHl fuel rest Hf. destruct fuel as [|fuel]; [lia|]. cbn [read_items].
    rewrite <- !app_assoc. cbn [app].
    rewrite IH; [|done|rewrite !app_length in Hf; lia|by apply ends_number_ws].
    cbn [mbind option_bind]. rewrite skip_space_stop by done. cbn -[read_items]. rewrite IHl; [done|].
    pose proof (value_text_first _ _ Hv) as (c & r & -> & _). rewrite !app_length in Hf. cbn in Hf. lia.
  - intros w1 ps k w2 w3 v s w4 Hw1 Hk Hw2 Hw3 _ IH Hw4 fuel rest Hf.
    destruct fuel as [|fuel]; [lia|]. cbn [read_members]. rewrite <- !app_assoc. cbn [app].
    rewrite skip_space_stop by done. change (34 =? 34) with true. cbv iota.
    rewrite (read_string_complete _ _ _ Hk). cbn [mbind option_bind].
    rewrite skip_space_stop by done. change (58 =? 58) with true. cbv iota.
    assert (Hlen : (2 * List.length s < fuel)%nat).
    { revert Hf. rewrite !app_length. cbn. lia. }
    rewrite IH; [|done|done|by apply ends_number_ws].
    cbn [mbind option_bind]. by rewrite skip_space_stop.
  - intros w1 ps k w2 w3 v s w4 l s' Hw1 Hk Hw2 Hw3 Hv IH Hw4 _ IHl fuel rest Hf.
    destruct fuel as [|fuel]; [lia|]. cbn [read_members]. rewrite <- !app_assoc. cbn [app].
    rewrite skip_space_stop by done. change (34 =? 34) with true. cbv iota.
    rewrite (read_string_complete _ _ _ Hk). cbn [mbind option_bind].
    rewrite skip_space_stop by done. change (58 =? 58) with true. cbv iota.
    assert (Hlen : (2 * List.length s + 2 * List.length s' + 2 < S fuel)%nat).
    { revert Hf. rewrite !app_length. cbn. lia. }
    rewrite IH; [|done|lia|by apply ends_number_ws].
    cbn [mbind option_bind app]. rewrite skip_space_stop by done. change (44 =? 44) with true. cbv iota.
    rewrite IHl; [done|lia].
Qed.

Lemma read_json_complete t v : json_text t v -> read_json t = Some v.
Proof.
  intros (w1 & s & w2 & -> & H1 & Hv & H2). unfold read_json.
  rewrite (proj1 read_complete _ _ Hv); [|done|rewrite !app_length; lia|by apply ends_number_nil].
  cbn [mbind option_bind]. rewrite <- (app_nil_r w2), skip_space_app by done. done.
Qed.

Lemma read_sound : forall fuel,
  (forall s rest v, read_value fuel s = Some (rest, v) ->
     exists w k, s = w ++ k ++ rest /\ ws w /\ value_text v k) /\
  (forall s rest l, read_items fuel s = Some (rest, l) ->
     exists k, s = k ++ 93 :: rest /\ items_text l k) /\
  (forall s rest l, read_members fuel s = Some (rest, l) ->
     exists k, s = k ++ 125 :: rest /\ members_text l k).
Proof.
  induction fuel as [|fuel (IHv & IHi & IHm)]; [done|]. split_and!.
  - intros s rest v H. cbn [read_value] in H.
    destruct (skip_space_split s) as (w & Hw & Hs & Hst). rewrite Hs. clear Hs Hst.
    exists w. enough (exists k, skip_space s = k ++ rest /\ value_text v k) as (k & -> & Hk) by eauto.
    destruct (skip_space s) as [|c r]; [done|].
    destruct (c =? 34) eqn:E1.
    { apply N.eqb_eq in E1 as ->. destruct (read_string r) as [[r' ps]|] eqn:Er; [|done].
      cbn [mbind option_bind] in H. injection H as -> <-. apply read_string_sound in Er as (k & -> & Hk).
      exists ([34] ++ k ++ [34]). split; [cbn; by rewrite <- app_assoc|by constructor]. }
    destruct (c =? 91) eqn:E2.
    { apply N.eqb_eq in E2 as ->. destruct (skip_space_split r) as (w' & Hw' & Hs & Hst).
      destruct (skip_space r) as [|c' r'] eqn:Er; [done|]. destruct (c' =? 93) eqn:Ec.
      - apply N.eqb_eq in Ec as ->. injection H as -> <-. exists ([91] ++ w' ++ [93]).
        split; [cbn; rewrite <- app_assoc; cbn; by f_equal|by constructor].
      - destruct (read_items fuel r) as [[r1 l]|] eqn:Ei; [|done]. cbn [mbind option_bind] in H.
        injection H as -> <-. apply IHi in Ei as (k & -> & Hk).
        exists ([91] ++ k ++ [93]). split; [cbn; by rewrite <- app_assoc|by constructor]. }
    destruct (c =? 123) eqn:E3.
    { apply N.eqb_eq in E3 as ->. destruct (skip_space_split r) as (w' & Hw' & Hs & Hst).
      destruct (skip_space r) as [|c' r'] eqn:Er; [done|]. destruct (c' =? 125) eqn:Ec.
      - apply N.eqb_eq in Ec as ->. injection H as -> <-. exists ([123] ++ w' ++ [125]).
        split; [cbn; rewrite <- app_assoc; cbn; by f_equal|by constructor].
      - destruct (read_members fuel r) as [[r1 l]|] eqn:Ei; [|done]. cbn [mbind option_bind] in H.
        injection H as -> <-. apply IHm in Ei as (k & -> & Hk).
        exists ([123] ++ k ++ [125]). split; [cbn; by rewrite <- app_assoc|by constructor]. }
    destruct ((c =? 45) || is_digit c) eqn:E4.
    { destruct (read_number (c :: r)) as [[r1 n]|] eqn:En; [|done]. cbn [mbind option_bind] in H.
      injection H as -> <-. apply read_number_sound in En as (-> & Hn). exists n. split; [done|by constructor]. }
    destruct (c =? 110) eqn:E5.
    { apply N.eqb_eq in E5 as ->. destruct (strip (lit "ull") r) as [r'|] eqn:Er; [|done].
      cbn [mbind option_bind] in H. injection H as -> <-. apply strip_Some in Er as ->.
      exists (lit "null"). split; [done|constructor]. }
    destruct (c =? 116) eqn:E6.
    { apply N.eqb_eq in E6 as ->. destruct (strip (lit "rue") r) as [r'|] eqn:Er; [|done].
      cbn [mbind option_bind] in H. injection H as -> <-. apply strip_Some in Er as ->.
      exists (lit "true"). split; [done|constructor]. }
    destruct (c =? 102) eqn:E7; [|done].
    apply N.eqb_eq in E7 as ->. destruct (strip (lit "alse") r) as [r'|] eqn:Er; [|done].
    cbn [mbind option_bind] in H. injection H as -> <-. apply strip_Some in Er as ->.
    exists (lit "false"). split; [done|constructor].
  - intros s rest l H. cbn [read_items] in H.
    destruct (read_value fuel s) as [[r v]|] eqn:Ev; [|done]. cbn [mbind option_bind] in H.
    apply IHv in Ev as (w & k & -> & Hw & Hk). destruct (skip_space_split r) as (w' & Hw' & Hs & _).
    rewrite Hs. clear Hs. destruct (skip_space r) as [|c r']; [done|].
    destruct (c =? 44) eqn:Ec.
    { apply N.eqb_eq in Ec as ->. destruct (read_items fuel r') as [[r1 l']|] eqn:Ei; [|done].
      cbn [mbind option_bind] in H. injection H as -> <-. apply IHi in Ei as (k' & -> & Hk').
      exists (w ++ k ++ w' ++ [44] ++ k'). split; [by rewrite <- !app_assoc|by constructor]. }
    destruct (c =? 93) eqn:Ec'; [|done]. apply N.eqb_eq in Ec' as ->. injection H as -> <-.
    exists (w ++ k ++ w'). split; [by rewrite <- !app_assoc|by constructor].
  - intros s rest l H. cbn [read_members] in H.
    destruct (skip_space_split s) as (w & Hw & Hs & _). rewrite Hs. clear Hs.
    destruct (skip_space s) as [|c r]; [done|]. destruct (c =? 34) eqn:Ec; [|done].
    apply N.eqb_eq in Ec as ->. destruct (read_string r) as [[r1 key]|] eqn:Ek; [|done].
    cbn [mbind option_bind] in H. apply read_string_sound in Ek as (k & -> & Hk).
    destruct (skip_space_split r1) as (w2 & Hw2 & Hs & _). rewrite Hs. clear Hs.
    destruct (skip_space r1) as [|c r2]; [done|]. destruct (c =? 58) eqn:Ec; [|done].
    apply N.eqb_eq in Ec as ->. destruct (read_value fuel r2) as [[r3 v]|] eqn:Ev; [|done].
    cbn [mbind option_bind] in H. apply IHv in Ev as (w3 & kv & -> & Hw3 & Hkv).
    destruct (skip_space_split r3) as (w4 & Hw4 & Hs & _). rewrite Hs. clear Hs.
    destruct (skip_space r3) as [|c r4]; [done|]. destruct (c =? 44) eqn:Ec.
    { apply N.eqb_eq in Ec as ->. destruct (read_members fuel r4) as [[r5 l']|] eqn:Ei; [|done].
      cbn [mbind option_bind] in H. injection H as -> <-. apply IHm in Ei as (k' & -> & Hk').
      exists (w ++ [34] ++ k ++ [34] ++ w2 ++ [58] ++ w3 ++ kv ++ w4 ++ [44] ++ k').
      split; [|by constructor]. by rewrite <- !app_assoc. }
    destruct (c =? 125) eqn:Ec'; [|done]. apply N.eqb_eq in Ec' as ->. injection H as -> <-.
    exists (w ++ [34] ++ k ++ [34] ++ w2 ++ [58] ++ w3 ++ kv ++ w4).
    split; [|by constructor]. by rewrite <- !app_assoc.
Qed.

Lemma read_json_sound t v : read_json t = Some v -> json_text t v.
Proof.
  unfold read_json. destruct (read_value _ t) as [[rest v']|] eqn:E; [|done]. cbn [mbind option_bind].
  apply (proj1 (read_sound _)) in E as (w & k & -> & Hw & Hk).
  destruct (skip_space_split rest) as (w' & Hw' & Hs & _). destruct (skip_space rest); [|done].
  intros [= ->]. rewrite Hs, app_nil_r. exists w, k, w'. by split_and!.
Qed.
