(** UTF-8: encoding and strict decoding are inverse; string order. *)
From Verif.model Require Import Base Utf8.
From Verif.proofs Require Import Base_facts Sort_facts.
From Coq Require Import ZifyBool ZifyNat ZifyN.
Ltac Zify.zify_post_hook ::= Z.div_mod_to_equations.

Lemma utf8_cons c s : utf8 (c :: s) = utf8_char c ++ utf8 s.
Proof. done. Qed.
Lemma utf8_app s t : utf8 (s ++ t) = utf8 s ++ utf8 t.
Proof. unfold utf8. by rewrite map_app, concat_app. Qed.
Lemma utf8_char_length c : (1 <= length (utf8_char c) <= 4)%nat.
Proof. unfold utf8_char. repeat case_match; simpl; lia. Qed.
Lemma utf8_char_nonempty c : utf8_char c <> [].
Proof. pose proof (utf8_char_length c). destruct (utf8_char c); simpl in *; [lia|done]. Qed.
Lemma char_len_bound c : 1 <= char_len c <= 4.
Proof. unfold char_len, lenN. pose proof (utf8_char_length c). lia. Qed.
Lemma str_len_app s t : str_len (s ++ t) = str_len s + str_len t.
Proof. unfold str_len. by rewrite utf8_app, lenN_app. Qed.
Lemma str_len_cons c s : str_len (c :: s) = char_len c + str_len s.
Proof. unfold str_len, char_len. by rewrite utf8_cons, lenN_app. Qed.
Lemma str_len_nil : str_len [] = 0.
Proof. done. Qed.
Lemma str_len_ge_length s : lenN s <= str_len s.
Proof.
  induction s as [|c s IH]; [done|]. rewrite str_len_cons, lenN_cons.
  pose proof (char_len_bound c). lia.
Qed.
Lemma str_len_0 s : str_len s = 0 <-> s = [].
Proof.
  split; [|by intros ->]. pose proof (str_len_ge_length s). destruct s; [done|].
  rewrite lenN_cons in *. lia.
Qed.

Lemma valid_str_app s t : valid_str (s ++ t) <-> valid_str s /\ valid_str t.
Proof. apply Forall_app. Qed.
Lemma valid_str_nil : valid_str [].
Proof. constructor. Qed.

Ltac solve_ifs := repeat match goal with
  | |- context [if ?b then _ else _] =>
    first [replace b with true by lia | replace b with false by lia]
  end.

Lemma utf8_decode_char c r : is_scalar c = true ->
  utf8_decode (utf8_char c ++ r) = cons c <$> utf8_decode r.
Proof.
  unfold is_scalar, utf8_char. intros Hc.
  destruct (N.ltb_spec c 128) as [H1|H1].
  { simpl. solve_ifs. done. }
  destruct (N.ltb_spec c 2048) as [H2|H2].
  { simpl. unfold is_cont. solve_ifs. do 2 f_equal. lia. }
  destruct (N.ltb_spec c 65536) as [H3|H3].
  { simpl. unfold is_cont.
    destruct (N.eqb_spec (224 + c / 4096) 224), (N.eqb_spec (224 + c / 4096) 237); try lia;
      solve_ifs; do 2 f_equal; lia. }
  { simpl. unfold is_cont.
    destruct (N.eqb_spec (240 + c / 262144) 240), (N.eqb_spec (240 + c / 262144) 244); try lia;
      solve_ifs; do 2 f_equal; lia. }
Qed.

Lemma utf8_decode_encode s : valid_str s -> utf8_decode (utf8 s) = Some s.
Proof.
  induction 1 as [|c s Hc Hs IH]; [done|].
  rewrite utf8_cons, utf8_decode_char by done. by rewrite IH.
Qed.

Lemma utf8_decode_sound bs s : utf8_decode bs = Some s -> valid_str s /\ utf8 s = bs.
Proof.
  revert s. induction bs as [bs IH] using (induction_ltof1 _ (@length N)); unfold ltof in IH.
  intros s. destruct bs as [|b0 r0]; simpl.
  { intros [= <-]. split; [constructor|done]. }
  assert (Hstep : forall c r s', (length r < length (b0 :: r0))%nat -> is_scalar c = true ->
    b0 :: r0 = utf8_char c ++ r -> cons c <$> utf8_decode r = Some s' ->
    valid_str s' /\ utf8 s' = b0 :: r0).
  { intros c r s' Hl Hc E H. apply fmap_Some in H as (t & Ht & ->).
    apply IH in Ht as [Hv <-]; [|done]. split; [by constructor|]. by rewrite utf8_cons, E. }
  destruct (N.ltb_spec b0 128) as [H1|H1].
  { apply Hstep; [simpl; lia|unfold is_scalar; lia|]. unfold utf8_char. solve_ifs. done. }
  destruct r0 as [|b1 r1]; [done|].
  destruct ((194 <=? b0) && (b0 <=? 223)) eqn:H2.
  { destruct (is_cont b1) eqn:C1; [|done]. unfold is_cont in C1.
    apply Hstep; [simpl; lia|unfold is_scalar; lia|]. unfold utf8_char. solve_ifs. simpl.
    do 2 (apply (f_equal2 (@cons N)); [lia|]). done. }
  destruct r1 as [|b2 r2]; [done|].
  destruct ((224 <=? b0) && (b0 <=? 239)) eqn:H3.
  { destruct (((if b0 =? 224 then 160 else 128) <=? b1) &&
              (b1 <=? (if b0 =? 237 then 159 else 191)) && is_cont b2) eqn:C; [|done].
    unfold is_cont in C.
    destruct (N.eqb_spec b0 224), (N.eqb_spec b0 237); try lia;
      (apply Hstep; [simpl; lia|unfold is_scalar; lia|]; unfold utf8_char; solve_ifs; simpl;
       do 3 (apply (f_equal2 (@cons N)); [lia|]); done). }
  destruct r2 as [|b3 r3]; [done|].
  destruct ((240 <=? b0) && (b0 <=? 244)) eqn:H4; [|done].
  destruct (((if b0 =? 240 then 144 else 128) <=? b1) &&
            (b1 <=? (if b0 =? 244 then 143 else 191)) && is_cont b2 && is_cont b3) eqn:C; [|done].
  unfold is_cont in C.
  destruct (N.eqb_spec b0 240), (N.eqb_spec b0 244); try lia;
    (apply Hstep; [simpl; lia|unfold is_scalar; lia|]; unfold utf8_char; solve_ifs; simpl;
     do 4 (apply (f_equal2 (@cons N)); [lia|]); done).
Qed.

Lemma utf8_inj s t : valid_str s -> valid_str t -> utf8 s = utf8 t -> s = t.
Proof.
  intros Hs Ht E. apply utf8_decode_encode in Hs, Ht. congruence.
Qed.
Lemma utf8_char_bytes c : is_scalar c = true -> Forall (fun b => b < 256) (utf8_char c).
Proof.
  unfold is_scalar, utf8_char. intros Hc. repeat case_match; repeat constructor; lia.
Qed.
Lemma utf8_bytes s : valid_str s -> Forall (fun b => b < 256) (utf8 s).
Proof.
  induction 1 as [|c s Hc Hs IH]; [constructor|]. rewrite utf8_cons. apply Forall_app.
  split; [by apply utf8_char_bytes|done].
Qed.

(** Decoding a concatenation after a valid prefix. *)
Lemma utf8_decode_app s bs : valid_str s -> utf8_decode (utf8 s ++ bs) = app s <$> utf8_decode bs.
Proof.
  induction 1 as [|c s Hc Hs IH]; simpl.
  - by destruct (utf8_decode bs).
  - rewrite utf8_cons, <- app_assoc, utf8_decode_char, IH by done. by destruct (utf8_decode bs).
Qed.

(** A byte prefix of a valid string that is itself valid UTF-8 is a char prefix. *)
Lemma bytes_prefix_spec p b : bytes_prefix p b = true <-> exists r, b = p ++ r.
Proof.
  revert b. induction p as [|x p IH]; intros b; simpl.
  - split; [by exists b|done].
  - destruct b as [|y b]; [split; [done|by intros [r ?]]|].
    rewrite andb_true_iff, IH, N.eqb_eq. split.
    + intros [-> [r ->]]. by exists r.
    + intros [r [= -> ->]]. eauto.
Qed.
Lemma utf8_prefix_chars s t r : valid_str s -> valid_str t -> utf8 t = utf8 s ++ r ->
  exists u, t = s ++ u.
Proof.
  intros Hs Ht E. pose proof (utf8_decode_encode t Ht) as D. rewrite E, utf8_decode_app in D by done.
  apply fmap_Some in D as (u & _ & ->). by exists u.
Qed.
Lemma starts_with_spec s p : valid_str s -> valid_str p ->
  starts_with s p = true <-> exists u, s = p ++ u.
Proof.
  intros Hs Hp. unfold starts_with. rewrite bytes_prefix_spec. split.
  - intros [r E]. eapply utf8_prefix_chars; eauto.
  - intros [u ->]. rewrite utf8_app. eauto.
Qed.

(** ** String order is code-point lexicographic order *)
Fixpoint lex_cmp (a b : list N) : comparison :=
  match a, b with
  | [], [] => Eq
  | [], _ :: _ => Lt
  | _ :: _, [] => Gt
  | x :: a', y :: b' => match N.compare x y with Eq => lex_cmp a' b' | c => c end
  end.
Lemma bytes_cmp_lex a b : bytes_cmp a b = lex_cmp a b.
Proof. revert b. induction a as [|x a IH]; intros [|y b]; simpl; try done. Qed.
Lemma lex_cmp_app p a b : lex_cmp (p ++ a) (p ++ b) = lex_cmp a b.
Proof. induction p as [|x p IH]; simpl; [done|]. by rewrite N.compare_refl. Qed.
Lemma lex_cmp_refl a : lex_cmp a a = Eq.
Proof. rewrite <- (app_nil_r a). apply (lex_cmp_app a [] []). Qed.

Lemma lex_cmp_utf8_char c d a b : is_scalar c = true -> is_scalar d = true -> c < d ->
  lex_cmp (utf8_char c ++ a) (utf8_char d ++ b) = Lt.
Proof.
  unfold is_scalar, utf8_char. intros Hc Hd Hcd.
  Local Ltac cmp_step := simpl;
    match goal with
    | |- (match ?x ?= ?y with _ => _ end) = Lt =>
      let E := fresh in destruct (N.compare_spec x y) as [E|E|E]; [|done|lia]
    end.
  destruct (N.ltb_spec c 128), (N.ltb_spec d 128); try lia;
    destruct (N.ltb_spec c 2048), (N.ltb_spec d 2048); try lia;
    destruct (N.ltb_spec c 65536), (N.ltb_spec d 65536); try lia; repeat cmp_step; lia.
Qed.
Lemma lex_cmp_sym a b : lex_cmp b a = CompOpp (lex_cmp a b).
Proof.
  revert b. induction a as [|x a IH]; intros [|y b]; simpl; try done.
  rewrite N.compare_antisym. destruct (x ?= y); simpl; auto.
Qed.
Lemma str_cmp_lex s t : valid_str s -> valid_str t -> str_cmp s t = lex_cmp s t.
Proof.
  unfold str_cmp. rewrite bytes_cmp_lex. intros Hs. revert t.
  induction Hs as [|c s Hc Hs IH]; intros t Ht.
  - destruct t as [|d t]; [done|]. rewrite utf8_cons. simpl.
    pose proof (utf8_char_nonempty d). by destruct (utf8_char d).
  - destruct t as [|d t].
    { rewrite utf8_cons. simpl. pose proof (utf8_char_nonempty c). by destruct (utf8_char c). }
    inversion Ht as [|? ? Hd Ht']; subst. rewrite !utf8_cons. simpl.
    destruct (N.compare_spec c d) as [->|E|E].
    + rewrite lex_cmp_app. by apply IH.
    + by apply lex_cmp_utf8_char.
    + rewrite lex_cmp_sym, lex_cmp_utf8_char by done. done.
Qed.
Lemma lex_cmp_eq a b : lex_cmp a b = Eq -> a = b.
Proof.
  revert b. induction a as [|x a IH]; intros [|y b]; simpl; try done.
  destruct (N.compare_spec x y) as [->|E|E]; try done. intros H. f_equal. auto.
Qed.
Lemma lex_cmp_trans a b c : lex_cmp a b <> Gt -> lex_cmp b c <> Gt -> lex_cmp a c <> Gt.
Proof.
  revert b c. induction a as [|x a IH]; intros [|y b] [|z c]; simpl; try done.
  destruct (x ?= y) eqn:E; [apply N.compare_eq_iff in E as ->| |done].
  - destruct (y ?= z); eauto.
  - destruct (y ?= z) eqn:F; [apply N.compare_eq_iff in F as ->; by rewrite E| |done].
    intros _ _. assert (x < z) as G; [|by apply N.compare_lt_iff in G as ->].
    rewrite N.compare_lt_iff in E, F. by etrans.
Qed.
Lemma lex_cmp_total : total_cmp lex_cmp.
Proof. split; [apply lex_cmp_refl|intros; apply lex_cmp_sym|apply lex_cmp_trans]. Qed.
Lemma str_cmp_total : total_cmp str_cmp.
Proof.
  unfold str_cmp. split; intros *; rewrite !bytes_cmp_lex;
    [apply lex_cmp_refl|apply lex_cmp_sym|apply lex_cmp_trans].
Qed.

Lemma str_eqb_spec a b : str_eqb a b = true <-> a = b.
Proof. unfold str_eqb. apply bool_decide_eq_true. Qed.
Lemma str_eqb_refl a : str_eqb a a = true.
Proof. by apply str_eqb_spec. Qed.
Lemma str_eqb_neq a b : str_eqb a b = false <-> a <> b.
Proof. unfold str_eqb. apply bool_decide_eq_false. Qed.

(** [split_space]: joining the segments with spaces gives the string back, and
    no segment contains a space. *)
Fixpoint join_space (l : list rstr) : rstr :=
  match l with [] => [] | [w] => w | w :: ws => w ++ 32 :: join_space ws end.
Lemma split_space_nonempty s : split_space s <> [].
Proof. destruct s; simpl; [done|]. destruct (n =? 32); [done|]. by destruct (split_space s). Qed.
Lemma split_space_join s : join_space (split_space s) = s.
Proof.
  induction s as [|c s IH]; simpl; [done|]. pose proof (split_space_nonempty s) as Hn.
  destruct (N.eqb_spec c 32) as [->|].
  - destruct (split_space s) as [|w ws]; [done|]. by rewrite <- IH.
  - destruct (split_space s) as [|w [|w' ws]]; [done| |]; by rewrite <- IH.
Qed.
Lemma split_space_no_space s : Forall (fun w => 32 ∉ w) (split_space s).
Proof.
  induction s as [|c s IH]; simpl; [by repeat constructor; inversion 1|].
  destruct (N.eqb_spec c 32); [constructor; [apply not_elem_of_nil|done]|].
  destruct (split_space s) as [|w ws]; [constructor; [|constructor]|].
  - by rewrite elem_of_list_singleton.
  - inversion IH; subst. constructor; [|done]. rewrite not_elem_of_cons. auto.
Qed.
