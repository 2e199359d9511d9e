(** Strings between JavaScript and Rust (C126). *)
From Verif.model Require Import Base Utf8 Border.
From Verif.spec Require Import Border_spec.
From Verif.proofs Require Import Utf8_facts.

Lemma is_high_spec u : is_high u = true <-> 55296 <= u < 56320.
Proof. unfold is_high. rewrite andb_true_iff, !N.leb_le. lia. Qed.
Lemma is_low_spec u : is_low u = true <-> 56320 <= u < 57344.
Proof. unfold is_low. rewrite andb_true_iff, !N.leb_le. lia. Qed.
Lemma is_scalar_spec c : is_scalar c = true <-> c < 55296 \/ 57344 <= c <= 1114111.
Proof. unfold is_scalar. rewrite orb_true_iff, andb_true_iff, N.ltb_lt, !N.leb_le. lia. Qed.

(** Two elements at a time. *)
Lemma pairs_ind (R : list N -> Prop) : R [] -> (forall a, R [a]) ->
  (forall a b r, R r -> R (b :: r) -> R (a :: b :: r)) -> forall u, R u.
Proof.
  intros H0 H1 H2 u. assert (R u /\ forall a, R (a :: u)) as [? _]; [|done].
  induction u as [|b u [IH1 IH2]]; [done|]. split; [done|]. intros a. by apply H2.
Qed.
Lemma points_pair a b r : is_high a = true -> is_low b = true ->
  points (a :: b :: r) = 65536 + (a - 55296) * 1024 + (b - 56320) :: points r.
Proof. intros Ha Hb. cbn [points]. by rewrite Ha, Hb. Qed.
Lemma points_single a b r : is_high a && is_low b = false -> points (a :: b :: r) = a :: points (b :: r).
Proof. intros H. cbn [points]. by rewrite H. Qed.

Lemma utf16_cons c s : utf16 (c :: s) = utf16_char c ++ utf16 s.
Proof. done. Qed.
Lemma utf16_small c s : c < 65536 -> utf16 (c :: s) = c :: utf16 s.
Proof. intros H. rewrite utf16_cons. unfold utf16_char. apply N.ltb_lt in H as ->. done. Qed.
Lemma pair_char h l : 55296 <= h < 56320 -> 56320 <= l < 57344 ->
  utf16_char (65536 + (h - 55296) * 1024 + (l - 56320)) = [h; l].
Proof.
  intros Hh Hl. unfold utf16_char. assert ((65536 + (h - 55296) * 1024 + (l - 56320) <? 65536) = false) as ->.
  { apply N.ltb_ge. lia. }
  replace (65536 + (h - 55296) * 1024 + (l - 56320) - 65536) with ((l - 56320) + (h - 55296) * 1024) by lia.
  rewrite N.div_add, N.mod_add by lia. rewrite N.div_small, N.mod_small by lia. f_equal; [lia|]. f_equal. lia.
Qed.
(** Nothing is lost by taking code points. *)
Lemma utf16_points u : units u -> utf16 (points u) = u.
Proof.
  induction u as [|a|a b r IH1 IH2] using pairs_ind; intros U; [done| |].
  - apply Forall_cons in U as [Ha _]. cbn [points]. rewrite utf16_small; [done|exact Ha].
  - apply Forall_cons in U as [Ha U]. destruct (is_high a && is_low b) eqn:E.
    + apply andb_true_iff in E as [E1 E2]. rewrite points_pair by done. rewrite utf16_cons, pair_char by (by apply is_high_spec || by apply is_low_spec).
      apply Forall_cons in U as [_ U]. by rewrite (IH1 U).
    + rewrite points_single by done. rewrite utf16_small by exact Ha. by rewrite (IH2 U).
Qed.
Lemma points_inj u v : units u -> units v -> points u = points v -> u = v.
Proof. intros Hu Hv E. rewrite <- (utf16_points u), <- (utf16_points v) by done. by rewrite E. Qed.

Lemma points_cons_small c u : is_high c = false -> points (c :: u) = c :: points u.
Proof. intros H. destruct u as [|b r]; [done|]. apply points_single. by rewrite H. Qed.
Lemma points_utf16 s : valid_str s -> points (utf16 s) = s.
Proof.
  induction s as [|c s IH]; intros V; [done|]. apply Forall_cons in V as [Hc V]. apply is_scalar_spec in Hc.
  destruct (N.lt_ge_cases c 65536) as [L|L].
  - rewrite utf16_small by done. rewrite points_cons_small; [by rewrite IH|].
    destruct (is_high c) eqn:E; [apply is_high_spec in E; lia|done].
  - rewrite utf16_cons. unfold utf16_char. assert ((c <? 65536) = false) as -> by (apply N.ltb_ge; lia).
    assert ((c - 65536) / 1024 < 1024) by (apply N.div_lt_upper_bound; lia).
    assert ((c - 65536) mod 1024 < 1024) by (apply N.mod_lt; lia).
    cbn [app]. rewrite points_pair by (apply is_high_spec || apply is_low_spec; lia). rewrite (IH V). f_equal.
    pose proof (N.div_mod (c - 65536) 1024). lia.
Qed.

(** ** Spelling *)
Lemma spells_points u s : spells u s -> valid_str s /\ units u /\ points u = s.
Proof.
  induction 1 as [|c u s Hc Sc S (V & U & IH)|h l u s Hh Hl S (V & U & IH)].
  - split; [constructor|]. split; [constructor|done].
  - split; [by constructor|]. split; [by constructor|]. rewrite points_cons_small; [by rewrite IH|].
    apply is_scalar_spec in Sc. destruct (is_high c) eqn:E; [apply is_high_spec in E; lia|done].
  - split; [constructor; [apply is_scalar_spec; lia|done]|].
    split; [constructor; [lia|]; constructor; [lia|done]|].
    rewrite points_pair by (by apply is_high_spec || by apply is_low_spec). by rewrite IH.
Qed.
Lemma spells_utf16 s : valid_str s -> spells (utf16 s) s.
Proof.
  induction s as [|c s IH]; intros V; [constructor|]. apply Forall_cons in V as [Hc V].
  destruct (N.lt_ge_cases c 65536) as [L|L].
  - rewrite utf16_small by done. constructor; [done..|by apply IH].
  - pose proof Hc as Hc'. apply is_scalar_spec in Hc'.
    assert ((c - 65536) / 1024 < 1024) by (apply N.div_lt_upper_bound; lia).
    assert ((c - 65536) mod 1024 < 1024) by (apply N.mod_lt; lia).
    rewrite utf16_cons. unfold utf16_char. assert ((c <? 65536) = false) as -> by (apply N.ltb_ge; lia).
    cbn [app]. replace c with (2 ^ 16 + (55296 + (c - 65536) / 1024 - 55296) * 2 ^ 10 + (56320 + (c - 65536) mod 1024 - 56320)) at 3.
    + constructor; [lia..|by apply IH].
    + pose proof (N.div_mod (c - 65536) 1024). lia.
Qed.

(** ** Passing strings in *)
Lemma scalar_points_valid u : Forall (fun x => x < 2 ^ 16) u -> valid_str (scalar_points u).
Proof.
  intros _. unfold scalar_points. apply Forall_map, Forall_forall. intros c _. cbn. destruct (is_scalar c) eqn:E; done.
Qed.
Lemma pass_string_bytes u : pass_string u = utf8 (scalar_points u).
Proof.
  induction u as [|a r IH]; [done|]. cbn [pass_string]. destruct (a <=? 127) eqn:E; [|done]. apply N.leb_le in E.
  unfold scalar_points. rewrite points_cons_small.
  2: { destruct (is_high a) eqn:F; [apply is_high_spec in F; lia|done]. }
  cbn [map]. assert (is_scalar a = true) as -> by (apply is_scalar_spec; lia).
  fold (scalar_points r). unfold utf8 in *. cbn [map concat]. rewrite <- IH. unfold utf8_char.
  assert ((a <? 128) = true) as -> by (apply N.ltb_lt; lia). done.
Qed.
Lemma passed_in u : units u -> utf8_decode (pass_string u) = Some (scalar_points u) /\ valid_str (scalar_points u).
Proof.
  intros U. pose proof (scalar_points_valid u U) as V. split; [|done]. rewrite pass_string_bytes. by apply utf8_decode_encode.
Qed.

(** ** In and out again *)
Lemma high_at_cons a u i : high_at (a :: u) (S i) <-> high_at u i.
Proof. done. Qed.
Lemma low_at_cons a u i : low_at (a :: u) (S i) <-> low_at u i.
Proof. done. Qed.
Lemma high_at_0 a u : high_at (a :: u) 0 <-> is_high a = true.
Proof. rewrite is_high_spec. split; [intros (x & [= ->] & H); done|]. intros H. by exists a. Qed.
Lemma low_at_0 a u : low_at (a :: u) 0 <-> is_low a = true.
Proof. rewrite is_low_spec. split; [intros (x & [= ->] & H); done|]. intros H. by exists a. Qed.
Lemma not_both a : is_high a = true -> is_low a = true -> False.
Proof. rewrite is_high_spec, is_low_spec. lia. Qed.
Lemma lone_shift a u i : ~ (high_at (a :: u) 0 /\ low_at u 0) -> lone_at (a :: u) (S i) <-> lone_at u i.
Proof.
  intros N. unfold lone_at. rewrite high_at_cons, !low_at_cons. destruct i as [|i]; [|by rewrite high_at_cons].
  split; intros [H|[H K]]; [by left|right|by left|right]; (split; [done|]); [done|]. intros F. tauto.
Qed.
Lemma repl_single c : c < 2 ^ 16 -> utf16_char (if is_scalar c then c else 65533) = [if is_scalar c then c else 65533].
Proof. intros H. unfold utf16_char. destruct (is_scalar c); [|done]. apply N.ltb_lt in H. change (2 ^ 16) with 65536 in H. by rewrite H. Qed.
Lemma lone_single a u : a < 2 ^ 16 -> ~ (is_high a = true /\ low_at u 0) -> lone_at (a :: u) 0 <-> is_scalar a = false.
Proof.
  intros U N. unfold lone_at. rewrite high_at_0, low_at_0, low_at_cons.
  assert (is_scalar a = false <-> is_high a = true \/ is_low a = true) as ->.
  { rewrite is_high_spec, is_low_spec, <- not_true_iff_false, is_scalar_spec. change (2 ^ 16) with 65536 in U. lia. }
  tauto.
Qed.
Lemma mended_scalar u : units u -> mended u (utf16 (scalar_points u)).
Proof.
  assert (Single : forall a u, a < 2 ^ 16 -> ~ (is_high a = true /\ low_at u 0) ->
    mended u (utf16 (scalar_points u)) -> points (a :: u) = a :: points u -> mended (a :: u) (utf16 (scalar_points (a :: u)))).
  { intros a v Ua N [L M] E. unfold scalar_points. rewrite E. cbn [map]. rewrite utf16_cons, repl_single by done. fold (scalar_points v).
    cbn [app]. split; [simpl; by rewrite L|]. intros [|i]; cbn [lookup list_lookup].
    - rewrite (lone_single _ _ Ua N). destruct (is_scalar a); split; intros H; done.
    - rewrite lone_shift; [apply M|]. by rewrite high_at_0. }
  induction u as [|a|a b r IH1 IH2] using pairs_ind; intros U.
  - split; [done|]. intros i. split; [|done]. intros [[(x & H & _) _]|[(x & H & _) _]]; done.
  - apply Forall_cons in U as [Ua _]. apply Single; [done|intros [_ (x & H & _)]; done| |done].
    split; [done|]. intros i. split; [|done]. intros [[(x & H & _) _]|[(x & H & _) _]]; done.
  - apply Forall_cons in U as [Ua U]. destruct (is_high a && is_low b) eqn:E.
    + apply andb_true_iff in E as [E1 E2]. pose proof (proj1 (is_high_spec a) E1) as Ha. pose proof (proj1 (is_low_spec b) E2) as Hb.
      apply Forall_cons in U as [_ U]. destruct (IH1 U) as [L M]. unfold scalar_points. rewrite points_pair by done. cbn [map].
      assert (is_scalar (65536 + (a - 55296) * 1024 + (b - 56320)) = true) as -> by (apply is_scalar_spec; lia).
      rewrite utf16_cons, pair_char by done. fold (scalar_points r). cbn [app]. split; [simpl; by rewrite L|].
      intros [|[|i]]; cbn [lookup list_lookup].
      * split; [|done]. unfold lone_at. rewrite high_at_0, low_at_0, low_at_cons, low_at_0. intros [[_ H]|[H _]]; [done|].
        destruct (not_both a); done.
      * split; [|done]. unfold lone_at. rewrite !high_at_cons, !low_at_cons, high_at_0, low_at_0, high_at_0.
        intros [[H _]|[_ H]]; [destruct (not_both b); done|done].
      * assert (S : lone_at (a :: b :: r) (S (S i)) <-> lone_at r i).
        { rewrite <- (lone_shift b r i) by (rewrite high_at_0; intros [H _]; destruct (not_both b); done).
          unfold lone_at. rewrite !high_at_cons, !low_at_cons. destruct i; done. }
        rewrite S. apply M.
    + apply Single; [done|rewrite low_at_0; by rewrite <- andb_true_iff, E|by apply IH2|by apply points_single].
Qed.
Lemma in_out u : units u -> exists v, get_string (pass_string u) = Some v /\ mended u v.
Proof.
  intros U. unfold get_string. destruct (passed_in u U) as [-> _]. cbn. eexists. split; [done|]. by apply mended_scalar.
Qed.
Lemma lone_replaced u i : lone_at u i -> u !! i <> Some 65533.
Proof. intros [[(x & -> & H) _]|[(x & -> & H) _]] [= E]; lia. Qed.
Lemma lone_dec u i : lone_at u i \/ ~ lone_at u i.
Proof.
  assert (H : forall j, high_at u j \/ ~ high_at u j).
  { intros j. unfold high_at. destruct (u !! j) as [x|]; [|right; intros (y & [=] & _)].
    destruct (decide (55296 <= x < 56320)); [left; eauto|right; intros (y & [= <-] & ?); done]. }
  assert (L : forall j, low_at u j \/ ~ low_at u j).
  { intros j. unfold low_at. destruct (u !! j) as [x|]; [|right; intros (y & [=] & _)].
    destruct (decide (56320 <= x < 57344)); [left; eauto|right; intros (y & [= <-] & ?); done]. }
  unfold lone_at. destruct (H i), (L i), (L (S i)); try tauto; (destruct i as [|i]; [tauto|]; destruct (H i); tauto).
Qed.
Lemma in_out_same u : units u -> get_string (pass_string u) = Some u <-> well_formed u.
Proof.
  intros U. destruct (in_out u U) as (v & -> & L & M). split.
  - intros [= ->] i Hi. apply (lone_replaced u i Hi). by apply M.
  - intros W. f_equal. apply list_eq. intros i. apply M, W.
Qed.
Lemma out_in s : valid_str s -> exists u, get_string (utf8 s) = Some u /\ spells u s /\ pass_string u = utf8 s.
Proof.
  intros V. exists (utf16 s). unfold get_string. rewrite utf8_decode_encode by done. split; [done|]. split; [by apply spells_utf16|].
  rewrite pass_string_bytes. unfold scalar_points. rewrite points_utf16 by done. f_equal.
  clear -V. induction V as [|c s Hc V IH]; [done|]. cbn [map]. by rewrite Hc, IH.
Qed.
