(** C128, C129: suggestions, from the catalogue to what choosing one delivers. *)
From Verif.model Require Import Base F32 Utf8 Prim Coll Data Gram Indexer Nodes Classic Lit Raw Js Lib Access.
From Verif.spec Require Import Spec Data_spec Gram_spec Classic_spec Raw_spec Js_spec Lib_spec End_spec Reorder_spec Suggest_spec.
From Verif.proofs Require Import Base_facts Data_facts File_facts Raw_facts Raw_props Js_facts Lib_facts End_facts End_props Reorder_end Suggest_facts.
From Coq Require Import Lia.

(** ** Perfect agreement *)
Lemma utf8_len_ascii s : lenN (utf8 s) = lenN s -> ascii s.
Proof.
  induction s as [|c s IH]; [constructor|]. intros H. change (utf8 (c :: s)) with (utf8_char c ++ utf8 s) in H.
  rewrite lenN_app, lenN_cons in H. pose proof (utf8_len s).
  assert (1 <= lenN (utf8_char c) /\ (lenN (utf8_char c) = 1 -> c < 128)) as [L1 L2].
  { unfold utf8_char. destruct (N.ltb_spec c 128); [by cbn|]. destruct (c <? 2048); [by cbn|]. by destruct (c <? 65536). }
  constructor; [apply L2; lia|]. apply IH. lia.
Qed.
Lemma agreeing_all a : forall b, agreeing a b = lenN a <-> exists rest, b = a ++ rest.
Proof.
  induction a as [|x a IH]; intros b.
  - split; [by exists b|done].
  - destruct b as [|y b]; cbn [agreeing]; [rewrite lenN_cons; split; [lia|by intros [rest [=]]]|].
    pose proof (agreeing_le a b). rewrite lenN_cons. destruct (decide (x = y)) as [->|Ne].
    + split.
      * intros H1. destruct (proj1 (IH b)) as [rest ->]; [lia|]. by exists rest.
      * intros [rest [= ->]]. rewrite (proj2 (IH (a ++ rest))); [lia|]. by exists rest.
    + split; [lia|]. intros [rest [= -> _]]. done.
Qed.
Lemma extends_agree a b : extends a b -> 
  agreeing a b = N.min (lenN (utf8 a)) (lenN (utf8 b)) /\ 3 <= N.min (lenN (utf8 a)) (lenN (utf8 b)).
Proof.
  intros (A & L & rest & ->). rewrite (proj2 (agreeing_all a (a ++ rest))) by by exists rest.
  assert (E : utf8 (a ++ rest) = utf8 a ++ utf8 rest) by (unfold utf8; by rewrite map_app, concat_app).
  rewrite E, lenN_app, (ascii_len a A). unfold lenN in *. lia.
Qed.
Lemma perfect a b : agreeing a b = N.min (lenN (utf8 a)) (lenN (utf8 b)) /\ 3 <= N.min (lenN (utf8 a)) (lenN (utf8 b)) <-> one_extends a b.
Proof.
  split.
  - intros [H L]. pose proof (agreeing_le a b). pose proof (utf8_len a). pose proof (utf8_len b).
    destruct (N.le_ge_cases (lenN (utf8 a)) (lenN (utf8 b))) as [C|C].
    + left. assert (E : agreeing a b = lenN a) by lia. split; [apply utf8_len_ascii; lia|].
      split; [unfold lenN in *; lia|]. by apply agreeing_all.
    + right. assert (E : agreeing b a = lenN b) by (rewrite agreeing_sym; lia). split; [apply utf8_len_ascii; lia|].
      split; [unfold lenN in *; lia|]. by apply agreeing_all.
  - intros [E|E]; [by apply extends_agree|]. rewrite agreeing_sym, N.min_comm. by apply extends_agree.
Qed.

(** ** The first related tag *)
Lemma splits_word w : 32 ∉ w -> splits w [w].
Proof. intros H. split; [exists w, []; simpl; by rewrite app_nil_r|]. by repeat constructor. Qed.
Lemma word_suggests gi cl w : 32 ∉ w -> lenN (utf8 w) < 4096 ->
  forall i t, first_related w (cl_tags cl) i t ->
  tag_suggestion (loaded gi cl) w = Done (TagSuggestion (JSTag cl (t_id t)) w).
Proof.
  intros Hw Hl i t (Hi & Rt & First).
  assert (PW : pairs [w] (cl_tags cl) = map (fun t => (w, t)) (cl_tags cl)) by (unfold pairs; simpl; by rewrite app_nil_r).
  assert (Sh : forall x, x ∈ pairs [w] (cl_tags cl) -> shorter x < 4096).
  { intros x Hx. rewrite PW in Hx. apply elem_of_list_fmap in Hx as (t' & -> & _). unfold shorter. cbn [fst snd]. lia. }
  pose proof (suggestion_exact gi cl w [w] (splits_word w Hw) Sh) as S. rewrite PW in S.
  apply perfect in Rt as [At Lt].
  assert (St : similar (w, t)) by (unfold similar, shorter; cbn [fst snd]; lia).
  assert (Ht : (w, t) ∈ map (fun t => (w, t)) (cl_tags cl)) by (apply elem_of_list_fmap; exists t; split; [done|by eapply elem_of_list_lookup_2]).
  destruct (tag_suggestion (loaded gi cl) w) as [r| | |]; [|exfalso; by apply (S _ Ht)|done|done].
  destruct S as (k & t' & (j & Hj & Sj & Best & Before) & ->).
  rewrite list_lookup_fmap in Hj. apply fmap_Some in Hj as (t0 & Hj & [= -> <-]).
  assert (Rj : one_extends w (t_name t')).
  { apply perfect. split; [|apply Sj]. pose proof (agreeing_le w (t_name t')). pose proof (utf8_len w). pose proof (utf8_len (t_name t')).
    specialize (Best i (w, t)). rewrite list_lookup_fmap, Hi in Best. specialize (Best eq_refl St).
    unfold closer, shorter in Best. cbn [fst snd] in Best. rewrite At in Best.
    assert (M : N.min (lenN (utf8 w)) (lenN (utf8 (t_name t))) * N.min (lenN (utf8 w)) (lenN (utf8 (t_name t'))) <=
      agreeing w (t_name t') * N.min (lenN (utf8 w)) (lenN (utf8 (t_name t)))) by lia.
    rewrite (N.mul_comm (agreeing _ _)) in M. apply N.mul_le_mono_pos_l in M; lia. }
  assert (j = i) as ->.
  { destruct (Nat.lt_trichotomy j i) as [C|[C|C]]; [|done|].
    - exfalso. by apply (First j t' C Hj).
    - exfalso. specialize (Before i (w, t) C). rewrite list_lookup_fmap, Hi in Before. specialize (Before eq_refl St).
      unfold closer, shorter in Before. cbn [fst snd] in Before. rewrite At in Before. apply perfect in Rj as [Aj Lj]. rewrite Aj in Before. lia. }
  rewrite Hi in Hj. by injection Hj as ->.
Qed.
Global Instance one_extends_dec a b : Decision (one_extends a b).
Proof.
  destruct (decide (agreeing a b = N.min (lenN (utf8 a)) (lenN (utf8 b)) /\ 3 <= N.min (lenN (utf8 a)) (lenN (utf8 b)))) as [H|H].
  - left. by apply perfect.
  - right. intros C. by apply H, perfect.
Defined.
Lemma first_exists w (tags : list tag) : forall i t, tags !! i = Some t -> one_extends w (t_name t) ->
  exists j t', (j <= i)%nat /\ first_related w tags j t'.
Proof.
  induction tags as [|t0 tags IH]; intros i t Hi Ht; [done|].
  destruct (decide (one_extends w (t_name t0))) as [H0|H0].
  - exists O, t0. split; [lia|]. split; [done|]. split; [done|]. intros; lia.
  - destruct i as [|i]; [injection Hi as ->; done|]. destruct (IH i t Hi Ht) as (j & t' & L & H1 & H2 & H3).
    exists (S j), t'. split; [lia|]. split; [done|]. split; [done|]. intros [|k] t2 Hk H; [by injection H as <-|].
    apply (H3 k t2); [lia|done].
Qed.
Lemma name_suggests gi cl i t : tag_positions (cl_tags cl) -> (cl_tags cl : list tag) !! i = Some t ->
  ascii (t_name t) -> (3 <= length (t_name t))%nat -> lenN (t_name t) < 4096 -> 32 ∉ t_name t ->
  tag_suggestion (loaded gi cl) (t_name t) = Done (TagSuggestion (JSTag cl (t_id t)) (t_name t)) <->
  forall j t', (j < i)%nat -> (cl_tags cl : list tag) !! j = Some t' -> ~ one_extends (t_name t) (t_name t').
Proof.
  intros Hpos Hi A L3 L H32.
  assert (Rt : one_extends (t_name t) (t_name t)) by (left; split; [done|]; split; [done|]; exists []; by rewrite app_nil_r).
  destruct (first_exists (t_name t) _ i t Hi Rt) as (j & t' & Lj & F).
  rewrite (word_suggests gi cl (t_name t) H32 ltac:(by rewrite ascii_len) j t' F). destruct F as (Hj & Rj & Fj). split.
  - intros [= E]. rewrite (Hpos _ _ Hj), (Hpos _ _ Hi) in E. apply Nat2N.inj in E as ->. exact Fj.
  - intros First. destruct (Nat.eq_dec j i) as [->|Ne].
    + rewrite Hi in Hj. by injection Hj as ->.
    + exfalso. apply (First j t'); [lia|done..].
Qed.
Lemma beginning_suggests gi cl w i t : 32 ∉ w -> lenN (utf8 w) < 4096 -> (cl_tags cl : list tag) !! i = Some t -> one_extends w (t_name t) ->
  exists j t', (j <= i)%nat /\ first_related w (cl_tags cl) j t' /\ tag_suggestion (loaded gi cl) w = Done (TagSuggestion (JSTag cl (t_id t')) w).
Proof.
  intros H32 L Hi R. destruct (first_exists w _ i t Hi R) as (j & t' & Lj & F). exists j, t'. split; [done|]. split; [done|].
  by eapply word_suggests.
Qed.

(** ** Choosing what is suggested *)
Lemma suggestion_known gi cl query r : tag_suggestion (loaded gi cl) query = Done r ->
  exists t ws, t ∈ cl_tags cl /\ ts_tag r = JSTag cl (t_id t) /\ splits query ws /\ ts_input r ∈ ws /\
    good_b (ts_input r, t) = true.
Proof.
  intros S. destruct (keywords_exist query) as (ws & W & _). pose proof (suggestion_rounded gi cl query ws W) as R.
  rewrite S in R. destruct R as (k & t & (i & Hi & G & _) & ->). apply elem_of_list_lookup_2, elem_of_pairs in Hi as [Hk Ht].
  by exists t, ws.
Qed.
(** The name can be asked for and the tag chosen, whatever the file was. *)
Lemma suggestion_usable P bytes gi cl query r : deserialize_all P ngram_index_size bytes = Done (gi, cl) ->
  tag_suggestion (loaded gi cl) query = Done r ->
  exists t id ws, tag_at cl id t /\ ts_get_tag r = JSTag cl id /\ t_id t = id /\ 
    jt_get_name (ts_get_tag r) = Done (t_name t) /\
    splits query ws /\ ts_get_input r ∈ ws /\
    (shorter (ts_get_input r, t) < 2 ^ 21 -> similar (ts_get_input r, t)) /\
    th_toggle (th_new cl) (ts_get_tag r) = Done (TagHandler cl {[id]} [] ∅, []).
Proof.
  intros E S. destruct (suggestion_known gi cl query r S) as (t & ws & Ht & Et & W & Hk & G).
  destruct (load_consistent _ _ _ _ _ E) as (_ & (_ & _ & _ & Pos)).
  apply elem_of_list_lookup in Ht as (i & Hi). pose proof (Pos _ _ Hi) as Hid.
  exists t, (t_id t), ws. split; [unfold tag_at; by rewrite Hid, Nat2N.id|]. split; [done|]. split; [done|].
  unfold ts_get_tag, ts_get_input. rewrite Et.
  assert (L : getN (cl_tags cl) (t_id t) = Some t) by (rewrite getN_lookup, Hid, Nat2N.id; exact Hi).
  split; [unfold jt_get_name; cbn [jt_handle jt_index]; by rewrite L|]. split; [done|]. split; [done|].
  split; [intros Hl; by apply good_similar|].
  unfold th_toggle, jt_get_id. cbn [jt_handle jt_index]. rewrite L. cbn [unwrap mbind res_bind].
  unfold toggle_key. cbn [th_active th_new]. destruct (decide (t_id t ∈ (∅ : gset N))) as [C|C]; [by apply elem_of_empty in C|].
  cbn. by rewrite right_id_L by apply _.
Qed.
Lemma suggestion_state st cl gi query r : s_classic st = Some cl -> tag_suggestion st query = Done r ->
  tag_suggestion (loaded gi cl) query = Done r.
Proof.
  intros C S. unfold tag_suggestion in *. destruct (s_classic_dead st); [done|]. rewrite C in S. exact S.
Qed.
Section chosen.
Context (low : N -> list N) (parse : rstr -> option f32) (P Q : platform) (bo : build_order) (ro : order_of (rstr * (product * f32))) (so : ser_order)
  (input : list raw_product).
Context (Hbo : valid_build_order bo) (Hso : valid_ser_order so) (Hlow : low_ok low) (Hparse : parse_ok parse)
  (Hfit : raw_fits Q low input) (Hlim : total_grams (map (raw_text low) input) < 2 ^ 32) (ND : NoDup (map r_id input)).
Lemma suggestion_delivers u ops1 bytes ops2 : index_and_serialize low parse P bo ro so input = Done bytes ->
  let st := lib_run low u Q lib_init ops1 in
  loads Q st (InitOp bytes) -> no_loads low u Q (lib_step low u Q st (InitOp bytes)) ops2 ->
  let st1 := lib_run low u Q lib_init (ops1 ++ InitOp bytes :: ops2) in
  forall query r, tag_suggestion st1 query = Done r ->
  exists cl name h, s_classic st1 = Some cl /\ jt_get_name (ts_get_tag r) = Done name /\
    (exists raw, raw ∈ input /\ name ∈ r_tags raw) /\
    th_toggle (th_new cl) (ts_get_tag r) = Done (h, []) /\
    forall o text categories order st2 st3 p p', valid_search_order o -> active_options_exist categories ->
      s_classic st1 = Some (ch_handle categories) ->
      search low u o st1 text categories (th_new cl) order [] = (st2, Done p) ->
      search low u o st1 text categories h order [] = (st3, Done p') ->
      forall id, delivered p' id <-> delivered p id /\ exists raw, raw ∈ input /\ r_id raw = id /\ name ∈ r_tags raw.
Proof.
  intros E st L NL st1 query r S.
  destruct (indexed_inv _ _ _ _ _ _ _ _ _ E) as (c & cl0 & gi0 & O & I & B).
  destruct (last_loaded low u Q ops1 _ ops2 L NL) as (gi & cl & E' & I1 & I2 & _).
  pose proof (suggestion_state _ _ gi _ _ I2 S) as S'.
  destruct (suggestion_usable Q bytes gi cl query r E' S') as (t & id & ws & Ht & Et & Eid & En & _ & _ & _ & T).
  pose proof (file_loads low parse P Q bo so input Hbo Hso Hlow Hparse Hfit Hlim c cl0 gi0 [] O I) as F.
  rewrite app_nil_r, <- B, E' in F. apply done_inj in F. injection F as -> ->.
  assert (SC : same_classic cl0 (stored_classic cl0)) by by right.
  exists (stored_classic cl0), (t_name t), (TagHandler (stored_classic cl0) {[id]} [] ∅).
  split; [done|]. split; [done|]. split; [|split; [done|]].
  - destruct (tag_at_stored _ _ _ _ SC Ht) as (t' & Ht' & E1 & _). rewrite <- E1.
    destruct (optimize_tags parse bo input c cl0 (ltac:(apply Hbo)) O) as (_ & M & _).
    destruct (proj1 (M (t_name t'))) as (i & tags & Hi & Hin).
    { apply elem_of_list_fmap. exists t'. split; [done|]. by eapply elem_of_list_lookup_2. }
    rewrite list_lookup_fmap in Hi. apply fmap_Some in Hi as (raw & Hi & ->). exists raw. split; [by eapply elem_of_list_lookup_2|done].
  - intros o text categories order st2 st3 p p' Ho Hcat C1 S1 S2 id'.
    assert (Hok : handlers_ok categories (th_new (stored_classic cl0))).
    { split; [done|]. intros k Hk. cbn in Hk. by apply elem_of_empty in Hk. }
    assert (Hok' : handlers_ok categories (TagHandler (stored_classic cl0) {[id]} [] ∅)).
    { split; [done|]. intros k Hk. cbn in Hk. apply elem_of_singleton in Hk as ->. by exists t. }
    destruct (delivered_iff low parse P Q bo ro so input Hbo Hso Hlow Hparse Hfit Hlim ND u ops1 bytes ops2 E L NL
      o text categories _ order st2 p Ho Hok C1 I2 S1) as (c1 & cl1 & gi1 & res1 & O1 & J1 & G1 & D1).
    destruct (delivered_iff low parse P Q bo ro so input Hbo Hso Hlow Hparse Hfit Hlim ND u ops1 bytes ops2 E L NL
      o text categories _ order st3 p' Ho Hok' C1 I2 S2) as (c2 & cl2 & gi2 & res2 & O2 & J2 & G2 & D2).
    rewrite O1 in O2. injection O2 as <- <-. rewrite J1 in J2. injection J2 as <-. rewrite G1 in G2. injection G2 as <-.
    rewrite D1, D2. unfold suits. split.
    + intros (raw & x & Hr & Hi & Hx & So & St). split.
      * exists raw, x. split; [done|]. split; [done|]. split; [done|]. split; [done|].
        intros t0 (k & tg & Hk & _). cbn in Hk. by apply elem_of_empty in Hk.
      * exists raw. split; [done|]. split; [done|]. apply St. exists id, t. split; [cbn; by apply elem_of_singleton|done].
    + intros [(raw & x & Hr & Hi & Hx & So & _) (raw' & Hr' & Hi' & Hn)].
      assert (raw' = raw) as ->.
      { apply elem_of_list_lookup in Hr as (i & Hr). apply elem_of_list_lookup in Hr' as (j & Hr').
        assert (j = i) as ->; [|congruence]. apply (NoDup_lookup (map r_id input) j i id' ND); rewrite list_lookup_fmap.
        - rewrite Hr'. simpl. by rewrite Hi'.
        - rewrite Hr. simpl. by rewrite Hi. }
      exists raw, x. split; [done|]. split; [done|]. split; [done|]. split; [done|].
      intros t0 (k & tg & Hk & Hat & <-). cbn in Hk. apply elem_of_singleton in Hk as ->.
      unfold tag_at in *. cbn [th_handle] in Hat. rewrite Ht in Hat. by injection Hat as <-.
Qed.
End chosen.
