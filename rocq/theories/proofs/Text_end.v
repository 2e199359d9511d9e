(** C124: from the text of a catalogue to answers, with prices in cents. *)
From Coq Require Import String ZArith Reals Lia Lra ZifyN ZifyBool.
From Flocq Require Import Core.Core IEEE754.BinarySingleNaN.
From Verif.model Require Import Base F32 Utf8 Prim Coll Data Gram Indexer Nodes Classic Lit Raw Js Lib Json Parse.
From Verif.spec Require Import Spec Data_spec Gram_spec Classic_spec Raw_spec Js_spec Lib_spec End_spec Reorder_spec Choice_spec
  Sorted_spec Json_spec Parse_spec Text_spec.
From Verif.proofs Require Import Base_facts Float_facts F64_facts Json_end Parse_facts Parse_props Sorted_end Choice_end.
Local Open Scope N_scope.

Lemma survivors_ids entries l : survivors entries l -> ids_differ entries -> NoDup (map r_id (map snd l)).
Proof.
  intros [Hn Hl] Hd. rewrite map_map.
  assert (Hl' : forall key raw, (key, raw) ∈ l -> last_entry entries key raw) by (intros; by apply Hl).
  clear Hl. induction l as [|[k r] l IH]; [constructor|]. cbn [map] in *. apply NoDup_cons in Hn as [Hk Hn].
  constructor; [|apply IH; [done|]; intros; apply Hl'; by right].
  intros H. apply elem_of_list_fmap in H as ([k' r'] & E & H). apply Hk.
  assert (k = k') as ->; [|by apply (elem_of_list_fmap_1 fst) in H].
  eapply Hd; [apply Hl'; left|apply Hl'; by right|done].
Qed.

Lemma title_before_asym s t : title_before s t -> ~ title_before t s.
Proof.
  induction 1 as [c s|c d s t Hcd|c s t H IH]; intros H'; inversion H'; subst; try lia. by apply IH.
Qed.

Section text.
  Context (low : N -> list N) (P Q : platform) (mo : order_of (rstr * raw_product)) (bo : build_order)
    (ro : order_of (rstr * (product * f32))) (so : ser_order).
  Context (t : rstr) (entries : list (rstr * raw_product)).
  Context (Hmo : valid_order mo) (Hbo : valid_build_order bo) (Hso : valid_ser_order so) (Hlow : low_ok low)
    (Hv : valid_str t) (Hc : is_catalogue means entries t)
    (Hfit : raw_fits Q low (map snd entries)) (Hg : total_grams (map (raw_text low) (map snd entries)) < 2 ^ 32).

  Lemma text_input bytes : main low parse_f32 P mo bo ro so (utf8 t) = Done bytes ->
    exists l, survivors entries l /\ index_and_serialize low parse_f32 P bo ro so (map snd l) = Done bytes /\
      raw_fits Q low (map snd l) /\ total_grams (map (raw_text low) (map snd l)) < 2 ^ 32.
  Proof.
    intros Hm. rewrite (main_text _ _ _ _ _ _ _ _ _ Hv eq_refl) in Hm.
    destruct (done_catalogue low parse_f32 P mo bo ro so Hmo t bytes entries Hm Hc) as (l & Hl & Hi).
    assert (Hsub : map snd l ⊆+ map snd entries) by (by apply fmap_submseteq, survivors_sub).
    exists l. split; [done|]. split; [done|]. split; [by eapply fits_sub|].
    eapply N.le_lt_trans; [by apply grams_sub|done].
  Qed.

  Lemma text_answered u ops1 bytes ops2 : ids_differ entries -> lenN entries <= usize_max P ->
    main low parse_f32 P mo bo ro so (utf8 t) = Done bytes ->
    let st := lib_run low u Q lib_init ops1 in
    loads Q st (InitOp bytes) -> no_loads low u Q (lib_step low u Q st (InitOp bytes)) ops2 ->
    forall o query categories tags order filters st' p,
    let st1 := lib_run low u Q lib_init (ops1 ++ InitOp bytes :: ops2) in
    valid_search_order o -> handlers_ok categories tags ->
    s_classic st1 = Some (ch_handle categories) -> s_classic st1 = Some (th_handle tags) ->
    search low u o st1 query categories tags order filters = (st', Done p) ->
    Forall (fun e => exists props, plain_object e.2 props) filters ->
    exists l limit choice answer js, survivors entries l /\ cutoff_for (lenN l) limit /\
      (forall w, length w = ngram_index_size -> likeliest ngram_index_size (map (raw_text low) (map snd l)) w (choice w)) /\
      (forall w r, length w = ngram_index_size ->
         clearly_likeliest ngram_index_size (map (raw_text low) (map snd l)) w r -> choice w = r) /\
      answers_among ngram_index_size limit choice low (map snd l) query
        (fun raw => suits categories tags raw /\ let_pass parse_f32 filters raw) answer /\
      (order = None -> falling (map snd answer)) /\
      (forall n, calls pp_next n p = then_none n js) /\
      Forall2 (fun '(raw, _) j => delivers parse_f32 raw j) answer js.
  Proof.
    intros Hd Hle Hm st L NL o query categories tags order filters st' p st1 Ho Hh C1 C2 S HF.
    destruct (text_input bytes Hm) as (l & Hl & Hi & Hf' & Hg').
    assert (Hlen : lenN (map snd l) = lenN l) by (unfold lenN; by rewrite map_length).
    assert (Hll : lenN l <= lenN entries).
    { pose proof (submseteq_length _ _ (survivors_sub _ _ Hl)). unfold lenN. lia. }
    destruct (answered_with low parse_f32 P Q bo ro so (map snd l) Hbo Hso Hlow parse_f32_ok Hf' Hg'
      (survivors_ids _ _ Hl Hd) ltac:(rewrite Hlen; lia) u ops1 bytes ops2 Hi L NL o query categories tags order filters
      st' p Ho Hh C1 C2 S HF) as (limit & choice & answer & js & H1 & H2).
    rewrite Hlen in H1. exists l, limit, choice, answer, js. by split.
  Qed.

  Lemma text_sorted u ops1 bytes ops2 : all_in_cents entries ->
    main low parse_f32 P mo bo ro so (utf8 t) = Done bytes ->
    let st := lib_run low u Q lib_init ops1 in
    loads Q st (InitOp bytes) -> no_loads low u Q (lib_step low u Q st (InitOp bytes)) ops2 ->
    forall o query categories tags key filters st' p,
    let st1 := lib_run low u Q lib_init (ops1 ++ InitOp bytes :: ops2) in
    valid_search_order o -> handlers_ok categories tags ->
    search low u o st1 query categories tags (Some key) filters = (st', Done p) ->
    key ∈ [s_alphabetical; s_price_up; s_price_down] /\
    exists l p0 js0 js, survivors entries l /\
      search low u o st1 query categories tags None filters = (st1, Done p0) /\
      (forall n, calls pp_next n p0 = then_none n js0) /\ (forall n, calls pp_next n p = then_none n js) /\
      js ≡ₚ js0 /\ NoDup (map jp_sid js) /\
      exists raws, Forall2 (fun j raw => exists k, l !! N.to_nat (jp_sid j) = Some (k, raw)) js raws /\
        forall a b ra rb, (a < b)%nat -> raws !! a = Some ra -> raws !! b = Some rb -> may_precede key ra rb.
  Proof.
    intros Hk Hm st L NL o query categories tags key filters st' p st1 Ho Hh S.
    destruct (text_input bytes Hm) as (l & Hl & Hi & Hf' & Hg').
    destruct (delivered_in_order low parse_f32 P Q bo ro so (map snd l) Hbo Hso Hlow parse_f32_ok Hf' Hg'
      u ops1 bytes ops2 Hi L NL o query categories tags key filters st' p Ho Hh S)
      as (Hkey & p0 & js0 & js & S0 & C0 & C & Hp & ND & HF & HO).
    split; [done|]. exists l, p0, js0, js. do 6 (split; [done|]).
    assert (HA : forall k raw, (k, raw) ∈ l -> exists c, costs_at_most raw c) by (intros k raw H; eapply Hk; by apply Hl).
    assert (HN : prices_numeric parse_f32 (map snd l)).
    { apply Forall_forall. intros raw H. apply elem_of_list_fmap in H as ([k raw'] & -> & H).
      destruct (HA k raw' H) as (c & Hcost & Hle). destruct (costs_parse _ _ Hcost Hle) as (x & Ex & Nx & _). by exists x. }
    specialize (HO (or_intror HN)).
    exists (map (fun j => default (RawProduct [] [] [] [] [] [] [] []) (map snd l !! N.to_nat (jp_sid j))) js).
    assert (HL : forall j, j ∈ js -> exists k raw, l !! N.to_nat (jp_sid j) = Some (k, raw)).
    { intros j Hj. rewrite Forall_forall in HF. specialize (HF j Hj). rewrite map_length in HF.
      apply lookup_lt_is_Some_2 in HF as [[k raw] E]. by exists k, raw. }
    split.
    { apply Forall2_fmap_r, Forall_Forall2_diag, Forall_forall. intros j Hj.
      destruct (HL j Hj) as (k & raw & E). exists k. by rewrite E, list_lookup_fmap, E. }
    intros a b ra rb Hab Ha Hb. rewrite list_lookup_fmap in Ha, Hb.
    apply fmap_Some in Ha as (ja & Ea & ->). apply fmap_Some in Hb as (jb & Eb & ->).
    destruct (HL ja (elem_of_list_lookup_2 _ _ _ Ea)) as (k1 & r1 & E1).
    destruct (HL jb (elem_of_list_lookup_2 _ _ _ Eb)) as (k2 & r2 & E2).
    rewrite !list_lookup_fmap, E1, E2. change (may_precede key r1 r2).
    pose proof (HO a b ja jb r1 r2 Hab Ea Eb ltac:(by rewrite list_lookup_fmap, E1) ltac:(by rewrite list_lookup_fmap, E2)) as H.
    assert (N1 : s_alphabetical <> s_price_up) by (vm_compute; discriminate).
    assert (N2 : s_alphabetical <> s_price_down) by (vm_compute; discriminate).
    assert (N3 : s_price_up <> s_price_down) by (vm_compute; discriminate).
    split.
    - intros -> Hb. destruct H as [[[_ Ha]|(x1 & x2 & _ & _ & [[? _]|[? _]])]|[H _]]; [|done|done|].
      + by apply (title_before_asym _ _ Ha).
      + apply H. by left.
    - intros ka kb [Ka La] [Kb Lb]. destruct (costs_parse _ _ Ka La) as (xa & Xa & _).
      destruct (costs_parse _ _ Kb Lb) as (xb & Xb & _).
      pose proof (costs_lt_iff _ _ _ _ _ _ Ka Kb La Lb Xa Xb) as I1.
      pose proof (costs_lt_iff _ _ _ _ _ _ Kb Ka Lb La Xb Xa) as I2.
      split; intros ->.
      + destruct H as [[[? _]|(x1 & x2 & X1 & X2 & [[_ Hlt]|[? _]])]|[H _]]; [by destruct N1| |done|].
        * unfold priced in *. rewrite Xa in X1. rewrite Xb in X2. injection X1 as <-. injection X2 as <-.
          apply I1 in Hlt. lia.
        * apply N.nlt_ge. intros Hlt. apply H. right. exists xb, xa. split; [done|]. split; [done|]. left. split; [done|]. by apply I2.
      + destruct H as [[[? _]|(x1 & x2 & X1 & X2 & [[? _]|[_ Hlt]])]|[H _]]; [by destruct N2|by destruct N3| |].
        * unfold priced in *. rewrite Xa in X1. rewrite Xb in X2. injection X1 as <-. injection X2 as <-.
          apply I2 in Hlt. lia.
        * apply N.nlt_ge. intros Hlt. apply H. right. exists xb, xa. split; [done|]. split; [done|]. right. split; [done|]. by apply I1.
  Qed.
End text.

Lemma cents_let_pass filters raw k : costs_at_most raw k -> clear_bounds filters k ->
  let_pass parse_f32 filters raw <-> cents_pass filters k.
Proof.
  intros [Hk Hle] HB. destruct (costs_parse _ _ Hk Hle) as (x & Ex & [V N] & F & C).
  destruct (widened x V F) as (W1 & W2 & W3). apply Rabs_le_inv in C.
  assert (HW : forall from to, clear_bound from k -> clear_bound to k ->
    within from to (f64_of_f32 x) <-> cents_within from to k).
  { intros from to Cf Ct. split; intros [Hf Ht]; (split; intros a Ea).
    - destruct (Cf a Ea) as [Fa Ha]. specialize (Hf a Ea). apply f64_le_val in Hf; [|done|by split]. rewrite W1 in Hf.
      revert Ha. unfold Rabs. destruct (Rcase_abs _); lra.
    - destruct (Ct a Ea) as [Fa Ha]. specialize (Ht a Ea). apply f64_le_val in Ht; [|by split|done]. rewrite W1 in Ht.
      revert Ha. unfold Rabs. destruct (Rcase_abs _); lra.
    - destruct (Cf a Ea) as [Fa Ha]. specialize (Hf a Ea). apply f64_le_val; [done|by split|]. rewrite W1.
      revert Ha. unfold Rabs. destruct (Rcase_abs _); lra.
    - destruct (Ct a Ea) as [Fa Ha]. specialize (Ht a Ea). apply f64_le_val; [by split|done|]. rewrite W1.
      revert Ha. unfold Rabs. destruct (Rcase_abs _); lra. }
  split; intros H key v props Hin Hpl; (destruct (HB key v props Hin Hpl) as [B1 B2]);
    (destruct (H key v props Hin Hpl) as [Hn|[-> Hx]]; [by left|right; split; [done|]]).
  - destruct Hx as (y & Hy & Hw). unfold priced in Hy. rewrite Ex in Hy. injection Hy as <-. by apply HW.
  - exists x. split; [done|]. by apply HW.
Qed.
