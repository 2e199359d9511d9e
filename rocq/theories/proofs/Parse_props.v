(** What reading prices as floats does to them. *)
From Coq Require Import String ZArith Reals Lia Lra ZifyN ZifyBool.
From Flocq Require Import Core.Core IEEE754.BinarySingleNaN.
From Verif.model Require Import Base F32 Utf8 Prim Coll Data Gram Indexer Nodes Classic Lit Raw Js Lib Json Parse.
From Verif.spec Require Import Spec Data_spec Classic_spec Raw_spec Gram_spec Js_spec End_spec Json_spec Parse_spec.
From Verif.proofs Require Import Base_facts Float_facts F64_facts Js_facts Raw_props Json_end Parse_facts.
Local Open Scope R_scope.

#[local] Instance p32' : Prec_gt_0 prec32 := eq_refl.
#[local] Instance pe32' : Prec_lt_emax prec32 emax32 := eq_refl.
Notation M := (bpow radix2 emax32).
Lemma M_pos : 0 < M.
Proof. apply bpow_gt_0. Qed.

(** ** Order *)
Definition sign_ok (negative : bool) (v : R) : Prop := if negative then v <= 0 else 0 <= v.
Lemma dec_val_sign negative m e : sign_ok negative (dec_val negative m e).
Proof.
  unfold sign_ok, dec_val, F2R. cbn [Fnum Fexp]. pose proof (bpow_ge_0 radix10 e) as H.
  destruct negative; cbn [cond_Zopp].
  - rewrite opp_IZR. assert (0 <= IZR (Z.of_N m)) by (apply IZR_le; lia).
    assert (0 <= IZR (Z.of_N m) * bpow radix10 e) by (by apply Rmult_le_pos). lra.
  - apply Rmult_le_pos; [apply IZR_le; lia|done].
Qed.
Lemma rounded_sign negative v : sign_ok negative v -> sign_ok negative (rounded32 v).
Proof.
  assert (E : rounded32 0 = 0) by apply round_0, valid_rnd_N.
  unfold sign_ok. destruct negative; intros H; apply rounded_le in H; rewrite E in H; done.
Qed.
Definition clamp (r : R) : R := Rmax (- M) (Rmin M r).
Lemma nearest_key negative v x : sign_ok negative v -> nearest prec32 emax32 negative v x ->
  key32 x = clamp (rounded32 v).
Proof.
  intros Hs (H1 & H2 & H3). pose proof M_pos as HM. unfold clamp.
  destruct (Rlt_le_dec (Rabs (rounded32 v)) M) as [H|H].
  - destruct (H2 H) as (E & F & _). rewrite key_fin by done. unfold val. rewrite E.
    apply Rabs_def2 in H as [Ha Hb]. rewrite Rmin_right by lra. by rewrite Rmax_right by lra.
  - rewrite (H3 H). apply rounded_sign in Hs. unfold sign_ok in Hs. destruct negative.
    + rewrite Rabs_left1 in H by done. cbn [key]. rewrite Rmin_right by lra. by rewrite Rmax_left by lra.
    + rewrite Rabs_pos_eq in H by done. cbn [key]. rewrite Rmin_left by lra. by rewrite Rmax_right by lra.
Qed.
Lemma clamp_le r q : r <= q -> clamp r <= clamp q.
Proof. intros H. unfold clamp. apply Rle_max_compat_l. by apply Rle_min_compat_l. Qed.
Lemma nearest_le n v x n' w y : sign_ok n v -> sign_ok n' w -> nearest prec32 emax32 n v x ->
  nearest prec32 emax32 n' w y -> v <= w -> f32_le x y.
Proof.
  intros Sv Sw Hx Hy H. apply f32_le_key; [by eapply nearest_number..|].
  rewrite (nearest_key _ _ _ Sv Hx), (nearest_key _ _ _ Sw Hy). by apply clamp_le, rounded_le.
Qed.
Lemma parse_monotone s n m e s' n' m' e' x y : decimal_text s n m e -> decimal_text s' n' m' e' ->
  (lenN s < 65000)%N -> (lenN s' < 65000)%N -> parse_f32 s = Some x -> parse_f32 s' = Some y ->
  dec_val n m e <= dec_val n' m' e' -> f32_le x y.
Proof.
  intros Hs Hs' L L' Hx Hy H.
  destruct (parse_decimal _ _ _ _ Hs L) as (x' & Ex & Nx). rewrite Hx in Ex. injection Ex as <-.
  destruct (parse_decimal _ _ _ _ Hs' L') as (y' & Ey & Ny). rewrite Hy in Ey. injection Ey as <-.
  eapply nearest_le; [apply dec_val_sign|apply dec_val_sign|exact Nx|exact Ny|done].
Qed.

(** ** Cents *)
Lemma rounded_close v : 0 <= v <= bpow radix2 17 -> Rabs (rounded32 v - v) <= bpow radix2 (-8).
Proof.
  intros [H1 H2]. destruct (Rle_lt_or_eq_dec _ _ H2) as [H|H].
  - assert (Hv : Valid_exp (FLT_exp (3 - emax32 - prec32) prec32)) by (apply FLT_exp_valid; exact p32').
    eapply Rle_trans; [apply error_le_half_ulp; done|].
    assert (ulp radix2 (FLT_exp (3 - emax32 - prec32) prec32) v <= bpow radix2 (-7)) as Hu.
    { destruct (Req_dec v 0) as [->|Hn].
      - rewrite ulp_FLT_0 by (exact p32'). apply bpow_le. unfold emax32, prec32. lia.
      - rewrite ulp_neq_0 by done. apply bpow_le. unfold cexp, FLT_exp.
        assert (mag radix2 v <= 17)%Z by (apply mag_le_bpow; [done|by rewrite Rabs_pos_eq]).
        unfold emax32, prec32. lia. }
    change (-7)%Z with (-8 + 1)%Z in Hu. rewrite bpow_plus in Hu. change (bpow radix2 1) with 2 in Hu. lra.
  - assert (E : rounded32 v = v).
    { unfold rounded. apply round_generic; [apply valid_rnd_N|]. rewrite H. apply generic_format_bpow.
      unfold FLT_exp, emax32, prec32. lia. }
    rewrite E, Rminus_eq_0, Rabs_R0. apply bpow_ge_0.
Qed.
Lemma bpow_m8 : bpow radix2 (-8) = / 256.
Proof. done. Qed.
Lemma bpow_17 : bpow radix2 17 = 131072.
Proof. done. Qed.
Lemma costs_parse s c : costs s c -> (c <= 13107200)%N -> exists x, parse_f32 s = Some x /\ f32_number x /\
  is_finite_SF x = true /\ Rabs (SF2R radix2 x - IZR (Z.of_N c) / 100) <= / 256.
Proof.
  intros (L & m & e & Hd & Hv) Hc. destruct (parse_decimal _ _ _ _ Hd L) as (x & Hx & Hn).
  exists x. split; [done|]. split; [by eapply nearest_number|]. rewrite Hv in Hn.
  assert (Hr : 0 <= IZR (Z.of_N c) / 100 <= bpow radix2 17).
  { rewrite bpow_17. assert (0 <= IZR (Z.of_N c)) by (apply IZR_le; lia).
    assert (IZR (Z.of_N c) <= 13107200) by (apply IZR_le; lia). lra. }
  pose proof (rounded_close _ Hr) as Hclose. rewrite bpow_m8 in Hclose.
  destruct Hn as (_ & H & _). destruct H as (E & F & _).
  - apply Rabs_le_inv in Hclose. rewrite bpow_17 in Hr. pose proof M_pos.
    assert (131073 < M) by (change M with (IZR (2 ^ 128)); apply IZR_lt; done).
    apply Rabs_def1; lra.
  - split; [done|]. by rewrite E.
Qed.
Lemma costs_lt s c s' c' x y : costs s c -> costs s' c' -> (c < c')%N -> (c' <= 13107200)%N ->
  parse_f32 s = Some x -> parse_f32 s' = Some y -> f32_lt x y.
Proof.
  intros Hs Hs' Hlt Hle Hx Hy.
  destruct (costs_parse _ _ Hs) as (x' & Ex & Nx & Fx & Cx); [lia|]. rewrite Hx in Ex. injection Ex as <-.
  destruct (costs_parse _ _ Hs' Hle) as (y' & Ey & Ny & Fy & Cy). rewrite Hy in Ey. injection Ey as <-.
  apply f32_lt_key; [done..|]. rewrite !key_fin by done. unfold val.
  apply Rabs_le_inv in Cx, Cy.
  assert (IZR (Z.of_N c) + 1 <= IZR (Z.of_N c')) by (rewrite <- plus_IZR; apply IZR_le; lia).
  lra.
Qed.
Lemma costs_eq s s' c x y : costs s c -> costs s' c -> parse_f32 s = Some x -> parse_f32 s' = Some y ->
  f32_le x y /\ f32_le y x.
Proof.
  intros (L & m & e & Hd & Hv) (L' & m' & e' & Hd' & Hv') Hx Hy.
  split; [eapply (parse_monotone s _ _ _ s')|eapply (parse_monotone s' _ _ _ s)]; try done; rewrite Hv, Hv'; apply Rle_refl.
Qed.

(** ** Order tables *)
Lemma costs_lt_iff s c s' c' x y : costs s c -> costs s' c' -> (c <= 13107200)%N -> (c' <= 13107200)%N ->
  parse_f32 s = Some x -> parse_f32 s' = Some y -> f32_lt x y <-> (c < c')%N.
Proof.
  intros Hs Hs' Hc Hc' Hx Hy. split; [|intros H; by eapply (costs_lt s c s' c')].
  destruct (costs_parse _ _ Hs Hc) as (x' & Ex & Nx & _). rewrite Hx in Ex. injection Ex as <-.
  destruct (costs_parse _ _ Hs' Hc') as (y' & Ey & Ny & _). rewrite Hy in Ey. injection Ey as <-.
  intros H. apply f32_lt_key in H; [|done..]. destruct (N.lt_total c c') as [|[->|Hgt]]; [done|..]; exfalso.
  - destruct (costs_eq _ _ _ _ _ Hs Hs' Hx Hy) as [_ L]. apply f32_le_key in L; [|done..]. lra.
  - pose proof (costs_lt _ _ _ _ _ _ Hs' Hs Hgt Hc Hy Hx) as H'. apply f32_lt_key in H'; [|done..]. lra.
Qed.
Lemma rank_table_transfer {S T} (before : S -> S -> Prop) (before' : T -> T -> Prop) xs ys ranks :
  length xs = length ys ->
  (forall i j x x' y y', xs !! i = Some x -> ys !! i = Some y -> xs !! j = Some x' -> ys !! j = Some y' ->
     before x x' <-> before' y y') ->
  rank_table before xs ranks -> rank_table before' ys ranks.
Proof.
  intros HL H [P R]. split; [by rewrite <- HL|]. intros i j y y' ri rj Hi Hj Hri Hrj.
  destruct (lookup_lt_is_Some_2 xs i) as [x Hx]; [apply lookup_lt_Some in Hi; lia|].
  destruct (lookup_lt_is_Some_2 xs j) as [x' Hx']; [apply lookup_lt_Some in Hj; lia|].
  rewrite (R i j x x' ri rj Hx Hx' Hri Hrj).
  by rewrite (H i j x x' y y' Hx Hi Hx' Hj), (H j i x' x y' y Hx' Hj Hx Hi).
Qed.
Lemma cents_orders o input c cl cents : optimize parse_f32 o input = Done (c, cl) ->
  Forall2 costs_at_most input cents ->
  exists u d, get_orders (cl_order cl) s_price_up = Some u /\ rank_table N.lt cents u /\
    get_orders (cl_order cl) s_price_down = Some d /\ rank_table (fun a b => N.lt b a) cents d.
Proof.
  intros E Hc. assert (H : prices_parse parse_f32 input) by (apply (Raw_facts.optimize_iff _ o); eauto).
  apply Raw_facts.prices_listed in H as [prices H].
  destruct (optimize_orders parse_f32 o input c cl prices E H) as (a & u & d & Eo & _ & O).
  assert (Lp : length input = length prices) by (by eapply Forall2_length).
  assert (Lc : length input = length cents) by (by eapply Forall2_length).
  assert (At : forall i x k, prices !! i = Some x -> cents !! i = Some k ->
    exists s, costs s k /\ (k <= 13107200)%N /\ parse_f32 s = Some x).
  { intros i x k Hx Hk. destruct (Forall2_lookup_r _ _ _ _ _ H Hx) as (raw & Hr & P).
    destruct (Forall2_lookup_r _ _ _ _ _ Hc Hk) as (raw' & Hr' & P' & Q). rewrite Hr in Hr'. injection Hr' as <-.
    by exists (r_price_min_amount raw). }
  destruct O as [U D].
  { apply Forall_forall. intros x Hx. apply elem_of_list_lookup in Hx as [i Hx].
    destruct (lookup_lt_is_Some_2 cents i) as [k Hk]; [apply lookup_lt_Some in Hx; lia|].
    destruct (At i x k Hx Hk) as (s & Hs & Hle & Hp). destruct (costs_parse _ _ Hs Hle) as (x' & Ex & Nx & _).
    rewrite Hp in Ex. by injection Ex as <-. }
  exists u, d. split; [|split; [|split]].
  - unfold get_orders. rewrite Eo. etrans; [apply (lookup_insert_ne (M := gmap rstr)); done|].
    apply (lookup_insert (M := gmap rstr)).
  - eapply rank_table_transfer; [|  |exact U]; [lia|]. intros i j x x' k k' Hx Hk Hx' Hk'.
    destruct (At _ _ _ Hx Hk) as (s & Hs & Hle & Hp). destruct (At _ _ _ Hx' Hk') as (s' & Hs' & Hle' & Hp').
    by eapply costs_lt_iff.
  - unfold get_orders. rewrite Eo. apply (lookup_insert (M := gmap rstr)).
  - eapply rank_table_transfer; [|  |exact D]; [lia|]. intros i j x x' k k' Hx Hk Hx' Hk'.
    destruct (At _ _ _ Hx Hk) as (s & Hs & Hle & Hp). destruct (At _ _ _ Hx' Hk') as (s' & Hs' & Hle' & Hp').
    by eapply costs_lt_iff.
Qed.

(** ** Reported prices *)
Lemma widened x : valid_f32 x -> is_finite_SF x = true ->
  SF2R radix2 (f64_of_f32 x) = SF2R radix2 x /\ is_finite_SF (f64_of_f32 x) = true /\
  valid_binary prec64 emax64 (f64_of_f32 x) = true.
Proof.
  intros V F. destruct (f64_of_f32_exact x V) as [S V']. split; [symmetry; by apply same_val|]. split; [|done].
  destruct x, (f64_of_f32 _); done.
Qed.
Lemma reported_cents o input c cl i raw k : optimize parse_f32 o input = Done (c, cl) ->
  input !! i = Some raw -> costs_at_most raw k ->
  exists y, jp_numeric (JsProduct c (N.of_nat i)) s_price = Done y /\
    jp_numeric (JsProduct (stored_container c) (N.of_nat i)) s_price = Done y /\ is_finite_SF y = true /\
    Rabs (SF2R radix2 y - IZR (Z.of_N k) / 100) <= / 256.
Proof.
  intros E Hi [Hk Hle]. destruct (costs_parse _ _ Hk Hle) as (x & Ex & [V N] & F & C).
  destruct (optimize_price parse_f32 o input c cl i raw x E Hi Ex) as [P1 P2].
  destruct (widened x V F) as (W1 & W2 & _). exists (f64_of_f32 x). split; [done|]. split; [done|]. split; [done|].
  by rewrite W1.
Qed.
(** The nearest whole number of cents is the price. *)
Lemma nearest_cent y k k' : Rabs (y - IZR (Z.of_N k) / 100) <= / 256 ->
  Rabs (y - IZR (Z.of_N k') / 100) <= / 200 -> k = k'.
Proof.
  intros H H'. apply Rabs_le_inv in H, H'.
  assert (A : IZR (Z.of_N k) - IZR (Z.of_N k') < 1) by lra.
  assert (B : IZR (Z.of_N k') - IZR (Z.of_N k) < 1) by lra.
  rewrite <- minus_IZR in A, B. apply lt_IZR in A, B. lia.
Qed.
Lemma reported_whole o input c cl i raw m e z : optimize parse_f32 o input = Done (c, cl) ->
  input !! i = Some raw -> decimal_text (r_price_min_amount raw) false m e ->
  (lenN (r_price_min_amount raw) < 65000)%N -> (z < 2 ^ 24)%N -> dec_val false m e = IZR (Z.of_N z) ->
  exists y, jp_numeric (JsProduct c (N.of_nat i)) s_price = Done y /\
    jp_numeric (JsProduct (stored_container c) (N.of_nat i)) s_price = Done y /\ is_finite_SF y = true /\
    SF2R radix2 y = IZR (Z.of_N z).
Proof.
  intros E Hi Hd L Hz Hv. destruct (parse_decimal _ _ _ _ Hd L) as (x & Ex & Hn).
  pose proof (nearest_number _ _ _ Hn) as [V N]. rewrite Hv in Hn.
  assert (R : rounded32 (IZR (Z.of_N z)) = IZR (Z.of_N z)) by (apply (rnd32_int (Z.of_N z)); lia).
  destruct Hn as (_ & Hn & _). rewrite R in Hn. destruct Hn as (S & F & _).
  { rewrite Rabs_pos_eq by (apply IZR_le; lia). change M with (IZR (2 ^ 128)). apply IZR_lt. lia. }
  destruct (optimize_price parse_f32 o input c cl i raw x E Hi Ex) as [P1 P2].
  destruct (widened x V F) as (W1 & W2 & _). exists (f64_of_f32 x). split; [done|]. split; [done|]. split; [done|].
  by rewrite W1.
Qed.

(** ** Price filters *)
Lemma f64_le_val a b : finite_f64 a -> finite_f64 b -> SFleb a b = true <-> SF2R radix2 a <= SF2R radix2 b.
Proof.
  intros [Va Fa] [Vb Fb]. unfold SFleb. rewrite (cmp_key prec64 emax64) by (done || (intros ->; done)).
  rewrite !key_fin by done. unfold val. destruct (Rcompare_spec (SF2R radix2 a) (SF2R radix2 b)); split; (done || lra).
Qed.
Lemma price_at o input c cl i raw x y : optimize parse_f32 o input = Done (c, cl) ->
  input !! i = Some raw -> parse_f32 (r_price_min_amount raw) = Some x ->
  numeric_at (c_features c) i s_price y <-> y = f64_of_f32 x.
Proof.
  intros (prices & H & D & W & _ & _ & C & _)%Raw_facts.optimize_inv Hi Hx.
  destruct (Forall2_lookup_l _ _ _ _ _ H Hi) as (x' & Hx' & E). unfold priced in *. rewrite Hx in E. injection E as <-.
  destruct C as (C & _). assert (Classic_facts.nonempty prices = Some prices) as N by by destruct prices. rewrite N in C.
  unfold numeric_at. split.
  - intros [(l & v & Hl & Hv & ->)|(l & v & Hl & _)]; rewrite C in Hl; [|done]. injection Hl as <-.
    rewrite Hx' in Hv. by injection Hv as <-.
  - intros ->. left. by exists prices, x.
Qed.
Lemma price_filter o input c cl i raw x from to p : optimize parse_f32 o input = Done (c, cl) ->
  input !! i = Some raw -> parse_f32 (r_price_min_amount raw) = Some x -> p_sid p = N.of_nat i ->
  filter_accepts (FeatureFilter (Range from to) s_price) (c_features c) p = true <-> within from to (f64_of_f32 x).
Proof.
  intros E Hi Hx Hp. rewrite range_filter, Hp, Nat2N.id. split.
  - intros [[Hf Ht]|(y & Hy & Hw)].
    + split; intros a ->; [destruct Hf|destruct Ht]; by exists a.
    + apply (price_at _ _ _ _ _ _ _ _ E Hi Hx) in Hy as ->. done.
  - intros Hw. right. exists (f64_of_f32 x). split; [|done]. by apply (price_at _ _ _ _ _ _ _ _ E Hi Hx).
Qed.
Lemma filter_keeps o input c cl i raw k from to p : optimize parse_f32 o input = Done (c, cl) ->
  input !! i = Some raw -> costs_at_most raw k -> p_sid p = N.of_nat i ->
  (forall a, from = JNum a -> finite_f64 a /\ SF2R radix2 a + / 256 <= IZR (Z.of_N k) / 100) ->
  (forall b, to = JNum b -> finite_f64 b /\ IZR (Z.of_N k) / 100 <= SF2R radix2 b - / 256) ->
  filter_accepts (FeatureFilter (Range from to) s_price) (c_features c) p = true.
Proof.
  intros E Hi [Hk Hle] Hp Hf Ht. destruct (costs_parse _ _ Hk Hle) as (x & Ex & [V N] & F & C).
  destruct (widened x V F) as (W1 & W2 & W3). apply Rabs_le_inv in C.
  apply (price_filter _ _ _ _ _ _ _ _ _ _ E Hi Ex Hp). split; intros a ->.
  - destruct (Hf a eq_refl) as [Fa Ha]. apply f64_le_val; [done|by split|]. rewrite W1. lra.
  - destruct (Ht a eq_refl) as [Fa Ha]. apply f64_le_val; [by split|done|]. rewrite W1. lra.
Qed.
Lemma filter_drops o input c cl i raw k from to p : optimize parse_f32 o input = Done (c, cl) ->
  input !! i = Some raw -> costs_at_most raw k -> p_sid p = N.of_nat i ->
  (exists a, from = JNum a /\ finite_f64 a /\ IZR (Z.of_N k) / 100 + / 256 < SF2R radix2 a) \/
  (exists b, to = JNum b /\ finite_f64 b /\ SF2R radix2 b < IZR (Z.of_N k) / 100 - / 256) ->
  filter_accepts (FeatureFilter (Range from to) s_price) (c_features c) p = false.
Proof.
  intros E Hi [Hk Hle] Hp H. destruct (costs_parse _ _ Hk Hle) as (x & Ex & [V N] & F & C).
  destruct (widened x V F) as (W1 & W2 & W3). apply Rabs_le_inv in C. apply not_true_is_false.
  rewrite (price_filter _ _ _ _ _ _ _ _ _ _ E Hi Ex Hp). intros [Wf Wt].
  destruct H as [(a & -> & Fa & Ha)|(a & -> & Fa & Ha)].
  - specialize (Wf a eq_refl). apply f64_le_val in Wf; [|done|by split]. rewrite W1 in Wf. lra.
  - specialize (Wt a eq_refl). apply f64_le_val in Wt; [|by split|done]. rewrite W1 in Wt. lra.
Qed.
(** A price that is a float is filtered exactly. *)
Lemma filter_exact o input c cl i raw n m e from to p : optimize parse_f32 o input = Done (c, cl) ->
  input !! i = Some raw -> decimal_text (r_price_min_amount raw) n m e ->
  (lenN (r_price_min_amount raw) < 65000)%N -> rounded prec32 emax32 (dec_val n m e) = dec_val n m e ->
  Rabs (dec_val n m e) < M -> p_sid p = N.of_nat i ->
  (forall a, from = JNum a -> finite_f64 a) -> (forall b, to = JNum b -> finite_f64 b) ->
  filter_accepts (FeatureFilter (Range from to) s_price) (c_features c) p = true <->
  (forall a, from = JNum a -> SF2R radix2 a <= dec_val n m e) /\
  (forall b, to = JNum b -> dec_val n m e <= SF2R radix2 b).
Proof.
  intros E Hi Hd L R HM Hp Ff Ft. destruct (parse_decimal _ _ _ _ Hd L) as (x & Ex & Hn).
  pose proof (nearest_number _ _ _ Hn) as [V N]. destruct Hn as (_ & Hn & _). rewrite R in Hn.
  destruct Hn as (S & F & _); [done|]. destruct (widened x V F) as (W1 & W2 & W3). rewrite S in W1.
  rewrite (price_filter _ _ _ _ _ _ _ _ _ _ E Hi Ex Hp). unfold within.
  split; intros [Hf Ht]; (split; intros a Ha; [specialize (Hf a Ha)|specialize (Ht a Ha)]).
  - apply f64_le_val in Hf; [|by apply Ff|by split]. lra.
  - apply f64_le_val in Ht; [|by split|by apply Ft]. lra.
  - apply f64_le_val; [by apply Ff|by split|]. lra.
  - apply f64_le_val; [by split|by apply Ft|]. lra.
Qed.
Lemma parse_f32_ok : parse_ok parse_f32.
Proof. intros s x H. by eapply parse_valid. Qed.
Lemma prices_float input : prices_parse parse_f32 input <-> Forall (fun raw => float_text (r_price_min_amount raw)) input.
Proof.
  unfold prices_parse. split; intros H; (eapply Forall_impl; [exact H|]); intros raw Hr; by apply parse_accepts.
Qed.
Lemma optimize_floats o input :
  (Forall (fun raw => float_text (r_price_min_amount raw)) input -> exists out, optimize parse_f32 o input = Done out) /\
  (~ Forall (fun raw => float_text (r_price_min_amount raw)) input -> optimize parse_f32 o input = Panic).
Proof.
  rewrite <- prices_float. split; intros H; [by apply Raw_facts.optimize_iff|by apply Raw_facts.optimize_panic].
Qed.
Lemma index_floats low P mo bo ro so : valid_order mo -> valid_build_order bo -> forall t entries l,
  is_catalogue verbatim entries t -> survivors entries l ->
  (total_grams (map (raw_text low) (map snd l)) < 2 ^ 32)%N ->
  (Forall (fun raw => float_text (r_price_min_amount raw)) (map snd l) ->
     exists bytes, index low parse_f32 P mo bo ro so t = Done bytes) /\
  (~ Forall (fun raw => float_text (r_price_min_amount raw)) (map snd l) ->
     index low parse_f32 P mo bo ro so t = Panic).
Proof. intros Hm Hb t entries l. rewrite <- prices_float. by apply Json_end.accepted_outcome. Qed.
