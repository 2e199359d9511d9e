(** C137, from the catalogue to what the browser is handed. *)
From Verif.model Require Import Base F32 Utf8 Prim Coll Data Gram Indexer Nodes Classic Lit Raw Js Lib.
From Verif.spec Require Import Spec Data_spec Gram_spec Classic_spec Raw_spec Js_spec Lib_spec End_spec Choice_spec Reorder_spec.
From Verif.proofs Require Import Base_facts Float_facts Indexer_facts Trie_facts Search_facts Search_props Choice_props Choice_end Growth_facts Rank_facts.
From Coq Require Import Lia.

Lemma share_unit texts w g : total_grams texts < 2 ^ 32 -> w <> [] -> in_texts texts (w ++ [g]) -> f32_unit (share texts w g).
Proof.
  intros Hlim Hw (t & Ht & Ho).
  assert (A : total_occurrences (w ++ [g]) texts <= total_occurrences w texts).
  { unfold total_occurrences, sum_N. clear. assert (Hw : w <> [] \/ w = []) by (destruct w; auto).
    destruct Hw as [Hw| ->].
    - induction texts as [|t texts IH]; [done|]. cbn [map foldr]. pose proof (occurrences_parent w g t Hw). lia.
    - induction texts as [|t texts IH]; [done|]. cbn [map foldr].
      assert (occurrences [g] t <= occurrences [] t); [|simpl app in *; lia].
      clear. induction t as [|x t IH]; [done|]. cbn [occurrences]. rewrite (bool_decide_eq_true_2 ([] `prefix_of` x :: t)) by apply prefix_nil. case_bool_decide; lia. }
  assert (B : 0 < total_occurrences (w ++ [g]) texts).
  { apply total_occurrences_pos; [by destruct w|]. exists t. done. }
  pose proof (total_occurrences_le w texts).
  destruct (f32_div_ratio (total_occurrences (w ++ [g]) texts) (total_occurrences w texts)) as (R & _); [lia..|].
  by apply f32_ratio_unit.
Qed.
Lemma sureness_unit texts m : total_grams texts < 2 ^ 32 -> forall w x, w <> [] -> f32_unit x -> in_texts texts (w ++ m) ->
  f32_unit (sureness texts w m x).
Proof.
  intros Hlim. induction m as [|g m IH]; intros w x Hw Hx (t & Ht & Ho); [done|]. cbn [sureness]. apply IH.
  - by destruct w.
  - apply f32_mul_unit; [done|]. apply share_unit; [done..|]. exists t. split; [done|].
    destruct Ho as (u & v & ->). exists u, (m ++ v). by rewrite <- !app_assoc.
  - exists t. split; [done|]. by rewrite <- app_assoc.
Qed.
Lemma likelihood_unit texts g : total_grams texts < 2 ^ 32 -> g <> [] -> in_texts texts g -> f32_unit (likelihood texts g).
Proof.
  intros Hlim Hg Hin. unfold likelihood. destruct g as [|x g]; [done|]. cbn [take drop]. apply sureness_unit; [done|done|apply one_unit|done].
Qed.
Lemma delivered_rank low parse P Q bo ro so input :
  valid_build_order bo -> valid_ser_order so -> low_ok low -> parse_ok parse ->
  raw_fits Q low input -> total_grams (map (raw_text low) input) < 2 ^ 32 -> NoDup (map r_id input) ->
  lenN input <= usize_max P -> Forall (fun raw => 0 ∉ raw_text low raw) input ->
  forall u ops1 bytes ops2, index_and_serialize low parse P bo ro so input = Done bytes ->
  let st := lib_run low u Q lib_init ops1 in
  loads Q st (InitOp bytes) -> no_loads low u Q (lib_step low u Q st (InitOp bytes)) ops2 ->
  forall o query categories tags entries st' p,
  let st1 := lib_run low u Q lib_init (ops1 ++ InitOp bytes :: ops2) in
  valid_search_order o -> handlers_ok categories tags ->
  s_classic st1 = Some (ch_handle categories) -> s_classic st1 = Some (th_handle tags) ->
  search low u o st1 query categories tags None entries = (st', Done p) ->
  Forall (fun e => exists props, plain_object e.2 props) entries ->
  exists (answer : list (raw_product * f32)) js, NoDup (map fst answer) /\ falling (map snd answer) /\
    (forall n, calls pp_next n p = then_none n js) /\ Forall2 (fun '(raw, _) j => delivers parse raw j) answer js /\
    (forall a b y, a ∈ input -> suits categories tags a -> let_pass parse entries a ->
       occurs (raw_text low b) (raw_text low a) -> (b, y) ∈ answer -> exists x, (a, x) ∈ answer /\ f32_le y x).
Proof.
  intros Hbo Hso Hlow Hparse Hfit Hlim ND HP H0 u ops1 bytes ops2 E st L NL o query categories tags entries st' p st1
    Ho Hok C1 C2 S Hplain.
  destruct (answered_with low parse P Q bo ro so input Hbo Hso Hlow Hparse Hfit Hlim ND HP u ops1 bytes ops2 E L NL
    o query categories tags None entries st' p Ho Hok C1 C2 S Hplain)
    as (limit & choice & answer & js & Hl & Hc & _ & [NDa A] & F & Calls & F2).
  exists answer, js. split; [done|]. split; [by apply F|]. split; [done|]. split; [done|].
  assert (HC : forall w g c, w ∈ windows ngram_index_size (lower low query) -> choice w = Some (g, c) ->
    f32_unit c /\ length g = ngram_index_size /\ 0 ∉ g).
  { intros w g c Hw Ec. assert (Hlw : length w = ngram_index_size) by by eapply windows_length.
    pose proof (Hc w Hlw) as K. rewrite Ec in K. destruct K as ([(x & q' & m & -> & -> & Hm & _) Hin] & -> & _).
    split; [by apply likelihood_unit|]. split; [simpl in *; lia|].
    destruct Hin as (t & (raw & -> & Hraw)%elem_of_list_fmap & a & b & Et). rewrite Forall_forall in H0. intros Hz.
    apply (H0 raw Hraw). rewrite Et, !elem_of_app. auto. }
  intros a b y Ha Hsuit Hlet Hoc Hy. destruct (proj1 (A _ _) Hy) as (Hb & _ & c & rest & Ep & ->).
  destruct (sub_total (points ngram_index_size (map (raw_text low) input) limit choice (lower low query) (raw_text low b))
    (points ngram_index_size (map (raw_text low) input) limit choice (lower low query) (raw_text low a)) c rest)
    as (c' & rest' & E' & L'); [| |done|].
  - apply points_more. intros w g c1 Hw Ec. destruct (HC w g c1 Hw Ec) as (_ & Hg & Hz).
    apply uses_in; [unfold ngram_index_size; lia|done..].
  - apply points_nonneg. intros w g c1 Hw Ec. apply unit_nonneg. by destruct (HC w g c1 Hw Ec).
  - exists (foldl f32_add c' rest'). split; [|done]. apply A. split; [done|]. split; [done|]. by exists c', rest'.
Qed.
