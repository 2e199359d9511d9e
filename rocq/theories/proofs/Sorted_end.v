(** C116: an ordered search delivers what the search without order delivers, in order. *)
From Verif.model Require Import Base F32 Utf8 Prim Coll Data Gram Indexer Nodes Classic Lit Raw Js Lib.
From Verif.spec Require Import Spec Data_spec Gram_spec Classic_spec Raw_spec Js_spec Lib_spec End_spec Sorted_spec.
From Verif.proofs Require Import Base_facts Sort_facts Data_facts File_facts Data_more Indexer_facts Trie_facts Trie_props
  Classic_facts Order_facts Raw_facts Raw_props Search_facts Search_more Search_props Js_facts Lib_facts End_facts End_props.
From Coq Require Import Lia.

Lemma NoDup_filter_map {A B} (f : A -> B) (Q : A -> Prop) `{forall x, Decision (Q x)} l : NoDup (map f l) -> NoDup (map f (filter Q l)).
Proof.
  induction l as [|x l IH]; [constructor|]. cbn [map]. intros [Hx N]%NoDup_cons. rewrite filter_cons.
  destruct (decide (Q x)); [|by apply IH]. cbn [map]. constructor; [|by apply IH].
  intros (y & E & Hy)%elem_of_list_fmap. apply Hx. rewrite E. apply elem_of_list_filter in Hy as [_ Hy]. by apply elem_of_list_fmap_1.
Qed.
Lemma NoDup_map_weaker {A B C} (f : A -> B) (g : A -> C) l : (forall x y, x ∈ l -> y ∈ l -> g x = g y -> f x = f y) ->
  NoDup (map f l) -> NoDup (map g l).
Proof.
  induction l as [|x l IH]; [constructor|]. intros W. cbn [map]. intros [Hx N]%NoDup_cons. constructor.
  - intros (y & E & Hy)%elem_of_list_fmap. apply Hx. rewrite (W x y); [by apply elem_of_list_fmap_1|left|by right|done].
  - apply IH; [|done]. intros y z Hy Hz. apply W; by right.
Qed.
(** No position is answered twice. *)
Lemma results_distinct low o gi input categories tags filters l :
  consistent_gram_index ngram_index_size gi -> valid_search_order o -> handlers_ok categories tags ->
  search_filtered low o gi input categories tags filters = Done l -> NoDup l.
Proof.
  intros [(W & _) Con] Ho Hok E.
  destruct (filtered_spec low o gi input categories tags filters Ho Hok) as (res & ok & Er & _ & Ef).
  rewrite Ef in E. injection E as <-. 
  pose proof (search_totals ngram_index_size (se_rank o) gi (lower low input) res size_range (proj1 Ho) Er) as [NDr _].
  apply (NoDup_map_weaker p_id).
  - intros p q Hp Hq Hs.
    assert (In : forall p, p ∈ filter (fun p => ok p = true) (map fst res) -> p ∈ c_products (gi_container gi)).
    { intros r Hr. apply elem_of_list_filter in Hr as [_ Hr]. apply elem_of_list_fmap in Hr as ([r' x] & -> & Hin).
      destruct (results_listed _ _ _ _ _ _ _ size_range (proj1 Ho) Er Hin) as (g & k & Hg & Hr).
      destruct (Con _ _ Hg) as (_ & _ & F). rewrite Forall_forall in F. by apply F. }
    apply In, elem_of_list_lookup in Hp as [i Hi]. apply In, elem_of_list_lookup in Hq as [k Hk].
    rewrite (W _ _ Hi), (W _ _ Hk) in Hs. apply Nat2N.inj in Hs as <-. rewrite Hi in Hk. by injection Hk as <-.
  - apply NoDup_filter_map. rewrite map_map. exact NDr.
Qed.
Lemma search_sorted low u o st input categories tags key entries st' p gi cl :
  s_index st = Some gi -> s_classic st = Some cl -> search low u o st input categories tags (Some key) entries = (st', Done p) ->
  exists filters l ids table, search_filtered low o gi input categories tags filters = Done l /\
    search low u o st input categories tags None entries = (st, Done (pp_new (gi_container gi) l)) /\
    get_orders (cl_order cl) key = Some table /\ sort_by_order table l = Done ids /\ p = pp_new (gi_container gi) ids.
Proof.
  intros I C. unfold search. destruct (parse_filters entries) as [filters|]; [|done].
  destruct (lock_ok u (s_index_dead st)) as [[]| | |]; try done. rewrite I.
  destruct (search_filtered low o gi input categories tags filters) as [l| | |] eqn:E; try done.
  destruct (lock_ok u (s_classic_dead st)) as [[]| | |]; try done.
  rewrite C. cbn [mbind option_bind]. destruct (get_orders (cl_order cl) key) as [table|]; [|done].
  destruct (sort_by_order table l) as [l'| | |] eqn:S; try done. intros [= <- <-].
  by exists filters, l, l', table.
Qed.
Lemma rank_table_keys {T} (before : T -> T -> Prop) keys ranks l : rank_table before keys ranks -> ranks_ascend ranks l -> NoDup l ->
  forall a b sa sb x y, (a < b)%nat -> l !! a = Some sa -> l !! b = Some sb -> keys !! N.to_nat sa = Some x -> keys !! N.to_nat sb = Some y ->
  before x y \/ (~ before y x /\ sa < sb).
Proof.
  intros [Pr R] A ND a b sa sb x y Hab Ha Hb Hx Hy.
  assert (Hlen : length ranks = length keys) by by rewrite Pr, map_length, seq_length.
  assert (NDr : NoDup ranks). { rewrite Pr. apply NoDup_fmap_2; [apply _|apply NoDup_seq]. }
  destruct (lookup_lt_is_Some_2 ranks (N.to_nat sa)) as [ra Hra]; [rewrite Hlen; by eapply lookup_lt_Some|].
  destruct (lookup_lt_is_Some_2 ranks (N.to_nat sb)) as [rb Hrb]; [rewrite Hlen; by eapply lookup_lt_Some|].
  pose proof (A _ _ _ _ _ _ Hab Ha Hb Hra Hrb) as Hle.
  assert (ra <> rb).
  { intros ->. assert (N.to_nat sa = N.to_nat sb) by (eapply (NoDup_lookup ranks); done).
    assert (sa = sb) as -> by lia. assert (a = b) by (eapply (NoDup_lookup l); done). lia. }
  assert (Hlt : ra < rb) by lia.
  apply (R _ _ _ _ _ _ Hx Hy Hra Hrb) in Hlt as [H1|[H1 H2]]; [by left|right]. split; [done|lia].
Qed.

Section one.
Context (low : N -> list N) (parse : rstr -> option f32) (P Q : platform) (bo : build_order)
  (ro : order_of (rstr * (product * f32))) (so : ser_order) (input : list raw_product).
Context (Hbo : valid_build_order bo) (Hso : valid_ser_order so) (Hlow : low_ok low) (Hparse : parse_ok parse)
  (Hfit : raw_fits Q low input) (Hlim : total_grams (map (raw_text low) input) < 2 ^ 32).
Lemma delivered_in_order u ops1 bytes ops2 : index_and_serialize low parse P bo ro so input = Done bytes ->
  let st := lib_run low u Q lib_init ops1 in
  loads Q st (InitOp bytes) -> no_loads low u Q (lib_step low u Q st (InitOp bytes)) ops2 ->
  forall o query categories tags key entries st' p,
  let st1 := lib_run low u Q lib_init (ops1 ++ InitOp bytes :: ops2) in
  valid_search_order o -> handlers_ok categories tags ->
  search low u o st1 query categories tags (Some key) entries = (st', Done p) ->
  key ∈ [s_alphabetical; s_price_up; s_price_down] /\
  exists p0 js0 js,
    search low u o st1 query categories tags None entries = (st1, Done p0) /\
    (forall n, calls pp_next n p0 = then_none n js0) /\ (forall n, calls pp_next n p = then_none n js) /\
    js ≡ₚ js0 /\ NoDup (map jp_sid js) /\ Forall (fun j => (N.to_nat (jp_sid j) < length input)%nat) js /\
    (key = s_alphabetical \/ prices_numeric parse input -> stand_in_order parse key input js).
Proof.
  intros E st L NL o query categories tags key entries st' p st1 Ho Hok S.
  destruct (indexed_inv _ _ _ _ _ _ _ _ _ E) as (c & cl & gi & O & I & ->).
  destruct (last_loaded low u Q ops1 _ ops2 L NL) as (gi' & cl' & E' & I1 & I2 & _).
  pose proof (file_loads low parse P Q bo so input Hbo Hso Hlow Hparse Hfit Hlim c cl gi [] O I) as F.
  rewrite app_nil_r, E' in F. apply done_inj in F. injection F as -> ->. clear E'.
  fold st1 in I1, I2.
  destruct (search_sorted _ _ _ _ _ _ _ _ _ _ _ _ _ I1 I2 S) as (filters & l & ids & table & Sf & S0 & T & Srt & ->).
  change (cl_order (stored_classic cl)) with (cl_order cl) in T.
  destruct (built_orders parse bo input c cl O) as (Keys & Tables & _).
  split. { destruct (decide (key ∈ [s_alphabetical; s_price_up; s_price_down])) as [|n]; [done|]. apply Keys in n. by rewrite n in T. }
  assert (Con : consistent_gram_index ngram_index_size (stored_gram_index gi)) by (by eapply reachable_consistent).
  pose proof (results_in_range _ _ _ _ _ _ _ _ Con Ho Hok Sf) as R.
  pose proof (results_distinct _ _ _ _ _ _ _ _ Con Ho Hok Sf) as ND.
  destruct (optimize_products parse bo input c cl O) as [D W].
  assert (Hlen : length (c_products (gi_container (stored_gram_index gi))) = length input).
  { assert (G : gi_container gi = c) by by eapply index_container.
    cbn [stored_gram_index gi_container]. rewrite G. cbn. rewrite ?map_length. symmetry. by eapply Forall2_length. }
  assert (Ht : length table = length input) by by rewrite (Tables _ _ T), map_length, seq_length.
  destruct (sort_by_order_spec table l) as (ids' & Srt' & Pl & A).
  { eapply Forall_impl; [exact R|]. simpl. intros. by rewrite Ht, <- Hlen. }
  rewrite Srt in Srt'. injection Srt' as <-.
  assert (R' : Forall (fun sid => N.to_nat sid < length (c_products (gi_container (stored_gram_index gi))))%nat ids) by by rewrite Pl.
  assert (ND' : NoDup ids) by by rewrite Pl.
  set (cont := gi_container (stored_gram_index gi)) in *.
  exists (pp_new cont l), (map (JsProduct cont) l), (map (JsProduct cont) ids).
  assert (Esid : map jp_sid (map (JsProduct cont) ids) = ids) by (rewrite map_map; apply map_id).
  split; [done|]. split; [intros n; by apply producer_answers|]. split; [intros n; by apply producer_answers|].
  split; [by apply Permutation_map|]. split; [by rewrite Esid|].
  split. { rewrite Forall_fmap. eapply Forall_impl; [exact R'|]. intros sid Hsid. rewrite <- Hlen. exact Hsid. }
  intros Hnum a b ja jb ra rb Hab Ha Hb Hra Hrb.
  rewrite list_lookup_fmap in Ha, Hb. apply fmap_Some in Ha as (sa & Ha & ->), Hb as (sb & Hb & ->). cbn [jp_sid] in *.
  destruct (optimize_inv parse bo input c cl O) as (prices & Hpr & _).
  destruct (optimize_orders parse bo input c cl prices O Hpr) as (ta & tu & td & Eo & Ra & Rp).
  assert (Dk : s_alphabetical <> s_price_up /\ s_alphabetical <> s_price_down /\ s_price_up <> s_price_down) by done.
  destruct Dk as (D1 & D2 & D3).
  assert (Hk : key ∈ [s_alphabetical; s_price_up; s_price_down]).
  { destruct (decide (key ∈ [s_alphabetical; s_price_up; s_price_down])) as [|n]; [done|]. apply Keys in n. by rewrite n in T. }
  assert (T' : table = if decide (key = s_price_down) then td else if decide (key = s_price_up) then tu else ta).
  { enough (G : get_orders (cl_order cl) key = Some (if decide (key = s_price_down) then td else if decide (key = s_price_up) then tu else ta)).
    { rewrite T in G. by injection G. }
    unfold get_orders. rewrite Eo.
    destruct (decide (key = s_price_down)) as [->|]; [apply (lookup_insert (M := gmap rstr))|].
    etrans; [by apply (lookup_insert_ne (M := gmap rstr))|].
    destruct (decide (key = s_price_up)) as [->|]; [apply (lookup_insert (M := gmap rstr))|].
    etrans; [by apply (lookup_insert_ne (M := gmap rstr))|].
    assert (key = s_alphabetical) as -> by (rewrite !elem_of_cons, elem_of_nil in Hk; tauto). apply (lookup_insert (M := gmap rstr)). }
  assert (Hn : key <> s_alphabetical -> Forall f32_number prices).
  { intros Hk'. destruct Hnum as [?|Hnum]; [done|]. clear -Hnum Hpr.
    induction Hpr as [|raw x rs xs Hx Hpr IH]; [constructor|]. inversion Hnum as [|? ? (y & Hy & Ny) Hr]; subst.
    unfold priced in *. rewrite Hx in Hy. injection Hy as <-. constructor; [done|by apply IH]. }
  destruct (Forall2_lookup_l _ _ _ _ _ Hpr Hra) as (xa & Hxa & Pa).
  destruct (Forall2_lookup_l _ _ _ _ _ Hpr Hrb) as (xb & Hxb & Pb).
  assert (same : forall raw x y, priced parse raw x -> priced parse raw y -> x = y).
  { intros raw x y. unfold priced. intros -> [=]. done. }
  rewrite !elem_of_cons, elem_of_nil in Hk. destruct Hk as [->|[->|[->|[]]]].
  - rewrite !decide_False in T' by done. subst table.
    assert (Hv : Forall (fun raw => valid_str (r_title raw)) input).
    { eapply Forall_impl; [exact (proj1 Hfit)|]. intros raw (_ & Fs & _). inversion Fs as [|? ? Ht' _]. apply Ht'. }
    destruct (rank_table_keys _ _ _ _ (Ra Hv) A ND' a b sa sb (r_title ra) (r_title rb)) as [H|[H1 H2]]; [done..| | | |].
    + by rewrite list_lookup_fmap, Hra.
    + by rewrite list_lookup_fmap, Hrb.
    + left. by left.
    + right. split; [|done]. intros [[_ H]|(x1 & x2 & _ & _ & [[? _]|[? _]])]; done.
  - rewrite decide_False, decide_True in T' by done. subst table.
    destruct (rank_table_keys _ _ _ _ (proj1 (Rp (Hn (not_eq_sym D1)))) A ND' a b sa sb xa xb) as [H|[H1 H2]]; [done..| |].
    + left. right. exists xa, xb. split; [done|]. split; [done|]. by left.
    + right. split; [|done]. intros [[? _]|(x1 & x2 & P1 & P2 & [[_ ?]|[? _]])]; [done| |done].
      rewrite (same _ _ _ P1 Pb), (same _ _ _ P2 Pa) in *. done.
  - rewrite decide_True in T' by done. subst table.
    destruct (rank_table_keys _ _ _ _ (proj2 (Rp (Hn (not_eq_sym D2)))) A ND' a b sa sb xa xb) as [H|[H1 H2]]; [done..| |].
    + left. right. exists xa, xb. split; [done|]. split; [done|]. by right.
    + right. split; [|done]. intros [[? _]|(x1 & x2 & P1 & P2 & [[? _]|[_ ?]])]; [done|done|].
      rewrite (same _ _ _ P1 Pb), (same _ _ _ P2 Pa) in *. done.
Qed.
End one.
