(** C64: when a search with one pair of handlers answers what it answers with another. *)
From Verif.model Require Import Base F32 Utf8 Prim Coll Data Gram Indexer Nodes Classic Lit Raw Js Lib.
From Verif.spec Require Import Spec Data_spec Gram_spec Classic_spec Raw_spec Js_spec Lib_spec.
From Verif.proofs Require Import Lib_facts.

Section handlers.
  Context (low : N -> list N) (o : search_order) (gi : gram_index) (input : rstr).
  Context (categories categories' : cat_handler) (tags tags' : tag_handler) (filters : list feature_filter).
  Context (Con : consistent_gram_index ngram_index_size gi) (Ho : valid_search_order o).
  Context (Hok : handlers_ok categories tags) (Hok' : handlers_ok categories' tags').
  Context (res : list (product * f32)).
  Context (Hres : gram_search ngram_index_size (se_rank o) gi (lower low input) = Done res).
  Let agree := forall p x, (p, x) ∈ res ->
    passes categories tags filters (c_features (gi_container gi)) p <->
    passes categories' tags' filters (c_features (gi_container gi)) p.

  Lemma result_sid_inj p x q y : (p, x) ∈ res -> (q, y) ∈ res -> p_sid p = p_sid q -> p = q.
  Proof.
    destruct Con as [(W & _) C]. 
    assert (In : forall p x, (p, x) ∈ res -> p ∈ c_products (gi_container gi)).
    { intros r z Hin. destruct (results_listed _ _ _ _ _ _ _ size_range (proj1 Ho) Hres Hin) as (g & k & Hg & Hr).
      destruct (C _ _ Hg) as (_ & _ & F). rewrite Forall_forall in F. by apply F. }
    intros Hp Hq Hs.
    apply In, elem_of_list_lookup in Hp as [i Hi]. apply In, elem_of_list_lookup in Hq as [k Hk].
    rewrite (W _ _ Hi), (W _ _ Hk) in Hs. apply Nat2N.inj in Hs as <-. rewrite Hi in Hk. by injection Hk as <-.
  Qed.
  Lemma kept_equal l l' :
    search_filtered low o gi input categories tags filters = Done l ->
    search_filtered low o gi input categories' tags' filters = Done l' ->
    (agree -> l = l') /\ (l ≡ₚ l' -> agree).
  Proof.
    destruct (filtered_spec low o gi input categories tags filters Ho Hok) as (r1 & ok1 & R1 & O1 & ->).
    destruct (filtered_spec low o gi input categories' tags' filters Ho Hok') as (r2 & ok2 & R2 & O2 & ->).
    rewrite Hres in R1, R2. injection R1 as <-. injection R2 as <-. intros [= <-] [= <-]. split.
    - intros A. f_equal. clear Hres. assert (A' : forall p x, (p, x) ∈ res -> ok1 p = true <-> ok2 p = true).
      { intros p x Hin. rewrite O1, O2. by apply (A p x). }
      clear A. induction res as [|[p x] l IH]; [done|]. cbn [map].
      rewrite !filter_cons. pose proof (A' p x ltac:(left)) as E. cbn [fst].
      assert (IHl : filter (λ p, ok1 p = true) (map fst l) = filter (λ p, ok2 p = true) (map fst l)).
      { apply IH. intros q y Hin. apply (A' q y). by right. }
      rewrite IHl. destruct (decide (ok1 p = true)) as [K|K], (decide (ok2 p = true)) as [K'|K']; tauto || done.
    - intros Pm p x Hin.
      assert (Tr : forall oka okb, map p_sid (filter (λ p, oka p = true) (map fst res)) ≡ₚ
          map p_sid (filter (λ p, okb p = true) (map fst res)) -> oka p = true -> okb p = true).
      { intros oka okb Q K. assert (p_sid p ∈ map p_sid (filter (λ p, okb p = true) (map fst res))) as M.
        { rewrite <- Q. apply elem_of_list_fmap. exists p. split; [done|]. apply elem_of_list_filter. split; [done|].
          apply elem_of_list_fmap. by exists (p, x). }
        apply elem_of_list_fmap in M as (q & Hs & Hq). apply elem_of_list_filter in Hq as [Kq Hq].
        apply elem_of_list_fmap in Hq as ([q' y] & -> & Hq). simpl in *.
        by rewrite (result_sid_inj p x q' y Hin Hq Hs). }
      rewrite <- O1, <- O2. split; [by apply Tr|by apply Tr; symmetry].
  Qed.
End handlers.

Lemma handlers_exact low u o gi cl input categories tags categories' tags' order entries filters res :
  consistent_gram_index ngram_index_size gi -> parse_filters entries = Some filters -> valid_search_order o ->
  handlers_ok categories tags -> handlers_ok categories' tags' ->
  match order with
  | None => True
  | Some key => exists table, get_orders (cl_order cl) key = Some table /\
      (length (c_products (gi_container gi)) <= length table)%nat
  end ->
  gram_search ngram_index_size (se_rank o) gi (lower low input) = Done res ->
  search low u o (loaded gi cl) input categories tags order entries =
    search low u o (loaded gi cl) input categories' tags' order entries <->
  forall p x, (p, x) ∈ res ->
    passes categories tags filters (c_features (gi_container gi)) p <->
    passes categories' tags' filters (c_features (gi_container gi)) p.
Proof.
  intros Con Hp Ho Hok Hok' Hord Hres.
  destruct (search_unordered low u o gi cl input categories tags entries filters Hp Ho Hok) as (l & E & S).
  destruct (search_unordered low u o gi cl input categories' tags' entries filters Hp Ho Hok') as (l' & E' & S').
  destruct (kept_equal low o gi input categories categories' tags tags' filters Con Ho Hok Hok' res Hres l l' E E') as [A B].
  split.
  - intros Q. apply B. destruct order as [key|].
    + destruct Hord as (table & Hk & Hl).
      destruct (search_ordered low u o gi cl input categories tags key table entries filters Con Hp Ho Hok Hk Hl)
        as (m & m' & T1 & T2 & Pm & _).
      destruct (search_ordered low u o gi cl input categories' tags' key table entries filters Con Hp Ho Hok' Hk Hl)
        as (k & k' & U1 & U2 & Pk & _).
      rewrite S in T1. rewrite S' in U1. unfold pp_new in *. injection T1 as <-. injection U1 as <-.
      rewrite T2, U2 in Q. injection Q as Q. by rewrite <- Pm, <- Pk, Q.
    + rewrite S, S' in Q. unfold pp_new in Q. by injection Q as ->.
  - intros Ag. apply A in Ag as ->. unfold search. rewrite Hp. cbn [lock_ok loaded s_index_dead s_index]. by rewrite E, E'.
Qed.
