(** C131: what the searches that are timed find. *)
From Coq Require Import String.
From Verif.model Require Import Base F32 Utf8 Prim Coll Data Gram Indexer Nodes Classic Lit Raw Js Lib Tests Bench.
From Verif.spec Require Import Spec Data_spec Gram_spec Classic_spec Raw_spec Js_spec Lib_spec End_spec.
From Verif.proofs Require Import Base_facts Data_facts Trie_facts Trie_props Search_facts Search_props Raw_facts Raw_props End_facts End_props.
From Coq Require Import Lia.
Local Open Scope list_scope.
Local Open Scope N_scope.

Section timed.
Context (low : N -> list N) (parse : rstr -> option f32) (P : platform) (bo : build_order) (input : list raw_product).
Context (Hbo : valid_build_order bo) (Hlim : total_grams (map (raw_text low) input) < 2 ^ 32).
Context (Hm : lenN input < 2 ^ 64) (HmP : lenN input <= usize_max P).

Lemma index_found n gi cl ro query res raw w : (3 <= n <= 5)%nat -> valid_order ro ->
  make_index low parse P bo n input = Done (gi, cl) -> gram_search n ro gi (lower low query) = Done res ->
  raw ∈ input -> length w = n -> 0 ∉ w -> occurs w (lower low query) -> occurs w (raw_text low raw) ->
  (forall limit, cutoff_for (lenN input) limit -> total_occurrences w (map (raw_text low) input) < limit) -> distinctive low input w ->
  exists p x, (p, x) ∈ res /\ p_id p = r_id raw.
Proof.
  intros Hn Ho E Er Hraw Hl Hz Hwq Hwr Hocc Hdist. unfold make_index in E.
  destruct (optimize parse bo input) as [[c cl']| | |] eqn:O; try done. cbn [mbind res_bind] in E. fold (sources low c) in E.
  destruct (index_from P n bo (sources low c) c) as [gi'| | |] eqn:I; try done. cbn [mbind res_bind] in E. injection E as -> ->.
  destruct (optimize_products parse bo input c cl O) as [D W].
  apply elem_of_list_lookup in Hraw as (i & Hraw).
  destruct (Forall2_lookup_l _ _ _ _ _ D Hraw) as (q & Hq & Dq).
  assert (T : map snd (sources low c) = map (raw_text low) input) by by apply raw_grams.
  assert (Hlim' : total_grams (map snd (sources low c)) < 2 ^ 32) by by rewrite T.
  assert (Hsrc : (q, raw_text low raw) ∈ sources low c).
  { apply elem_of_list_fmap. exists q. split; [|by eapply elem_of_list_lookup_2]. f_equal.
    destruct Dq as (D1 & D2 & D3 & D4). unfold product_grams, raw_text, lower. by rewrite D1, D3, D4. }
  assert (Elen : lenN (c_products c) = lenN input) by (unfold lenN; by rewrite (Forall2_length _ _ _ D)).
  assert (N1 : (1 <= n)%nat) by lia.
  assert (Hww : w ∈ windows n (raw_text low raw)) by (apply windows_occurs; done).
  assert (Hwq' : w ∈ windows n (lower low query)) by (apply windows_occurs; done).
  destruct (posting_lists P n bo (sources low c) c gi N1 Hbo Hlim' I ltac:(by rewrite Elen) ltac:(by rewrite Elen)) as (limit & Hcut & HPL).
  destruct (HPL w) as [_ Hpost].
  destruct (proj2 Hpost) as [pl Hpl].
  { split.
    - assert (q ∈ owners n (sources low c) w) as Hown by (apply owners_elem; eauto).
      intros Hnil. rewrite Hnil in Hown. by apply elem_of_nil in Hown.
    - rewrite <- Hl. rewrite (owners_total low input) by (rewrite ?Hl; done || lia). rewrite T. apply Hocc. by rewrite <- Elen. }
  destruct (chosen_for_occurring P n bo (sources low c) c gi N1 Hbo Hlim' I w _ _ ltac:(lia) Hl Hsrc Hwr)
    as (q0 & q' & root & e & g & cf & -> & Hr & He & _ & _).
  destruct (exact_wins P n bo (sources low c) c gi N1 Hbo Hlim' I q0 q' root e q (raw_text low raw) ro (lower low query) res pl
    ltac:(lia) Hl Ho Er Hwq' Hr He) as (p' & x & Hp' & Eid); [|done..|].
  - intros m cm Hne Hlm Hcm Hcand. exfalso. apply Hne.
    destruct (exact_reaches root m f32_one cm Hcm) as [leaf Hleaf].
    destruct (proj1 (proj1 (trie_paths P n bo (sources low c) c gi N1 Hbo Hlim' I) (q0 :: m))) as (_ & _ & p1 & t1 & Ht1 & Hoc).
    { exists leaf, q0, m, root. done. }
    assert (exists raw1, raw1 ∈ input /\ t1 = raw_text low raw1) as (raw1 & Hr1 & ->).
    { assert (t1 ∈ map snd (sources low c)) as Ht by (apply elem_of_list_fmap; by exists (p1, t1)).
      rewrite T in Ht. apply elem_of_list_fmap in Ht as (raw1 & -> & ?). eauto. }
    assert (q0 :: m = q0 :: q') as [= ->]; [|done]. apply (Hdist raw1); [done..|].
    exists q0, q', m. do 3 (split; [done|]). destruct Hcand as [Hd|Hd]; [left|by right].
    assert (N3 : (n / 3 = 1)%nat); [|rewrite N3 in Hd; exact Hd]. clear - Hn.
    do 3 (destruct n as [|n]; [lia|]). do 3 (destruct n as [|n]; [reflexivity|]). lia.
  - exists p', x. split; [done|]. rewrite Eid. destruct Dq as (_ & Dq & _). done.
Qed.
(** With a query of [n] chars and more, the searches that are timed find what they should. *)
Lemma timed_found ro raw w : valid_order ro -> raw ∈ input -> 0 ∉ w -> occurs w (raw_text low raw) ->
  (forall limit, cutoff_for (lenN input) limit -> total_occurrences w (map (raw_text low) input) < limit) -> distinctive low input w ->
  (forall n res, (3 <= n <= 5)%nat -> length w = n -> bench_gram_search low parse P bo ro n input = Done res ->
     occurs w (lower low bench_query) -> exists p x, (p, x) ∈ res /\ p_id p = r_id raw) /\
  (forall len q res, length w = 3%nat -> bench_len_search low parse P bo ro len input = Done res ->
     slice_to bench_query len = Done q -> occurs w (lower low q) -> exists p x, (p, x) ∈ res /\ p_id p = r_id raw).
Proof.
  intros Ho Hraw Hz Hwr Hocc Hdist. split.
  - intros n res Hn Hl E Hwq. unfold bench_gram_search in E.
    destruct (make_index low parse P bo n input) as [[gi cl]| | |] eqn:M; try done. cbn [mbind res_bind] in E.
    eapply index_found; eauto.
  - intros len q res Hl E Sq Hwq. unfold bench_len_search in E. rewrite Sq in E. cbn [mbind res_bind] in E.
    destruct (make_index low parse P bo 3 input) as [[gi cl]| | |] eqn:M; try done. cbn [mbind res_bind] in E.
    eapply (index_found 3); eauto.
Qed.
End timed.

(** ** A case *)
From Verif.spec Require Import Samples Raw_samples Gram_samples Lib_samples Bench_samples.
From Verif.proofs Require Import End_samples_facts.
Lemma poster_windows : Forall (fun raw => 0 ∉ raw_text ascii_low raw /\
  Forall (fun g => head g = head ora -> g = ora) (windows 3 (raw_text ascii_low raw))) posters.
Proof. apply (bool_decide_unpack _). vm_compute. done. Qed.
Lemma ora_distinctive : distinctive ascii_low posters ora.
Proof.
  intros raw g Hr Ho Hc. pose proof poster_windows as S. rewrite Forall_forall in S. destruct (S raw Hr) as [Hz Hw].
  rewrite Forall_forall in Hw. apply Hw; [|by apply first_kept]. apply windows_occurs; [lia|..|done].
  - by apply one_correction_length in Hc.
  - intros Hg. apply Hz. destruct Ho as (a & b & ->). rewrite !elem_of_app. auto.
Qed.
Lemma ora_timed : orange ∈ posters /\ 0 ∉ ora /\ length ora = 3%nat /\ occurs ora (raw_text ascii_low orange) /\
  (forall limit, cutoff_for (lenN posters) limit -> total_occurrences ora (map (raw_text ascii_low) posters) < limit) /\
  distinctive ascii_low posters ora /\
  (exists q, slice_to bench_query 15 = Done q /\ occurs ora (lower ascii_low q)) /\
  total_grams (map (raw_text ascii_low) posters) < 2 ^ 32 /\
  (r ← bench_len_search ascii_low sample_parse host64 hash_order no_order 15 posters; Done (map (fun x => p_id x.1) r)) = Done [r_id orange; lit "2"].
Proof.
  split; [left|]. split; [apply (bool_decide_unpack _); vm_compute; done|]. split; [done|].
  split; [exists [], (drop 3 (raw_text ascii_low orange)); vm_compute; reflexivity|].
  split. { intros limit [Hl _]. rewrite Hl by (vm_compute; discriminate). vm_compute; reflexivity. }
  split; [exact ora_distinctive|]. split.
  { eexists. split; [vm_compute; reflexivity|]. exists (take 12 (lower ascii_low bench_query)), []. vm_compute. reflexivity. }
  split; vm_compute; reflexivity.
Qed.
