(** C29 and C42, exactly: which windows are kept, and when no two products are merged. *)
From Verif.model Require Import Base F32 Data Gram Indexer.
From Verif.spec Require Import Spec Data_spec Gram_spec.
From Verif.proofs Require Import Base_facts Trie_props Search_props.
From Coq Require Import Lia.

Lemma owners_count n source key :
  lenN (owners n source key) = sum_N (map (fun s => lenN (filter (fun w => w = key) (windows n s.2))) source).
Proof.
  unfold owners. induction source as [|[p t] source IH]; [done|].
  cbn [map concat sum_N foldr snd]. unfold lenN in *. rewrite app_length, replicate_length, Nat2N.inj_add. unfold sum_N in IH. lia.
Qed.
Lemma owners_elem n source key p :
  p ∈ owners n source key <-> exists t, (p, t) ∈ source /\ key ∈ windows n t.
Proof.
  unfold owners. rewrite elem_of_list_In, in_concat. split.
  - intros (l & Hl & Hp). apply in_map_iff in Hl as ([p' t] & <- & Hs). apply elem_of_list_In, elem_of_replicate in Hp as [-> Hp].
    exists t. split; [by apply elem_of_list_In|].
    destruct (filter (fun w => w = key) (windows n t)) as [|w l] eqn:E; [done|].
    assert (Hw : w ∈ filter (fun w => w = key) (windows n t)) by (rewrite E; left). by apply elem_of_list_filter in Hw as [-> ?].
  - intros (t & Hs & Hk). eexists. split; [apply in_map_iff; exists (p, t); split; [reflexivity|by apply elem_of_list_In]|].
    apply elem_of_list_In, elem_of_replicate. split; [done|]. intros E.
    assert (Hw : key ∈ filter (fun w => w = key) (windows n t)) by (by apply elem_of_list_filter).
    apply nil_length_inv in E. rewrite E in Hw. by apply elem_of_nil in Hw.
Qed.
Lemma window_exact P n o source pc gi : (1 <= n)%nat -> valid_build_order o ->
  total_grams (map snd source) < 2 ^ 32 -> index_from P n o source pc = Done gi ->
  lenN (c_products pc) < 2 ^ 64 -> lenN (c_products pc) <= usize_max P ->
  exists limit, cutoff_for (lenN (c_products pc)) limit /\ forall key,
  let count := sum_N (map (fun s => lenN (filter (fun w => w = key) (windows n s.2))) source) in
  if decide (0 < count < limit)
  then exists l, gi_data gi !! key = Some l /\ forall p, p ∈ l <-> exists t, (p, t) ∈ source /\ key ∈ windows n t
  else gi_data gi !! key = None.
Proof.
  intros Hn Ho Hlim H Hs HP.
  destruct (posting_lists P n o source pc gi Hn Ho Hlim H Hs HP) as (limit & Hcut & HPL).
  exists limit. split; [done|]. intros key count. destruct (HPL key) as [H1 H2].
  assert (Ec : lenN (owners n source key) = count) by apply owners_count.
  assert (N0 : owners n source key <> [] <-> 0 < count).
  { rewrite <- Ec. unfold lenN. destruct (owners n source key); cbn [length]; split; intros; try done; lia. }
  rewrite Ec in H2. destruct (decide (0 < count < limit)) as [[A B]|D].
  - destruct (proj2 H2) as [l El]; [split; [by apply N0|done]|]. exists l. split; [done|]. intros p.
    destruct (H1 l El) as [HPm _]. rewrite HPm. apply owners_elem.
  - destruct (gi_data gi !! key) as [l|] eqn:El; [|done]. exfalso. apply D.
    destruct (proj1 H2) as [A B]; [by eexists|]. split; [by apply N0|done].
Qed.

Lemma merged_exact n os gi input res : (1 <= n <= 764)%nat -> valid_order os -> gram_search n os gi input = Done res ->
  ((forall p c, (p, c) ∈ query_hits n gi input -> exists x, (p, x) ∈ res) <->
   (forall p c q d, (p, c) ∈ query_hits n gi input -> (q, d) ∈ query_hits n gi input -> p_id p = p_id q -> p = q)).
Proof.
  intros Hn Hos Hs. pose proof (search_totals n os gi input res Hn Hos Hs) as Ht. split.
  - intros H p c q d Hp Hq E. destruct (H p c Hp) as [x Hx]. destruct (H q d Hq) as [y Hy]. destruct Ht as [ND _].
    apply elem_of_list_lookup in Hx as [i Hi]. apply elem_of_list_lookup in Hy as [j Hj].
    assert (i = j); [|by simplify_eq]. eapply (NoDup_lookup _ _ _ (p_id p)); [exact ND|..].
    + change (map (fun r => p_id r.1) res) with ((fun r => p_id r.1) <$> res). rewrite list_lookup_fmap, Hi. done.
    + change (map (fun r => p_id r.1) res) with ((fun r => p_id r.1) <$> res). rewrite list_lookup_fmap, Hj. cbn. by rewrite E.
  - intros H p c Hp. destruct (totals_id _ _ _ _ Ht Hp) as (p' & x & Hr & E). exists x.
    destruct (totals_hit _ _ _ _ Ht Hr) as (c' & Hp'). by rewrite (H p c p' c' Hp Hp' (eq_sym E)).
Qed.
