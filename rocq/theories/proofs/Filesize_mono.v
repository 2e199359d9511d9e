(** C132: a larger gram size never makes a smaller file. *)
From Verif.model Require Import Base F32 Utf8 Prim Coll Data Gram Indexer Nodes.
From Verif.spec Require Import Spec Data_spec Gram_spec Cost_spec Samples Filesize_spec.
From Verif.proofs Require Import Base_facts Sort_facts Classic_facts Indexer_facts Filesize_facts.
From Coq Require Import ZifyBool ZifyNat ZifyN Sorting.Sorted.
Ltac Zify.zify_post_hook ::= Z.div_mod_to_equations.

(** ** Splitting a list of numbers *)
Section split.
Context {K : Type} `{EqDecision K}.
Definition of_colour (c : K) (E : list (K * N)) : list N := map snd (filter (fun e => e.1 = c) E).
Lemma sum_change (f g : K -> N) cs c : NoDup cs -> c ∈ cs -> (forall c', c' ∈ cs -> c' <> c -> f c' = g c') ->
  sum_N (map f cs) + g c = sum_N (map g cs) + f c.
Proof.
  induction 1 as [|x cs Nx Nd IH]; intros Hc He; [by apply elem_of_nil in Hc|]. cbn [map]. rewrite !sum_cons.
  destruct (decide (x = c)) as [->|N].
  - rewrite (sum_ext f g cs); [lia|]. intros y Hy. apply He; [by right|]. by intros ->.
  - apply elem_of_cons in Hc as [->|Hc]; [done|].
    assert (sum_N (map f cs) + g c = sum_N (map g cs) + f c) by (apply IH; [done|]; intros; apply He; [by right|done]).
    rewrite (He x); [lia|left|done].
Qed.
Lemma colour_len (E : list (K * N)) cs : NoDup cs -> (forall e, e ∈ E -> e.1 ∈ cs) ->
  lenN E = sum_N (map (fun c => lenN (of_colour c E)) cs).
Proof.
  intros Nd. induction E as [|[c x] E IH]; intros Hc.
  - unfold of_colour. cbn. clear. induction cs as [|c cs IH]; [done|]. cbn [map]. rewrite sum_cons, <- IH. done.
  - rewrite lenN_cons, IH by (intros; apply Hc; by right).
    pose proof (sum_change (fun c' => lenN (of_colour c' ((c, x) :: E))) (fun c' => lenN (of_colour c' E)) cs c Nd (Hc (c, x) ltac:(left))) as S.
    assert (H1 : lenN (of_colour c ((c, x) :: E)) = 1 + lenN (of_colour c E)).
    { unfold of_colour. rewrite filter_cons_True by done. cbn [map]. rewrite lenN_cons. lia. }
    cbv beta in S. rewrite H1 in S. specialize (S ltac:(intros c' _ Nc; unfold of_colour; rewrite filter_cons_False; [done|]; cbn; congruence)). lia.
Qed.
Lemma colour_gaps (E : list (K * N)) cs : NoDup cs -> (forall e, e ∈ E -> e.1 ∈ cs) -> StronglySorted N.le (map snd E) ->
  forall p q, (forall c, c ∈ cs -> q c <= p) -> Forall (fun x => p <= x) (map snd E) ->
  gaps_bytes p (map snd E) <= sum_N (map (fun c => gaps_bytes (q c) (of_colour c E)) cs).
Proof.
  intros Nd. induction E as [|[c x] E IH]; intros Hc S p q Hq Hp; [cbn; lia|]. cbn [map snd] in *.
  apply StronglySorted_inv in S as [S F]. apply Forall_cons in Hp as [Hx Hp]. cbn [gaps_bytes].
  pose proof (Hc (c, x) ltac:(left)) as Hcc. cbn [fst] in Hcc.
  specialize (IH ltac:(intros; apply Hc; by right) S x (fun c' => if decide (c' = c) then x else q c')).
  assert (I : gaps_bytes x (map snd E) <= sum_N (map (fun c' => gaps_bytes (if decide (c' = c) then x else q c') (of_colour c' E)) cs)).
  { apply IH; [|done]. intros c' Hc'. destruct (decide (c' = c)); [lia|]. specialize (Hq c' Hc'). lia. }
  pose proof (sum_change (fun c' => gaps_bytes (q c') (of_colour c' ((c, x) :: E)))
    (fun c' => gaps_bytes (if decide (c' = c) then x else q c') (of_colour c' E)) cs c Nd Hcc) as Sm.
  cbv beta in Sm. rewrite (decide_True (P := c = c)) in Sm by done.
  assert (H1 : of_colour c ((c, x) :: E) = x :: of_colour c E) by (unfold of_colour; by rewrite filter_cons_True).
  rewrite H1 in Sm. cbn [gaps_bytes] in Sm.
  specialize (Sm ltac:(intros c' _ Nc; unfold of_colour; rewrite filter_cons_False by (cbn; congruence); by rewrite decide_False)).
  pose proof (number_mono (x - p) (x - q c)) as M. specialize (Hq c Hcc). lia.
Qed.
Lemma colour_bytes (E : list (K * N)) cs : NoDup cs -> cs <> [] -> (forall e, e ∈ E -> e.1 ∈ cs) -> StronglySorted N.le (map snd E) ->
  list_bytes (map snd E) <= sum_N (map (fun c => list_bytes (of_colour c E)) cs).
Proof.
  intros Nd Ne Hc S. unfold list_bytes at 2. rewrite sum_plus. unfold list_bytes.
  assert (A : number_bytes (lenN (map snd E)) <= sum_N (map (fun c => number_bytes (lenN (of_colour c E))) cs)).
  { assert (L : lenN (map snd E) = lenN E) by (unfold lenN; by rewrite map_length). rewrite L, (colour_len E cs Nd Hc).
    clear -Ne. destruct cs as [|c cs]; [done|]. clear Ne. revert c. induction cs as [|c' cs IH]; intros c; cbn [map].
    - rewrite !sum_cons. cbn. rewrite !N.add_0_r. lia.
    - specialize (IH c'). cbn [map] in IH. rewrite !sum_cons in *.
      etrans; [apply number_plus|]. lia. }
  pose proof (colour_gaps E cs Nd Hc S 0 (fun _ => 0) ltac:(intros; apply N.le_refl)
    ltac:(apply Forall_forall; intros; apply N.le_0_l)) as B. cbv beta in B. lia.
Qed.
End split.

(** ** The trie *)
Lemma filter_submseteq {A} (Q : A -> Prop) `{forall x, Decision (Q x)} (l k : list A) : l ⊆+ k -> filter Q l ⊆+ filter Q k.
Proof.
  intros S. apply submseteq_Permutation in S as [r ->]. rewrite filter_app. by apply submseteq_inserts_r.
Qed.
Lemma pieces_sub n m texts : (n <= m)%nat -> pieces n texts ⊆+ pieces m texts.
Proof.
  intros H. apply NoDup_submseteq; [apply pieces_NoDup|]. intros w. rewrite !pieces_elem. intros (? & ? & ?).
  split; [done|]. split; [lia|done].
Qed.
Lemma trie_mono n m texts : (n <= m)%nat -> trie_bytes n texts <= trie_bytes m texts.
Proof.
  intros H. pose proof (pieces_sub n m texts H) as S0. unfold trie_bytes. cbv zeta.
  assert (S1 : filter single (pieces n texts) ⊆+ filter single (pieces m texts)) by by apply filter_submseteq.
  pose proof (number_mono _ _ (lenN_le_sub _ _ S1)).
  pose proof (sum_submseteq (fun w => number_bytes (last_char w)) _ _ S1).
  assert (sum_N (map (piece_bytes (pieces n texts)) (pieces n texts)) <= sum_N (map (piece_bytes (pieces m texts)) (pieces n texts))).
  { apply sum_le. intros w _. unfold piece_bytes.
    assert (number_bytes (lenN (filter (fun v => removelast v = w) (pieces n texts))) <= number_bytes (lenN (filter (fun v => removelast v = w) (pieces m texts))));
      [|lia]. apply number_mono, lenN_le_sub. by apply filter_submseteq. }
  pose proof (sum_submseteq (piece_bytes (pieces m texts)) _ _ S0). lia.
Qed.
Lemma trie_strict n m texts t : (n < m)%nat -> t ∈ texts -> (n < length t)%nat -> trie_bytes n texts < trie_bytes m texts.
Proof.
  intros H Ht Hl. pose proof (pieces_sub n m texts ltac:(lia)) as S0. unfold trie_bytes. cbv zeta.
  assert (S1 : filter single (pieces n texts) ⊆+ filter single (pieces m texts)) by by apply filter_submseteq.
  pose proof (number_mono _ _ (lenN_le_sub _ _ S1)).
  pose proof (sum_submseteq (fun w => number_bytes (last_char w)) _ _ S1).
  assert (sum_N (map (piece_bytes (pieces n texts)) (pieces n texts)) <= sum_N (map (piece_bytes (pieces m texts)) (pieces n texts))).
  { apply sum_le. intros w _. unfold piece_bytes.
    assert (number_bytes (lenN (filter (fun v => removelast v = w) (pieces n texts))) <= number_bytes (lenN (filter (fun v => removelast v = w) (pieces m texts))));
      [|lia]. apply number_mono, lenN_le_sub. by apply filter_submseteq. }
  assert (S2 : take (S n) t :: pieces n texts ⊆+ pieces m texts).
  { apply NoDup_submseteq.
    - constructor; [|apply pieces_NoDup]. rewrite pieces_elem. intros (_ & L & _). rewrite take_length in L. lia.
    - intros w [->|Hw]%elem_of_cons; [|by eapply elem_of_submseteq]. apply pieces_elem. split.
      + destruct t; [cbn in Hl; lia|done].
      + split; [rewrite take_length; lia|]. exists t. split; [done|]. exists [], (drop (S n) t). by rewrite app_nil_l, take_drop. }
  pose proof (sum_submseteq (piece_bytes (pieces m texts)) _ _ S2) as X. cbn [map] in X. rewrite sum_cons in X.
  unfold piece_bytes at 1 in X. lia.
Qed.
Lemma trie_same n m texts : (n <= m)%nat -> Forall (fun t => length t <= n)%nat texts -> trie_bytes n texts = trie_bytes m texts.
Proof.
  intros H F. apply N.le_antisymm; [by apply trie_mono|].
  assert (E : pieces m texts ⊆+ pieces n texts).
  { apply NoDup_submseteq; [apply pieces_NoDup|]. intros w. rewrite !pieces_elem. intros (? & ? & t & Ht & Ho).
    split; [done|]. split; [|eauto]. rewrite Forall_forall in F. specialize (F t Ht). destruct Ho as (u & v & ->).
    rewrite !app_length in F. lia. }
  unfold trie_bytes. cbv zeta.
  assert (S1 : filter single (pieces m texts) ⊆+ filter single (pieces n texts)) by by apply filter_submseteq.
  pose proof (number_mono _ _ (lenN_le_sub _ _ S1)).
  pose proof (sum_submseteq (fun w => number_bytes (last_char w)) _ _ S1).
  assert (sum_N (map (piece_bytes (pieces m texts)) (pieces m texts)) <= sum_N (map (piece_bytes (pieces n texts)) (pieces m texts))).
  { apply sum_le. intros w _. unfold piece_bytes.
    assert (number_bytes (lenN (filter (fun v => removelast v = w) (pieces m texts))) <= number_bytes (lenN (filter (fun v => removelast v = w) (pieces n texts))));
      [|lia]. apply number_mono, lenN_le_sub. by apply filter_submseteq. }
  pose proof (sum_submseteq (piece_bytes (pieces n texts)) _ _ E). lia.
Qed.

(** ** The windows *)
Lemma windows_drop n m t : (n <= m)%nat -> windows n t = map (drop (m - n)) (windows m t).
Proof.
  intros H. induction t as [|g t IH] using rev_ind; [done|]. rewrite !windows_snoc, map_app, <- IH. f_equal. cbn [map]. f_equal.
  unfold lookback_of. rewrite drop_drop.
  replace m with ((m - n) + n)%nat at 2 by lia. rewrite replicate_add, <- app_assoc.
  rewrite (Nat.add_comm (length (t ++ [g]))), <- drop_drop.
  rewrite (drop_app_alt (replicate (m - n) 0)); [done|by rewrite replicate_length].
Qed.
Lemma events_drop n m texts : (n <= m)%nat -> events n texts = map (fun e => (drop (m - n) e.1, e.2)) (events m texts).
Proof.
  intros H. unfold events.
  assert (G : forall k texts, concat (imap (fun i t => map (fun w => (w, N.of_nat (k + i))) (windows n t)) texts) =
    map (fun e => (drop (m - n) e.1, e.2)) (concat (imap (fun i t => map (fun w => (w, N.of_nat (k + i))) (windows m t)) texts))).
  { clear texts. intros k texts. revert k. induction texts as [|t texts IH]; intros k; [done|]. cbn [imap concat].
    rewrite map_app. f_equal.
    - rewrite (windows_drop n m) by done. rewrite !map_map. done.
    - specialize (IH (S k)).
      assert (E : forall l, imap ((fun i t => map (fun w : list N => (w, N.of_nat (k + i))) (windows l t)) ∘ S) texts =
        imap (fun i t => map (fun w => (w, N.of_nat (S k + i))) (windows l t)) texts).
      { intros l. apply imap_ext. intros i t' _. cbn. apply map_ext. intros w. do 2 f_equal. lia. }
      rewrite !E. exact IH. }
  apply (G 0%nat).
Qed.
(** ** The posting lists *)
Section posts.
Variables (n m : nat) (limit : N) (texts : list (list N)).
Hypothesis Hnm : (n <= m)%nat.
Let d (k : list N) := drop (m - n) k.
Definition finer (k : list N) : list (list N) := filter (fun c => drop (m - n) c = k) (remove_dups (concat (map (windows m) texts))).
Lemma places_colours k : places n texts k = map snd (filter (fun e : list N * N => drop (m - n) e.1 = k) (events m texts)).
Proof using Hnm.
  rewrite places_events, (events_drop n m) by done. induction (events m texts) as [|[w x] E IH]; [done|]. cbn [map fst snd].
  destruct (decide (drop (m - n) w = k)).
  - rewrite !filter_cons_True by done. cbn [map snd]. by f_equal.
  - by rewrite !filter_cons_False by done.
Qed.
Lemma places_finer k c : drop (m - n) c = k ->
  places m texts c = of_colour c (filter (fun e : list N * N => drop (m - n) e.1 = k) (events m texts)).
Proof.
  intros Hc. rewrite places_events. unfold of_colour. f_equal. induction (events m texts) as [|[w x] E IH]; [done|].
  destruct (decide (w = c)) as [->|Nw].
  - rewrite filter_cons_True by done. rewrite (filter_cons_True _ (c, x) E) by done. rewrite filter_cons_True by done. by f_equal.
  - rewrite filter_cons_False by done. rewrite IH. destruct (decide (drop (m - n) w = k)).
    + rewrite (filter_cons_True _ (w, x) E) by done. by rewrite filter_cons_False.
    + by rewrite (filter_cons_False _ (w, x) E).
Qed.
Lemma event_window l e : e ∈ events l texts -> e.1 ∈ concat (map (windows l) texts).
Proof.
  unfold events. intros He. apply elem_of_concat in He as (row & He & Hr). apply elem_of_lookup_imap in Hr as (i & t & -> & Ht).
  apply elem_of_list_fmap in He as (w & -> & Hw). cbn. apply elem_of_concat. exists (windows l t). split; [done|].
  apply elem_of_list_fmap. exists t. split; [done|]. by eapply elem_of_list_lookup_2.
Qed.
Lemma window_up k : k ∈ concat (map (windows n) texts) -> exists c, c ∈ concat (map (windows m) texts) /\ drop (m - n) c = k.
Proof using Hnm.
  intros Hk. apply elem_of_concat in Hk as (row & Hk & Hr). apply elem_of_list_fmap in Hr as (t & -> & Ht).
  rewrite (windows_drop n m) in Hk by done. apply elem_of_list_fmap in Hk as (c & -> & Hc). exists c. split; [|done].
  apply elem_of_concat. exists (windows m t). split; [done|]. apply elem_of_list_fmap. eauto.
Qed.
Lemma window_down c : c ∈ concat (map (windows m) texts) -> drop (m - n) c ∈ concat (map (windows n) texts).
Proof using Hnm.
  intros Hk. apply elem_of_concat in Hk as (row & Hk & Hr). apply elem_of_list_fmap in Hr as (t & -> & Ht).
  apply elem_of_concat. exists (windows n t). split; [|apply elem_of_list_fmap; eauto].
  rewrite (windows_drop n m) by done. apply elem_of_list_fmap. eauto.
Qed.
Lemma finer_some k : k ∈ concat (map (windows n) texts) -> finer k <> [].
Proof using Hnm.
  intros (c & Hc & E)%window_up Hf. assert (c ∈ finer k) as Hin; [|rewrite Hf in Hin; by apply elem_of_nil in Hin].
  unfold finer. rewrite elem_of_list_filter, elem_of_remove_dups. done.
Qed.
Lemma places_le k c : drop (m - n) c = k -> lenN (places m texts c) <= lenN (places n texts k).
Proof using Hnm.
  intros Hc. rewrite (places_finer k c Hc), places_colours. unfold of_colour, lenN. rewrite !map_length.
  match goal with |- N.of_nat (length (filter ?Q ?l)) <= _ => pose proof (filter_length Q l) end. lia.
Qed.
Lemma list_finer k : k ∈ concat (map (windows n) texts) ->
  list_bytes (places n texts k) <= sum_N (map (fun c => list_bytes (places m texts c)) (finer k)).
Proof using Hnm.
  intros Hk. rewrite places_colours.
  rewrite (sum_ext (fun c => list_bytes (places m texts c))
    (fun c => list_bytes (of_colour c (filter (fun e : list N * N => drop (m - n) e.1 = k) (events m texts))))).
  - apply colour_bytes.
    + apply NoDup_filter, NoDup_remove_dups.
    + by apply finer_some.
    + intros e [E He]%elem_of_list_filter. unfold finer. rewrite elem_of_list_filter, elem_of_remove_dups. split; [done|].
      by apply event_window.
    + rewrite <- places_colours. apply places_sorted.
  - intros c [E Hc]%elem_of_list_filter. by rewrite (places_finer k c E).
Qed.
Lemma key_finer c : length c = m -> key_bytes (drop (m - n) c) + N.of_nat (m - n) <= key_bytes c.
Proof using Hnm.
  intros L. unfold key_bytes. rewrite <- (take_drop (m - n) c) at 3 4. rewrite map_app, sum_app.
  assert (number_bytes (lenN (drop (m - n) c)) <= number_bytes (lenN (take (m - n) c ++ drop (m - n) c))).
  { apply number_mono. unfold lenN. rewrite app_length. lia. }
  assert (N.of_nat (m - n) <= sum_N (map number_bytes (take (m - n) c))); [|lia].
  assert (Lt : length (take (m - n) c) = (m - n)%nat) by (rewrite take_length; lia). rewrite <- Lt at 1.
  clear. induction (take (m - n) c) as [|x l IH]; [cbn; lia|]. cbn [map length]. rewrite sum_cons. pose proof (number_pos x). lia.
Qed.
Lemma window_len l k : k ∈ concat (map (windows l) texts) -> length k = l.
Proof.
  intros Hk. apply elem_of_concat in Hk as (row & Hk & Hr). apply elem_of_list_fmap in Hr as (t & -> & Ht).
  clear Ht. induction t as [|g t IH] using rev_ind; [by apply elem_of_nil in Hk|]. rewrite windows_snoc in Hk.
  apply elem_of_app in Hk as [Hk|Hk]; [auto|]. apply elem_of_list_singleton in Hk as ->. apply lookback_length.
Qed.
Let kept' := kept_windows n limit texts.
Let kept := kept_windows m limit texts.
Lemma finer_kept : concat (map finer kept') ⊆+ kept.
Proof using Hnm.
  apply NoDup_submseteq.
  - assert (Nd : NoDup kept') by apply NoDup_filter, NoDup_remove_dups. clear -Nd. induction Nd as [|k ks Nk Nd IH]; [constructor|].
    cbn [map concat]. apply NoDup_app. split; [apply NoDup_filter, NoDup_remove_dups|]. split; [|done].
    intros c [E _]%elem_of_list_filter Hc. apply Nk. apply elem_of_concat in Hc as (row & Hc & Hr).
    apply elem_of_list_fmap in Hr as (k' & -> & Hk'). apply elem_of_list_filter in Hc as [E' _]. congruence.
  - intros c Hc. apply elem_of_concat in Hc as (row & Hc & Hr). apply elem_of_list_fmap in Hr as (k & -> & Hk).
    apply elem_of_list_filter in Hc as [E Hc]. apply elem_of_list_filter in Hk as [Hl _]. apply elem_of_list_filter. split; [|done].
    pose proof (places_le k c E). lia.
Qed.
Lemma kept_window k : k ∈ kept' -> k ∈ concat (map (windows n) texts).
Proof. intros [_ Hk]%elem_of_list_filter. by rewrite elem_of_remove_dups in Hk. Qed.
Lemma posting_grow : posting_bytes n limit texts + N.of_nat (m - n) * lenN kept' <= posting_bytes m limit texts.
Proof using Hnm.
  unfold posting_bytes. cbv zeta. fold kept kept'.
  assert (A : number_bytes (lenN kept') <= number_bytes (lenN kept)).
  { apply number_mono. etrans; [|apply lenN_le_sub, finer_kept]. rewrite lenN_concat, map_map.
    assert (G : forall ks, (forall k, k ∈ ks -> k ∈ kept') -> lenN ks <= sum_N (map (fun k => lenN (finer k)) ks)).
    { induction ks as [|k ks IH]; intros Hk; [cbn; lia|]. rewrite lenN_cons. cbn [map]. rewrite sum_cons.
      pose proof (finer_some k (kept_window k (Hk k ltac:(left)))) as Hf. specialize (IH ltac:(intros; apply Hk; by right)).
      assert (1 <= lenN (finer k)) by (unfold lenN; destruct (finer k); [done|cbn [length]; lia]). lia. }
    by apply G. }
  set (f := fun key => key_bytes key + list_bytes (places n texts key)). set (g := fun key => key_bytes key + list_bytes (places m texts key)).
  assert (B : sum_N (map f kept') + N.of_nat (m - n) * lenN kept' <= sum_N (map g (concat (map finer kept')))).
  { assert (G : forall ks, (forall k, k ∈ ks -> k ∈ kept') ->
      sum_N (map f ks) + N.of_nat (m - n) * lenN ks <= sum_N (map g (concat (map finer ks)))); [|by apply G].
    induction ks as [|k ks IH]; intros Hk; [cbn; lia|]. rewrite lenN_cons. cbn [map concat]. rewrite map_app, sum_app, sum_cons.
    specialize (IH ltac:(intros; apply Hk; by right)). pose proof (kept_window k (Hk k ltac:(left))) as Hw.
    assert (f k + N.of_nat (m - n) <= sum_N (map g (finer k))); [|lia].
    unfold f, g. rewrite sum_plus. pose proof (list_finer k Hw) as L. pose proof (finer_some k Hw) as Hf.
    assert (key_bytes k + N.of_nat (m - n) <= sum_N (map key_bytes (finer k))); [|lia].
    assert (Fc : forall c, c ∈ finer k -> drop (m - n) c = k /\ length c = m).
    { intros c [E Hc]%elem_of_list_filter. rewrite elem_of_remove_dups in Hc. split; [done|]. by apply window_len. }
    destruct (finer k) as [|c cs]; [done|]. cbn [map]. rewrite sum_cons. destruct (Fc c ltac:(left)) as [E Lc].
    pose proof (key_finer c Lc) as K. rewrite E in K. lia. }
  pose proof (sum_submseteq g _ _ finer_kept). lia.
Qed.
(** Without a longer text the windows are the same up to the padding. *)
Lemma kept_same : Forall (fun t => length t <= n)%nat texts -> kept' = [] -> kept = [].
Proof using Hnm.
  intros F H. destruct kept as [|c cs] eqn:E; [done|]. exfalso. assert (Hc : c ∈ kept) by (rewrite E; left). clear E cs.
  apply elem_of_list_filter in Hc as [Hl Hc]. rewrite elem_of_remove_dups in Hc.
  assert (P : forall w, w ∈ concat (map (windows m) texts) -> w = replicate (m - n) 0 ++ drop (m - n) w).
  { intros w Hw. apply elem_of_concat in Hw as (row & Hw & Hr). apply elem_of_list_fmap in Hr as (t & -> & Ht).
    rewrite Forall_forall in F. specialize (F t Ht). clear Ht. revert F. induction t as [|g t IH] using rev_ind; intros F; [by apply elem_of_nil in Hw|].
    rewrite windows_snoc in Hw. apply elem_of_app in Hw as [Hw|Hw]; [apply IH; [done|]; rewrite app_length in F; lia|].
    apply elem_of_list_singleton in Hw as ->. unfold lookback_of.
    set (u := t ++ [g]) in *. clearbody u.
    rewrite drop_app_le by (rewrite replicate_length; lia). rewrite drop_replicate.
    replace (m - length u)%nat with ((m - n) + (n - length u))%nat by lia. rewrite replicate_add, <- app_assoc.
    rewrite (drop_app_alt (replicate (m - n) 0)); [done|by rewrite replicate_length]. }
  assert (Hk : drop (m - n) c ∈ kept'); [|rewrite H in Hk; by apply elem_of_nil in Hk].
  apply elem_of_list_filter. rewrite elem_of_remove_dups. split; [|by apply window_down].
  replace (places n texts (drop (m - n) c)) with (places m texts c); [done|].
  rewrite places_colours, places_events. f_equal.
  assert (G : forall E : list (list N * N), (forall e, e ∈ E -> e ∈ events m texts) ->
    filter (fun e => e.1 = c) E = filter (fun e => drop (m - n) e.1 = drop (m - n) c) E); [|by apply G].
  induction E as [|[w x] E IH]; intros He; [done|]. specialize (IH ltac:(intros; apply He; by right)).
  assert (Hw : w ∈ concat (map (windows m) texts)) by (apply (event_window m (w, x)), He; left).
  destruct (decide (w = c)) as [->|Nw].
  - rewrite !filter_cons_True by done. by f_equal.
  - rewrite !filter_cons_False; [done| |done]. cbn [fst]. intros D. apply Nw. rewrite (P w Hw), (P c Hc). by rewrite D.
Qed.
Lemma posting_none l : kept_windows l limit texts = [] -> posting_bytes l limit texts = 1.
Proof. intros E. unfold posting_bytes. by rewrite E. Qed.
End posts.
Theorem sizes_mono n m limit texts : (n <= m)%nat ->
  trie_bytes n texts + posting_bytes n limit texts <= trie_bytes m texts + posting_bytes m limit texts.
Proof. intros H. pose proof (trie_mono n m texts H). pose proof (posting_grow n m limit texts H). nia. Qed.
Theorem sizes_same n m limit texts : (n < m)%nat ->
  trie_bytes n texts + posting_bytes n limit texts = trie_bytes m texts + posting_bytes m limit texts <->
  Forall (fun t => length t <= n)%nat texts /\ kept_windows n limit texts = [].
Proof.
  intros H. pose proof (trie_mono n m texts ltac:(lia)) as A. pose proof (posting_grow n m limit texts ltac:(lia)) as B. split.
  - intros E. split.
    + apply Forall_forall. intros t Ht. destruct (decide (length t <= n)%nat); [done|].
      pose proof (trie_strict n m texts t H Ht ltac:(lia)). lia.
    + destruct (kept_windows n limit texts) as [|k ks]; [done|]. exfalso. rewrite lenN_cons in B. nia.
  - intros [F K]. rewrite (trie_same n m) by (done || lia). rewrite posting_none by done.
    by rewrite posting_none by (apply (kept_same n m); [lia|done..]).
Qed.
