(** A search finds what the pieces of its query find. *)
From Verif.model Require Import Base F32 Utf8 Data Gram Indexer Nodes Classic Raw Js Lib.
From Verif.spec Require Import Spec Data_spec Gram_spec Classic_spec Raw_spec Js_spec Lib_spec End_spec Pieces_spec.
From Verif.proofs Require Import Base_facts Data_facts Search_facts Search_more Search_props Js_facts Lib_facts End_facts End_props Typing_props.

(** ** Pieces *)
Lemma occurs_trans a b c : occurs a b -> occurs b c -> occurs a c.
Proof. intros (u & v & ->) (u' & v' & ->). exists (u' ++ u), (v ++ v'). by rewrite <- !app_assoc. Qed.
Lemma window_piece n q j : (n <= S j)%nat -> (j < length q)%nat -> piece n (window n q j) q.
Proof.
  intros Hn Hj. split.
  - exists (take (S j - n) q), (drop n (drop (S j - n) q)). unfold window.
    rewrite drop_app_ge by (rewrite replicate_length; lia). rewrite replicate_length. by rewrite take_drop, take_drop.
  - unfold window. rewrite take_length, drop_length, app_length, replicate_length. lia.
Qed.
Lemma piece_hits n gi w q hit : (1 <= n)%nat -> gi_roots gi !! 0 = None -> piece n w q -> hit ∈ query_hits n gi w -> hit ∈ query_hits n gi q.
Proof.
  intros Hn R [(u & v & ->) _] H. destruct (hits_infix n gi u w v Hn R) as (l & r & ->).
  apply elem_of_app. right. apply elem_of_app. by left.
Qed.
Lemma hits_pieces n gi q hit : (1 <= n)%nat -> gi_roots gi !! 0 = None ->
  hit ∈ query_hits n gi q <-> exists w, piece n w q /\ hit ∈ query_hits n gi w.
Proof.
  intros Hn R. split; [|intros (w & Hw & H); by eapply piece_hits].
  intros H. unfold query_hits in H. apply elem_of_list_In, in_concat in H as (l & Hl & H).
  apply in_map_iff in Hl as (w & <- & Hw). unfold windows in Hw. apply in_map_iff in Hw as (j & <- & Hj).
  apply in_seq in Hj. apply elem_of_list_In in H.
  destruct (decide (S j < n)%nat) as [L|L]; [rewrite padded_nothing in H by done; by apply elem_of_nil in H|].
  exists (window n q j). pose proof (window_piece n q j ltac:(lia) ltac:(lia)) as Hp. split; [done|].
  unfold query_hits. apply elem_of_list_In, in_concat. exists (window_hits n gi (window n q j)).
  split; [|by apply elem_of_list_In]. apply in_map_iff. exists (window n q j). split; [done|].
  unfold windows. apply in_map_iff. destruct Hp as [_ Hlen]. exists (n - 1)%nat. split.
  - unfold window at 1. rewrite drop_app_ge by (rewrite replicate_length; lia). rewrite replicate_length.
    replace (S (n - 1) - n)%nat with 0%nat by lia. cbn [drop]. apply take_ge. lia.
  - apply in_seq. lia.
Qed.

(** ** Who is found *)
Lemma found_hits n o gi q res id : (1 <= n <= 764)%nat -> valid_order o -> gram_search n o gi q = Done res ->
  (exists p x, (p, x) ∈ res /\ p_id p = id) <-> exists p x, (p, x) ∈ query_hits n gi q /\ p_id p = id.
Proof.
  intros Hn Ho E. apply search_totals in E as [_ T]; [|done..]. split.
  - intros (p & x & Hp & <-). apply T in Hp as (c & rest & E & _). exists p, c. split; [|done].
    assert (H : (p, c) ∈ hits_of (p_id p) (query_hits n gi q)) by (rewrite E; left). by apply elem_of_list_filter in H as [_ H].
  - intros (p & x & Hp & <-). destruct (hits_of (p_id p) (query_hits n gi q)) as [|[p' c] rest] eqn:E.
    { assert (H : (p, x) ∈ hits_of (p_id p) (query_hits n gi q)) by (by apply elem_of_list_filter).
      rewrite E in H. by apply elem_of_nil in H. }
    assert (Hi : p_id p' = p_id p).
    { assert (H : (p', c) ∈ hits_of (p_id p) (query_hits n gi q)) by (rewrite E; left). by apply elem_of_list_filter in H as [H _]. }
    exists p', (foldl f32_add c (map snd rest)). split; [|done]. apply T. exists c, rest. by rewrite Hi.
Qed.
Lemma finds_hits n gi q id : (1 <= n <= 764)%nat -> finds n gi q id <-> exists p x, (p, x) ∈ query_hits n gi q /\ p_id p = id.
Proof.
  intros Hn. split.
  - intros (o & res & p & x & Ho & E & Hp & Hi). apply (proj1 (found_hits n o gi q res id Hn Ho E)). by exists p, x.
  - intros H. set (o := fun l : list (rstr * (product * f32)) => l).
    assert (Ho : valid_order o) by (intros l; done).
    destruct (gram_search n o gi q) as [res| | |] eqn:E.
    + apply (proj2 (found_hits n o gi q res id Hn Ho E)) in H as (p & x & Hp & Hi). by exists o, res, p, x.
    + by rewrite gram_search_hits in E.
    + by rewrite gram_search_hits in E.
    + by rewrite gram_search_hits in E.
Qed.
Lemma found_pieces n o gi q res id : (1 <= n <= 764)%nat -> gi_roots gi !! 0 = None -> valid_order o ->
  gram_search n o gi q = Done res ->
  (exists p x, (p, x) ∈ res /\ p_id p = id) <-> exists w, piece n w q /\ finds n gi w id.
Proof.
  intros Hn R Ho E. rewrite (found_hits n o gi q res id Hn Ho E). split.
  - intros (p & x & Hp & Hi). apply hits_pieces in Hp as (w & Hw & Hp); [|lia|done]. exists w. split; [done|].
    apply finds_hits; [done|]. by exists p, x.
  - intros (w & Hw & Hf). apply finds_hits in Hf as (p & x & Hp & Hi); [|done]. exists p, x. split; [|done].
    apply hits_pieces; [lia|done|]. by exists w.
Qed.
Lemma finds_pieces n gi q id : (1 <= n <= 764)%nat -> gi_roots gi !! 0 = None ->
  finds n gi q id <-> exists w, piece n w q /\ finds n gi w id.
Proof.
  intros Hn R. rewrite finds_hits by done. split.
  - intros (p & x & Hp & Hi). apply hits_pieces in Hp as (w & Hw & Hp); [|lia|done]. exists w. split; [done|].
    apply finds_hits; [done|]. by exists p, x.
  - intros (w & Hw & Hf). apply finds_hits in Hf as (p & x & Hp & Hi); [|done]. exists p, x. split; [|done].
    apply hits_pieces; [lia|done|]. by exists w.
Qed.
Lemma same_pieces n gi q q' id : (1 <= n <= 764)%nat -> gi_roots gi !! 0 = None ->
  (forall w, piece n w q -> piece n w q') -> finds n gi q id -> finds n gi q' id.
Proof. intros Hn R H. rewrite !finds_pieces by done. intros (w & Hw & Hf). exists w. split; [by apply H|done]. Qed.

(** ** Words *)
Lemma joined_cons w ws : ws <> [] -> joined (w :: ws) = w ++ 32 :: joined ws.
Proof. by destruct ws. Qed.
Lemma word_in_joined w ws : w ∈ ws -> occurs w (joined ws).
Proof.
  induction ws as [|w' ws IH]; intros H; [by apply elem_of_nil in H|].
  destruct (decide (ws = [])) as [->|Hne].
  - apply elem_of_list_singleton in H as ->. exists [], []. by rewrite app_nil_r.
  - rewrite joined_cons by done. apply elem_of_cons in H as [->|H]; [by exists [], (32 :: joined ws)|].
    destruct (IH H) as (u & v & ->). exists (w' ++ 32 :: u), v. by rewrite <- app_assoc.
Qed.
Lemma occurs_app w a c b : c ∉ w -> occurs w (a ++ c :: b) -> w = [] \/ occurs w a \/ occurs w b.
Proof.
  intros Hc (u & v & E). destruct (decide (length u + length w <= length a)%nat) as [L|L].
  - right. left. exists u, (drop (length u + length w) a).
    assert (E' : take (length u + length w) (a ++ c :: b) = take (length u + length w) (u ++ w ++ v)) by by rewrite E.
    rewrite take_app_le in E' by lia. rewrite app_assoc in E'.
    rewrite take_app_alt in E' by (by rewrite app_length). rewrite <- (take_drop (length u + length w) a) at 1.
    by rewrite E', <- app_assoc.
  - destruct (decide (length a < length u)%nat) as [L'|L'].
    + right. right. exists (drop (S (length a)) u), v.
      assert (E' : drop (S (length a)) (a ++ c :: b) = drop (S (length a)) (u ++ w ++ v)) by by rewrite E.
      rewrite drop_app_ge in E' by lia. replace (S (length a) - length a)%nat with 1%nat in E' by lia. cbn [drop] in E'.
      rewrite drop_app_le in E' by lia. done.
    + exfalso. apply Hc. assert (E' : (a ++ c :: b) !! length a = (u ++ w ++ v) !! length a) by by rewrite E.
      rewrite list_lookup_middle in E' by done. rewrite lookup_app_r in E' by lia. rewrite lookup_app_l in E' by lia.
      symmetry in E'. by eapply elem_of_list_lookup_2.
Qed.
Lemma piece_in_word w ws : 32 ∉ w -> w <> [] -> occurs w (joined ws) -> exists word, word ∈ ws /\ occurs w word.
Proof.
  intros H32 Hne. induction ws as [|w' ws IH].
  - intros (u & v & E). destruct u, w; done.
  - destruct (decide (ws = [])) as [->|Hws].
    + intros H. exists w'. split; [left|done].
    + rewrite joined_cons by done. intros H. destruct (occurs_app _ _ _ _ H32 H) as [?|[H'|H']]; [done| |].
      * exists w'. split; [left|done].
      * destruct (IH H') as (word & Hw & Ho). exists word. split; [by right|done].
Qed.
Lemma words_found n gi ws ws' id : (1 <= n <= 764)%nat -> gi_roots gi !! 0 = None -> (forall w, w ∈ ws -> w ∈ ws') ->
  finds n gi (joined ws) id -> finds n gi (joined ws') id \/ exists w, piece n w (joined ws) /\ 32 ∈ w /\ finds n gi w id.
Proof.
  intros Hn R Hs H. apply finds_pieces in H as (w & [Ho Hl] & Hf); [|done..].
  destruct (decide (32 ∈ w)) as [H32|H32]; [right; exists w; by repeat split|]. left.
  apply finds_pieces; [done..|]. exists w. split; [|done]. split; [|done].
  destruct (piece_in_word w ws H32 ltac:(intros ->; cbn in Hl; lia) Ho) as (word & Hw & Hwo).
  eapply occurs_trans; [done|]. apply word_in_joined. by apply Hs.
Qed.

(** ** In the library *)
Lemma hit_product n gi q p x : consistent_gram_index n gi -> (p, x) ∈ query_hits n gi q -> p ∈ c_products (gi_container gi).
Proof.
  intros [_ Hd] H. unfold query_hits in H. apply elem_of_list_In, in_concat in H as (l & Hl & H).
  apply in_map_iff in Hl as (w & <- & _). unfold window_hits in H.
  destruct (search_gram n gi w) as [[[m c]|]| | |]; try done. destruct (gi_data gi !! m) as [l|] eqn:E; [|done].
  apply in_map_iff in H as (p' & [= -> ->] & H). apply elem_of_list_In in H.
  destruct (Hd m l E) as (_ & _ & Hl). by apply (proj1 (Forall_forall _ _) Hl).
Qed.
Lemma pieces_filtered low o1 o2 gi q1 q2 categories tags filters l1 l2 :
  valid_search_order o1 -> valid_search_order o2 -> handlers_ok categories tags ->
  consistent_gram_index ngram_index_size gi -> NoDup (map p_id (c_products (gi_container gi))) ->
  (forall id, finds ngram_index_size gi (lower low q1) id -> finds ngram_index_size gi (lower low q2) id) ->
  search_filtered low o1 gi q1 categories tags filters = Done l1 ->
  search_filtered low o2 gi q2 categories tags filters = Done l2 -> forall sid, sid ∈ l1 -> sid ∈ l2.
Proof.
  intros H1 H2 Hok Hc Hn Hf E1 E2 sid Hs.
  destruct (filtered_spec low o1 gi q1 categories tags filters H1 Hok) as (r1 & ok1 & R1 & O1 & F1).
  destruct (filtered_spec low o2 gi q2 categories tags filters H2 Hok) as (r2 & ok2 & R2 & O2 & F2).
  rewrite F1 in E1. injection E1 as <-. rewrite F2 in E2. injection E2 as <-.
  apply elem_of_list_fmap in Hs as (p & -> & Hp). apply elem_of_list_filter in Hp as [Op Hp].
  apply elem_of_list_fmap in Hp as ([p' c] & -> & Hp). cbn [fst] in *.
  assert (Hr : forall o q r p c, valid_search_order o -> gram_search ngram_index_size (se_rank o) gi q = Done r -> (p, c) ∈ r ->
    p ∈ c_products (gi_container gi)).
  { intros o q r p0 c0 [Ho _] R Hp0. apply search_totals in R as [_ T]; [|exact size_range|exact Ho].
    apply T in Hp0 as (c1 & rest & E & _). apply (hit_product ngram_index_size gi q p0 c1 Hc).
    assert (H : (p0, c1) ∈ hits_of (p_id p0) (query_hits ngram_index_size gi q)) by (rewrite E; left).
    by apply elem_of_list_filter in H as [_ H]. }
  assert (Hg : finds ngram_index_size gi (lower low q1) (p_id p')).
  { exists (se_rank o1), r1, p', c. split; [apply H1|]. split; [exact R1|]. by split. }
  apply Hf, finds_hits in Hg; [|exact size_range].
  apply (proj2 (found_hits _ _ _ _ r2 (p_id p') size_range (proj1 H2) R2)) in Hg as (p2 & x2 & Hp2 & Hi).
  assert (p2 = p') as ->.
  { pose proof (Hr _ _ _ _ _ H1 R1 Hp) as M1. pose proof (Hr _ _ _ _ _ H2 R2 Hp2) as M2.
    apply elem_of_list_lookup in M1 as [i Hi1]. apply elem_of_list_lookup in M2 as [k Hk].
    assert (i = k) as ->; [|congruence].
    apply (NoDup_lookup _ _ _ (p_id p') Hn).
    - change (map p_id) with (fmap (M := list) p_id). by rewrite list_lookup_fmap, Hi1.
    - change (map p_id) with (fmap (M := list) p_id). rewrite list_lookup_fmap, Hk. cbn. by rewrite Hi. }
  apply elem_of_list_fmap. exists p'. split; [done|]. apply elem_of_list_filter. split; [by apply O2, O1|].
  apply elem_of_list_fmap. by exists (p', x2).
Qed.
Lemma pieces_search low u Q ops gi o1 o2 q1 q2 categories tags order order' entries st1 p1 st2 p2 n j :
  let st := lib_run low u Q lib_init ops in
  valid_search_order o1 -> valid_search_order o2 -> handlers_ok categories tags ->
  s_index st = Some gi -> NoDup (map p_id (c_products (gi_container gi))) ->
  (forall id, finds ngram_index_size gi (lower low q1) id -> finds ngram_index_size gi (lower low q2) id) ->
  search low u o1 st q1 categories tags order entries = (st1, Done p1) ->
  search low u o2 st q2 categories tags order' entries = (st2, Done p2) ->
  Some j ∈ calls pp_next n p1 -> exists m, Some j ∈ calls pp_next m p2.
Proof.
  intros st H1 H2 Hok I Hn Hf S1 S2 Hj.
  pose proof (reachable_consistent _ _ _ _ _ I) as Con.
  destruct (search_delivers _ _ _ _ _ _ _ _ _ _ _ _ I S1) as (fs & l1 & ids1 & F1 & Pf & -> & P1).
  destruct (search_delivers _ _ _ _ _ _ _ _ _ _ _ _ I S2) as (fs' & l2 & ids2 & F2 & Pf' & -> & P2).
  rewrite Pf in Pf'. injection Pf' as <-.
  pose proof (results_in_range _ _ _ _ _ _ _ _ Con H1 Hok F1) as R1. rewrite <- P1 in R1.
  pose proof (results_in_range _ _ _ _ _ _ _ _ Con H2 Hok F2) as R2. rewrite <- P2 in R2.
  destruct (delivered_sid _ _ _ _ Hj R1) as [Ec Es]. rewrite P1 in Es.
  pose proof (pieces_filtered _ _ _ _ _ _ _ _ _ _ _ H1 H2 Hok Con Hn Hf F1 F2 _ Es) as D. rewrite <- P2 in D.
  exists (length ids2). rewrite (proj1 (producer_answers _ ids2 (length ids2) R2)). unfold then_none.
  apply elem_of_list_lookup in D as [i Hi]. apply elem_of_list_fmap. exists i. split.
  - rewrite list_lookup_fmap, Hi. destruct j as [c sid]. simpl in *. by subst.
  - apply elem_of_seq. apply lookup_lt_Some in Hi. lia.
Qed.
Lemma lower_joined low ws : low 32 = [32] -> lower low (joined ws) = joined (map (lower low) ws).
Proof.
  intros L. induction ws as [|w ws IH]; [done|]. destruct ws as [|w' ws]; [done|].
  rewrite (joined_cons w) by done. change (map (lower low) (w :: w' :: ws)) with (lower low w :: map (lower low) (w' :: ws)).
  rewrite (joined_cons (lower low w)) by done. rewrite lower_app. f_equal.
  change (32 :: joined (w' :: ws)) with ([32] ++ joined (w' :: ws)). rewrite lower_app, IH.
  unfold lower at 1. cbn. by rewrite L.
Qed.
Lemma same_pieces_search low u Q ops gi o1 o2 q1 q2 categories tags order order' entries st1 p1 st2 p2 n j :
  let st := lib_run low u Q lib_init ops in
  valid_search_order o1 -> valid_search_order o2 -> handlers_ok categories tags ->
  s_index st = Some gi -> NoDup (map p_id (c_products (gi_container gi))) -> gi_roots gi !! 0 = None ->
  (forall w, piece 5 w (lower low q1) -> piece 5 w (lower low q2)) ->
  search low u o1 st q1 categories tags order entries = (st1, Done p1) ->
  search low u o2 st q2 categories tags order' entries = (st2, Done p2) ->
  Some j ∈ calls pp_next n p1 -> exists m, Some j ∈ calls pp_next m p2.
Proof.
  intros st H1 H2 Hok I Hn R Hp S1 S2 Hj.
  refine (pieces_search low u Q ops gi o1 o2 q1 q2 _ _ _ _ _ _ _ _ _ n j H1 H2 Hok I Hn _ S1 S2 Hj).
  intros id. apply same_pieces; [exact size_range|done|exact Hp].
Qed.
Lemma words_search low u Q ops gi o1 o2 ws1 ws2 categories tags order order' entries st1 p1 st2 p2 n j :
  let st := lib_run low u Q lib_init ops in
  valid_search_order o1 -> valid_search_order o2 -> handlers_ok categories tags ->
  s_index st = Some gi -> NoDup (map p_id (c_products (gi_container gi))) -> gi_roots gi !! 0 = None ->
  low 32 = [32] -> (forall w, w ∈ ws1 -> w ∈ ws2) ->
  (forall w id, piece 5 w (lower low (joined ws1)) -> 32 ∈ w -> ~ finds 5 gi w id) ->
  search low u o1 st (joined ws1) categories tags order entries = (st1, Done p1) ->
  search low u o2 st (joined ws2) categories tags order' entries = (st2, Done p2) ->
  Some j ∈ calls pp_next n p1 -> exists m, Some j ∈ calls pp_next m p2.
Proof.
  intros st H1 H2 Hok I Hn R L Hw Hs S1 S2 Hj.
  refine (pieces_search low u Q ops gi o1 o2 (joined ws1) (joined ws2) _ _ _ _ _ _ _ _ _ n j H1 H2 Hok I Hn _ S1 S2 Hj).
  intros id. rewrite !lower_joined by done. intros Hf.
  destruct (words_found ngram_index_size gi (map (lower low) ws1) (map (lower low) ws2) id size_range R) as [|(w & Hp & H32 & Hw')]; try done.
  - intros w H. apply elem_of_list_fmap in H as (v & -> & Hv). apply elem_of_list_fmap. exists v. split; [done|by apply Hw].
  - exfalso. rewrite lower_joined in Hs by done. by eapply Hs.
Qed.
(** Pieces can be listed. *)
Lemma piece_listed n w q : (1 <= n)%nat -> piece n w q -> w ∈ map (fun i => take n (drop i q)) (seq 0 (length q)).
Proof.
  intros Hn [(u & v & ->) Hl]. apply elem_of_list_fmap. exists (length u). split.
  - rewrite drop_app. rewrite take_app_alt; done.
  - apply elem_of_seq. rewrite !app_length. lia.
Qed.
