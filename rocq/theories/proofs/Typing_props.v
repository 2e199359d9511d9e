(** C101: typing on. *)
From Verif.model Require Import Base F32 Utf8 Prim Coll Data Gram Indexer Nodes Classic Lit Raw Js Lib.
From Verif.spec Require Import Spec Data_spec Gram_spec Classic_spec Raw_spec Js_spec Lib_spec End_spec.
From Verif.proofs Require Import Base_facts Sort_facts Data_facts Indexer_facts Float_facts Trie_facts Trie_props Search_facts Search_more Search_props
  Js_facts Lib_facts End_facts End_props Typing_facts.

(** ** Windows of longer texts *)
Lemma window_prefix n t x j : (j < length t)%nat -> window n (t ++ x) j = window n t j.
Proof.
  intros Hj. unfold window. rewrite app_assoc. rewrite drop_app_le by (rewrite app_length, replicate_length; lia).
  apply take_app_le. rewrite drop_length, app_length, replicate_length. lia.
Qed.
Lemma windows_prefix n t x : exists l, windows n (t ++ x) = windows n t ++ l.
Proof.
  unfold windows. rewrite app_length, seq_app, map_app. eexists. f_equal.
  apply map_ext_in. intros j Hj. apply in_seq in Hj. apply window_prefix. lia.
Qed.
Lemma window_suffix n u t j : (n <= S j)%nat -> window n (u ++ t) (length u + j) = window n t j.
Proof.
  intros Hj. unfold window. rewrite (drop_app_ge (replicate n 0)), (drop_app_ge (replicate n 0)) by (rewrite replicate_length; lia).
  rewrite !replicate_length. rewrite drop_app_ge by lia. do 2 f_equal. lia.
Qed.
Lemma window_padded n t j : (S j < n)%nat -> head (window n t j) = Some 0.
Proof.
  intros Hj. unfold window. replace (replicate n 0 ++ t) with (replicate (S j) 0 ++ 0 :: replicate (n - S (S j)) 0 ++ t).
  - rewrite drop_app_alt by by rewrite replicate_length. destruct n; [lia|done].
  - change (0 :: replicate (n - S (S j)) 0 ++ t) with (replicate (S (n - S (S j))) 0 ++ t).
    rewrite app_assoc, <- replicate_add. f_equal. f_equal. lia.
Qed.

(** ** Hits of longer queries *)
Lemma hits_prefix n gi q x : exists l, query_hits n gi (q ++ x) = query_hits n gi q ++ l.
Proof. unfold query_hits. destruct (windows_prefix n q x) as [l ->]. rewrite map_app, concat_app. eauto. Qed.
Lemma padded_nothing n gi t j : gi_roots gi !! 0 = None -> (S j < n)%nat -> window_hits n gi (window n t j) = [].
Proof.
  intros R Hj. pose proof (window_padded n t j Hj) as Hh. destruct (window n t j) as [|q0 w]; [done|].
  injection Hh as ->. unfold window_hits, search_gram. by rewrite R.
Qed.
Lemma hits_suffix n gi u q : (1 <= n)%nat -> gi_roots gi !! 0 = None -> exists l, query_hits n gi (u ++ q) = l ++ query_hits n gi q.
Proof.
  intros Hn R. unfold query_hits, windows. rewrite app_length.
  destruct (decide (length q <= n - 1)%nat) as [L|L].
  { exists (concat (map (window_hits n gi) (map (window n (u ++ q)) (seq 0 (length u + length q))))).
    assert (E : concat (map (window_hits n gi) (map (window n q) (seq 0 (length q)))) = []).
    { rewrite map_map. assert (Z : forall l : list nat, (forall j, j ∈ l -> (j < length q)%nat) -> concat (map (fun j => window_hits n gi (window n q j)) l) = []).
      { intros l. induction l as [|j l IH]; intros Hl; [done|]. cbn [map concat].
        rewrite padded_nothing; [|done|]. 2: { specialize (Hl j ltac:(left)). lia. }
        apply IH. intros. apply Hl. by right. }
      apply Z. intros j Hj%elem_of_seq. lia. }
    by rewrite E, app_nil_r. }
  exists (concat (map (window_hits n gi) (map (window n (u ++ q)) (seq 0 (length u + (n - 1)))))).
  assert (E : seq 0 (length u + length q) = seq 0 (length u + (n - 1)) ++ seq (length u + (n - 1)) (length q - (n - 1))).
  { replace (length u + length q)%nat with (length u + (n - 1) + (length q - (n - 1)))%nat at 1 by lia.
    apply (seq_app (length u + (n - 1)) (length q - (n - 1)) 0). }
  rewrite E, !map_app, concat_app. f_equal.
  assert (E2 : seq 0 (length q) = seq 0 (n - 1) ++ seq (n - 1) (length q - (n - 1))).
  { replace (length q) with (n - 1 + (length q - (n - 1)))%nat at 1 by lia. apply (seq_app (n - 1) (length q - (n - 1)) 0). }
  rewrite E2, !map_app, concat_app.
  assert (Z : concat (map (window_hits n gi) (map (window n q) (seq 0 (n - 1)))) = []).
  { rewrite map_map. assert (Z : forall l : list nat, (forall j, j ∈ l -> (j < n - 1)%nat) -> concat (map (fun j => window_hits n gi (window n q j)) l) = []).
    { intros l. induction l as [|j l IH]; intros Hl; [done|]. cbn [map concat].
      rewrite padded_nothing; [|done|]. 2: { specialize (Hl j ltac:(left)). lia. }
      apply IH. intros. apply Hl. by right. }
    apply Z. intros j Hj%elem_of_seq. lia. }
  rewrite Z. cbn [app]. f_equal. f_equal.
  rewrite <- (Nat.add_0_r (length u + (n - 1))) at 1. rewrite <- (Nat.add_0_r (n - 1)) at 3.
  assert (G : forall k a, map (window n (u ++ q)) (seq (length u + (n - 1) + a) k) = map (window n q) (seq (n - 1 + a) k)).
  { intros k. induction k as [|k IH]; intros a; [done|]. cbn [seq map]. f_equal.
    - rewrite <- (window_suffix n u q (n - 1 + a)) by lia. f_equal. lia.
    - specialize (IH (S a)). by rewrite !Nat.add_succ_r in IH. }
  apply G.
Qed.
Lemma hits_infix n gi u q v : (1 <= n)%nat -> gi_roots gi !! 0 = None ->
  exists l r, query_hits n gi (u ++ q ++ v) = l ++ query_hits n gi q ++ r.
Proof.
  intros Hn R. destruct (hits_suffix n gi u (q ++ v) Hn R) as [l ->]. destruct (hits_prefix n gi q v) as [r ->]. eauto.
Qed.

(** ** Sums *)
Lemma sum_ge l : forall x, nonneg x -> Forall nonneg l -> f32_le x (foldl f32_add x l).
Proof.
  induction l as [|y l IH]; intros x Hx Hl; [apply f32_le_refl, Hx|]. apply Forall_cons in Hl as [Hy Hl]. cbn [foldl].
  destruct Hx as [Nx Px], Hy as [Ny Py]. destruct (f32_add_nonneg x y) as (N & L & _ & P); [done..|].
  assert (Z : nonneg (f32_add x y)) by done. pose proof (sum_nonneg l _ Z Hl) as [N' _].
  eapply f32_le_trans; [apply Nx|apply N|apply N'|done|]. by apply IH.
Qed.
Lemma sum_mono l : forall x y, nonneg x -> nonneg y -> Forall nonneg l -> f32_le x y ->
  f32_le (foldl f32_add x l) (foldl f32_add y l).
Proof.
  induction l as [|z l IH]; intros x y Hx Hy Hl L; [done|]. apply Forall_cons in Hl as [Hz Hl]. cbn [foldl].
  destruct Hx as [Nx Px], Hy as [Ny Py], Hz as [Nz Pz]. apply IH; [| |done|by apply f32_add_mono].
  - destruct (f32_add_nonneg x z) as (N & _ & _ & P); done.
  - destruct (f32_add_nonneg y z) as (N & _ & _ & P); done.
Qed.
Lemma sum_infix l c k r : nonneg c -> Forall nonneg l -> Forall nonneg k -> Forall nonneg r ->
  forall a m, l ++ c :: k ++ r = a :: m -> f32_le (foldl f32_add c k) (foldl f32_add a m).
Proof.
  intros Hc Hl Hk Hr a m E. destruct l as [|b l].
  - injection E as <- <-. rewrite foldl_app. apply sum_ge; [|done]. by apply sum_nonneg.
  - injection E as <- <-. apply Forall_cons in Hl as [Hb Hl]. rewrite foldl_app. cbn [foldl]. rewrite foldl_app.
    pose proof (sum_nonneg l b Hb Hl) as S. destruct (f32_add_nonneg (foldl f32_add b l) c) as (N & _ & L & P); [apply S|apply Hc|apply S|apply Hc|].
    assert (Z : nonneg (f32_add (foldl f32_add b l) c)) by done.
    eapply f32_le_trans; [apply (sum_nonneg k c Hc Hk)|apply (sum_nonneg k _ Z Hk)|apply (sum_nonneg r); [by apply sum_nonneg|done]| |].
    + by apply sum_mono.
    + apply sum_ge; [|done]. by apply sum_nonneg.
Qed.

(** ** Results of longer queries *)
Lemma hits_of_app id a b : hits_of id (a ++ b) = hits_of id a ++ hits_of id b.
Proof. apply filter_app. Qed.
Lemma totals_prefix h k r1 r2 p x : totals h r1 -> totals (h ++ k) r2 -> (p, x) ∈ r1 -> exists y, (p, y) ∈ r2.
Proof.
  intros [_ T1] [_ T2] Hp. apply T1 in Hp as (c & rest & E & ->).
  exists (foldl f32_add c (map snd (rest ++ hits_of (p_id p) k))). apply T2. exists c, (rest ++ hits_of (p_id p) k).
  by rewrite hits_of_app, E.
Qed.
Lemma totals_infix h l k r1 r2 p x : totals h r1 -> totals (l ++ h ++ k) r2 ->
  (forall q c, (q, c) ∈ l ++ h ++ k -> f32_unit c) -> (p, x) ∈ r1 ->
  exists p' y, (p', y) ∈ r2 /\ p_id p' = p_id p /\ f32_le x y.
Proof.
  intros [_ T1] [_ T2] Hu Hp. apply T1 in Hp as (c & rest & E & ->).
  set (id := p_id p) in *.
  assert (U : forall s, (forall d, d ∈ s -> d ∈ l ++ h ++ k) -> Forall nonneg (map snd s)).
  { intros s Hs. apply Forall_forall. intros y ([q d] & -> & Hd)%elem_of_list_fmap. apply unit_nonneg. by apply (Hu q), Hs. }
  assert (E2 : hits_of id (l ++ h ++ k) = hits_of id l ++ (p, c) :: rest ++ hits_of id k).
  { by rewrite !hits_of_app, E. }
  destruct (hits_of id (l ++ h ++ k)) as [|[p' a] m] eqn:E3; [by destruct (hits_of id l)|].
  assert (Eid : p_id p' = id).
  { assert (A : (p', a) ∈ hits_of id (l ++ h ++ k)) by (rewrite E3; left). by apply hits_of_elem in A as [A _]. }
  exists p', (foldl f32_add a (map snd m)). split; [|split; [done|]].
  - apply T2. exists a, m. by rewrite Eid.
  - assert (I : forall d s, d ∈ hits_of id s -> d ∈ s) by (intros d s [_ A]%hits_of_elem; done).
    assert (Ein : forall d, d ∈ (p, c) :: rest -> d ∈ h) by (intros d Hd; rewrite <- E in Hd; by apply I in Hd).
    eapply (sum_infix (map snd (hits_of id l)) c (map snd rest) (map snd (hits_of id k))).
    + apply unit_nonneg, (Hu p). rewrite !elem_of_app. right. left. apply Ein. left.
    + apply U. intros d Hd%I. rewrite elem_of_app. by left.
    + apply U. intros d Hd. rewrite !elem_of_app. right. left. apply Ein. by right.
    + apply U. intros d Hd%I. rewrite !elem_of_app. auto.
    + change c with (snd (p, c)) at 1. change a with (snd (p', a)). rewrite <- map_app, <- !map_cons, <- map_app. by rewrite E2.
Qed.
Lemma typing_on n gi o1 o2 q x r1 r2 : (1 <= n <= 764)%nat -> valid_order o1 -> valid_order o2 ->
  gram_search n o1 gi q = Done r1 -> gram_search n o2 gi (q ++ x) = Done r2 ->
  forall p c, (p, c) ∈ r1 -> exists d, (p, d) ∈ r2.
Proof.
  intros Hn H1 H2 E1 E2 p c Hp. apply search_totals in E1; [|done..]. apply search_totals in E2; [|done..].
  destruct (hits_prefix n gi q x) as [l E]. rewrite E in E2. exact (totals_prefix _ _ _ _ _ _ E1 E2 Hp).
Qed.
Section built.
Context (P : platform) (n : nat) (o : build_order) (source : list (product * list N)) (pc : container)
  (gi : gram_index).
Context (Hn : (1 <= n <= 764)%nat) (Ho : valid_build_order o)
  (Hlim : total_grams (map snd source) < 2 ^ 32) (H : index_from P n o source pc = Done gi).
Lemma typing_on_confidence o1 o2 q x r1 r2 : valid_order o1 -> valid_order o2 ->
  gram_search n o1 gi q = Done r1 -> gram_search n o2 gi (q ++ x) = Done r2 ->
  forall p c d, (p, c) ∈ r1 -> (p, d) ∈ r2 -> f32_le c d.
Proof.
  intros H1 H2 E1 E2 p c d Hp Hd. apply search_totals in E1; [|done..]. apply search_totals in E2 as T2; [|done..].
  destruct (hits_prefix n gi q x) as [l E]. rewrite E in T2.
  destruct (totals_infix (query_hits n gi q) [] l r1 r2 p c E1 T2) as (p' & y & Hy & Eid & L); [|done|].
  - intros q' c' Hq. cbn [app] in Hq. rewrite <- E in Hq.
    eapply (hits_unit P n o source pc gi (proj1 Hn) Ho Hlim H); done.
  - destruct T2 as [_ T2]. pose proof (proj1 (T2 _ _) Hy) as (a & m & Ea & ->). pose proof (proj1 (T2 _ _) Hd) as (b & m' & Eb & ->). rewrite Eid, Eb in Ea. by injection Ea as <- <- <-.
Qed.
Lemma no_nul_root : Forall (fun '(_, t) => 0 ∉ t) source -> gi_roots gi !! 0 = None.
Proof.
  intros Hz. destruct (gi_roots gi !! 0) as [root|] eqn:E; [|done].
  destruct (proj1 (proj1 (trie_paths P n o source pc gi (proj1 Hn) Ho Hlim H) [0])) as (_ & _ & p & t & Ht & u & v & ->).
  { eexists. by apply (root_at gi). }
  rewrite Forall_forall in Hz. specialize (Hz _ Ht). simpl in Hz. destruct Hz.
  apply elem_of_app. right. left.
Qed.
Lemma typing_around o1 o2 u q v r1 r2 : valid_order o1 -> valid_order o2 -> Forall (fun '(_, t) => 0 ∉ t) source ->
  gram_search n o1 gi q = Done r1 -> gram_search n o2 gi (u ++ q ++ v) = Done r2 ->
  forall p c, (p, c) ∈ r1 -> exists p' d, (p', d) ∈ r2 /\ p_id p' = p_id p /\ f32_le c d.
Proof.
  intros H1 H2 Hz E1 E2 p c Hp. apply search_totals in E1; [|done..]. apply search_totals in E2; [|done..].
  destruct (hits_infix n gi u q v (proj1 Hn) (no_nul_root Hz)) as (l & r & E). rewrite E in E2.
  apply (totals_infix (query_hits n gi q) l r r1 r2 p c); [done..| |done].
  intros q' c' Hq. rewrite <- E in Hq. eapply (hits_unit P n o source pc gi (proj1 Hn) Ho Hlim H); done.
Qed.
End built.

(** ** The library *)
Lemma lower_app low a b : lower low (a ++ b) = lower low a ++ lower low b.
Proof. unfold lower. by rewrite map_app, concat_app. Qed.
Lemma typing_on_filtered low o1 o2 gi query more categories tags filters l1 l2 :
  valid_search_order o1 -> valid_search_order o2 -> handlers_ok categories tags ->
  search_filtered low o1 gi query categories tags filters = Done l1 ->
  search_filtered low o2 gi (query ++ more) categories tags filters = Done l2 -> forall sid, sid ∈ l1 -> sid ∈ l2.
Proof.
  intros H1 H2 Hok E1 E2 sid Hs.
  destruct (filtered_spec low o1 gi query categories tags filters H1 Hok) as (r1 & ok1 & R1 & O1 & F1).
  destruct (filtered_spec low o2 gi (query ++ more) categories tags filters H2 Hok) as (r2 & ok2 & R2 & O2 & F2).
  rewrite F1 in E1. injection E1 as <-. rewrite F2 in E2. injection E2 as <-.
  apply elem_of_list_fmap in Hs as (p & -> & Hp). apply elem_of_list_filter in Hp as [Op Hp].
  apply elem_of_list_fmap in Hp as ([p' c] & -> & Hp). cbn [fst] in *. rewrite lower_app in R2.
  destruct (typing_on _ _ _ _ _ _ _ _ size_range (proj1 H1) (proj1 H2) R1 R2 p' c Hp) as [d Hd].
  apply elem_of_list_fmap. exists p'. split; [done|]. apply elem_of_list_filter. split; [by apply O2, O1|].
  apply elem_of_list_fmap. by exists (p', d).
Qed.
Lemma typing_on_search low u Q ops o1 o2 query more categories tags order order' entries st1 p1 st2 p2 n j :
  let st := lib_run low u Q lib_init ops in
  valid_search_order o1 -> valid_search_order o2 -> handlers_ok categories tags ->
  search low u o1 st query categories tags order entries = (st1, Done p1) ->
  search low u o2 st (query ++ more) categories tags order' entries = (st2, Done p2) ->
  Some j ∈ calls pp_next n p1 -> exists m, Some j ∈ calls pp_next m p2.
Proof.
  intros st H1 H2 Hok S1 S2 Hj.
  destruct (s_index st) as [gi|] eqn:I.
  2: { unfold search in S1. destruct (parse_filters entries); [|done]. destruct (lock_ok u (s_index_dead st)); try done.
       by rewrite I in S1. }
  pose proof (reachable_consistent _ _ _ _ _ I) as Con.
  destruct (search_delivers _ _ _ _ _ _ _ _ _ _ _ _ I S1) as (fs & l1 & ids1 & F1 & Pf & -> & P1).
  destruct (search_delivers _ _ _ _ _ _ _ _ _ _ _ _ I S2) as (fs' & l2 & ids2 & F2 & Pf' & -> & P2).
  rewrite Pf in Pf'. injection Pf' as <-.
  pose proof (results_in_range _ _ _ _ _ _ _ _ Con H1 Hok F1) as R1. rewrite <- P1 in R1.
  pose proof (results_in_range _ _ _ _ _ _ _ _ Con H2 Hok F2) as R2. rewrite <- P2 in R2.
  destruct (delivered_sid _ _ _ _ Hj R1) as [Ec Es]. rewrite P1 in Es.
  pose proof (typing_on_filtered _ _ _ _ _ _ _ _ _ _ _ H1 H2 Hok F1 F2 _ Es) as D. rewrite <- P2 in D.
  exists (length ids2). rewrite (proj1 (producer_answers _ ids2 (length ids2) R2)). unfold then_none.
  apply elem_of_list_lookup in D as [i Hi]. apply elem_of_list_fmap. exists i. split.
  - rewrite list_lookup_fmap, Hi. destruct j as [c sid]. simpl in *. by subst.
  - apply elem_of_seq. apply lookup_lt_Some in Hi. lia.
Qed.
