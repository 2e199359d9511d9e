(** Which cut files are accepted. *)
From Verif.model Require Import Base F32 Utf8 Prim Coll Data Gram Nodes Classic Lib.
From Verif.spec Require Import Spec Data_spec Trunc_spec.
From Verif.proofs Require Import Base_facts Prim_facts Prim_codec Coll_facts Data_facts File_facts Trunc_facts.
From Coq Require Import Lia.

Lemma enc_u64_length_small x : x < 2 ^ 56 -> (length (enc_u64 x) <= 8)%nat.
Proof.
  intros H. pose proof (groups_le x 8 ltac:(done) H) as Hg. pose proof (enc_u64_length x) as Hl. unfold lenN in Hl. lia.
Qed.
Lemma usize_nil P r v : dec_usize P [] <> Done (r, v).
Proof. done. Qed.
Lemma str_nil P r v : dec_str P [] <> Done (r, v).
Proof. done. Qed.

Lemma number_cut_read P x kept lost : size_ok P x -> kept <> [] -> lost <> [] -> enc_usize x = kept ++ lost ->
  dec_usize P kept = Done ([], x mod 128 ^ lenN kept).
Proof.
  intros [H1 H2] Hk Hl E. unfold enc_usize in E.
  assert (Hlen : (length kept < length (enc_u64 x))%nat).
  { rewrite E, app_length. destruct lost; [done|]. simpl. lia. }
  pose proof (enc_u64_length_small x H1) as H8.
  unfold dec_usize. replace kept with (take (length kept) (enc_u64 x)) at 1 by (rewrite E; apply take_app).
  rewrite dec_u64_truncated; [|eapply N.lt_trans; [exact H1|done]|destruct kept; [done|simpl in *; lia]].
  destruct (Nat.eqb_spec (length kept) 9) as [?|_]; [lia|]. cbn [mbind res_bind].
  fold (lenN kept). replace (x mod 128 ^ lenN kept <=? usize_max P) with true; [done|].
  symmetry. apply N.leb_le. etransitivity; [|exact H2]. apply N.mod_le. apply N.pow_nonzero. done.
Qed.
(** A cut number is read as its low digits; nothing else is read from a proper part of it. *)
Lemma usize_cut P x kept lost rest y : size_ok P x -> lost <> [] -> enc_usize x = kept ++ lost ->
  dec_usize P kept = Done (rest, y) <-> kept <> [] /\ rest = [] /\ y = x mod 128 ^ lenN kept.
Proof.
  intros Hx Hl E. destruct kept as [|b kept]; [split; [done|by intros []]|].
  rewrite (number_cut_read P x _ lost) by done. split; [intros [= <- <-]; done|by intros (_ & -> & ->)].
Qed.

Section items.
  Context {A B S : Type} (enc : A -> list N) (dec : decoder B) (h : A -> B) (upd : S -> B -> S)
    (f : list N * S -> res (list N * S)).
  Context (Hf : forall i s, f (i, s) = ('(i', b) ← dec i; Done (i', upd s b))).
  Context (Hst : steady dec) (Hnil : forall r b, dec [] <> Done (r, b)).
  Lemma items_cut l : (forall x, x ∈ l -> forall rest, dec (enc x ++ rest) = Done (rest, h x)) ->
    forall i lost s i' s', lost <> [] -> i ++ lost = concat (map enc l) ->
    rep_nat (length l) f (i, s) = Done (i', s') <->
    exists l0 x kept y, l = l0 ++ [x] /\ i = concat (map enc l0) ++ kept /\ enc x = kept ++ lost /\
      dec kept = Done (i', y) /\ s' = foldl upd s (map h l0 ++ [y]).
  Proof.
    induction l as [|x l IH]; intros Hrt i lost s i' s' Hl E.
    { exfalso. simpl in E. apply app_eq_nil in E as [_ ?]. done. }
    cbn [length rep_nat]. rewrite Hf. destruct l as [|x2 l].
    - cbn [length rep_nat]. simpl in E. rewrite app_nil_r in E. split.
      + intros H. inv_bind H. destruct x0 as [i1 s1]. inv_bind E0. destruct x0 as [i2 b]. injection E0 as <- <-.
        injection H as <- <-. exists [], x, i, b. done.
      + intros ([|a l0] & x0 & kept & y & El & -> & Ee & Ed & ->); [|by destruct l0].
        simpl in *. rewrite Ed. done.
    - assert (Hrt' : forall x, x ∈ x2 :: l -> forall rest, dec (enc x ++ rest) = Done (rest, h x)).
      { intros y Hy. apply Hrt. by right. }
      specialize (IH Hrt').
      assert (Hx : forall rest, dec (enc x ++ rest) = Done (rest, h x)) by (apply Hrt; left).
      split.
      + intros H. inv_bind H. destruct x0 as [i1 s1]. inv_bind E0. destruct x0 as [i2 b]. injection E0 as -> <-.
        assert (Hi1 : i1 <> []).
        { intros ->. cbn [length rep_nat] in H. rewrite Hf in H. inv_bind H. inv_bind E0. destruct x1 as [? ?]. by apply Hnil in E2. }
        destruct (Hst _ _ _ lost E1 Hi1) as [_ R]. rewrite E in R. cbn [map concat] in R. rewrite Hx in R. injection R as R <-.
        apply (IH i1 lost _ _ _ Hl) in H; [|by symmetry]. destruct H as (l0 & x0 & kept & y & El & -> & Ee & Ed & ->).
        exists (x :: l0), x0, kept, y. split; [by rewrite El|]. split; [|done].
        apply (app_inv_tail lost). rewrite E. cbn [map concat]. rewrite <- !app_assoc in *. f_equal. by rewrite <- R.
      + intros ([|a l0] & x0 & kept & y & El & -> & Ee & Ed & ->); [done|].
        injection El as <- El. cbn [map concat]. rewrite <- app_assoc, Hx. cbn [mbind res_bind].
        apply (IH (concat (map enc l0) ++ kept) lost _ _ _ Hl).
        * rewrite El, map_app, concat_app. simpl. by rewrite app_nil_r, Ee, <- app_assoc.
        * exists l0, x0, kept, y. done.
  Qed.
End items.

Lemma foldl_snoc {A} (l acc : list A) : foldl (fun out x => out ++ [x]) acc l = acc ++ l.
Proof. revert acc. induction l as [|x l IH]; intros acc; simpl; [by rewrite app_nil_r|]. rewrite IH, <- app_assoc. done. Qed.

(** A table of ranks that was cut short. *)
Definition ranks_cut (ranks : list N) (kept lost : list N) (read : list N) : Prop :=
  (exists before rank kept' low, ranks = before ++ [rank] /\ number_cut rank kept' lost low /\
     kept = enc_usize (lenN ranks) ++ concat (map enc_usize before) ++ kept' /\ read = before ++ [low]) \/
  (exists gone, number_cut (lenN ranks) kept gone 0 /\ lost = gone ++ concat (map enc_usize ranks) /\ read = []).
Lemma ranks_cut_iff P ranks kept lost rest read : len_ok P KUsizes (lenN ranks) -> Forall (size_ok P) ranks ->
  lost <> [] -> kept ++ lost = enc_vec enc_usize ranks ->
  dec_vec P KUsizes (dec_usize P) kept = Done (rest, read) <-> rest = [] /\ ranks_cut ranks kept lost read.
Proof.
  intros [Hlen Hcap] Hr Hl E. unfold enc_vec in E. rewrite Forall_forall in Hr.
  assert (Hrt : forall x, x ∈ ranks -> forall rest, dec_usize P (enc_usize x ++ rest) = Done (rest, x)).
  { intros x Hx. apply (rt_usize_ok P x). by apply Hr. }
  pose proof (rt_usize_ok P _ Hlen) as Hrl.
  set (step := fun '(input, out) => '(new_input, item) ← dec_usize P input; Done (new_input, out ++ [item])).
  assert (Hloop : forall i rest out, i ++ lost = concat (map enc_usize ranks) ->
    rep_nat (length ranks) step (i, []) = Done (rest, out) <->
    exists l0 x kept' y, ranks = l0 ++ [x] /\ i = concat (map enc_usize l0) ++ kept' /\ enc_usize x = kept' ++ lost /\
      dec_usize P kept' = Done (rest, y) /\ out = l0 ++ [y]).
  { intros i rest' out Ei.
    rewrite (items_cut enc_usize (dec_usize P) (fun x => x) (fun out x => out ++ [x]) step
      ltac:(done) (usize_steady P) (usize_nil P) ranks Hrt i lost [] rest' out Hl Ei).
    split; intros (l0 & x & kept' & y & H1 & H2 & H3 & H4 & H5); exists l0, x, kept', y;
      rewrite foldl_snoc, map_id in *; done. }
  split.
  - intros H. unfold dec_vec in H. inv_bind H. destruct x as [i1 len]. inv_bind H. fold step in H.
    destruct (decide (i1 = [])) as [->|Hi1].
    + (* the length was all there was *)
      assert (Hlen0 : len = 0).
      { destruct (N.eq_dec len 0) as [|Hne]; [done|]. exfalso. rewrite rep_N_nat in H.
        destruct (N.to_nat len) as [|k] eqn:Ek; [lia|]. cbn [rep_nat] in H. inv_bind H. subst step. cbn in E2. done. }
      subst len. rewrite rep_N_nat in H. cbn in H. injection H as <- <-. split; [done|]. right.
      assert (Hk : kept <> []) by (intros ->; done).
      destruct (decide (length kept < length (enc_usize (lenN ranks)))%nat) as [Hlt|Hge].
      * exists (drop (length kept) (enc_usize (lenN ranks))).
        assert (Ek : enc_usize (lenN ranks) = kept ++ drop (length kept) (enc_usize (lenN ranks))).
        { assert (Et : take (length kept) (enc_usize (lenN ranks)) = kept).
          { apply (f_equal (take (length kept))) in E. rewrite take_app, take_app_le in E by lia. done. }
          rewrite <- Et at 1. by rewrite take_drop. }
        assert (Hg : drop (length kept) (enc_usize (lenN ranks)) <> []).
        { intros Hd. apply (f_equal length) in Hd. rewrite drop_length in Hd. simpl in Hd. lia. }
        split; [|split; [|done]].
        { repeat split; try done. rewrite (number_cut_read P _ _ _ Hlen Hk Hg Ek) in E0. by injection E0 as ->. }
        apply (app_inv_head kept). rewrite E, app_assoc, <- Ek. done.
      * exfalso. assert (Ed : exists i, kept = enc_usize (lenN ranks) ++ i).
        { exists (drop (length (enc_usize (lenN ranks))) kept).
          apply (f_equal (take (length (enc_usize (lenN ranks))))) in E. rewrite take_app, take_app_le in E by lia.
          rewrite <- E at 1. by rewrite take_drop. }
        destruct Ed as [i ->]. rewrite Hrl in E0. injection E0 as -> E0.
        assert (ranks = []) by (apply length_zero_iff_nil; unfold lenN in E0; lia). subst ranks.
        rewrite <- !app_assoc in E. apply app_inv_head in E. simpl in E. done.
    + destruct (usize_steady P _ _ _ lost E0 Hi1) as [_ R]. rewrite E, Hrl in R. injection R as R <-.
      rewrite rep_N_nat in H. unfold lenN in H. rewrite Nat2N.id in H. symmetry in R.
      apply (Hloop i1) in H; [|done]. destruct H as (l0 & x0 & kept' & y & E2 & -> & E3 & E4 & ->).
      apply (usize_cut P x0 kept' lost) in E4; [|apply Hr; rewrite E2; set_solver|done|done]. destruct E4 as (Hk & -> & ->).
      split; [done|]. left. exists l0, x0, kept', (x0 mod 128 ^ lenN kept'). split; [done|].
      split; [by repeat split|]. split; [|done].
      apply (app_inv_tail lost). rewrite E, <- R. by rewrite <- !app_assoc.
  - intros (-> & [(l0 & x0 & kept' & low & E1 & (Hk & _ & Ee & ->) & -> & ->)|(gone & (Hk & Hg & Ee & E0) & -> & ->)]).
    + unfold dec_vec. rewrite Hrl. cbn [mbind res_bind]. rewrite with_capacity_ok by done. cbn [mbind res_bind].
      rewrite rep_N_nat. unfold lenN at 1. rewrite Nat2N.id. fold step.
      assert (Hx0 : size_ok P x0) by (apply Hr; rewrite E1; set_solver).
      apply Hloop.
      * rewrite E1, map_app, concat_app. simpl. by rewrite app_nil_r, Ee, <- app_assoc.
      * exists l0, x0, kept', (x0 mod 128 ^ lenN kept'). repeat split; try done. by apply (usize_cut P x0 kept' lost).
    + unfold dec_vec. rewrite (number_cut_read P _ _ _ Hlen Hk Hg Ee). cbn [mbind res_bind]. rewrite <- E0.
      rewrite with_capacity_ok by lia. done.
Qed.

(** One order: its name and its table. *)
Definition dec_entry (P : platform) : decoder (rstr * list N) := fun input =>
  '(input, key) ← dec_str P input;
  '(input, ranks) ← dec_vec P KUsizes (dec_usize P) input;
  Done (input, (key, ranks)).
Definition enc_entry (kr : rstr * list N) : list N := enc_str kr.1 ++ enc_vec enc_usize kr.2.
Lemma dec_entry_steady P : steady (dec_entry P).
Proof.
  intros i r v m H Hne. unfold dec_entry in *. inv_bind H. destruct x as [i1 key]. inv_bind H. destruct x as [i2 ranks].
  injection H as <- <-. destruct (vec_steady P _ _ _ (usize_steady P) _ _ _ m E0 Hne) as [N1 R1].
  destruct (str_steady P _ _ _ m E N1) as [N0 R0]. split; [done|]. rewrite R0. cbn [mbind res_bind]. rewrite R1. done.
Qed.
Definition entry_ok (P : platform) (kr : rstr * list N) : Prop :=
  str_ok P kr.1 /\ len_ok P KUsizes (lenN kr.2) /\ Forall (size_ok P) kr.2.
Lemma rt_entry P kr : entry_ok P kr -> rt enc_entry (dec_entry P) kr kr.
Proof.
  intros (H1 & H2 & H3) rest. unfold enc_entry, dec_entry. rewrite <- app_assoc, (rt_str P) by done. cbn [mbind res_bind].
  rewrite Forall_forall in H3. rewrite (rt_vec_id P KUsizes enc_usize (dec_usize P)); [by destruct kr|done|].
  intros x Hx. by apply rt_usize_ok, H3.
Qed.
(** A cut order is read only if its name is whole and its table is read. *)
Lemma entry_cut P key ranks kept lost rest kr : entry_ok P (key, ranks) -> lost <> [] -> enc_entry (key, ranks) = kept ++ lost ->
  dec_entry P kept = Done (rest, kr) <->
  rest = [] /\ exists kept' read, kept = enc_str key ++ kept' /\ kr = (key, read) /\ ranks_cut ranks kept' lost read.
Proof.
  intros (H1 & H2 & H3) Hl E. unfold enc_entry in E. cbn [fst snd] in *. split.
  - intros H. unfold dec_entry in H. inv_bind H. destruct x as [i1 key']. inv_bind H. destruct x as [i2 read]. injection H as <- <-.
    assert (Hi1 : i1 <> []) by (intros ->; done).
    destruct (str_steady P _ _ _ lost E0 Hi1) as [_ R]. rewrite <- E, (rt_str P) in R by done. injection R as R <-.
    apply (ranks_cut_iff P ranks i1 lost) in E1; [|done..]. destruct E1 as [-> Hc]. split; [done|].
    exists i1, read. split; [|done]. apply (app_inv_tail lost). by rewrite <- E, R, <- app_assoc.
  - intros (-> & kept' & read & -> & -> & Hc). unfold dec_entry. rewrite (rt_str P) by done. cbn [mbind res_bind].
    rewrite <- app_assoc in E. apply app_inv_head in E.
    rewrite (proj2 (ranks_cut_iff P ranks kept' lost [] read H2 H3 Hl (eq_sym E))); done.
Qed.

Lemma list_to_map_foldl (l : list (rstr * list N)) (acc : gmap rstr (list N)) : NoDup (map fst l) ->
  foldl (fun out kr => <[kr.1 := kr.2]> out) acc l = list_to_map l ∪ acc.
Proof.
  revert acc. induction l as [|[k r] l IH]; intros acc Hn; simpl; [by rewrite (left_id_L ∅ (∪))|].
  inversion_clear Hn as [|? ? Hk Hn']. rewrite IH by done.
  rewrite <- insert_union_l. symmetry. rewrite insert_union_r; [done|].
  apply not_elem_of_list_to_map_1. exact Hk.
Qed.

(** The orders, cut short. *)
Lemma orders_cut_iff (P : platform) (o : order_of (rstr * list N)) (oi : gmap rstr (list N)) (kept lost rest : list N) (read : gmap rstr (list N)) : valid_order o -> orders_ok P oi -> N.of_nat (size oi) < 128 ->
  lost <> [] -> kept ++ lost = enc_orders o oi ->
  dec_orders P kept = Done (rest, read) <->
  rest = [] /\ exists entries, orders_cut (o (map_to_list oi)) lost entries /\ read = list_to_map entries.
Proof.
  intros Ho [Hlen Hk] Hsmall Hl E. unfold enc_orders, enc_map in E.
  set (entries := o (map_to_list oi)) in *.
  assert (Hn : NoDup (map fst entries)).
  { eapply NoDup_Permutation_proper; [apply Permutation_map, Ho|]. apply NoDup_fst_map_to_list. }
  assert (Hsz : N.of_nat (size oi) = lenN entries).
  { unfold entries, lenN. rewrite (Ho _). done. }
  assert (Hok : forall kr, kr ∈ entries -> entry_ok P kr).
  { intros [k r] Hkr. unfold entries in Hkr. rewrite (Ho _) in Hkr. apply elem_of_map_to_list in Hkr. by apply Hk. }
  assert (Hmap : forall l, map (fun '(k, v) => enc_str k ++ enc_vec enc_usize v) l = map enc_entry l).
  { intros l. apply map_ext. by intros [k v]. }
  rewrite Hmap, Hsz in E.
  assert (Henc : enc_usize (lenN entries) = [lenN entries]).
  { unfold enc_usize. rewrite enc_u64_unfold. rewrite <- Hsz. apply N.ltb_lt in Hsmall. by rewrite Hsmall. }
  rewrite Henc in E. destruct kept as [|b kept].
  { split; [done|]. intros (-> & es & Hc & ->). exfalso. simpl in E. subst lost.
    destruct Hc as [before key ranks rank kept low Ew Hnum _|before key ranks kept gone Ew Hnum El _].
    - destruct Hnum as (Hkept & _ & Ee & _).
      apply (f_equal length) in Ee. rewrite app_length in Ee. simpl in Ee.
      rewrite Ew, map_app, concat_app, app_length in Ee. unfold enc_entry, enc_vec in Ee. simpl in Ee.
      rewrite app_nil_r, !app_length in Ee. rewrite map_app, concat_app, app_length in Ee. simpl in Ee. rewrite app_nil_r in Ee. lia.
    - destruct Hnum as (Hkept & _ & Ee & _). apply (f_equal length) in El. rewrite app_length in El. simpl in El.
      rewrite Ew, map_app, concat_app, app_length in El. unfold enc_entry, enc_vec in El. simpl in El.
      rewrite app_nil_r, !app_length, Ee, app_length in El. lia. }
  injection E as -> E.
  set (step := fun '(input, out) => '(new_input, key) ← dec_str P input;
     '(new_input, value) ← dec_vec P KUsizes (dec_usize P) new_input;
     Done (new_input, <[key := value]> out) : res (list N * gmap rstr (list N))).
  assert (Hred : dec_orders P (lenN entries :: kept) = rep_nat (length entries) step (kept, ∅)).
  { unfold dec_orders, dec_map. change (lenN entries :: kept) with ([lenN entries] ++ kept). rewrite <- Henc, (rt_usize_ok P).
    2: { rewrite <- Hsz. apply Hlen. }
    cbn [mbind res_bind]. rewrite with_capacity_ok by (rewrite <- Hsz; apply Hlen). cbn [mbind res_bind].
    rewrite rep_N_nat. unfold lenN. by rewrite Nat2N.id. }
  rewrite Hred.
  rewrite (items_cut enc_entry (dec_entry P) (fun x => x) (fun out kr => <[kr.1 := kr.2]> out) step) with (lost := lost).
  2: { intros i s. unfold step, dec_entry. destruct (dec_str P i) as [[i1 k]| | |]; [|done..]. cbn [mbind res_bind].
       by destruct (dec_vec P KUsizes (dec_usize P) i1) as [[i2 r]| | |]. }
  2: { apply dec_entry_steady. }
  2: { done. }
  2: { intros kr Hkr. by apply rt_entry, Hok. }
  2: { done. }
  2: { done. }
  assert (Hread : forall l0 key ranks read', entries = l0 ++ [(key, ranks)] ->
    foldl (fun (out : gmap rstr (list N)) kr => <[kr.1 := kr.2]> out) ∅ (map (fun x => x) l0 ++ [(key, read')]) = list_to_map (l0 ++ [(key, read')])).
  { intros l0 key ranks read' Ee. rewrite map_id, list_to_map_foldl; [by rewrite (right_id_L ∅ (∪))|].
    rewrite Ee, map_app in Hn. rewrite map_app. exact Hn. }
  split.
  - intros (l0 & [key ranks] & kept' & [key' read'] & Ee & -> & Ex & Ed & ->).
    apply (entry_cut P key ranks kept' lost) in Ed; [|apply Hok; rewrite Ee; set_solver|done|done].
    destruct Ed as (-> & kept2 & read2 & -> & [= -> ->] & Hc). split; [done|].
    exists (l0 ++ [(key, read2)]). rewrite (Hread l0 key ranks) by done. split; [|done].
    destruct Hc as [(before & rank & kept3 & low & -> & Hnum & -> & ->)|(gone & Hnum & -> & ->)].
    + by eapply Cut_in_rank.
    + by eapply Cut_in_length.
  - intros (-> & es & Hc & ->). destruct Hc as [before key ranks rank kept3 low Ew Hnum ->|before key ranks kept3 gone Ew Hnum El ->].
    + exists before, (key, ranks ++ [rank]), (enc_str key ++ enc_usize (lenN (ranks ++ [rank])) ++ concat (map enc_usize ranks) ++ kept3), (key, ranks ++ [low]).
      assert (Ex : enc_entry (key, ranks ++ [rank]) =
        (enc_str key ++ enc_usize (lenN (ranks ++ [rank])) ++ concat (map enc_usize ranks) ++ kept3) ++ lost).
      { destruct Hnum as (_ & _ & Ee & _). unfold enc_entry, enc_vec. cbn [fst snd]. rewrite map_app, concat_app. simpl.
        by rewrite app_nil_r, Ee, <- !app_assoc. }
      split; [done|]. split; [|split; [done|]].
      * apply (app_inv_tail lost). rewrite E, Ew, map_app, concat_app. simpl. by rewrite app_nil_r, Ex, <- !app_assoc.
      * split; [|by rewrite (Hread before key (ranks ++ [rank]))].
        apply (entry_cut P key (ranks ++ [rank]) _ lost); [apply Hok; rewrite Ew; set_solver|done|done|].
        split; [done|]. eexists _, _. split; [done|]. split; [done|]. left. by exists ranks, rank, kept3, low.
    + exists before, (key, ranks), (enc_str key ++ kept3), (key, []).
      assert (Ex : enc_entry (key, ranks) = (enc_str key ++ kept3) ++ lost).
      { destruct Hnum as (_ & _ & Ee & _). unfold enc_entry, enc_vec. cbn [fst snd]. by rewrite Ee, El, <- !app_assoc. }
      split; [done|]. split; [|split; [done|]].
      * apply (app_inv_tail lost). rewrite E, Ew, map_app, concat_app. simpl. by rewrite app_nil_r, Ex, <- !app_assoc.
      * split; [|by rewrite (Hread before key ranks)].
        apply (entry_cut P key ranks _ lost); [apply Hok; rewrite Ew; set_solver|done|done|].
        split; [done|]. eexists _, _. split; [done|]. split; [done|]. right. by exists gone.
Qed.

Lemma cut_is_end (o : order_of (rstr * list N)) (oi : gmap rstr (list N)) lost es :
  orders_cut (o (map_to_list oi)) lost es -> exists i3, i3 ++ lost = enc_orders o oi.
Proof.
  intros Hcut. unfold enc_orders, enc_map.
  assert (Hmap : forall l, map (fun '(k, v) => enc_str k ++ enc_vec enc_usize v) l = map enc_entry l).
  { intros l. apply map_ext. by intros [k v]. }
  rewrite Hmap. destruct Hcut as [before key ranks rank kept3 low Ew Hnum _|before key ranks kept3 gone Ew Hnum El _].
  - destruct Hnum as (_ & _ & Ee & _). eexists. rewrite Ew, map_app, concat_app. simpl. unfold enc_entry at 2, enc_vec. simpl.
    rewrite (map_app _ ranks), (concat_app (map _ ranks)). simpl. rewrite !app_nil_r, Ee, !app_assoc. reflexivity.
  - destruct Hnum as (_ & _ & Ee & _). eexists. rewrite Ew, map_app, concat_app. simpl. unfold enc_entry at 2, enc_vec. simpl.
    rewrite !app_nil_r, Ee, El, !app_assoc. reflexivity.
Qed.

(** A file that was cut short. *)
Lemma file_cut_iff P n o gi cl kept lost gi' cl' : valid_ser_order o -> gram_index_ok P n gi ->
  classic_ok P (c_products (gi_container gi)) cl -> N.of_nat (size (cl_order cl)) < 128 ->
  lost <> [] -> kept ++ lost = serialize_all o gi cl ->
  deserialize_all P n kept = Done (gi', cl') <->
  gi' = stored_gram_index gi /\ cl_categories cl' = stored_categories 0 (cl_categories cl) /\
  cl_tags cl' = map stored_tag (cl_tags cl) /\
  exists entries, orders_cut (so_orders o (map_to_list (cl_order cl))) lost entries /\ cl_order cl' = list_to_map entries.
Proof.
  intros Ho Hg Hc Hs Hl E. pose proof Ho as (_ & _ & _ & _ & Hoo).
  pose proof (rt_gram_index P n o gi Ho Hg) as Rg.
  destruct Hg as ((_ & _ & Hsz & Hpos & _) & _). destruct Hc as (Hc1 & Hc2 & Hc3 & Hc4 & Hc5 & Hc6).
  assert (Rc : forall rest, dec_categories P (map stored (c_products (gi_container gi))) (enc_categories (cl_categories cl) ++ rest) =
    Done (rest, stored_categories 0 (cl_categories cl))) by (by apply (rt_categories P)).
  assert (Rt : forall rest, dec_tags P (map stored (c_products (gi_container gi))) (enc_tags (cl_tags cl) ++ rest) =
    Done (rest, map stored_tag (cl_tags cl))) by (by apply (rt_tags P)).
  unfold serialize_all in E. split.
  - intros H. unfold deserialize_all in H. inv_bind H. destruct x as [i1 ng]. inv_bind H. destruct x as [i4 c]. injection H as <- <-.
    unfold dec_classic in E1. inv_bind E1. destruct x as [i2 cats]. inv_bind E1. destruct x as [i3 tags]. inv_bind E1. destruct x as [i4' ord].
    injection E1 as -> <-. cbn [cl_categories cl_tags cl_order].
    assert (Hi3 : i3 <> []) by (intros ->; done).
    destruct (tags_steady P _ _ _ _ lost E3 Hi3) as [Hi2 R2].
    destruct (categories_steady P _ _ _ _ lost E2 Hi2) as [Hi1 R1].
    destruct (gram_index_steady P n _ _ _ lost E0 Hi1) as [_ R0].
    rewrite E, Rg in R0. injection R0 as R0 <-. rewrite <- R0 in R1. unfold enc_classic in R1.
    change (c_products (gi_container (stored_gram_index gi))) with (map stored (c_products (gi_container gi))) in *.
    rewrite Rc in R1. injection R1 as R1 <-. rewrite <- R1, Rt in R2. injection R2 as R2 <-.
    apply (orders_cut_iff P (so_orders o) (cl_order cl) i3 lost) in E4; [|done..].
    destruct E4 as (-> & es & Hcut & ->). repeat split; try done. by exists es.
  - destruct cl' as [cats tags ord]. cbn [cl_categories cl_tags cl_order]. intros (-> & -> & -> & es & Hcut & ->).
    pose proof (cut_is_end (so_orders o) (cl_order cl) lost es Hcut) as Hi3.
    destruct Hi3 as [i3 E3]. unfold enc_classic in E. rewrite <- E3, !app_assoc in E. apply app_inv_tail in E. subst kept.
    unfold deserialize_all. rewrite <- !app_assoc, Rg. cbn [mbind res_bind]. unfold dec_classic.
    change (c_products (gi_container (stored_gram_index gi))) with (map stored (c_products (gi_container gi))).
    rewrite Rc. cbn [mbind res_bind]. rewrite Rt. cbn [mbind res_bind].
    rewrite (proj2 (orders_cut_iff P (so_orders o) (cl_order cl) i3 lost [] (list_to_map es) Hoo Hc6 Hs Hl E3)); [done|].
    split; [done|]. by exists es.
Qed.
