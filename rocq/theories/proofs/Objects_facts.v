(** Reference counts and borrows of the objects of a page. *)
From Verif.model Require Import Base Page Objects.
From Verif.spec Require Import Objects_spec.

Lemma run_page_app s es1 es2 : (run_page s (es1 ++ es2)).1 = (run_page (run_page s es1).1 es2).1.
Proof.
  revert s. induction es1 as [|e es1 IH]; intros s; [done|]. cbn [app run_page].
  destruct (step s e) as [s1 r]. specialize (IH s1).
  destruct (run_page s1 es1) as [s2 rs]. destruct (run_page s1 (es1 ++ es2)) as [s3 rs']. exact IH.
Qed.
Lemma run_page_inv (Q : state -> Prop) : (forall s e, Q s -> Q (step s e).1) -> forall es s, Q s -> Q (run_page s es).1.
Proof.
  intros H es. induction es as [|e es IH]; intros s Hs; [done|]. cbn [run_page].
  specialize (H s e Hs). destruct (step s e) as [s1 r]. specialize (IH s1 H). by destruct (run_page s1 es).
Qed.

(** Borrowing and releasing keep cells and what they hold. *)
Definition arcs_of (objs : gmap N obj) : gmap N (option N) := o_arc <$> objs.
Lemma arcs_insert objs h a b b' : objs !! h = Some (Obj a b) -> arcs_of (<[h := Obj a b']> objs) = arcs_of objs.
Proof.
  intros E. unfold arcs_of. rewrite fmap_insert. cbn [o_arc]. apply insert_id. by rewrite lookup_fmap, E.
Qed.
Lemma borrow_one_arcs null objs h m objs' : borrow_one null objs h m = Some objs' -> arcs_of objs' = arcs_of objs.
Proof.
  unfold borrow_one. destruct (decide (h ∈ null)) as [X|X]; [done|]. destruct (objs !! h) as [[a [n|]]|] eqn:E; try done.
  destruct m; [destruct (n =? 0); [|done]|]; intros [= <-]; by eapply arcs_insert.
Qed.
Lemma borrow_all_arcs null l objs : arcs_of (borrow_all null objs l).1 = arcs_of objs.
Proof.
  revert objs. induction l as [|[h m] l IH]; intros objs; [done|]. cbn [borrow_all].
  destruct (borrow_one null objs h m) as [objs'|] eqn:E; [|done]. rewrite IH. by eapply borrow_one_arcs.
Qed.
Lemma release_one_arcs objs h : arcs_of (release_one objs h) = arcs_of objs.
Proof. unfold release_one. destruct (objs !! h) as [[a [n|]]|] eqn:E; [| |done]; by eapply arcs_insert. Qed.
Lemma release_all_arcs l objs : arcs_of (release_all objs l) = arcs_of objs.
Proof. induction l as [|x l IH]; [done|]. unfold release_all. cbn [foldr]. rewrite release_one_arcs. exact IH. Qed.

(** How many cells hold an index. *)
Definition holding (m : gmap N (option N)) (a : N) : N := N.of_nat (size (filter (fun x : N * option N => x.2 = Some a) m)).
Lemma holding_insert m h o a : m !! h = None -> holding (<[h := o]> m) a = holding m a + (if decide (o = Some a) then 1 else 0).
Proof.
  intros E. unfold holding. destruct (decide (o = Some a)) as [D|D].
  - rewrite map_filter_insert_True by done. rewrite map_size_insert_None; [lia|]. apply map_filter_lookup_None. by left.
  - rewrite map_filter_insert_False by done. rewrite delete_notin by done. lia.
Qed.
Lemma holding_delete m h o a : m !! h = Some o -> holding m a = holding (delete h m) a + (if decide (o = Some a) then 1 else 0).
Proof.
  intros E. rewrite <- (insert_delete m h o E) at 1. apply holding_insert, lookup_delete.
Qed.
Lemma holding_length objs a :
  N.of_nat (length (omap (fun '(h, x) => if decide (o_arc x = Some a) then Some h else None) (map_to_list objs))) = holding (arcs_of objs) a.
Proof.
  induction objs as [|h x objs E IH] using map_ind.
  - rewrite map_to_list_empty. cbn. unfold holding, arcs_of. by rewrite fmap_empty, map_filter_empty, map_size_empty.
  - rewrite map_to_list_insert by done. unfold arcs_of. rewrite fmap_insert, holding_insert by (by rewrite lookup_fmap, E).
    fold (arcs_of objs). rewrite <- IH. cbn. destruct (decide (o_arc x = Some a)); cbn [length]; lia.
Qed.

(** The strong counts. *)
Definition count_of (m : gmap N N) (a : N) : N := default 0 (m !! a).
Definition counted (s : state) : Prop :=
  (forall a, count_of (s_strong s) a = holding (arcs_of (s_objs s)) a + (if decide (s_shared s = Some a) then 1 else 0)) /\
  (forall a n, s_strong s !! a = Some n -> 0 < n) /\ (forall a, s_next s <= a -> s_strong s !! a = None).
Lemma clone_count a m b : count_of (arc_clone a m) b = count_of m b + (if decide (a = b) then 1 else 0).
Proof.
  unfold count_of, arc_clone. destruct (decide (a = b)) as [->|D]; [by rewrite lookup_insert|].
  rewrite lookup_insert_ne by done. lia.
Qed.
Lemma clone_pos a m : (forall b n, m !! b = Some n -> 0 < n) -> forall b n, arc_clone a m !! b = Some n -> 0 < n.
Proof.
  intros H b n. unfold arc_clone. destruct (decide (a = b)) as [->|D].
  - rewrite lookup_insert. intros [= <-]. lia.
  - rewrite lookup_insert_ne by done. apply H.
Qed.
Lemma drop_count a m b : 0 < count_of m a -> count_of m b = count_of (arc_drop a m) b + (if decide (a = b) then 1 else 0).
Proof.
  unfold count_of, arc_drop. destruct (m !! a) as [n|] eqn:E; cbn; [|lia]. unfold id. intros P.
  destruct (N.leb_spec n 1).
  - destruct (decide (a = b)) as [<-|D]; [rewrite lookup_delete, E; cbn; unfold id; lia|]. rewrite lookup_delete_ne by done. lia.
  - destruct (decide (a = b)) as [<-|D]; [rewrite lookup_insert, E; cbn; unfold id; lia|]. rewrite lookup_insert_ne by done. lia.
Qed.
Lemma drop_pos a m : (forall b n, m !! b = Some n -> 0 < n) -> forall b n, arc_drop a m !! b = Some n -> 0 < n.
Proof.
  intros H b n. unfold arc_drop. destruct (m !! a) as [k|] eqn:E; [|apply H].
  destruct (N.leb_spec k 1); [intros X; apply lookup_delete_Some in X as [_ X]; by apply (H b)|].
  destruct (decide (a = b)) as [->|D]; [rewrite lookup_insert; intros [= <-]; lia|rewrite lookup_insert_ne by done; apply H].
Qed.
Lemma drop_none a m b : m !! b = None -> arc_drop a m !! b = None.
Proof.
  intros H. unfold arc_drop. destruct (m !! a) as [k|] eqn:E; [|done].
  assert (a <> b) by congruence. by destruct (k <=? 1); [rewrite lookup_delete_ne|rewrite lookup_insert_ne].
Qed.
Lemma counted_lt s a : counted s -> 0 < count_of (s_strong s) a -> a < s_next s.
Proof.
  intros (_ & _ & H) P. destruct (N.le_gt_cases (s_next s) a) as [L|L]; [|done].
  unfold count_of in P. rewrite (H a L) in P. cbn in P. lia.
Qed.
Lemma make_counted s a : counted s -> (forall b, a = Some b -> b < s_next s) -> counted (make s a).1.
Proof.
  intros (C & Q & F) L. set (h := fresh (dom (s_objs s) ∪ s_null s)).
  assert (E : s_objs s !! h = None).
  { apply not_elem_of_dom. intros X. apply (is_fresh (dom (s_objs s) ∪ s_null s)). apply elem_of_union. by left. }
  unfold make. cbv zeta. fold h. cbn [fst]. split; [|split]; cbn [s_shared s_strong s_objs s_next].
  - intros b. unfold arcs_of. rewrite fmap_insert. cbn [o_arc]. rewrite holding_insert by (by rewrite lookup_fmap, E). fold (arcs_of (s_objs s)).
    destruct a as [a|].
    + rewrite clone_count, C. destruct (decide (a = b)), (decide (Some a = Some b)); try congruence; lia.
    + rewrite C. destruct (decide (None = Some b)); [done|lia].
  - destruct a as [a|]; [|exact Q]. by apply clone_pos.
  - intros b Hb. destruct a as [a|]; [|by apply F]. specialize (L a eq_refl). unfold arc_clone.
    rewrite lookup_insert_ne by lia. by apply F.
Qed.
Lemma holder_counted s h a b : counted s -> s_objs s !! h = Some (Obj (Some a) b) -> 0 < count_of (s_strong s) a.
Proof.
  intros (C & _) E. rewrite C. assert (X : arcs_of (s_objs s) !! h = Some (Some a)) by (unfold arcs_of; by rewrite lookup_fmap, E).
  rewrite (holding_delete _ _ _ a X). destruct (decide _); [lia|done].
Qed.
Lemma shared_counted s a : counted s -> s_shared s = Some a -> 0 < count_of (s_strong s) a.
Proof. intros (C & _) E. rewrite C. destruct (decide _); [lia|done]. Qed.
Lemma same_counted s objs null stack : counted s -> arcs_of objs = arcs_of (s_objs s) ->
  counted (State (s_shared s) (s_strong s) objs null stack (s_next s)).
Proof. intros C E. unfold counted in *. cbn [s_shared s_strong s_objs s_next]. by rewrite E. Qed.
Lemma step_counted s e : counted s -> counted (step s e).1.
Proof.
  intros C. destruct e as [|some|k|some| |h]; cbn [step].
  - pose proof C as (H & Q & F). cbn [fst].
    set (m := match s_shared s with Some a => arc_drop a (s_strong s) | None => s_strong s end).
    assert (M : forall b, count_of m b = holding (arcs_of (s_objs s)) b).
    { intros b. subst m. specialize (H b). destruct (s_shared s) as [a|] eqn:E.
      - pose proof (drop_count a (s_strong s) b (shared_counted s a C E)).
        destruct (decide (a = b)), (decide (Some a = Some b)); try congruence; lia.
      - destruct (decide (None = Some b)); [done|lia]. }
    assert (Mp : forall b n, m !! b = Some n -> 0 < n) by (subst m; destruct (s_shared s); [by apply drop_pos|done]).
    assert (Mf : forall b, s_next s <= b -> m !! b = None).
    { intros b L. subst m. destruct (s_shared s); [apply drop_none|]; by apply F. }
    split; [|split]; cbn [s_shared s_strong s_objs s_next].
    + intros b. rewrite clone_count, M. destruct (decide (s_next s = b)), (decide (Some (s_next s) = Some b)); try congruence; lia.
    + by apply clone_pos.
    + intros b L. unfold arc_clone. rewrite lookup_insert_ne by lia. apply Mf. lia.
  - destruct (s_shared s) as [a|] eqn:E; [|done]. destruct some; [|done]. apply make_counted; [done|].
    intros b [= <-]. apply (counted_lt s); [done|]. by apply shared_counted.
  - pose proof (borrow_all_arcs (s_null s) (borrows k) (s_objs s)) as A.
    destruct (borrow_all _ _ _) as [objs ok]. destruct ok; by apply same_counted.
  - destruct (s_stack s) as [|k stack]; [done|]. cbv zeta.
    assert (X : counted (State (s_shared s) (s_strong s) (release_all (s_objs s) (borrows k)) (s_null s) stack (s_next s)))
      by (apply same_counted; [done|apply release_all_arcs]).
    destruct (makes k) as [|h|]; [exact X| |destruct some; [apply make_counted; [exact X|done]|exact X]].
    destruct some; [|exact X]. apply make_counted; [exact X|]. intros b Hb.
    destruct (s_objs s !! h) as [[a bo]|] eqn:E; [|done]. cbn in Hb. subst a.
    apply (counted_lt s); [done|]. by eapply holder_counted.
  - by apply same_counted.
  - destruct (decide _); [done|]. destruct (s_objs s !! h) as [[a b]|] eqn:E; [|done]. cbv zeta.
    destruct (decide (b = Shared 0)); [|by apply same_counted]. cbn [fst].
    assert (X : arcs_of (s_objs s) !! h = Some a) by (unfold arcs_of; by rewrite lookup_fmap, E).
    pose proof C as (H & Q & F). split; [|split]; cbn [s_shared s_strong s_objs s_next].
    + intros c. unfold arcs_of. rewrite fmap_delete. fold (arcs_of (s_objs s)). specialize (H c).
      pose proof (holding_delete _ _ _ c X) as D. destruct a as [a|].
      * pose proof (drop_count a (s_strong s) c ltac:(by eapply holder_counted)).
        destruct (decide (a = c)), (decide (Some a = Some c)); try congruence; lia.
      * destruct (decide (None = Some c)); [done|lia].
    + destruct a; [by apply drop_pos|done].
    + intros c L. destruct a; [apply drop_none|]; by apply F.
Qed.
Lemma start_counted : counted start.
Proof.
  split; [|done]. intros a. unfold count_of, holding, arcs_of. cbn.
  by rewrite fmap_empty, map_filter_empty, map_size_empty.
Qed.
Lemma after_counted es : counted (after es).
Proof. apply (run_page_inv counted step_counted es start start_counted). Qed.
(** An index is allocated as long as it is the shared one or an allocated object shares it, and its
    count says how many do. *)
Lemma strong_exact es a : let s := after es in
  let n := N.of_nat (length (sharers s a)) + (if decide (s_shared s = Some a) then 1 else 0) in
  s_strong s !! a = if n =? 0 then None else Some n.
Proof.
  cbv zeta. unfold sharers. rewrite holding_length. destruct (after_counted es) as (C & Q & _). specialize (C a).
  unfold count_of in C. specialize (Q a). destruct (s_strong (after es) !! a) as [n|]; cbn in C.
  - specialize (Q n eq_refl). unfold id in C. rewrite <- C. destruct (N.eqb_spec n 0); [lia|done].
  - rewrite <- C. done.
Qed.
