(** Which objects are in use, and which will never be free again. *)
From Verif.model Require Import Base Page Objects.
From Verif.spec Require Import Objects_spec.
From Verif.proofs Require Import Objects_facts.

(** Null pointers stay null; what is null and allocated stays allocated, with its index. *)
Lemma make_null s a : s_null (make s a).1 = s_null s.
Proof. done. Qed.
Lemma step_null s e h : h ∈ s_null s -> h ∈ s_null (step s e).1.
Proof.
  intros H. destruct e as [|some|k|some| |g]; cbn [step]; [done| | | |done|].
  - destruct (s_shared s); [|done]. by destruct some.
  - destruct (borrow_all _ _ _) as [objs []]; done.
  - destruct (s_stack s) as [|k stack]; [done|]. cbv zeta. destruct (makes k); [done| |]; by destruct some.
  - destruct (decide (g ∈ s_null s)); [done|]. destruct (s_objs s !! g) as [[a b]|]; [|done]. cbv zeta.
    destruct (decide (b = Shared 0)); cbn; set_solver.
Qed.
Definition leaked (s : state) (h : N) (a : option N) : Prop := h ∈ s_null s /\ arcs_of (s_objs s) !! h = Some a.
Lemma make_arcs s a h x : arcs_of (s_objs s) !! h = Some x -> arcs_of (s_objs (make s a).1) !! h = Some x.
Proof.
  intros H. unfold make. cbv zeta. cbn [fst s_objs]. unfold arcs_of in *. rewrite fmap_insert, lookup_insert_ne; [done|].
  intros E. assert (X : s_objs s !! h = None).
  { apply not_elem_of_dom. intros X. apply (is_fresh (dom (s_objs s) ∪ s_null s)). rewrite E. apply elem_of_union. by left. }
  by rewrite lookup_fmap, X in H.
Qed.
Lemma step_leaked s e h a : leaked s h a -> leaked (step s e).1 h a.
Proof.
  intros [Hn Ha]. split; [by apply step_null|]. destruct e as [|some|k|some| |g]; cbn [step]; [done| | | |done|].
  - destruct (s_shared s); [|done]. destruct some; [by apply make_arcs|done].
  - pose proof (borrow_all_arcs (s_null s) (borrows k) (s_objs s)) as A.
    destruct (borrow_all _ _ _) as [objs []]; cbn [fst s_objs] in *; by rewrite A.
  - destruct (s_stack s) as [|k stack]; [done|]. cbv zeta.
    assert (X : arcs_of (release_all (s_objs s) (borrows k)) !! h = Some a) by (by rewrite release_all_arcs).
    destruct (makes k); [exact X| |]; destruct some; try exact X; by apply make_arcs.
  - destruct (decide (g ∈ s_null s)) as [D|D]; [done|]. destruct (s_objs s !! g) as [[c b]|]; [|done]. cbv zeta.
    destruct (decide (b = Shared 0)); [|done]. cbn [fst s_objs]. unfold arcs_of in *. rewrite fmap_delete.
    rewrite lookup_delete_ne; [done|congruence].
Qed.

(** A call that needs an object that cannot be borrowed throws. *)
Lemma borrow_all_null null l objs h m : (h, m) ∈ l -> h ∈ null -> (borrow_all null objs l).2 = false.
Proof.
  intros Hin Hn. revert objs. induction l as [|[g mg] l IH]; intros objs; [by apply elem_of_nil in Hin|]. cbn [borrow_all].
  apply elem_of_cons in Hin as [[= <- <-]|Hin].
  - unfold borrow_one. by destruct (decide (h ∈ null)).
  - destruct (borrow_one null objs g mg); [by apply IH|done].
Qed.
Lemma null_throws s k h : h ∈ s_null s -> needs k h -> (step s (EEnter k)).2 = Threw.
Proof.
  intros Hn [m Hin]. cbn [step]. pose proof (borrow_all_null (s_null s) (borrows k) (s_objs s) h m Hin Hn) as B.
  destruct (borrow_all _ _ _) as [objs ok]. cbn in B. by subst ok.
Qed.

(** How often the calls in progress borrow an object. *)
Definition uses (L : list (N * bool)) (h : N) (m : bool) : nat := length (filter (fun x => x = (h, m)) L).
Lemma uses_cons x L h m : uses (x :: L) h m = ((if decide (x = (h, m)) then 1 else 0) + uses L h m)%nat.
Proof. unfold uses. rewrite filter_cons. by destruct (decide (x = (h, m))). Qed.
Lemma uses_perm L L' h m : L ≡ₚ L' -> uses L h m = uses L' h m.
Proof. intros E. unfold uses. by rewrite E. Qed.
Definition entry_ok (exact : Prop) (L : list (N * bool)) (h : N) (b : borrow) : Prop :=
  match b with
  | Exclusive => uses L h false = 0%nat /\ (uses L h true <= 1)%nat /\ (exact -> uses L h true = 1%nat)
  | Shared n => uses L h true = 0%nat /\ N.of_nat (uses L h false) <= n /\ (exact -> N.of_nat (uses L h false) = n)
  end.
Definition balanced (exact : N -> Prop) (objs : gmap N obj) (L : list (N * bool)) : Prop :=
  forall h, match objs !! h with
            | Some (Obj _ b) => entry_ok (exact h) L h b
            | None => uses L h true = 0%nat /\ uses L h false = 0%nat
            end.
Lemma balanced_perm exact objs L L' : L ≡ₚ L' -> balanced exact objs L -> balanced exact objs L'.
Proof.
  intros E H h. specialize (H h). pose proof (fun m => uses_perm L L' h m E) as U.
  destruct (objs !! h) as [[a [n|]]|]; unfold entry_ok in *; rewrite <- !U; exact H.
Qed.
Lemma balanced_weaken (exact exact' : N -> Prop) objs L : (forall h, exact' h -> exact h) -> balanced exact objs L -> balanced exact' objs L.
Proof.
  intros W H h. specialize (H h). specialize (W h). destruct (objs !! h) as [[a [n|]]|]; unfold entry_ok in *; naive_solver.
Qed.
Lemma borrow_one_balanced exact null objs h m objs' L : balanced exact objs L -> borrow_one null objs h m = Some objs' ->
  balanced exact objs' ((h, m) :: L).
Proof.
  intros B. unfold borrow_one. destruct (decide (h ∈ null)) as [X|X]; [done|].
  destruct (objs !! h) as [[a [n|]]|] eqn:E; try done.
  assert (Bh := B h). rewrite E in Bh. cbn [entry_ok] in Bh. destruct Bh as (B1 & B2 & B3).
  assert (K : forall b, entry_ok (exact h) ((h, m) :: L) h b -> balanced exact (<[h := Obj a b]> objs) ((h, m) :: L)).
  { intros b K g. destruct (decide (h = g)) as [<-|D]; [by rewrite lookup_insert|]. rewrite lookup_insert_ne by done.
    specialize (B g). assert (U : forall mm, uses ((h, m) :: L) g mm = uses L g mm).
    { intros mm. rewrite uses_cons. destruct (decide _); [congruence|done]. }
    destruct (objs !! g) as [[? [?|]]|]; unfold entry_ok in *; rewrite !U; exact B. }
  destruct m.
  - destruct (N.eqb_spec n 0) as [->|]; [|done]. intros [= <-]. apply K. cbn [entry_ok]. rewrite !uses_cons.
    destruct (decide ((h, true) = (h, false))); [done|]. destruct (decide ((h, true) = (h, true))); [|done]. lia.
  - intros [= <-]. apply K. cbn [entry_ok]. rewrite !uses_cons.
    destruct (decide ((h, false) = (h, true))); [done|]. destruct (decide ((h, false) = (h, false))); [|done].
    split; [lia|]. split; [lia|]. intros Ex. specialize (B3 Ex). lia.
Qed.
(** Calls that throw on the way in leave more borrowed than is in progress. *)
Lemma balanced_less exact objs x L : balanced exact objs (x :: L) -> balanced (fun h => exact h /\ h <> x.1) objs L.
Proof.
  intros H h. specialize (H h). destruct x as [g m]. cbn [fst]. destruct (decide (h = g)) as [->|D].
  - destruct (objs !! g) as [[a [n|]]|]; unfold entry_ok in *; rewrite !uses_cons in H;
      destruct (decide ((g, m) = (g, true))), (decide ((g, m) = (g, false))); (split_and!; [lia|lia|tauto]) || lia.
  - assert (U : forall mm, uses ((g, m) :: L) h mm = uses L h mm).
    { intros mm. rewrite uses_cons. destruct (decide _); [congruence|done]. }
    destruct (objs !! h) as [[a [n|]]|]; unfold entry_ok in *; rewrite !U in H; naive_solver.
Qed.
Lemma balanced_less_all exact objs L0 L : balanced exact objs (L0 ++ L) -> balanced (fun h => exact h /\ h ∉ L0.*1) objs L.
Proof.
  revert exact. induction L0 as [|x L0 IH]; intros exact.
  - apply balanced_weaken. tauto.
  - cbn [app]. intros H. apply balanced_less, IH in H. eapply balanced_weaken; [|exact H]. cbn. intros h [E N].
    apply not_elem_of_cons in N. tauto.
Qed.
Lemma borrow_all_balanced exact null l objs L : balanced exact objs L ->
  let '(objs', ok) := borrow_all null objs l in
  if ok then balanced exact objs' (l ++ L) else balanced (fun h => exact h /\ h ∉ l.*1) objs' L.
Proof.
  revert objs L. induction l as [|[h m] l IH]; intros objs L B; [done|]. cbn [borrow_all].
  destruct (borrow_one null objs h m) as [objs1|] eqn:E; [|apply (balanced_weaken exact); [tauto|done]].
  specialize (IH objs1 ((h, m) :: L) (borrow_one_balanced _ _ _ _ _ _ _ B E)).
  destruct (borrow_all null objs1 l) as [objs' []].
  - eapply balanced_perm; [|exact IH]. cbn [app]. by rewrite Permutation_middle.
  - apply balanced_less in IH. eapply balanced_weaken; [|exact IH]. cbn. intros g [E1 E2]. apply not_elem_of_cons in E2. tauto.
Qed.
Lemma release_one_balanced exact objs x L : balanced exact objs (x :: L) -> balanced exact (release_one objs x.1) L.
Proof.
  destruct x as [h m]. cbn [fst]. intros B. assert (Bh := B h). unfold release_one.
  assert (K : forall a b, objs !! h <> None -> entry_ok (exact h) L h b -> balanced exact (<[h := Obj a b]> objs) L).
  { intros a b _ K g. destruct (decide (h = g)) as [<-|D]; [by rewrite lookup_insert|]. rewrite lookup_insert_ne by done.
    specialize (B g). assert (U : forall mm, uses ((h, m) :: L) g mm = uses L g mm).
    { intros mm. rewrite uses_cons. destruct (decide _); [congruence|done]. }
    destruct (objs !! g) as [[? [?|]]|]; unfold entry_ok in *; rewrite !U in B; exact B. }
  destruct (objs !! h) as [[a [n|]]|] eqn:E; cbn [entry_ok] in Bh; rewrite !uses_cons in Bh.
  - apply K; [done|]. destruct m.
    + destruct (decide ((h, true) = (h, true))); [lia|done].
    + destruct (decide ((h, false) = (h, true))); [done|]. destruct (decide ((h, false) = (h, false))); [|done].
      cbn [entry_ok]. destruct Bh as (B1 & B2 & B3). split; [lia|]. split; [lia|]. intros Ex. specialize (B3 Ex). lia.
  - apply K; [done|]. destruct m.
    + destruct (decide ((h, true) = (h, false))); [done|]. destruct (decide ((h, true) = (h, true))); [|done].
      cbn [entry_ok]. lia.
    + destruct (decide ((h, false) = (h, false))); [lia|done].
  - destruct m; destruct (decide ((h, true) = (h, true))), (decide ((h, false) = (h, false))); try done; lia.
Qed.
Lemma release_all_balanced exact l objs L : balanced exact objs (l ++ L) -> balanced exact (release_all objs l) L.
Proof.
  revert L. induction l as [|x l IH]; intros L B; [done|]. unfold release_all. cbn [foldr].
  apply release_one_balanced. apply IH. eapply balanced_perm; [|exact B]. cbn [app]. by rewrite Permutation_middle.
Qed.

Definition in_progress (s : state) : list (N * bool) := concat (map borrows (s_stack s)).
(** Next to the calls in progress, the borrows in [lost] are never given back. *)
Definition fits (exact : N -> Prop) (lost : list (N * bool)) (s : state) : Prop := balanced exact (s_objs s) (lost ++ in_progress s).
Lemma fits_weaken (exact exact' : N -> Prop) lost s : (forall h, exact' h -> exact h) -> fits exact lost s -> fits exact' lost s.
Proof. apply balanced_weaken. Qed.
Lemma make_fits exact lost s a : fits exact lost s -> fits exact lost (make s a).1.
Proof.
  intros B h. specialize (B h). unfold make. cbv zeta. cbn [fst s_objs]. unfold in_progress in *. cbn [s_stack].
  set (g := fresh (dom (s_objs s) ∪ s_null s)). destruct (decide (g = h)) as [E|D]; [|by rewrite lookup_insert_ne].
  rewrite E, lookup_insert. assert (X : s_objs s !! h = None).
  { apply not_elem_of_dom. intros X. apply (is_fresh (dom (s_objs s) ∪ s_null s)). fold g. rewrite E. apply elem_of_union. by left. }
  rewrite X in B. cbn [entry_ok]. lia.
Qed.
(** The call that goes wrong in a step. *)
Definition mishap (s : state) (e : event) : list call :=
  match e with
  | EEnter k => if decide ((step s e).2 = Threw) then [k] else []
  | ETrap => take 1 (s_stack s)
  | _ => []
  end.
Definition spared (ks : list call) (h : N) : Prop := forall k, k ∈ ks -> ~ needs k h.
Lemma spared_one k h : spared [k] h -> h ∉ (borrows k).*1.
Proof. intros H X. apply elem_of_list_fmap in X as ([g m] & -> & X). apply (H k); [by apply elem_of_list_singleton|]. by exists m. Qed.
Lemma step_fits exact lost s e : fits exact lost s -> fits (fun h => exact h /\ spared (mishap s e) h) lost (step s e).1.
Proof.
  intros B. assert (W : forall ks, fits (fun h => exact h /\ spared ks h) lost s) by (intros r; eapply fits_weaken; [|exact B]; tauto).
  destruct e as [|some|k|some| |h]; cbn [step].
  - apply W.
  - destruct (s_shared s) as [a|]; [|apply W]. destruct some; [|apply W]. by apply make_fits.
  - unfold mishap. cbn [step]. pose proof (borrow_all_balanced exact (s_null s) (borrows k) (s_objs s) _ B) as H.
    destruct (borrow_all _ _ _) as [objs ok]. destruct ok; cbn [fst snd].
    + eapply balanced_weaken; [|eapply balanced_perm; [|exact H]]; [tauto|]. unfold in_progress. cbn [s_stack map concat].
      rewrite !app_assoc. by rewrite (Permutation_app_comm lost).
    + rewrite decide_True by done. eapply balanced_weaken; [|exact H]. cbn. intros h [E1 E2]. split; [done|]. by apply spared_one.
  - destruct (s_stack s) as [|k stack] eqn:E; [apply W|]. cbv zeta.
    set (s' := State _ _ _ _ _ _).
    assert (X : fits exact lost s').
    { unfold fits, s'. cbn [s_objs]. apply release_all_balanced. unfold in_progress. cbn [s_stack].
      unfold fits, in_progress in B. rewrite E in B. eapply balanced_perm; [|exact B]. cbn [map concat].
      rewrite !app_assoc. by rewrite (Permutation_app_comm lost). }
    assert (X' : forall ks, fits (fun h => exact h /\ spared ks h) lost s') by (intros r; eapply fits_weaken; [|exact X]; tauto).
    assert (M : forall a ks, fits (fun h => exact h /\ spared ks h) lost (make s' a).1) by (intros a ks; by apply make_fits).
    destruct (makes k); [apply X'| |]; destruct some; try apply X'; apply M.
  - cbn [fst snd mishap]. unfold fits, in_progress in *. cbn [s_objs s_stack]. destruct (s_stack s) as [|k stack]; cbn [tail take].
    + eapply balanced_weaken; [|exact B]; tauto.
    + eapply balanced_weaken; [|apply (balanced_less_all exact _ (borrows k)); eapply balanced_perm; [|exact B]].
      * cbn. intros h [E1 E2]. split; [done|]. by apply spared_one.
      * cbn [map concat]. rewrite !app_assoc. by rewrite (Permutation_app_comm lost).
  - destruct (decide (h ∈ s_null s)); [apply W|].
    destruct (s_objs s !! h) as [[a b]|] eqn:E; [|apply W]. cbv zeta.
    destruct (decide (b = Shared 0)) as [->|D]; cbn [fst snd]; [|apply W].
    intros g. unfold in_progress. cbn [s_objs s_stack]. specialize (B g). fold (in_progress s).
    destruct (decide (h = g)) as [<-|D]; [rewrite lookup_delete; rewrite E in B; cbn [entry_ok] in B; lia|].
    rewrite lookup_delete_ne by done. destruct (s_objs s !! g) as [[? [?|]]|]; cbn [entry_ok] in *; [| |exact B]; naive_solver.
Qed.
Lemma run_fits lost es : forall exact s, fits exact lost s -> fits (fun h => exact h /\ spared (mishaps s es) h) lost (run_page s es).1.
Proof.
  induction es as [|e es IH]; intros exact s B; cbn [run_page mishaps].
  - eapply fits_weaken; [|exact B]. tauto.
  - apply (step_fits exact lost s e) in B. fold (mishap s e). destruct (step s e) as [s1 r]. cbn [fst] in *. specialize (IH _ _ B).
    destruct (run_page s1 es) as [s2 rs]. cbn [fst snd] in *. eapply fits_weaken; [|exact IH].
    cbn. intros h [Ex N]. split; [split; [done|]|]; intros k Hk; apply N, elem_of_app; tauto.
Qed.
Lemma start_fits : fits (fun _ => True) [] start.
Proof. intros h. unfold start. cbn [s_objs]. by rewrite lookup_empty. Qed.
Lemma after_fits es : fits (fun _ => False) [] (after es).
Proof. eapply fits_weaken; [|apply (run_fits [] es (fun _ => True) start start_fits)]. done. Qed.

(** When nothing went wrong with it, an object is not in use once all calls have ended. *)
Lemma spared_idle es h : s_stack (after es) = [] -> allocated (after es) h -> spared (mishaps start es) h -> idle (after es) h.
Proof.
  intros E [[a b] X] N. pose proof (run_fits [] es (fun _ => True) start start_fits h) as B. fold (after es) in B. rewrite X in B.
  unfold in_progress in B. rewrite E in B. cbn in B. exists a. rewrite X. destruct b as [n|]; cbn [entry_ok] in B.
  - destruct B as (_ & _ & B). rewrite <- (B (conj I N)). done.
  - destruct B as (_ & _ & B). by specialize (B (conj I N)).
Qed.
Lemma no_mishaps es : forall s, Threw ∉ (run_page s es).2 -> mishaps s es = [].
Proof.
  induction es as [|e es IH]; intros s; [done|]. cbn [run_page mishaps]. destruct (step s e) as [s1 r] eqn:E. specialize (IH s1).
  destruct (run_page s1 es) as [s2 rs]. cbn [fst snd] in *. intros N. apply not_elem_of_cons in N as [N1 N2]. rewrite (IH N2), app_nil_r.
  destruct e; try done; [by rewrite decide_False by congruence|]. cbn [step] in E. by injection E as _ <-.
Qed.
Lemma quiet es h : Threw ∉ replies es -> s_stack (after es) = [] -> allocated (after es) h -> idle (after es) h.
Proof. intros N E A. apply spared_idle; [done|done|]. rewrite (no_mishaps es start N). intros k H. by apply elem_of_nil in H. Qed.

(** Borrows that exclude each other. *)
Lemma uses_pos L h m : (h, m) ∈ L -> (1 <= uses L h m)%nat.
Proof.
  intros H. apply elem_of_list_split in H as (l1 & l2 & ->). rewrite (uses_perm _ ((h, m) :: l1 ++ l2)) by (by rewrite Permutation_middle).
  rewrite uses_cons. destruct (decide _); [lia|done].
Qed.
Lemma uses_app L1 L2 h m : uses (L1 ++ L2) h m = (uses L1 h m + uses L2 h m)%nat.
Proof. unfold uses. by rewrite filter_app, app_length. Qed.
Lemma no_conflict exact objs L1 L2 h m1 m2 : balanced exact objs (L1 ++ L2) -> (h, m1) ∈ L1 -> (h, m2) ∈ L2 -> m1 || m2 = false.
Proof.
  intros B H1 H2. apply uses_pos in H1, H2. specialize (B h). pose proof (uses_app L1 L2 h true). pose proof (uses_app L1 L2 h false).
  destruct (objs !! h) as [[a [n|]]|]; cbn [entry_ok] in B; destruct m1, m2; try done; lia.
Qed.
Lemma lost_throws lost s k h m1 m2 : fits (fun _ => False) lost s -> (h, m1) ∈ lost -> (h, m2) ∈ borrows k -> m1 || m2 = true ->
  (step s (EEnter k)).2 = Threw.
Proof.
  intros B H1 H2 C. cbn [step]. pose proof (borrow_all_balanced (fun _ => False) (s_null s) (borrows k) (s_objs s) _ B) as H.
  destruct (borrow_all _ _ _) as [objs ok]. destruct ok; [|done].
  enough (m2 || m1 = false) as X by (rewrite orb_comm in X; congruence).
  eapply (no_conflict _ _ _ _ h); [exact H|done|]. apply elem_of_app. by left.
Qed.
(** A call whose second object is null has borrowed the first one for good. *)
Lemma second_null s k h m g mg : borrows k = [(h, m); (g, mg)] -> fits (fun _ => False) [] s -> in_hand s h -> idle s h -> g ∈ s_null s ->
  (step s (EEnter k)).2 = Threw /\ fits (fun _ => False) [(h, m)] (step s (EEnter k)).1.
Proof.
  intros E B [Hn _] [a Ha] Hg. cbn [step]. rewrite E. cbn [borrow_all].
  destruct (borrow_one (s_null s) (s_objs s) h m) as [objs|] eqn:E1.
  - replace (borrow_one (s_null s) objs g mg) with (@None (gmap N obj)); [|unfold borrow_one; by destruct (decide (g ∈ s_null s))].
    split; [done|]. cbn [fst]. exact (borrow_one_balanced _ _ _ _ _ _ _ B E1).
  - exfalso. unfold borrow_one in E1. destruct (decide (h ∈ s_null s)); [done|]. rewrite Ha in E1. by destruct m.
Qed.

Lemma freed_for_good es es' h : h ∈ s_null (after es) ->
  h ∈ s_null (after (es ++ es')) /\ (step (after (es ++ es')) (EFree h)).2 = Threw /\
  forall k, needs k h -> (step (after (es ++ es')) (EEnter k)).2 = Threw.
Proof.
  intros H. assert (X : h ∈ s_null (after (es ++ es'))).
  { unfold after. rewrite run_page_app. by apply (run_page_inv (fun s => h ∈ s_null s)); [intros; apply step_null|]. }
  split; [done|]. split; [cbn [step]; by destruct (decide _)|]. intros k. by apply null_throws.
Qed.
Lemma brick es k h m g mg : borrows k = [(h, m); (g, mg)] -> in_hand (after es) h -> idle (after es) h -> g ∈ s_null (after es) ->
  (step (after es) (EEnter k)).2 = Threw /\
  forall es' k' m', (h, m') ∈ borrows k' -> m || m' = true -> (step (after (es ++ EEnter k :: es')) (EEnter k')).2 = Threw.
Proof.
  intros E Hh Hi Hg. destruct (second_null (after es) k h m g mg E (after_fits es) Hh Hi Hg) as [T F]. split; [exact T|].
  intros es' k' m' Hk C. apply (lost_throws [(h, m)] _ k' h m m'); [|by apply elem_of_list_singleton|done|done].
  unfold after. rewrite run_page_app. cbn [run_page]. fold (after es). destruct (step (after es) (EEnter k)) as [s1 r].
  pose proof (run_fits [(h, m)] es' (fun _ => False) s1 F) as R. destruct (run_page s1 es') as [s2 rs]. eapply fits_weaken; [|exact R]. cbn. tauto.
Qed.
Lemma toggle_bricks es h i : in_hand (after es) h -> idle (after es) h -> i ∈ s_null (after es) ->
  (step (after es) (EEnter (KToggle h i))).2 = Threw /\
  forall es' k, needs k h -> (step (after (es ++ EEnter (KToggle h i) :: es')) (EEnter k)).2 = Threw.
Proof.
  intros Hh Hi Hn. destruct (brick es (KToggle h i) h true i false eq_refl Hh Hi Hn) as [T F]. split; [exact T|].
  intros es' k [m Hk]. by apply (F es' k m).
Qed.
Lemma status_bricks es h i : in_hand (after es) h -> idle (after es) h -> i ∈ s_null (after es) ->
  (step (after es) (EEnter (KStatus h i))).2 = Threw /\
  forall es' k, changes k h -> (step (after (es ++ EEnter (KStatus h i) :: es')) (EEnter k)).2 = Threw.
Proof.
  intros Hh Hi Hn. destruct (brick es (KStatus h i) h false i false eq_refl Hh Hi Hn) as [T F]. split; [exact T|].
  intros es' k Hk. by apply (F es' k true).
Qed.
Lemma search_bricks es h t : in_hand (after es) h -> idle (after es) h -> t ∈ s_null (after es) ->
  (step (after es) (EEnter (KSearch h t))).2 = Threw /\
  forall es' k, changes k h -> (step (after (es ++ EEnter (KSearch h t) :: es')) (EEnter k)).2 = Threw.
Proof.
  intros Hh Hi Hn. destruct (brick es (KSearch h t) h false t false eq_refl Hh Hi Hn) as [T F]. split; [exact T|].
  intros es' k Hk. by apply (F es' k true).
Qed.
(** Freeing an object in use. *)
Lemma free_in_use es h a b : in_hand (after es) h -> s_objs (after es) !! h = Some (Obj (Some a) b) -> b <> Shared 0 ->
  (step (after es) (EFree h)).2 = Threw /\
  forall es', let s := after (es ++ EFree h :: es') in allocated s h /\ h ∈ sharers s a /\ s_strong s !! a <> None.
Proof.
  intros [Hn _] E D. assert (S1 : step (after es) (EFree h) =
    (State (s_shared (after es)) (s_strong (after es)) (s_objs (after es)) ({[h]} ∪ s_null (after es)) (s_stack (after es)) (s_next (after es)), Threw)).
  { cbn [step]. destruct (decide (h ∈ s_null (after es))); [done|]. rewrite E. cbv zeta. by destruct (decide (b = Shared 0)). }
  split; [by rewrite S1|]. intros es' s.
  assert (L : leaked s h (Some a)).
  { subst s. unfold after. rewrite run_page_app. cbn [run_page]. fold (after es). rewrite S1.
    pose proof (run_page_inv (fun s => leaked s h (Some a)) (fun s e => step_leaked s e h (Some a)) es'
      (State (s_shared (after es)) (s_strong (after es)) (s_objs (after es)) ({[h]} ∪ s_null (after es)) (s_stack (after es)) (s_next (after es)))) as R.
    destruct (run_page _ es') as [s2 rs]. apply R. split; cbn [s_null s_objs]; [set_solver|]. unfold arcs_of. by rewrite lookup_fmap, E. }
  destruct L as [_ L]. unfold arcs_of in L. rewrite lookup_fmap in L. destruct (s_objs s !! h) as [x|] eqn:X; [|done]. cbn in L.
  injection L as L. split; [by exists x|].
  assert (In : h ∈ sharers s a).
  { unfold sharers. apply elem_of_list_omap. exists (h, x). split; [by apply elem_of_map_to_list|]. rewrite decide_True by done. done. }
  split; [exact In|]. pose proof (strong_exact (es ++ EFree h :: es') a) as Q. cbv zeta in Q. fold s in Q. rewrite Q.
  destruct (sharers s a); [by apply elem_of_nil in In|]. cbn [length].
  match goal with |- context [?x =? 0] => destruct (N.eqb_spec x 0) as [Z|Z] end; [|done].
  destruct (decide (s_shared s = Some a)); lia.
Qed.

(** When nothing throws, null pointers are those of objects that are gone. *)
Definition clean (s : state) : Prop := forall h, h ∈ s_null s -> s_objs s !! h = None.
Lemma arcs_none objs objs' h : arcs_of objs' = arcs_of objs -> objs !! h = None -> objs' !! h = None.
Proof.
  intros E N. assert (X : arcs_of objs' !! h = None) by (rewrite E; unfold arcs_of; by rewrite lookup_fmap, N).
  unfold arcs_of in X. rewrite lookup_fmap in X. by destruct (objs' !! h).
Qed.
Lemma make_clean s a : clean s -> clean (make s a).1.
Proof.
  intros C h H. unfold make. cbv zeta. cbn [fst s_objs]. cbn [fst s_null make] in H. rewrite lookup_insert_ne; [by apply C|].
  intros E. apply (is_fresh (dom (s_objs s) ∪ s_null s)). rewrite E. apply elem_of_union. by right.
Qed.
Lemma step_clean s e : clean s -> (step s e).2 <> Threw -> clean (step s e).1.
Proof.
  intros C T. destruct e as [|some|k|some| |g]; cbn [step] in *; [done| | | |done|].
  - destruct (s_shared s); [|done]. destruct some; [by apply make_clean|done].
  - pose proof (borrow_all_arcs (s_null s) (borrows k) (s_objs s)) as A.
    destruct (borrow_all _ _ _) as [objs []]; [|done]. intros h H. cbn [fst s_objs] in *. eapply arcs_none; [exact A|]. by apply C.
  - destruct (s_stack s) as [|k stack]; [done|]. cbv zeta in *. set (s' := State _ _ _ _ _ _) in *.
    assert (X : clean s') by (intros h H; eapply arcs_none; [apply release_all_arcs|]; by apply C).
    destruct (makes k); [exact X| |]; destruct some; try exact X; by apply make_clean.
  - destruct (decide (g ∈ s_null s)); [done|]. destruct (s_objs s !! g) as [[a b]|] eqn:E; [|done]. cbv zeta in *.
    destruct (decide (b = Shared 0)); [|done]. intros h. cbn [fst s_objs s_null]. intros H.
    destruct (decide (g = h)) as [<-|D]; [by rewrite lookup_delete|]. rewrite lookup_delete_ne by done. apply C. set_solver.
Qed.
Lemma run_clean es s : clean s -> Threw ∉ (run_page s es).2 -> clean (run_page s es).1.
Proof.
  revert s. induction es as [|e es IH]; intros s C; [done|]. cbn [run_page]. pose proof (step_clean s e C) as S1.
  destruct (step s e) as [s1 r]. specialize (IH s1). cbn [fst snd] in S1. destruct (run_page s1 es) as [s2 rs]. cbn [fst snd] in *.
  intros N. apply not_elem_of_cons in N as [N1 N2]. apply IH; [apply S1; congruence|done].
Qed.
Lemma free_list l : forall s, NoDup l -> (forall h, h ∈ l -> h ∉ s_null s /\ idle s h) ->
  Threw ∉ (run_page s (map EFree l)).2 /\
  forall h, s_objs (run_page s (map EFree l)).1 !! h = if decide (h ∈ l) then None else s_objs s !! h.
Proof.
  induction l as [|g l IH]; intros s ND H; cbn [map run_page].
  - split; [apply not_elem_of_nil|]. intros h. cbn [fst]. by rewrite decide_False by apply not_elem_of_nil.
  - apply NoDup_cons in ND as [Ng ND]. destruct (H g ltac:(by apply elem_of_cons; left)) as [Hn [a Ha]].
    assert (S1 : exists st, step s (EFree g) =
      (State (s_shared s) st (delete g (s_objs s)) ({[g]} ∪ s_null s) (s_stack s) (s_next s), Fine)).
    { cbn [step]. destruct (decide (g ∈ s_null s)); [done|]. rewrite Ha. cbv zeta. rewrite decide_True by done. by eexists. }
    destruct S1 as [st ->]. set (s1 := State _ _ _ _ _ _). destruct (IH s1 ND) as [T F].
    + intros h Hh. assert (g <> h) by (intros ->; done). destruct (H h ltac:(by apply elem_of_cons; right)) as [Hn' [a' Ha']].
      split; [cbn; set_solver|]. exists a'. cbn. by rewrite lookup_delete_ne.
    + destruct (run_page s1 (map EFree l)) as [s2 rs]. cbn [fst snd] in *. split.
      * apply not_elem_of_cons. done.
      * intros h. rewrite F. subst s1. cbn [s_objs]. destruct (decide (h = g)) as [->|D].
        { rewrite (decide_False (P := g ∈ l)) by done. rewrite lookup_delete. by rewrite decide_True by (by apply elem_of_cons; left). }
        destruct (decide (h ∈ l)) as [I1|I1].
        { by rewrite decide_True by (by apply elem_of_cons; right). }
        rewrite lookup_delete_ne by done. rewrite decide_False; [done|]. rewrite elem_of_cons. tauto.
Qed.
Lemma run_page_app_replies s es1 es2 : (run_page s (es1 ++ es2)).2 = (run_page s es1).2 ++ (run_page (run_page s es1).1 es2).2.
Proof.
  revert s. induction es1 as [|e es1 IH]; intros s; [done|]. cbn [app run_page].
  destruct (step s e) as [s1 r]. specialize (IH s1).
  destruct (run_page s1 es1) as [s2 rs]. destruct (run_page s1 (es1 ++ es2)) as [s3 rs']. cbn [fst snd] in *. by rewrite IH.
Qed.
(** A page that made no mistakes can give everything back. *)
Lemma all_released es : Threw ∉ replies es -> s_stack (after es) = [] ->
  let es' := es ++ map EFree (elements (dom (s_objs (after es)))) ++ [ELoad] in
  Threw ∉ replies es' /\ s_objs (after es') = ∅ /\
  forall a, s_strong (after es') !! a = if decide (s_shared (after es') = Some a) then Some 1 else None.
Proof.
  intros T E. cbv zeta. set (l := elements (dom (s_objs (after es)))). set (es' := es ++ map EFree l ++ [ELoad]).
  assert (C : clean (after es)) by (apply run_clean; [intros h H; done|exact T]).
  destruct (free_list l (after es)) as [T1 F].
  { apply NoDup_elements. }
  { intros h H. subst l. apply elem_of_elements, elem_of_dom in H as [x X]. split.
    - intros N. rewrite (C h N) in X. done.
    - apply quiet; [done|done|]. by exists x. }
  assert (O : s_objs (after es') = ∅).
  { apply map_eq. intros h. rewrite lookup_empty. subst es'. unfold after at 1. rewrite run_page_app. fold (after es). rewrite run_page_app.
    cbn [run_page step fst s_objs]. rewrite F. destruct (decide (h ∈ l)) as [D|D]; [done|].
    apply not_elem_of_dom. intros X. apply D. subst l. by apply elem_of_elements. }
  split; [|split; [exact O|]].
  - subst es'. unfold replies. rewrite !run_page_app_replies. fold (after es). rewrite !not_elem_of_app. split; [done|]. split; [done|].
    cbn [run_page step snd]. apply not_elem_of_cons. split; [done|apply not_elem_of_nil].
  - intros a. rewrite strong_exact. cbv zeta. unfold sharers. rewrite O, map_to_list_empty. cbn [omap list_omap length].
    by destruct (decide _).
Qed.

(** Who takes part in an index. *)
Lemma leave_shares es k stack h a b : s_stack (after es) = k :: stack -> k ∈ [KIter h; KNextCategory h; KNextTag h; KSuggestedTag h] ->
  s_objs (after es) !! h = Some (Obj (Some a) b) ->
  exists g, (step (after es) (ELeave true)).2 = Made g /\ in_hand (after (es ++ [ELeave true])) g /\
    g ∈ sharers (after (es ++ [ELeave true])) a /\
    s_strong (after (es ++ [ELeave true])) !! a = Some (default 0 (s_strong (after es) !! a) + 1).
Proof.
  intros E K X. assert (M : makes k = Sharing h) by (repeat (apply elem_of_cons in K as [->|K]; [done|]); by apply elem_of_nil in K).
  assert (A : after (es ++ [ELeave true]) = (step (after es) (ELeave true)).1).
  { unfold after. rewrite run_page_app. cbn [run_page]. by destruct (step _ _). }
  rewrite A. cbn [step]. rewrite E, M. cbv zeta. rewrite X. set (s' := State _ _ _ _ _ _).
  change (Some (Obj (Some a) b) ≫= o_arc) with (Some a). unfold make. cbv zeta. set (g := fresh (dom (s_objs s') ∪ s_null s')).
  cbn [fst snd]. exists g. assert (F : g ∉ dom (s_objs s') ∪ s_null s') by apply is_fresh.
  split; [done|]. split; [split; cbn [s_null]; [set_solver|]|split].
  - exists (Obj (Some a) (Shared 0)). cbn [s_objs]. apply lookup_insert.
  - unfold sharers. apply elem_of_list_omap. exists (g, Obj (Some a) (Shared 0)). split; [|by rewrite decide_True].
    apply elem_of_map_to_list. cbn [s_objs]. apply lookup_insert.
  - cbn [s_strong]. unfold arc_clone. apply lookup_insert.
Qed.
Lemma leave_alone es k stack some : s_stack (after es) = k :: stack ->
  (forall h, k ∉ [KIter h; KNextCategory h; KNextTag h; KSuggestedTag h]) ->
  s_strong (after (es ++ [ELeave some])) = s_strong (after es).
Proof.
  intros E K. assert (A : after (es ++ [ELeave some]) = (step (after es) (ELeave some)).1).
  { unfold after. rewrite run_page_app. cbn [run_page]. by destruct (step _ _). }
  rewrite A. cbn [step]. rewrite E. cbv zeta. destruct (makes k) as [|h|] eqn:M; [done| |by destruct some].
  exfalso. apply (K h). destruct k; try discriminate M; injection M as ->; rewrite !elem_of_cons; tauto.
Qed.
(** A call that ends in a panic or an exception keeps what it borrowed. *)
Lemma trap_bricks es k stack h m : s_stack (after es) = k :: stack -> (h, m) ∈ borrows k ->
  forall es' k' m', (h, m') ∈ borrows k' -> m || m' = true -> (step (after (es ++ ETrap :: es')) (EEnter k')).2 = Threw.
Proof.
  intros E Hk es' k' m' Hk' C. apply (lost_throws (borrows k) _ k' h m m'); [|done|done|done].
  unfold after. rewrite run_page_app. cbn [run_page step]. fold (after es). set (s1 := State _ _ _ _ _ _).
  assert (F : fits (fun _ => False) (borrows k) s1).
  { pose proof (after_fits es) as F. unfold fits, in_progress in *. subst s1. rewrite E in F. cbn [s_objs s_stack]. rewrite E. exact F. }
  pose proof (run_fits (borrows k) es' (fun _ => False) s1 F) as R. destruct (run_page s1 es') as [s2 rs]. eapply fits_weaken; [|exact R].
  cbn. tauto.
Qed.
Lemma search_trap_bricks es c t stack h : s_stack (after es) = KSearch c t :: stack -> h = c \/ h = t ->
  forall es' k, changes k h -> (step (after (es ++ ETrap :: es')) (EEnter k)).2 = Threw.
Proof.
  intros E H es' k Hk. apply (trap_bricks es (KSearch c t) stack h false E) with (m' := true); [|done|done].
  cbn [borrows]. rewrite !elem_of_cons. destruct H as [->| ->]; tauto.
Qed.
