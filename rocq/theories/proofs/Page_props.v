(** Handlers in use, cascades of observers, and borrows given back. *)
From Coq Require Import Lia ZifyN ZifyBool.
From Verif.model Require Import Base F32 Utf8 Prim Coll Data Gram Indexer Nodes Classic Lit Raw Js Lib Page.
From Verif.spec Require Import Spec Data_spec Js_spec Lib_spec Page_spec.
From Verif.proofs Require Import Base_facts Search_props Lib_facts Js_facts Page_facts Page_story.

Section cells.
  Context {S : Type}.
  Notation world := (world (S := S)).
  Implicit Types w : world.

  Lemma busy_true w h : busy w h = true <-> exists v, being_changed w h v.
  Proof.
    unfold busy, being_changed. destruct (w_handlers w !! h) as [[v [n|]]|] eqn:E.
    - split; [done|]. intros [v' [=]].
    - split; [by exists v|done].
    - split; [done|]. intros [v' [=]].
  Qed.
  Lemma frame_changed w w' h v : frame w w' -> being_changed w h v -> being_changed w' h v.
  Proof.
    intros F H. destruct (F h v Exclusive H) as (v' & b' & E & V & K). cbn [kept] in K. subst b'.
    rewrite V in E by done. exact E.
  Qed.
  Lemma frame_read w w' h v : frame w w' -> being_read w h v -> being_read w' h v.
  Proof.
    intros F [n H]. destruct (F h v (Shared (n + 1)) H) as (v' & b' & E & V & K).
    assert (Shared (n + 1) <> Shared 0) by (intros [= ?]; lia). rewrite V in E by done.
    destruct K as [?|(m & -> & Hm)]; [lia|]. exists (m - 1). rewrite E. do 3 f_equal. lia.
  Qed.
  Lemma changed_search w h v categories tags : being_changed w h v -> h = categories \/ h = tags ->
    exists w1, enter_search w categories tags = (w1, None).
  Proof.
    intros H Hh. destruct (enter_search w categories tags) as [w1 [[c t]|]] eqn:E; [|by exists w1].
    exfalso. apply enter_inv in E as (n & m & _ & Ec & Et & _). unfold being_changed in H.
    destruct Hh as [->| ->]; congruence.
  Qed.

  (** Idle handlers. *)
  Lemma elem_idle w h : h ∈ idle_handlers w <-> idle w h.
  Proof.
    unfold idle_handlers, idle. rewrite elem_of_dom. split.
    - intros [[v b] H]. apply map_filter_lookup_Some in H as [H E]. simpl in E. subst b. by exists v.
    - intros [v H]. exists (Cell v (Shared 0)). by apply map_filter_lookup_Some.
  Qed.
  Definition no_new w w' : Prop := dom (w_handlers w') ⊆ dom (w_handlers w).
  Lemma idle_shrinks w w' : frame w w' -> no_new w w' -> idle_handlers w' ⊆ idle_handlers w.
  Proof.
    intros F N h. rewrite !elem_idle. intros [v H].
    assert (D : h ∈ dom (w_handlers w)) by (apply N, elem_of_dom; eauto).
    apply elem_of_dom in D as [[v0 b0] D]. destruct (decide (b0 = Shared 0)) as [->|Hb]; [by exists v0|].
    destruct (F h v0 b0 D) as (v' & b' & E & _ & K). rewrite H in E. injection E as <- <-. by apply kept_used in K.
  Qed.
  Lemma no_new_refl w : no_new w w.
  Proof. unfold no_new. done. Qed.
  Lemma no_new_trans a b c : no_new a b -> no_new b c -> no_new a c.
  Proof. unfold no_new. set_solver. Qed.
  Lemma no_new_cell w h c : h ∈ dom (w_handlers w) -> no_new w (set_cell w h c).
  Proof. unfold no_new. intros H. cbn [set_cell w_handlers]. rewrite dom_insert_L. set_solver. Qed.
  Lemma no_new_release w h : no_new w (release_shared w h).
  Proof.
    unfold release_shared. destruct (w_handlers w !! h) as [[v [n|]]|] eqn:E; [|apply no_new_refl..].
    apply no_new_cell, elem_of_dom. eauto.
  Qed.
  Lemma no_new_change w h f e w' a : change w h f e = (w', a) -> no_new w w'.
  Proof.
    unfold change. destruct (borrow_exclusive w h) as [[w1 v]|] eqn:B; [|intros [= <- <-]; apply no_new_refl].
    apply borrow_exclusive_inv in B as [B ->]. assert (D : h ∈ dom (w_handlers w)) by (apply elem_of_dom; eauto).
    destruct (f v) as [v'| | |]; intros [= <- <-]; [|apply no_new_refl|by apply no_new_cell..].
    unfold no_new. cbn [log set_cell w_handlers]. rewrite !dom_insert_L. set_solver.
  Qed.
  Lemma no_new_enter w categories tags w1 r : enter_search w categories tags = (w1, r) -> no_new w w1.
  Proof.
    intros E. apply enter_inv in E. destruct r as [[c t]|].
    - destruct E as (n & m & N & Ec & Et & ->). eapply no_new_trans; apply no_new_cell, elem_of_dom; [eauto|].
      cbn [set_cell w_handlers]. rewrite lookup_insert_ne by done. eauto.
    - destruct E as [->|(c & n & t & N & Ec & Et & ->)]; [apply no_new_refl|]. apply no_new_cell, elem_of_dom. eauto.
  Qed.

  (** ** Borrows *)
  Definition bw w (h : N) : borrow := match w_handlers w !! h with Some c => c_borrow c | None => Shared 0 end.
  Definition steady w w' : Prop := forall h, bw w' h = bw w h.
  Lemma all_idle_bw w : all_idle w <-> forall h, bw w h = Shared 0.
  Proof.
    unfold all_idle, bw. split.
    - intros H h. destruct (w_handlers w !! h) eqn:E; [by eapply H|done].
    - intros H h c E. specialize (H h). by rewrite E in H.
  Qed.
  Lemma steady_refl w : steady w w.
  Proof. done. Qed.
  Lemma steady_trans a b c : steady a b -> steady b c -> steady a c.
  Proof. intros H1 H2 h. by rewrite H2, H1. Qed.
  Lemma steady_idle w w' : steady w w' -> all_idle w -> all_idle w'.
  Proof. rewrite !all_idle_bw. intros H1 H2 h. by rewrite H1. Qed.
  Lemma bw_set_cell w h c h' : bw (set_cell w h c) h' = if decide (h' = h) then c_borrow c else bw w h'.
  Proof.
    unfold bw. cbn [set_cell w_handlers]. destruct (decide (h' = h)) as [->|Hne]; [by rewrite lookup_insert|].
    by rewrite lookup_insert_ne.
  Qed.
  Lemma bw_log w e h : bw (log w e) h = bw w h.
  Proof. done. Qed.
  Lemma bw_lookup w h v b : w_handlers w !! h = Some (Cell v b) -> bw w h = b.
  Proof. unfold bw. by intros ->. Qed.
  Lemma steady_new w r w' a : new_handler w r = (w', a) -> steady w w'.
  Proof.
    unfold new_handler. destruct r; intros [= <- <-]; try done. intros h. rewrite bw_set_cell.
    destruct (decide _) as [->|]; [|done]. unfold bw. by rewrite fresh_new.
  Qed.
  Lemma steady_change w h f e w' a : (forall v, w_handlers w !! h = Some (Cell v (Shared 0)) -> (exists v', f v = Done v') \/ f v = Nope) ->
    change w h f e = (w', a) -> steady w w'.
  Proof.
    unfold change. intros Hf. destruct (borrow_exclusive w h) as [[w1 v]|] eqn:B; [|by intros [= <- <-]].
    apply borrow_exclusive_inv in B as [B ->]. destruct (Hf v B) as [[v' ->]| ->]; intros [= <- <-]; [|done].
    intros h'. rewrite bw_log, !bw_set_cell. destruct (decide _) as [->|]; [|done]. by rewrite (bw_lookup _ _ _ _ B).
  Qed.
  Lemma steady_status w h i : steady w (ask_status w h i).1.
  Proof.
    unfold ask_status. destruct (borrow_shared w h) as [[w1 v]|] eqn:B; [|done].
    apply borrow_shared_inv in B as (n & B & ->). destruct (h_status v i); try done.
    unfold release_shared. cbn [set_cell w_handlers]. rewrite lookup_insert. simpl. intros h'. rewrite !bw_set_cell.
    destruct (decide (h' = h)) as [->|]; [|done]. rewrite (bw_lookup _ _ _ _ B). simpl. f_equal. lia.
  Qed.
  Lemma bw_release w h h' : bw (release_shared w h) h' =
    if decide (h' = h) then match bw w h with Shared n => Shared (n - 1) | Exclusive => Exclusive end else bw w h'.
  Proof.
    destruct (decide (h' = h)) as [->|Hne].
    - unfold release_shared, bw. destruct (w_handlers w !! h) as [[v [n|]]|] eqn:E.
      + cbn [set_cell w_handlers]. by rewrite lookup_insert.
      + by rewrite E.
      + rewrite E. done.
    - unfold bw. by rewrite release_other.
  Qed.
End cells.

Section page.
  Context (low : N -> list N) (P : platform) {S : Type}.
  Context (observer : N -> bool -> js (S := S)) (order_at : world (S := S) -> search_order).
  Notation world := (world (S := S)).
  Notation js := (js (S := S)).
  Notation run := (run low P observer order_at).
  Notation answer := (answer P observer).
  Notation notify := (notify observer).
  Notation ask_toggle := (ask_toggle observer).
  Notation finish_search := (finish_search low order_at).
  Notation inner := (inner low P observer order_at).
  Implicit Types w : world.

  (** ** C90 *)
  Lemma changed_throws call w h v r : being_changed w h v -> sent_to r = Some h -> answer call w r = Done (w, Threw).
  Proof.
    intros H. unfold being_changed in H. destruct r as [| |input|h' i|h' i|h' f|h' i f|h' i f]; intros [= ->]; cbn [Page.answer].
    - unfold Page.ask_toggle, borrow_exclusive. by rewrite H.
    - unfold ask_status, borrow_shared. by rewrite H.
    - unfold change, borrow_exclusive. by rewrite H.
    - unfold change, borrow_exclusive. by rewrite H.
    - unfold change, borrow_exclusive. by rewrite H.
  Qed.
  Lemma changed_search_throws fuel w h v categories tags input order getters entries k : being_changed w h v ->
    h = categories \/ h = tags -> exists w1, being_changed w1 h v /\
    run fuel w (JSearch categories tags input order getters entries k) = run fuel w1 (k Threw).
  Proof.
    intros H Hh. destruct (changed_search w h v categories tags H Hh) as [w1 E]. exists w1.
    split; [eapply frame_changed; [by eapply enter_frame|done]|]. by rewrite run_search, E.
  Qed.
  Lemma changed_throws_run fuel w h v r k : being_changed w h v -> sent_to r = Some h ->
    run fuel w (JAsk r k) = run fuel w (k Threw).
  Proof. intros H Hr. by rewrite run_ask, (changed_throws _ _ _ _ _ H Hr). Qed.
  Lemma run_changed fuel w p w' t h v : run fuel w p = Done (w', t) -> being_changed w h v -> being_changed w' h v.
  Proof. intros R. eapply frame_changed. by eapply run_frame. Qed.
  Lemma run_read fuel w p w' t h v : run fuel w p = Done (w', t) -> being_read w h v -> being_read w' h v.
  Proof. intros R. eapply frame_read. by eapply run_frame. Qed.
  Lemma run_in_use fuel w p w' t h v : run fuel w p = Done (w', t) ->
    (being_changed w h v -> being_changed w' h v) /\ (being_read w h v -> being_read w' h v).
  Proof. intros R. split; [by eapply run_changed|by eapply run_read]. Qed.
  Lemma notify_busy call h v : (forall w p w' t, call w p = Done (w', t) -> being_changed w h v -> being_changed w' h v) ->
    forall calls w, being_changed w h v -> notify call h calls w = notify (only_if_busy h call) h calls w.
  Proof.
    intros Hc. induction calls as [|[f b] calls IH]; intros w H; simpl; [done|].
    assert (B : busy (log w (Called h f b)) h = true) by (apply busy_true; by exists v).
    assert (E : only_if_busy h call (log w (Called h f b)) (observer f b) = call (log w (Called h f b)) (observer f b))
      by (unfold only_if_busy; by rewrite B).
    rewrite E. destruct (call _ _) as [[w1 t]| | |] eqn:C; try done. cbn [mbind res_bind]. apply IH. by eapply Hc.
  Qed.
  Lemma observers_find_busy fuel w h i :
    ask_toggle (run fuel) w h i = ask_toggle (only_if_busy h (run fuel)) w h i.
  Proof.
    unfold Page.ask_toggle. destruct (borrow_exclusive w h) as [[w1 v]|]; [|done].
    destruct (h_toggle v i) as [[v' calls]| | |]; try done.
    rewrite (notify_busy (run fuel) h v'); [done| |].
    - intros w0 p w' t. apply run_changed.
    - unfold being_changed. cbn [log set_cell w_handlers]. apply lookup_insert.
  Qed.

  (** ** C92 *)
  (** More fuel changes nothing. *)
  Lemma notify_more call call' h : (forall w p x, call w p = Done x -> call' w p = Done x) ->
    forall calls w x, notify call h calls w = Done x -> notify call' h calls w = Done x.
  Proof.
    intros Hc. induction calls as [|[f b] calls IH]; intros w x H; simpl in *; [done|].
    destruct (call _ _) as [[w1 t]| | |] eqn:C; try done. rewrite (Hc _ _ _ C). by apply IH.
  Qed.
  Lemma answer_more call call' : (forall w p x, call w p = Done x -> call' w p = Done x) ->
    forall w r x, answer call w r = Done x -> answer call' w r = Done x.
  Proof.
    intros Hc w r x. destruct r; cbn [Page.answer]; try done. unfold Page.ask_toggle.
    destruct (borrow_exclusive w h) as [[w1 v]|]; [|done]. destruct (h_toggle v i) as [[v' calls]| | |]; try done.
    destruct (notify call h calls _) as [w2| | |] eqn:N; try done. by rewrite (notify_more _ _ _ Hc _ _ _ N).
  Qed.
  Lemma run_more_step fuel fuel' : (forall w p x, inner fuel w p = Done x -> inner fuel' w p = Done x) ->
    forall p w x, run fuel w p = Done x -> run fuel' w p = Done x.
  Proof.
    intros Hi p. induction p as [| |r k IH|categories tags input order getters IHg entries k IH|k IH|s k IH]; intros w x.
    - by rewrite !run_return.
    - by rewrite !run_throw.
    - rewrite !run_ask. destruct (answer (inner fuel) w r) as [[w1 a]| | |] eqn:A; try done.
      rewrite (answer_more _ _ Hi _ _ _ A). cbn [mbind res_bind]. apply IH.
    - rewrite !run_search. destruct (enter_search w categories tags) as [w1 [[c t]|]]; [|apply IH].
      destruct (run fuel w1 getters) as [[w2 threw]| | |] eqn:G; try done. rewrite (IHg _ _ G). cbn [mbind res_bind].
      destruct threw; [apply IH|]. destruct (finish_search _ _ _ _ _ _ _ _) as [w3 a]. apply IH.
    - rewrite !run_get. apply IH.
    - rewrite !run_set. apply IH.
  Qed.
  Lemma run_more fuel : forall fuel' w p x, (fuel <= fuel')%nat -> run fuel w p = Done x -> run fuel' w p = Done x.
  Proof.
    induction fuel as [|fuel IH]; intros fuel' w p x Hf; apply run_more_step.
    - done.
    - destruct fuel' as [|fuel']; [lia|]. intros w0 p0 x0. cbn [Page_facts.inner]. apply IH. lia.
  Qed.

  Context (few : forall f b, makes_none (observer f b)).
  Lemma notify_ends call h b : (forall w p, (size (idle_handlers w) <= b)%nat -> makes_none p ->
      exists w' t, call w p = Done (w', t) /\ frame w w' /\ no_new w w') ->
    forall calls w, (size (idle_handlers w) <= b)%nat ->
      exists w', notify call h calls w = Done w' /\ frame w w' /\ no_new w w'.
  Proof.
    intros Hc. induction calls as [|[f s] calls IH]; intros w Hw; simpl.
    - exists w. split; [done|]. split; [apply frame_refl|apply no_new_refl].
    - destruct (Hc (log w (Called h f s)) (observer f s)) as (w1 & t & E & F & N); [done|apply few|].
      rewrite E. cbn [mbind res_bind]. destruct (IH w1) as (w2 & E2 & F2 & N2).
      { etrans; [|exact Hw]. apply subseteq_size. by apply (idle_shrinks (log w (Called h f s))). }
      exists w2. split; [done|]. split.
      + eapply frame_trans; [|exact F2]. eapply frame_trans; [|exact F]. by apply frame_handlers.
      + by eapply no_new_trans; [|exact N2].
  Qed.
  (** A toggle. *)
  Lemma toggle_ends call b w h i : (size (idle_handlers w) <= Datatypes.S b)%nat ->
    (forall w p, (size (idle_handlers w) <= b)%nat -> makes_none p ->
      exists w' t, call w p = Done (w', t) /\ frame w w' /\ no_new w w') ->
    exists w' a, ask_toggle call w h i = Done (w', a) /\ no_new w w'.
  Proof.
    intros Hw Hc. unfold Page.ask_toggle. destruct (borrow_exclusive w h) as [[w1 v]|] eqn:B;
      [|exists w, Threw; split; [done|apply no_new_refl]].
    apply borrow_exclusive_inv in B as [B ->]. assert (D : h ∈ dom (w_handlers w)) by (apply elem_of_dom; eauto).
    destruct (h_toggle v i) as [[v' calls]| | |]; [|eexists _, _; split; [done|by apply no_new_refl || by apply no_new_cell]..].
    set (w1 := log _ _). assert (N1 : no_new w w1).
    { unfold no_new, w1. cbn [log set_cell w_handlers]. rewrite !dom_insert_L. set_solver. }
    assert (B1 : being_changed w1 h v') by (unfold being_changed, w1; cbn [log set_cell w_handlers]; apply lookup_insert).
    assert (Hs : idle_handlers w1 ⊂ idle_handlers w).
    { split.
      - intros h' Hh'. apply elem_idle in Hh' as [x Hx]. apply elem_idle. destruct (decide (h' = h)) as [->|Hne].
        + by exists v.
        + exists x. revert Hx. unfold w1. cbn [log set_cell w_handlers]. by rewrite !lookup_insert_ne.
      - intros Hsub. assert (Hh : h ∈ idle_handlers w1) by (apply Hsub, elem_idle; by exists v).
        apply elem_idle in Hh as [x Hx]. unfold being_changed in B1. congruence. }
    apply subset_size in Hs. destruct (notify_ends call h b Hc calls w1) as (w2 & E & F & N); [lia|].
    rewrite E. cbn [mbind res_bind]. eexists _, _. split; [done|].
    eapply no_new_trans; [exact N1|]. eapply no_new_trans; [exact N|]. apply no_new_cell, elem_of_dom.
    apply (frame_changed _ _ _ _ F) in B1. unfold being_changed in B1. eauto.
  Qed.
  Lemma finish_no_new w categories tags c t input order entries :
    no_new w (finish_search w categories tags c t input order entries).1.
  Proof.
    unfold Page.finish_search. destruct (search _ _ _ _ _ _ _ _ _) as [st r].
    assert (D : no_new w (release_shared (release_shared (set_lib w st) tags) categories)).
    { eapply no_new_trans; [|apply no_new_release]. eapply no_new_trans; [|apply no_new_release]. exact (no_new_refl w). }
    destruct r; simpl; [exact D|exact D|exact (no_new_refl w)..].
  Qed.
  Lemma run_ends_step fuel : (forall w p, (size (idle_handlers w) < fuel)%nat -> makes_none p ->
      exists w' t, inner fuel w p = Done (w', t) /\ frame w w' /\ no_new w w') ->
    forall p w, (size (idle_handlers w) <= fuel)%nat -> makes_none p ->
      exists w' t, run fuel w p = Done (w', t) /\ no_new w w'.
  Proof.
    intros Hi p. induction p as [| |r k IH|categories tags input order getters IHg entries k IH|k IH|s k IH]; intros w Hw Hp.
    - rewrite run_return. exists w, false. split; [done|apply no_new_refl].
    - rewrite run_throw. exists w, true. split; [done|apply no_new_refl].
    - rewrite run_ask. destruct Hp as (H1 & H2 & Hk).
      assert (A : exists w1 a, answer (inner fuel) w r = Done (w1, a) /\ no_new w w1).
      { destruct r as [| |input|h i|h i|h f|h i f|h i f]; try done; cbn [Page.answer].
        - destruct (initialize P (w_lib w) input) as [st r]. eexists _, _. split; [done|exact (no_new_refl w)].
        - destruct fuel as [|fuel].
          + (* no handler is idle *)
            unfold Page.ask_toggle. destruct (borrow_exclusive w h) as [[w1 v]|] eqn:B;
              [|exists w, Threw; split; [done|apply no_new_refl]].
            apply borrow_exclusive_inv in B as [B _]. exfalso.
            assert (E : h ∈ idle_handlers w) by (apply elem_idle; by exists v).
            assert (Z : size (idle_handlers w) = 0%nat) by lia. apply size_empty_inv in Z. set_solver.
          + apply (toggle_ends _ fuel); [done|]. intros w0 p0 H0. apply Hi. lia.
        - destruct (ask_status w h i) as [w1 a] eqn:E. exists w1, a. split; [done|]. unfold ask_status in E.
          destruct (borrow_shared w h) as [[w2 v]|] eqn:B; [|injection E as <- <-; apply no_new_refl].
          apply borrow_shared_inv in B as (n & B & ->). destruct (h_status v i); injection E as <- <-; [|apply no_new_refl..].
          eapply no_new_trans; [|apply no_new_release]. apply no_new_cell, elem_of_dom. eauto.
        - destruct (change _ _ _ _) as [w1 a] eqn:E. exists w1, a. split; [done|by eapply no_new_change].
        - destruct (change _ _ _ _) as [w1 a] eqn:E. exists w1, a. split; [done|by eapply no_new_change].
        - destruct (change _ _ _ _) as [w1 a] eqn:E. exists w1, a. split; [done|by eapply no_new_change]. }
      destruct A as (w1 & a & A & N1).
      assert (F1 : frame w w1).
      { eapply (answer_frame low P observer order_at (inner fuel)); [|exact A]. intros w0 p0 w0' t0.
        destruct fuel as [|fuel]; [done|]. apply run_frame. }
      rewrite A. cbn [mbind res_bind]. destruct (IH a w1) as (w2 & t & E & N2).
      { etrans; [|exact Hw]. by apply subseteq_size, idle_shrinks. }
      { apply Hk. }
      exists w2, t. split; [done|by eapply no_new_trans].
    - rewrite run_search. destruct Hp as [Hg Hk]. destruct (enter_search w categories tags) as [w1 r] eqn:En.
      pose proof (no_new_enter _ _ _ _ _ En) as N1. pose proof (enter_frame _ _ _ _ _ En) as F1.
      assert (S1 : (size (idle_handlers w1) <= fuel)%nat) by (etrans; [|exact Hw]; by apply subseteq_size, idle_shrinks).
      destruct r as [[c t]|].
      + destruct (IHg w1 S1 Hg) as (w2 & threw & E & N2). rewrite E. cbn [mbind res_bind].
        pose proof (run_frame _ _ _ _ _ _ _ _ _ E) as F2.
        assert (S2 : (size (idle_handlers w2) <= fuel)%nat) by (etrans; [|exact S1]; by apply subseteq_size, idle_shrinks).
        destruct threw.
        * destruct (IH Threw w2 S2 (Hk _)) as (w3 & t3 & E3 & N3). exists w3, t3. split; [done|]. by do 2 (eapply no_new_trans; [eassumption|]).
        * pose proof (finish_no_new w2 categories tags c t input order (entries (w_js w2))) as N3.
          destruct (finish_search _ _ _ _ _ _ _ _) as [w3 a] eqn:Fi. simpl in N3.
          pose proof (finish_frame low observer order_at _ _ _ _ _ _ _ _ _ _ _ _ En F2 Fi) as F3.
          assert (S3 : (size (idle_handlers w3) <= fuel)%nat).
          { etrans; [|exact Hw]. apply subseteq_size, idle_shrinks; [done|]. by do 2 (eapply no_new_trans; [eassumption|]). }
          destruct (IH a w3 S3 (Hk _)) as (w4 & t4 & E4 & N4). exists w4, t4. split; [done|].
          by do 3 (eapply no_new_trans; [eassumption|]).
      + destruct (IH Threw w1 S1 (Hk _)) as (w2 & t2 & E2 & N2). exists w2, t2. split; [done|by eapply no_new_trans].
    - rewrite run_get. by apply IH.
    - rewrite run_set. exact (IH (set_js w s) Hw Hp).
  Qed.
  Lemma run_ends fuel : forall w p, (size (idle_handlers w) <= fuel)%nat -> makes_none p ->
    exists w' t, run fuel w p = Done (w', t) /\ frame w w' /\ no_new w w'.
  Proof.
    induction fuel as [|fuel IH]; intros w p Hw Hp.
    - destruct (run_ends_step O) with (p := p) (w := w) as (w' & t & E & N); [intros; lia|done|done|].
      exists w', t. split; [done|]. split; [by eapply run_frame|done].
    - destruct (run_ends_step (Datatypes.S fuel)) with (p := p) (w := w) as (w' & t & E & N); [|done|done|].
      + intros w0 p0 H0 H1. apply IH; [lia|done].
      + exists w', t. split; [done|]. split; [by eapply run_frame|done].
  Qed.
  Lemma run_ends_depth w p : makes_none p -> exists w' t, run (size (idle_handlers w)) w p = Done (w', t).
  Proof. intros Hp. destruct (run_ends (size (idle_handlers w)) w p) as (w' & t & E & _); [done|done|]. eauto. Qed.
  (** Code that makes handlers, but whose observers do not. *)
  Lemma every_run_ends p : forall w, exists fuel w' t, run fuel w p = Done (w', t).
  Proof.
    induction p as [| |r k IH|categories tags input order getters IHg entries k IH|k IH|s k IH]; intros w.
    - exists O, w, false. by rewrite run_return.
    - exists O, w, true. by rewrite run_throw.
    - assert (A : exists fuel x, answer (inner fuel) w r = Done x).
      { destruct r as [| |input|h i|h i|h f|h i f|h i f]; try (exists O; cbn [Page.answer]; by eexists).
        - exists O. cbn [Page.answer]. destruct (initialize P (w_lib w) input). by eexists.
        - exists (Datatypes.S (size (idle_handlers w))). cbn [Page.answer Page_facts.inner].
          destruct (toggle_ends (run (size (idle_handlers w))) (size (idle_handlers w)) w h i) as (w' & a & E & _); [lia| |eauto].
          intros w0 p0. apply run_ends. }
      destruct A as (fuel1 & [w1 a] & A). destruct (IH a w1) as (fuel2 & w2 & t & E).
      exists (fuel1 + fuel2)%nat, w2, t. rewrite run_ask.
      assert (M : forall w0 p0 x0, inner fuel1 w0 p0 = Done x0 -> inner (fuel1 + fuel2) w0 p0 = Done x0).
      { intros w0 p0 x0. destruct fuel1 as [|fuel1]; [done|]. simpl. apply run_more. lia. }
      rewrite (answer_more _ _ M w r (w1, a) A). cbn [mbind res_bind]. by apply (run_more fuel2); [lia|].
    - destruct (enter_search w categories tags) as [w1 [[c t]|]] eqn:En.
      + destruct (IHg w1) as (fuel1 & w2 & threw & E1). destruct threw.
        * destruct (IH Threw w2) as (fuel2 & w3 & t3 & E2). exists (fuel1 + fuel2)%nat, w3, t3.
          rewrite run_search, En, (run_more fuel1 (fuel1 + fuel2) _ _ _ ltac:(lia) E1). cbn [mbind res_bind].
          by apply (run_more fuel2); [lia|].
        * destruct (finish_search w2 categories tags c t input order (entries (w_js w2))) as [w3 a] eqn:Fi.
          destruct (IH a w3) as (fuel2 & w4 & t4 & E2). exists (fuel1 + fuel2)%nat, w4, t4.
          rewrite run_search, En, (run_more fuel1 (fuel1 + fuel2) _ _ _ ltac:(lia) E1). cbn [mbind res_bind].
          rewrite Fi. by apply (run_more fuel2); [lia|].
      + destruct (IH Threw w1) as (fuel2 & w3 & t3 & E2). exists fuel2, w3, t3. by rewrite run_search, En.
    - destruct (IH (w_js w) w) as (fuel & w' & t & E). exists fuel, w', t. by rewrite run_get.
    - destruct (IH (set_js w s)) as (fuel & w' & t & E). exists fuel, w', t. by rewrite run_set.
  Qed.
End page.

(** ** C93 *)
Section usable.
  Context (low : N -> list N) (P : platform) {S : Type}.
  Context (observer : N -> bool -> js (S := S)) (order_at : world (S := S) -> search_order).
  Notation world := (world (S := S)).
  Notation js := (js (S := S)).
  Notation run := (run low P observer order_at).
  Notation answer := (answer P observer).
  Notation notify := (notify observer).
  Notation ask_toggle := (ask_toggle observer).
  Notation finish_search := (finish_search low order_at).
  Notation inner := (inner low P observer order_at).
  Implicit Types w : world.

  (** Dead mutexes stay dead. *)
  Definition dead w : Prop := s_index_dead (w_lib w) = true.
  Lemma initialize_dead st input : s_index_dead (initialize P st input).1 = s_index_dead st.
  Proof.
    unfold initialize. destruct (deserialize_all _ _ _) as [[gi cl]| | |]; try done.
    destruct (lock_unwrap _); try done. by destruct (lock_unwrap _).
  Qed.
  Lemma lib_release w h : w_lib (release_shared w h) = w_lib w.
  Proof. unfold release_shared. by destruct (w_handlers w !! h) as [[v [n|]]|]. Qed.
  Lemma lib_enter w categories tags w1 r : enter_search w categories tags = (w1, r) -> w_lib w1 = w_lib w.
  Proof.
    intros E. apply enter_inv in E. destruct r as [[c t]|].
    - by destruct E as (n & m & N & Ec & Et & ->).
    - by destruct E as [->|(c & n & t & N & Ec & Et & ->)].
  Qed.
  Lemma notify_dead call h : (forall w p w' t, call w p = Done (w', t) -> dead w -> dead w') ->
    forall calls w w', notify call h calls w = Done w' -> dead w -> dead w'.
  Proof.
    intros Hc. induction calls as [|[f b] calls IH]; intros w w' E Hd; simpl in E; [by injection E as <-|].
    destruct (call _ _) as [[w1 t]| | |] eqn:C; try done. cbn [mbind res_bind] in E.
    eapply IH; [exact E|]. eapply Hc; [exact C|]. exact Hd.
  Qed.
  Lemma answer_dead call : (forall w p w' t, call w p = Done (w', t) -> dead w -> dead w') ->
    forall w r w' a, answer call w r = Done (w', a) -> dead w -> dead w'.
  Proof.
    intros Hc w r w' a. destruct r as [| |input|h i|h i|h f|h i f|h i f]; cbn [Page.answer].
    - unfold new_handler. destruct (h ← get_categories (w_lib w); Done (HCat h)); by intros [= <- <-].
    - unfold new_handler. destruct (h ← get_tags (w_lib w); Done (HTag h)); by intros [= <- <-].
    - pose proof (initialize_dead (w_lib w) input) as D. destruct (initialize P (w_lib w) input) as [st r]. simpl in D.
      intros [= <- <-]. unfold dead. simpl. by rewrite D.
    - unfold Page.ask_toggle. destruct (borrow_exclusive w h) as [[w1 v]|] eqn:B; [|by intros [= <- <-]].
      apply borrow_exclusive_inv in B as [B ->]. destruct (h_toggle v i) as [[v' calls]| | |]; [|by intros [= <- <-]..].
      destruct (notify call h calls _) as [w2| | |] eqn:N; try done. cbn [mbind res_bind]. intros [= <- <-] Hd.
      apply (notify_dead _ _ Hc) in N; [exact N|exact Hd].
    - unfold ask_status. destruct (borrow_shared w h) as [[w1 v]|] eqn:B; [|by intros [= <- <-]].
      apply borrow_shared_inv in B as (n & B & ->). destruct (h_status v i); intros [= <- <-]; try done.
      unfold dead. by rewrite lib_release.
    - unfold change. destruct (borrow_exclusive w h) as [[w1 v]|] eqn:B; [|by intros [= <- <-]].
      apply borrow_exclusive_inv in B as [B ->]. destruct (h_add_general v f); by intros [= <- <-].
    - unfold change. destruct (borrow_exclusive w h) as [[w1 v]|] eqn:B; [|by intros [= <- <-]].
      apply borrow_exclusive_inv in B as [B ->]. destruct (h_add v i f); by intros [= <- <-].
    - unfold change. destruct (borrow_exclusive w h) as [[w1 v]|] eqn:B; [|by intros [= <- <-]].
      apply borrow_exclusive_inv in B as [B ->]. destruct (h_remove v i f); by intros [= <- <-].
  Qed.
  Lemma finish_dead w categories tags c t input order entries w' a :
    finish_search w categories tags c t input order entries = (w', a) -> dead w -> dead w'.
  Proof.
    unfold Page.finish_search.
    pose proof (search_state low false (order_at w) (w_lib w) input c t order entries) as (_ & _ & _ & D & _).
    destruct (search _ _ _ _ _ _ _ _ _) as [st r]. simpl in D.
    destruct r; intros [= <- <-]; unfold dead; rewrite ?lib_release; exact D.
  Qed.
  Lemma run_dead fuel p w w' t : run fuel w p = Done (w', t) -> dead w -> dead w'.
  Proof.
    apply (run_rel low P observer order_at (fun w w' => dead w -> dead w')).
    - done.
    - intros a b c H1 H2 H. apply H2, H1, H.
    - done.
    - apply answer_dead.
    - intros w0 categories tags w1 E. unfold dead. by rewrite (lib_enter _ _ _ _ _ E).
    - intros w0 categories tags w1 c t0 w2 E H. unfold dead at 1. by rewrite <- (lib_enter _ _ _ _ _ E).
    - intros w0 categories tags w1 c t0 w2 input order entries w3 a E H F Hd. eapply finish_dead; [exact F|].
      apply H. unfold dead. by rewrite (lib_enter _ _ _ _ _ E).
  Qed.

  (** Searches return, or panic and leave the mutex dead. *)
  Lemma all_contain_not_stuck {K} (test : K -> res bool) keys : (forall k, test k <> Stuck) -> all_contain test keys <> Stuck.
  Proof.
    intros H. induction keys as [|k keys IH]; [done|]. simpl. specialize (H k). destruct (test k) as [[]| | |]; done.
  Qed.
  Lemma valid_not_stuck o c t p : both_valid o c t p <> Stuck.
  Proof.
    unfold both_valid. assert (A : ch_is_valid (se_categories o) c p <> Stuck).
    { unfold ch_is_valid. apply all_contain_not_stuck. intros [k1 k2]. destruct (getN _ k1) as [cat|]; [|done]. simpl.
      by destruct (getN _ k2). }
    assert (B : th_is_valid (se_tags o) t p <> Stuck).
    { unfold th_is_valid. apply all_contain_not_stuck. intros k. by destruct (getN _ k). }
    destruct (ch_is_valid _ _ _) as [[]| | |]; done.
  Qed.
  Lemma filterR_not_stuck {A} (f : A -> res bool) l : (forall x, f x <> Stuck) -> filterR f l <> Stuck.
  Proof.
    intros H. induction l as [|x l IH]; [done|]. simpl. specialize (H x). destruct (f x) as [b| | |]; try done.
    simpl. by destruct (filterR f l).
  Qed.
  Lemma search_not_stuck u o st input c t order entries : (search low u o st input c t order entries).2 <> Stuck.
  Proof.
    unfold search. destruct (parse_filters entries) as [filters|]; [|done].
    unfold lock_ok. destruct (s_index_dead st); [by destruct u|]. destruct (s_index st) as [gi|]; [|done].
    assert (A : search_filtered low o gi input c t filters <> Stuck).
    { unfold search_filtered. destruct (search_total ngram_index_size (se_rank o) gi (lower low input)) as [res ->].
      { unfold ngram_index_size. lia. }
      cbn [mbind res_bind]. pose proof (filterR_not_stuck (both_valid o c t) (map fst res) (valid_not_stuck o c t)) as B.
      by destruct (filterR _ _). }
    destruct (search_filtered _ _ _ _ _ _ _) as [l| | |]; try done. destruct order as [key|]; [|done].
    destruct (s_classic_dead st); [by destruct u|]. destruct (cl ← s_classic st; get_orders (cl_order cl) key) as [table|]; [|done].
    assert (B : sort_by_order table l <> Stuck).
    { unfold sort_by_order. destruct l as [|x [|y l]]; try done.
      assert (C : mapR (fun v => k ← unwrap (getN table v); Done (k, v)) (x :: y :: l) <> Stuck).
      { apply mapR_not_stuck. intros v _. by destruct (getN table v). }
      by destruct (mapR _ _). }
    by destruct (sort_by_order table l).
  Qed.

  (** Code that does not search leaves all borrows as they were. *)
  Context (quiet : forall f b, searches_not (observer f b)) (known : forall f b, tags_ok (observer f b)).
  Lemma toggle_ok v i : item_ok i -> (exists v' calls, h_toggle v i = Done (v', calls)) \/ h_toggle v i = Nope.
  Proof.
    destruct v as [c|t], i as [e|x]; simpl; try (by right).
    - intros _. left. destruct (ch_toggle c e). eauto.
    - intros H. left. unfold th_toggle. rewrite (tag_handle_id _ H). cbn [mbind res_bind].
      destruct (toggle_key _ _). cbn [mbind res_bind]. eauto.
  Qed.
  Lemma add_ok v i f : item_ok i -> (exists v', h_add v i f = Done v') \/ h_add v i f = Nope.
  Proof.
    destruct v as [c|t], i as [e|x]; simpl; try (by right).
    - intros _. left. eauto.
    - intros H. left. unfold th_add_tag. rewrite (tag_handle_id _ H). cbn [mbind res_bind]. eauto.
  Qed.
  Lemma remove_ok v i f : item_ok i -> (exists v', h_remove v i f = Done v') \/ h_remove v i f = Nope.
  Proof.
    destruct v as [c|t], i as [e|x]; simpl; try (by right).
    - intros _. left. eauto.
    - intros H. left. unfold th_remove_tag. rewrite (tag_handle_id _ H). cbn [mbind res_bind]. eauto.
  Qed.
  Definition still (call : world -> js -> res (world * bool)) : Prop :=
    forall w p w' t, searches_not p -> tags_ok p -> call w p = Done (w', t) -> steady w w'.
  Lemma notify_steady call h : still call -> forall calls w w', notify call h calls w = Done w' -> steady w w'.
  Proof.
    intros Hc. induction calls as [|[f b] calls IH]; intros w w' E; simpl in E; [by injection E as <-|].
    destruct (call _ _) as [[w1 t]| | |] eqn:C; try done. cbn [mbind res_bind] in E.
    apply Hc in C; [|apply quiet|apply known]. eapply steady_trans; [exact C|by eapply IH].
  Qed.
  Lemma answer_steady call : still call -> forall w r w' a, request_ok r -> answer call w r = Done (w', a) -> steady w w'.
  Proof.
    intros Hc w r w' a Hr. destruct r as [| |input|h i|h i|h f|h i f|h i f]; cbn [Page.answer]; cbn [request_ok] in Hr.
    - intros [= E]. by eapply steady_new.
    - intros [= E]. by eapply steady_new.
    - destruct (initialize P (w_lib w) input) as [st r]. by intros [= <- <-].
    - unfold Page.ask_toggle. destruct (borrow_exclusive w h) as [[w1 v]|] eqn:B; [|by intros [= <- <-]].
      apply borrow_exclusive_inv in B as [B ->]. destruct (toggle_ok v i Hr) as [(v' & calls & ->)| ->]; [|by intros [= <- <-]].
      destruct (notify call h calls _) as [w2| | |] eqn:N; try done. cbn [mbind res_bind]. intros [= <- <-].
      apply (notify_steady _ _ Hc) in N. intros h'. rewrite bw_set_cell. destruct (decide (h' = h)) as [->|Hne].
      + by rewrite (bw_lookup _ _ _ _ B).
      + rewrite N, bw_log, !bw_set_cell. by rewrite !decide_False.
    - intros [= E]. pose proof (steady_status w h i) as H. by rewrite E in H.
    - intros [= E]. eapply steady_change; [|exact E]. intros [c|t] _; left; simpl; eauto.
    - intros [= E]. eapply steady_change; [|exact E]. intros v _. by apply add_ok.
    - intros [= E]. eapply steady_change; [|exact E]. intros v _. by apply remove_ok.
  Qed.
  Lemma run_steady_step fuel : still (inner fuel) -> still (run fuel).
  Proof.
    intros Hi w p. revert w. induction p as [| |r k IH|categories tags input order getters IHg entries k IH|k IH|s k IH];
      intros w w' t Hs Ht E; cbn [searches_not tags_ok] in Hs, Ht.
    - rewrite run_return in E. by injection E as <- <-.
    - rewrite run_throw in E. by injection E as <- <-.
    - rewrite run_ask in E. destruct (answer (inner fuel) w r) as [[w1 a]| | |] eqn:A; try done. cbn [mbind res_bind] in E.
      destruct Ht as [Hr Hk]. eapply steady_trans; [by eapply answer_steady|by eapply IH].
    - done.
    - rewrite run_get in E. by eapply IH.
    - rewrite run_set in E. exact (IH (set_js w s) w' t Hs Ht E).
  Qed.
  Lemma run_steady fuel : still (run fuel).
  Proof. induction fuel as [|fuel IH]; apply run_steady_step; [done|exact IH]. Qed.
  Lemma throws_not_run fuel p : forall w w' t, throws_not p -> run fuel w p = Done (w', t) -> t = false.
  Proof.
    induction p as [| |r k IH|categories tags input order getters IHg entries k IH|k IH|s k IH]; intros w w' t Hp E;
      cbn [throws_not] in Hp.
    - rewrite run_return in E. by injection E as _ <-.
    - done.
    - rewrite run_ask in E. destruct (answer _ w r) as [[w1 a]| | |]; try done. cbn [mbind res_bind] in E. by eapply IH.
    - rewrite run_search in E. destruct (enter_search w categories tags) as [w1 [[c t']|]]; [|by eapply IH].
      destruct (run fuel w1 getters) as [[w2 threw]| | |]; try done. cbn [mbind res_bind] in E.
      destruct threw; [by eapply IH|]. destruct (finish_search _ _ _ _ _ _ _ _) as [w3 a]. by eapply IH.
    - rewrite run_get in E. by eapply IH.
    - rewrite run_set in E. by eapply IH.
  Qed.
  (** A search whose filter object is read by code that does not search. *)
  Lemma search_steady w categories tags w1 c t w2 input order entries w3 a :
    enter_search w categories tags = (w1, Some (c, t)) -> steady w1 w2 ->
    finish_search w2 categories tags c t input order entries = (w3, a) -> s_index_dead (w_lib w3) = false -> steady w w3.
  Proof.
    intros E F Fi D. apply enter_inv in E as (n & m & N & Ec & Et & ->). unfold Page.finish_search in Fi.
    pose proof (search_not_stuck false (order_at w2) (w_lib w2) input c t order entries) as Q.
    pose proof (search_state low false (order_at w2) (w_lib w2) input c t order entries) as (_ & _ & _ & _ & X).
    destruct (search _ _ _ _ _ _ _ _ _) as [st r]. simpl in Q, X.
    assert (G : steady w (release_shared (release_shared (set_lib w2 st) tags) categories)).
    { assert (F' : forall h, bw (set_lib w2 st) h = bw w2 h) by done.
      intros h. rewrite !bw_release, !F', !F, !bw_set_cell. simpl.
      destruct (decide (h = categories)) as [->|Hc].
      - rewrite !decide_False by done. rewrite decide_True by done. rewrite (bw_lookup _ _ _ _ Ec). simpl. f_equal. lia.
      - destruct (decide (h = tags)) as [->|Ht].
        + rewrite decide_True by done. rewrite (bw_lookup _ _ _ _ Et). simpl. f_equal. lia.
        + done. }
    destruct r; injection Fi as <- <-; [exact G|exact G| |done]. simpl in D. rewrite X in D; done.
  Qed.
  Lemma run_usable fuel p : forall w w' t, plain_filters p -> tags_ok p -> run fuel w p = Done (w', t) ->
    s_index_dead (w_lib w') = false -> all_idle w -> all_idle w'.
  Proof.
    induction p as [| |r k IH|categories tags input order getters IHg entries k IH|k IH|s k IH];
      intros w w' t Hs Ht E D A; cbn [plain_filters tags_ok] in Hs, Ht.
    - rewrite run_return in E. by injection E as <- <-.
    - rewrite run_throw in E. by injection E as <- <-.
    - rewrite run_ask in E. destruct (answer (inner fuel) w r) as [[w1 a]| | |] eqn:An; try done. cbn [mbind res_bind] in E.
      destruct Ht as [Hr Hk]. eapply IH; [by eapply Hs|by eapply Hk|exact E|done|]. eapply steady_idle; [|exact A].
      eapply answer_steady; [|exact Hr|exact An]. destruct fuel as [|fuel]; [done|exact (run_steady fuel)].
    - rewrite run_search in E. destruct Hs as (Hg & Hn & Hk). destruct Ht as [Hgt Ht].
      destruct (enter_search w categories tags) as [w1 [[c t']|]] eqn:En.
      + destruct (run fuel w1 getters) as [[w2 threw]| | |] eqn:G; try done. cbn [mbind res_bind] in E.
        pose proof (throws_not_run _ _ _ _ _ Hn G) as ->. pose proof (run_steady _ _ _ _ _ Hg Hgt G) as F.
        destruct (finish_search w2 categories tags c t' input order (entries (w_js w2))) as [w3 a] eqn:Fi.
        eapply IH; [by eapply Hk|by eapply Ht|exact E|done|]. eapply steady_idle; [|exact A].
        eapply search_steady; [exact En|exact F|exact Fi|]. destruct (s_index_dead (w_lib w3)) eqn:D3; [|done].
        apply (run_dead _ _ _ _ _ E) in D3. unfold dead in D3. congruence.
      + eapply IH; [by eapply Hk|by eapply Ht|exact E|done|]. apply enter_inv in En.
        destruct En as [->|(c & n & t' & N & Ec & Et & ->)]; [done|]. apply A in Et. done.
    - rewrite run_get in E. by eapply IH.
    - rewrite run_set in E. by eapply IH.
  Qed.
End usable.

(** ** C91: statuses *)
Lemma run_status low P {S} (observer : N -> bool -> js (S := S)) order_at fuel p w w' t :
  run low P observer order_at fuel w p = Done (w', t) ->
  exists es, w_log w' = w_log w ++ es /\
    forall h v b, w_handlers w !! h = Some (Cell (HCat v) b) ->
      exists v' b', w_handlers w' !! h = Some (Cell (HCat v') b') /\
        forall item, ch_get_status v' item =
          xorb (ch_get_status v item) (Nat.odd (toggles eo_keys (cat_history h es) (eo_keys item))).
Proof.
  intros R. destruct (run_accounted _ _ _ _ _ _ _ _ _ R) as (es & L & C & _). exists es. split; [exact L|].
  intros h v b H. destruct (C h v b H) as (b' & E & _). eexists _, b'. split; [exact E|]. intros item. apply cat_status.
Qed.
