(** Running pages. *)
From Coq Require Import Lia ZifyN ZifyBool.
From Verif.model Require Import Base F32 Utf8 Prim Coll Data Gram Indexer Nodes Classic Lit Raw Js Lib Page.
From Verif.spec Require Import Spec Data_spec Js_spec Lib_spec Page_spec.
From Verif.proofs Require Import Base_facts.

Section cells.
  Context {S : Type}.
  Notation world := (world (S := S)).
  Implicit Types w : world.

  (** ** Cells *)
  Lemma borrow_shared_inv w h w1 v : borrow_shared w h = Some (w1, v) ->
    exists n, w_handlers w !! h = Some (Cell v (Shared n)) /\ w1 = set_cell w h (Cell v (Shared (n + 1))).
  Proof.
    unfold borrow_shared. destruct (w_handlers w !! h) as [[v' [n|]]|]; try done. intros [= <- <-]. by exists n.
  Qed.
  Lemma borrow_exclusive_inv w h w1 v : borrow_exclusive w h = Some (w1, v) ->
    w_handlers w !! h = Some (Cell v (Shared 0)) /\ w1 = set_cell w h (Cell v Exclusive).
  Proof.
    unfold borrow_exclusive. destruct (w_handlers w !! h) as [[v' [[|n]|]]|]; try done. by intros [= <- <-].
  Qed.
  Lemma enter_inv w categories tags w1 r : enter_search w categories tags = (w1, r) ->
    match r with
    | Some (c, t) => exists n m, categories <> tags /\
        w_handlers w !! categories = Some (Cell (HCat c) (Shared n)) /\
        w_handlers w !! tags = Some (Cell (HTag t) (Shared m)) /\
        w1 = set_cell (set_cell w categories (Cell (HCat c) (Shared (n + 1)))) tags (Cell (HTag t) (Shared (m + 1)))
    | None => w1 = w \/ exists c n t, categories <> tags /\
        w_handlers w !! categories = Some (Cell (HCat c) (Shared n)) /\
        w_handlers w !! tags = Some (Cell (HTag t) Exclusive) /\
        w1 = set_cell w categories (Cell (HCat c) (Shared (n + 1)))
    end.
  Proof.
    unfold enter_search. destruct (w_handlers w !! categories) as [[[c|] bc]|] eqn:Ec;
      [|intros [= <- <-]; by left..].
    destruct (w_handlers w !! tags) as [[[|t] bt]|] eqn:Et; [intros [= <- <-]; by left| |intros [= <- <-]; by left].
    assert (N : categories <> tags) by (intros ->; rewrite Ec in Et; discriminate).
    unfold borrow_shared at 1. rewrite Ec. destruct bc as [n|]; [|intros [= <- <-]; by left].
    unfold borrow_shared. cbn [set_cell w_handlers].
    rewrite lookup_insert_ne by done. rewrite Et. destruct bt as [m|].
    - intros [= <- <-]. by exists n, m.
    - intros [= <- <-]. right. by exists c, n, t.
  Qed.

  (** ** Handlers in use stay what they are *)
  Definition kept (b b' : borrow) : Prop :=
    match b with Exclusive => b' = Exclusive | Shared n => n = 0 \/ exists m, b' = Shared m /\ n <= m end.
  Definition frame (w w' : world) : Prop := forall h v b, w_handlers w !! h = Some (Cell v b) ->
    exists v' b', w_handlers w' !! h = Some (Cell v' b') /\ (b <> Shared 0 -> v' = v) /\ kept b b'.
  Lemma frame_refl w : frame w w.
  Proof.
    intros h v b H. exists v, b. split; [done|]. split; [done|]. destruct b as [n|]; [|done]. right. exists n. split; [done|lia].
  Qed.
  Lemma frame_trans a b c : frame a b -> frame b c -> frame a c.
  Proof.
    intros H1 H2 h v x Hx. destruct (H1 h v x Hx) as (v1 & b1 & E1 & V1 & K1).
    destruct (H2 h v1 b1 E1) as (v2 & b2 & E2 & V2 & K2). exists v2, b2. split; [done|].
    destruct x as [n|]; cbn [kept] in *.
    - destruct (decide (n = 0)) as [->|Hn]; [split; [done|by left]|].
      destruct K1 as [?|(m & -> & Hm)]; [done|]. cbn [kept] in K2. destruct K2 as [->|(m' & -> & Hm')]; [lia|].
      split; [|right; exists m'; split; [done|lia]]. intros H. rewrite V2; [by apply V1|]. intros [= ->]. lia.
    - subst b1. cbn [kept] in K2. subst b2. split; [|done]. intros H. rewrite V2; [|done]. by apply V1.
  Qed.
  Lemma frame_handlers w w' : w_handlers w' = w_handlers w -> frame w w'.
  Proof. intros E h v b H. rewrite E. by apply frame_refl. Qed.
  Lemma frame_cell w h v b v' b' : w_handlers w !! h = Some (Cell v b) -> (b <> Shared 0 -> v' = v) -> kept b b' ->
    frame w (set_cell w h (Cell v' b')).
  Proof.
    intros Hh Hv Hk h' x y Hx. cbn [set_cell w_handlers]. destruct (decide (h' = h)) as [->|Hne].
    - rewrite lookup_insert. rewrite Hh in Hx. injection Hx as <- <-. by exists v', b'.
    - rewrite lookup_insert_ne by done. exists x, y. split; [done|]. split; [done|].
      destruct y as [n|]; [|done]. right. exists n. split; [done|lia].
  Qed.
  Lemma frame_idle w h v v' b' : w_handlers w !! h = Some (Cell v (Shared 0)) -> frame w (set_cell w h (Cell v' b')).
  Proof. intros H. eapply frame_cell; [exact H|done|by left]. Qed.
  Lemma frame_new w h c : w_handlers w !! h = None -> frame w (set_cell w h c).
  Proof.
    intros H h' v b Hv. cbn [set_cell w_handlers]. destruct (decide (h' = h)) as [->|Hne]; [congruence|].
    rewrite lookup_insert_ne by done. exists v, b. split; [done|]. split; [done|].
    destruct b as [n|]; [|done]. right. exists n. split; [done|lia].
  Qed.
  Lemma change_frame w h f e w' a : change w h f e = (w', a) -> frame w w'.
  Proof.
    unfold change. destruct (borrow_exclusive w h) as [[w1 v]|] eqn:B; [|intros [= <- <-]; apply frame_refl].
    apply borrow_exclusive_inv in B as [B ->]. destruct (f v) as [v'| | |]; intros [= <- <-].
    - eapply frame_trans; [|by apply frame_handlers; instantiate (1 := set_cell w h (Cell v' (Shared 0)));
        cbn [set_cell log w_handlers]; rewrite insert_insert]. by eapply frame_idle.
    - apply frame_refl.
    - by eapply frame_idle.
    - by eapply frame_idle.
  Qed.
  Lemma fresh_new (w : world) : w_handlers w !! fresh (dom (w_handlers w)) = None.
  Proof. apply not_elem_of_dom, is_fresh. Qed.
  Lemma new_frame w r w' a : new_handler w r = (w', a) -> frame w w'.
  Proof.
    unfold new_handler. destruct r; intros [= <- <-]; [apply frame_new, fresh_new|apply frame_refl..].
  Qed.
  Lemma enter_frame w categories tags w1 r : enter_search w categories tags = (w1, r) -> frame w w1.
  Proof.
    intros E. apply enter_inv in E. destruct r as [[c t]|].
    - destruct E as (n & m & N & Ec & Et & ->). eapply frame_trans.
      + eapply (frame_cell w categories); [exact Ec|done|]. right. exists (n + 1). split; [done|lia].
      + eapply frame_cell; [cbn [set_cell w_handlers]; rewrite lookup_insert_ne by done; exact Et|done|].
        right. exists (m + 1). split; [done|lia].
    - destruct E as [->|(c & n & t & N & Ec & Et & ->)]; [apply frame_refl|].
      eapply (frame_cell w categories); [exact Ec|done|]. right. exists (n + 1). split; [done|lia].
  Qed.
  (** Releasing a borrow taken before [w1]. *)
  Lemma release_other w h h' : h' <> h -> w_handlers (release_shared w h) !! h' = w_handlers w !! h'.
  Proof.
    intros H. unfold release_shared. destruct (w_handlers w !! h) as [[v [n|]]|]; try done.
    cbn [set_cell w_handlers]. by rewrite lookup_insert_ne.
  Qed.
  Lemma release_self w h v n : w_handlers w !! h = Some (Cell v (Shared n)) ->
    w_handlers (release_shared w h) !! h = Some (Cell v (Shared (n - 1))).
  Proof. intros H. unfold release_shared. rewrite H. cbn [set_cell w_handlers]. apply lookup_insert. Qed.
  Lemma entered w categories tags w1 c t : enter_search w categories tags = (w1, Some (c, t)) ->
    exists n m, categories <> tags /\
        w_handlers w !! categories = Some (Cell (HCat c) (Shared n)) /\
        w_handlers w !! tags = Some (Cell (HTag t) (Shared m)) /\
        w_handlers w1 !! categories = Some (Cell (HCat c) (Shared (n + 1))) /\
        w_handlers w1 !! tags = Some (Cell (HTag t) (Shared (m + 1))) /\
        (forall h, h <> categories -> h <> tags -> w_handlers w1 !! h = w_handlers w !! h) /\
        w_lib w1 = w_lib w /\ w_js w1 = w_js w /\ w_log w1 = w_log w.
  Proof.
    intros E. apply enter_inv in E as (n & m & N & Ec & Et & ->). exists n, m. split; [done|]. split; [done|]. split; [done|].
    cbn [set_cell w_handlers]. split; [rewrite lookup_insert_ne by done; apply lookup_insert|]. split; [apply lookup_insert|].
    split; [|done]. intros h H1 H2. by rewrite !lookup_insert_ne.
  Qed.
End cells.

Section page.
  Context (low : N -> list N) (P : platform) {S : Type}.
  Context (observer : N -> bool -> js (S := S)) (order_at : world (S := S) -> search_order).
  Notation world := (world (S := S)).
  Notation js := (js (S := S)).
  Notation run := (run low P observer order_at).
  Notation answer := (answer P observer).
  Notation notify := (notify observer).
  Notation ask_toggle := (ask_toggle observer).
  Notation finish_search := (finish_search low order_at).

  Implicit Types w : world.

  Definition inner (fuel : nat) : world -> js -> res (world * bool) :=
    match fuel with O => fun _ _ => Stuck | Datatypes.S fuel' => run fuel' end.
  Lemma run_ask fuel w r k : run fuel w (JAsk r k) = ('(w', a) ← answer (inner fuel) w r; run fuel w' (k a)).
  Proof. by destruct fuel. Qed.
  Lemma run_get fuel w k : run fuel w (JGet k) = run fuel w (k (w_js w)).
  Proof. by destruct fuel. Qed.
  Lemma run_set fuel w s k : run fuel w (JSet s k) = run fuel (set_js w s) k.
  Proof. by destruct fuel. Qed.
  Lemma run_return fuel w : run fuel w JReturn = Done (w, false).
  Proof. by destruct fuel. Qed.
  Lemma run_throw fuel w : run fuel w JThrow = Done (w, true).
  Proof. by destruct fuel. Qed.
  Lemma run_search fuel w categories tags input order getters entries k :
    run fuel w (JSearch categories tags input order getters entries k) =
      match enter_search w categories tags with
      | (w1, None) => run fuel w1 (k Threw)
      | (w1, Some (c, t)) =>
        '(w2, threw) ← run fuel w1 getters;
        if threw : bool then run fuel w2 (k Threw)
        else
          let '(w3, a) := finish_search w2 categories tags c t input order (entries (w_js w2)) in
          run fuel w3 (k a)
      end.
  Proof. by destruct fuel. Qed.

  (** A relation that holds between the worlds before and after each step holds between those
      before and after a run. *)
  Section relation.
    Context (R : world -> world -> Prop) (refl : forall w, R w w) (trans : forall a b c, R a b -> R b c -> R a c).
    Context (memory : forall w s, R w (set_js w s)).
    Context (answers : forall call, (forall w p w' t, call w p = Done (w', t) -> R w w') ->
      forall w r w' a, answer call w r = Done (w', a) -> R w w').
    Context (refused : forall w categories tags w1, enter_search w categories tags = (w1, None) -> R w w1).
    Context (thrown : forall w categories tags w1 c t w2, enter_search w categories tags = (w1, Some (c, t)) ->
      R w1 w2 -> R w w2).
    Context (finished : forall w categories tags w1 c t w2 input order entries w3 a,
      enter_search w categories tags = (w1, Some (c, t)) -> R w1 w2 ->
      finish_search w2 categories tags c t input order entries = (w3, a) -> R w w3).

    Lemma run_rel_step fuel : (forall w p w' t, inner fuel w p = Done (w', t) -> R w w') ->
      forall p w w' t, run fuel w p = Done (w', t) -> R w w'.
    Proof.
      intros Hi p. induction p as [| |r k IH|categories tags input order getters IHg entries k IH|k IH|s k IH]; intros w w' t E.
      - rewrite run_return in E. by injection E as <- <-.
      - rewrite run_throw in E. by injection E as <- <-.
      - rewrite run_ask in E. destruct (answer (inner fuel) w r) as [[w1 a]| | |] eqn:A; try done.
        cbn [mbind res_bind] in E. eapply trans; [by eapply answers|by eapply IH].
      - rewrite run_search in E. destruct (enter_search w categories tags) as [w1 [[c t']|]] eqn:En;
          [|eapply trans; [by eapply refused|by eapply IH]].
        destruct (run fuel w1 getters) as [[w2 threw]| | |] eqn:G; try done. cbn [mbind res_bind] in E. apply IHg in G.
        destruct threw; [eapply trans; [by eapply thrown|by eapply IH]|].
        destruct (finish_search w2 categories tags c t' input order (entries (w_js w2))) as [w3 a] eqn:F.
        eapply trans; [by eapply finished|by eapply IH].
      - rewrite run_get in E. by eapply IH.
      - rewrite run_set in E. eapply trans; [apply memory|by eapply IH].
    Qed.
    Lemma run_rel fuel : forall p w w' t, run fuel w p = Done (w', t) -> R w w'.
    Proof.
      induction fuel as [|fuel IHf]; apply run_rel_step; [done|]. intros w p. apply IHf.
    Qed.
  End relation.

  Lemma notify_frame call h : (forall w p w' t, call w p = Done (w', t) -> frame w w') ->
    forall calls w w', notify call h calls w = Done w' -> frame w w'.
  Proof.
    intros Hc. induction calls as [|[f b] calls IH]; intros w w' E; simpl in E.
    - injection E as <-. apply frame_refl.
    - destruct (call _ _) as [[w1 t]| | |] eqn:C; try done. cbn [mbind res_bind] in E.
      eapply frame_trans; [|by eapply IH]. eapply frame_trans; [|by eapply Hc]. by apply frame_handlers.
  Qed.
  Lemma answer_frame call : (forall w p w' t, call w p = Done (w', t) -> frame w w') ->
    forall w r w' a, answer call w r = Done (w', a) -> frame w w'.
  Proof.
    intros Hc w r w' a. destruct r as [| |input|h i|h i|h f|h i f|h i f]; cbn [Page.answer].
    - intros [= E]. by eapply new_frame.
    - intros [= E]. by eapply new_frame.
    - destruct (initialize P (w_lib w) input) as [st r]. intros [= <- <-]. by apply frame_handlers.
    - unfold Page.ask_toggle. destruct (borrow_exclusive w h) as [[w1 v]|] eqn:B; [|intros [= <- <-]; apply frame_refl].
      apply borrow_exclusive_inv in B as [B ->]. destruct (h_toggle v i) as [[v' calls]| | |].
      + destruct (notify call h calls _) as [w2| | |] eqn:N; try done. cbn [mbind res_bind]. intros [= <- <-].
        apply notify_frame in N; [|done].
        assert (E : being_changed w2 h v').
        { destruct (N h v' Exclusive) as (v2 & b2 & E2 & V2 & K2).
          - cbn [log set_cell w_handlers]. apply lookup_insert.
          - cbn [kept] in K2. subst b2. rewrite V2 in E2; done. }
        intros h' x y Hx. cbn [set_cell w_handlers]. destruct (decide (h' = h)) as [->|Hne].
        * rewrite lookup_insert. rewrite B in Hx. injection Hx as <- <-. exists v', (Shared 0). split; [done|]. split; [done|by left].
        * rewrite lookup_insert_ne by done. apply (N h' x y). cbn [log set_cell w_handlers]. by rewrite !lookup_insert_ne.
      + intros [= <- <-]. apply frame_refl.
      + intros [= <- <-]. by eapply frame_idle.
      + intros [= <- <-]. by eapply frame_idle.
    - unfold ask_status. destruct (borrow_shared w h) as [[w1 v]|] eqn:B; [|intros [= <- <-]; apply frame_refl].
      apply borrow_shared_inv in B as (n & B & ->). destruct (h_status v i) as [b| | |]; intros [= <- <-]; try apply frame_refl.
      unfold release_shared. cbn [set_cell w_handlers]. rewrite lookup_insert. apply frame_handlers.
      cbn [set_cell w_handlers]. rewrite insert_insert. apply insert_id. rewrite B. do 3 f_equal. lia.
    - intros [= E]. by eapply change_frame.
    - intros [= E]. by eapply change_frame.
    - intros [= E]. by eapply change_frame.
  Qed.
  Lemma finish_frame w categories tags w1 c t w2 input order entries w3 a :
    enter_search w categories tags = (w1, Some (c, t)) -> frame w1 w2 ->
    finish_search w2 categories tags c t input order entries = (w3, a) -> frame w w3.
  Proof.
    intros E F. pose proof (enter_frame _ _ _ _ _ E) as F0. apply entered in E as (n & m & N & Ec & Et & Ec1 & Et1 & Eo & _).
    destruct (F _ _ _ Ec1) as (vc & bc & Ec2 & Vc & Kc). rewrite (Vc ltac:(intros [= ?]; lia)) in Ec2.
    destruct Kc as [?|(n' & -> & Hn)]; [lia|].
    destruct (F _ _ _ Et1) as (vt & bt & Et2 & Vt & Kt). rewrite (Vt ltac:(intros [= ?]; lia)) in Et2.
    destruct Kt as [?|(m' & -> & Hm)]; [lia|].
    unfold Page.finish_search. destruct (search _ _ _ _ _ _ _ _ _) as [st r].
    assert (D : forall w', w_handlers w' = w_handlers w2 -> frame w (release_shared (release_shared w' tags) categories)).
    { intros w' Ew h v b Hv. destruct (decide (h = categories)) as [->|Hc]; [|destruct (decide (h = tags)) as [->|Ht]].
      - rewrite Ec in Hv. injection Hv as <- <-. exists (HCat c), (Shared (n' - 1)).
        split; [apply release_self; rewrite release_other by done; by rewrite Ew|]. split; [done|]. right. exists (n' - 1). split; [done|lia].
      - rewrite Et in Hv. injection Hv as <- <-. exists (HTag t), (Shared (m' - 1)).
        split; [rewrite release_other by done; apply release_self; by rewrite Ew|]. split; [done|]. right. exists (m' - 1). split; [done|lia].
      - rewrite !release_other, Ew by done. apply F. rewrite Eo by done. done. }
    destruct r; intros [= <- <-].
    - by apply D.
    - by apply D.
    - eapply frame_trans; [exact F0|]. eapply frame_trans; [exact F|]. by apply frame_handlers.
    - eapply frame_trans; [exact F0|]. eapply frame_trans; [exact F|]. by apply frame_handlers.
  Qed.
  Lemma run_frame fuel p w w' t : run fuel w p = Done (w', t) -> frame w w'.
  Proof.
    apply run_rel.
    - apply frame_refl.
    - apply frame_trans.
    - intros w0 s. by apply frame_handlers.
    - apply answer_frame.
    - intros w0 categories tags w1. apply enter_frame.
    - intros w0 categories tags w1 c t0 w2 E F. eapply frame_trans; [by eapply enter_frame|done].
    - apply finish_frame.
  Qed.
End page.
