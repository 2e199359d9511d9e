(** The events of a run account for what became of the handlers. *)
From Coq Require Import Lia ZifyN ZifyBool.
From Verif.model Require Import Base F32 Utf8 Prim Coll Data Gram Indexer Nodes Classic Lit Raw Js Lib Page.
From Verif.spec Require Import Spec Data_spec Js_spec Lib_spec Page_spec.
From Verif.proofs Require Import Base_facts Page_facts.

Definition about (e : event) : N :=
  match e with Toggled h _ | AddedGeneral h _ | Added h _ _ | Removed h _ _ | Called h _ _ => h end.
Definition untouched (h : N) (es : list event) : Prop := Forall (fun e => about e <> h) es.
(** One event as an operation on the handler it is about. *)
Definition happen (v : handler) (e : event) : res (handler * list call) :=
  match e with
  | Toggled _ i => h_toggle v i
  | AddedGeneral _ f => v' ← h_add_general v f; Done (v', [])
  | Added _ i f => v' ← h_add v i f; Done (v', [])
  | Removed _ i f => v' ← h_remove v i f; Done (v', [])
  | Called _ _ _ => Done (v, [])
  end.
Fixpoint replay (h : N) (v : handler) (es : list event) : option (handler * list call) :=
  match es with
  | [] => Some (v, [])
  | e :: es' =>
    if decide (about e = h) then
      match happen v e with
      | Done (v', cs) => '(v'', cs') ← replay h v' es'; Some (v'', cs ++ cs')
      | _ => None
      end
    else replay h v es'
  end.
Lemma replay_app h es1 : forall v v1 cs1 es2 v2 cs2, replay h v es1 = Some (v1, cs1) -> replay h v1 es2 = Some (v2, cs2) ->
  replay h v (es1 ++ es2) = Some (v2, cs1 ++ cs2).
Proof.
  induction es1 as [|e es1 IH]; intros v v1 cs1 es2 v2 cs2 H1 H2; simpl in *.
  - by injection H1 as <- <-.
  - destruct (decide _); [|by eapply IH]. destruct (happen v e) as [[v' cs]| | |]; try done.
    destruct (replay h v' es1) as [[v'' cs']|] eqn:E; [|done]. simpl in H1. injection H1 as <- <-.
    rewrite (IH _ _ _ _ _ _ E H2). simpl. by rewrite (assoc_L _ cs).
Qed.
Lemma replay_untouched h v es : untouched h es -> replay h v es = Some (v, []).
Proof. induction 1 as [|e es He _ IH]; [done|]. simpl. by rewrite decide_False. Qed.
Lemma calls_by_app h es1 es2 : calls_by h (es1 ++ es2) = calls_by h es1 ++ calls_by h es2.
Proof.
  induction es1 as [|e es1 IH]; [done|]. simpl. destruct e; try done. rewrite <- (assoc_L _). by rewrite IH.
Qed.
Lemma calls_by_untouched h es : untouched h es -> calls_by h es = [].
Proof.
  induction 1 as [|e es He _ IH]; [done|]. simpl. destruct e; try done. simpl in He. rewrite decide_False by done. done.
Qed.

(** What the events say about one handler. *)
Definition tells (h : N) (v : handler) (b : borrow) (es : list event) (v' : handler) : Prop :=
  replay h v es = Some (v', calls_by h es) /\ (b <> Shared 0 -> untouched h es).
Lemma tells_nil h v b : tells h v b [] v.
Proof. split; [done|]. intros _. constructor. Qed.
Lemma tells_used h v b es : untouched h es -> tells h v b es v.
Proof. intros H. split; [|done]. by rewrite replay_untouched, calls_by_untouched. Qed.

Section cells.
  Context {S : Type}.
  Notation world := (world (S := S)).
  Implicit Types w : world.

  Definition told w w' (es : list event) : Prop := w_log w' = w_log w ++ es /\
    forall h v b, w_handlers w !! h = Some (Cell v b) ->
      exists v' b', w_handlers w' !! h = Some (Cell v' b') /\ tells h v b es v'.
  Definition story w w' : Prop := frame w w' /\ exists es, told w w' es.
  Lemma story_refl w : story w w.
  Proof.
    split; [apply frame_refl|]. exists []. split; [by rewrite app_nil_r|]. intros h v b H. exists v, b. split; [done|apply tells_nil].
  Qed.
  Lemma kept_used b b' : kept b b' -> b <> Shared 0 -> b' <> Shared 0.
  Proof.
    destruct b as [n|]; simpl; [|by intros ->]. intros [->|(m & -> & Hm)] H; [done|]. intros [= ->]. apply H. f_equal. lia.
  Qed.
  Lemma story_trans a b c : story a b -> story b c -> story a c.
  Proof.
    intros [F1 (es1 & L1 & T1)] [F2 (es2 & L2 & T2)]. split; [by eapply frame_trans|].
    exists (es1 ++ es2). split; [by rewrite L2, L1, (assoc_L _)|]. intros h v x Hx.
    destruct (T1 h v x Hx) as (v1 & b1 & E1 & R1 & U1). destruct (T2 h v1 b1 E1) as (v2 & b2 & E2 & R2 & U2).
    exists v2, b2. split; [done|]. split.
    - rewrite calls_by_app. by eapply replay_app.
    - intros Hb. destruct (F1 h v x Hx) as (v1' & b1' & E1' & _ & K). rewrite E1 in E1'. injection E1' as <- <-.
      apply Forall_app. split; [by apply U1|]. apply U2. by eapply kept_used.
  Qed.
  Lemma story_same w w' : w_handlers w' = w_handlers w -> w_log w' = w_log w -> story w w'.
  Proof.
    intros Eh El. split; [by apply frame_handlers|]. exists []. split; [by rewrite app_nil_r|].
    intros h v b H. exists v, b. rewrite Eh. split; [done|apply tells_nil].
  Qed.
  (** Values unchanged, nothing logged. *)
  Lemma story_values w w' : frame w w' -> w_log w' = w_log w ->
    (forall h v b, w_handlers w !! h = Some (Cell v b) -> exists b', w_handlers w' !! h = Some (Cell v b')) -> story w w'.
  Proof.
    intros F L V. split; [done|]. exists []. split; [by rewrite app_nil_r|]. intros h v b H.
    destruct (V h v b H) as [b' H']. exists v, b'. split; [done|apply tells_nil].
  Qed.
  Lemma new_story w r w' a : new_handler w r = (w', a) -> story w w'.
  Proof.
    intros E. pose proof (new_frame _ _ _ _ E) as F. unfold new_handler in E.
    destruct r as [v| | |]; injection E as <- <-; [|apply story_refl..].
    apply story_values; [done|done|]. intros h' v' b H. exists b. cbn [set_cell w_handlers].
    rewrite lookup_insert_ne; [done|]. intros <-. by rewrite fresh_new in H.
  Qed.
  Lemma change_story w h f e w' a : about e = h -> (forall f' b, e <> Called h f' b) ->
    (forall v v', f v = Done v' -> happen v e = Done (v', [])) -> change w h f e = (w', a) -> story w w'.
  Proof.
    intros Ha Hc Hf E. pose proof (change_frame _ _ _ _ _ _ E) as F. unfold change in E.
    destruct (borrow_exclusive w h) as [[w1 v]|] eqn:B; [|injection E as <- <-; apply story_refl].
    apply borrow_exclusive_inv in B as [B ->]. destruct (f v) as [v'| | |] eqn:Ev; injection E as <- <-.
    - split; [done|]. exists [e]. split; [done|]. intros h' x y Hx. cbn [log set_cell w_handlers].
      assert (C : calls_by h' [e] = []) by (simpl; destruct e; try done; exfalso; simpl in Ha; subst; by eapply Hc).
      destruct (decide (h' = h)) as [->|Hne].
      + rewrite lookup_insert. rewrite B in Hx. injection Hx as <- <-. exists v', (Shared 0). split; [done|]. split; [|done].
        rewrite C. simpl. rewrite decide_True by done. by rewrite (Hf _ _ Ev).
      + rewrite !lookup_insert_ne by done. exists x, y. split; [done|]. apply tells_used. constructor; [|constructor].
        rewrite Ha. done.
    - apply story_refl.
    - apply story_values; [done|done|]. intros h' x y Hx. cbn [set_cell w_handlers]. destruct (decide (h' = h)) as [->|Hne].
      + rewrite lookup_insert. rewrite B in Hx. injection Hx as <- <-. by exists Exclusive.
      + rewrite lookup_insert_ne by done. by exists y.
    - apply story_values; [done|done|]. intros h' x y Hx. cbn [set_cell w_handlers]. destruct (decide (h' = h)) as [->|Hne].
      + rewrite lookup_insert. rewrite B in Hx. injection Hx as <- <-. by exists Exclusive.
      + rewrite lookup_insert_ne by done. by exists y.
  Qed.
  Lemma enter_story w categories tags w1 r : enter_search w categories tags = (w1, r) -> story w w1.
  Proof.
    intros E. pose proof (enter_frame _ _ _ _ _ E) as F. apply enter_inv in E. destruct r as [[c t]|].
    - destruct E as (n & m & N & Ec & Et & ->). apply story_values; [done|done|]. intros h v b H. cbn [set_cell w_handlers].
      destruct (decide (h = tags)) as [->|Ht]; [|destruct (decide (h = categories)) as [->|Hc]].
      + rewrite lookup_insert. rewrite Et in H. injection H as <- <-. eauto.
      + rewrite lookup_insert_ne, lookup_insert by done. rewrite Ec in H. injection H as <- <-. eauto.
      + rewrite !lookup_insert_ne by done. eauto.
    - destruct E as [->|(c & n & t & N & Ec & Et & ->)]; [apply story_refl|].
      apply story_values; [done|done|]. intros h v b H. cbn [set_cell w_handlers].
      destruct (decide (h = categories)) as [->|Hc].
      + rewrite lookup_insert. rewrite Ec in H. injection H as <- <-. eauto.
      + rewrite !lookup_insert_ne by done. eauto.
  Qed.
  Lemma release_value w h h' v b : w_handlers w !! h' = Some (Cell v b) ->
    exists b', w_handlers (release_shared w h) !! h' = Some (Cell v b').
  Proof.
    intros H. destruct (decide (h' = h)) as [->|Hne]; [|rewrite release_other by done; eauto].
    unfold release_shared. rewrite H. destruct b as [n|]; [|eauto]. cbn [set_cell w_handlers]. rewrite lookup_insert. eauto.
  Qed.
  Lemma release_log w h : w_log (release_shared w h) = w_log w.
  Proof. unfold release_shared. by destruct (w_handlers w !! h) as [[v [n|]]|]. Qed.
End cells.

Section story.
  Context (low : N -> list N) (P : platform) {S : Type}.
  Context (observer : N -> bool -> js (S := S)) (order_at : world (S := S) -> search_order).
  Notation world := (world (S := S)).
  Notation js := (js (S := S)).
  Notation run := (run low P observer order_at).
  Notation answer := (answer P observer).
  Notation notify := (notify observer).
  Notation ask_toggle := (ask_toggle observer).
  Notation finish_search := (finish_search low order_at).
  Implicit Types w : world.

  (** While the observers of [h] run. *)
  Lemma notify_story call h v : (forall w p w' t, call w p = Done (w', t) -> story w w') ->
    forall calls w w', notify call h calls w = Done w' -> being_changed w h v ->
    exists es, w_log w' = w_log w ++ es /\ being_changed w' h v /\
      replay h v es = Some (v, []) /\ calls_by h es = calls /\
      frame w w' /\
      forall h' x b, h' <> h -> w_handlers w !! h' = Some (Cell x b) ->
        exists x' b', w_handlers w' !! h' = Some (Cell x' b') /\ tells h' x b es x'.
  Proof.
    intros Hc. induction calls as [|[f b] calls IH]; intros w w' E Hv; simpl in E.
    - injection E as <-. exists []. split; [by rewrite app_nil_r|]. split; [done|]. split; [done|]. split; [done|].
      split; [apply frame_refl|]. intros h' x b _ H. exists x, b. split; [done|apply tells_nil].
    - destruct (call _ _) as [[w1 t]| | |] eqn:C; try done. cbn [mbind res_bind] in E. apply Hc in C as [F1 (es1 & L1 & T1)].
      assert (Hv1 : being_changed w1 h v).
      { destruct (F1 h v Exclusive Hv) as (v1 & b1 & E1 & V1 & K1). cbn [kept] in K1. subst b1. rewrite V1 in E1; done. }
      destruct (T1 h v Exclusive Hv) as (v1 & b1 & E1 & _ & U1). specialize (U1 ltac:(done)).
      destruct (IH _ _ E Hv1) as (es2 & L2 & Hv2 & R2 & C2 & F2 & T2).
      exists (Called h f b :: es1 ++ es2). split; [rewrite L2, L1; simpl; by rewrite <- !(assoc_L _)|]. split; [done|].
      split; [|split; [|split]].
      + simpl. rewrite decide_True by done. rewrite (replay_app h es1 v v [] es2 v []); [done|by apply replay_untouched|done].
      + simpl. rewrite decide_True by done. rewrite calls_by_app, (calls_by_untouched _ _ U1), C2. done.
      + eapply frame_trans; [|exact F2]. eapply frame_trans; [|exact F1]. by apply frame_handlers.
      + intros h' x y Hne Hx. destruct (T1 h' x y Hx) as (x1 & y1 & G1 & R1 & W1).
        destruct (T2 h' x1 y1 Hne G1) as (x2 & y2 & G2 & R2' & W2). exists x2, y2. split; [done|]. split.
        * simpl. rewrite !decide_False by done. simpl. rewrite calls_by_app. by eapply replay_app.
        * intros Hy. constructor; [simpl; congruence|]. apply Forall_app. split; [by apply W1|]. apply W2.
          destruct (F1 h' x y Hx) as (x1' & y1' & G1' & _ & K). rewrite G1 in G1'. injection G1' as <- <-. by eapply kept_used.
  Qed.
  Lemma answer_story call : (forall w p w' t, call w p = Done (w', t) -> story w w') ->
    forall w r w' a, answer call w r = Done (w', a) -> story w w'.
  Proof.
    intros Hc w r w' a E. assert (F : frame w w').
    { eapply (answer_frame low P observer order_at call); [|exact E]. intros w0 p w0' t H. by apply Hc in H as [? _]. }
    revert E. destruct r as [| |input|h i|h i|h f|h i f|h i f]; cbn [Page.answer].
    - intros [= E]. by eapply new_story.
    - intros [= E]. by eapply new_story.
    - destruct (initialize P (w_lib w) input) as [st r]. intros [= <- <-]. by apply story_same.
    - unfold Page.ask_toggle. destruct (borrow_exclusive w h) as [[w1 v]|] eqn:B; [|intros [= <- <-]; apply story_refl].
      apply borrow_exclusive_inv in B as [B ->]. destruct (h_toggle v i) as [[v' calls]| | |] eqn:T.
      + destruct (notify call h calls _) as [w2| | |] eqn:N; try done. cbn [mbind res_bind]. intros [= <- <-].
        destruct (notify_story call h v' Hc _ _ _ N) as (es & L & Hv & R & C & F2 & O).
        { unfold being_changed. cbn [log set_cell w_handlers]. apply lookup_insert. }
        split; [done|]. exists (Toggled h i :: es). split; [cbn [set_cell w_log]; rewrite L; simpl; by rewrite <- (assoc_L _)|].
        intros h' x y Hx. cbn [set_cell w_handlers]. destruct (decide (h' = h)) as [->|Hne].
        * rewrite lookup_insert. rewrite B in Hx. injection Hx as <- <-. exists v', (Shared 0). split; [done|]. split; [|done].
          simpl. rewrite decide_True by done. rewrite T, R. simpl. by rewrite app_nil_r, C.
        * rewrite lookup_insert_ne by done. destruct (O h' x y Hne) as (x' & y' & G & R' & U).
          { cbn [log set_cell w_handlers]. by rewrite !lookup_insert_ne. }
          exists x', y'. split; [done|]. split; [simpl; by rewrite decide_False by done|]. intros Hy.
          constructor; [simpl; congruence|by apply U].
      + intros [= <- <-]. apply story_refl.
      + intros [= <- <-]. apply story_values; [done|done|]. intros h' x y Hx. cbn [set_cell w_handlers].
        destruct (decide (h' = h)) as [->|Hne].
        * rewrite lookup_insert. rewrite B in Hx. injection Hx as <- <-. by exists Exclusive.
        * rewrite lookup_insert_ne by done. by exists y.
      + intros [= <- <-]. apply story_values; [done|done|]. intros h' x y Hx. cbn [set_cell w_handlers].
        destruct (decide (h' = h)) as [->|Hne].
        * rewrite lookup_insert. rewrite B in Hx. injection Hx as <- <-. by exists Exclusive.
        * rewrite lookup_insert_ne by done. by exists y.
    - unfold ask_status. destruct (borrow_shared w h) as [[w1 v]|] eqn:B; [|intros [= <- <-]; apply story_refl].
      apply borrow_shared_inv in B as (n & B & ->). destruct (h_status v i) as [b| | |]; intros [= <- <-]; try apply story_refl.
      unfold release_shared. cbn [set_cell w_handlers]. rewrite lookup_insert. apply story_same; [|done].
      cbn [set_cell w_handlers]. rewrite insert_insert. apply insert_id. rewrite B. do 3 f_equal. lia.
    - intros [= E]. eapply change_story; [..|exact E]; [done|done|]. intros v v' Ev. simpl. by rewrite Ev.
    - intros [= E]. eapply change_story; [..|exact E]; [done|done|]. intros v v' Ev. simpl. by rewrite Ev.
    - intros [= E]. eapply change_story; [..|exact E]; [done|done|]. intros v v' Ev. simpl. by rewrite Ev.
  Qed.
  Lemma finish_story w categories tags w1 c t w2 input order entries w3 a :
    enter_search w categories tags = (w1, Some (c, t)) -> story w1 w2 ->
    finish_search w2 categories tags c t input order entries = (w3, a) -> story w w3.
  Proof.
    intros E [F2 (es & L & T)] Fi. assert (F : frame w w3) by (by eapply finish_frame).
    split; [done|]. exists es. destruct (enter_story _ _ _ _ _ E) as [_ _].
    apply entered in E as (n & m & N & Ec & Et & Ec1 & Et1 & Eo & _ & _ & El).
    assert (V : w_log w3 = w_log w2 /\ forall h v b, w_handlers w2 !! h = Some (Cell v b) -> exists b', w_handlers w3 !! h = Some (Cell v b')).
    { unfold Page.finish_search in Fi. destruct (search _ _ _ _ _ _ _ _ _) as [st r].
      assert (D : forall w', w_handlers w' = w_handlers w2 -> w_log w' = w_log w2 ->
        w_log (release_shared (release_shared w' tags) categories) = w_log w2 /\
        forall h v b, w_handlers w2 !! h = Some (Cell v b) ->
          exists b', w_handlers (release_shared (release_shared w' tags) categories) !! h = Some (Cell v b')).
      { intros w' Ew Ew'. split; [by rewrite !release_log|]. intros h v b H. rewrite <- Ew in H.
        destruct (release_value _ tags _ _ _ H) as [b1 H1]. by eapply release_value. }
      destruct r; injection Fi as <- <-; [by apply D|by apply D|split; eauto..]. }
    destruct V as [L3 V3]. split; [by rewrite L3, L, El|]. intros h v b H.
    destruct (decide (h = categories)) as [->|Hc]; [|destruct (decide (h = tags)) as [->|Ht]].
    - rewrite Ec in H. injection H as <- <-. destruct (T _ _ _ Ec1) as (v' & b' & G & R & U).
      specialize (U ltac:(intros [= ?]; lia)). rewrite (replay_untouched _ _ _ U) in R. injection R as <- R.
      destruct (V3 _ _ _ G) as [b3 G3]. exists (HCat c), b3. split; [done|]. by apply tells_used.
    - rewrite Et in H. injection H as <- <-. destruct (T _ _ _ Et1) as (v' & b' & G & R & U).
      specialize (U ltac:(intros [= ?]; lia)). rewrite (replay_untouched _ _ _ U) in R. injection R as <- R.
      destruct (V3 _ _ _ G) as [b3 G3]. exists (HTag t), b3. split; [done|]. by apply tells_used.
    - rewrite <- (Eo h Hc Ht) in H. destruct (T _ _ _ H) as (v' & b' & G & R). destruct (V3 _ _ _ G) as [b3 G3]. eauto.
  Qed.
  Lemma run_story fuel p w w' t : run fuel w p = Done (w', t) -> story w w'.
  Proof.
    apply run_rel.
    - apply story_refl.
    - apply story_trans.
    - intros w0 s. by apply story_same.
    - apply answer_story.
    - intros w0 categories tags w1. apply enter_story.
    - intros w0 categories tags w1 c t0 w2 E F. eapply story_trans; [by eapply enter_story|done].
    - apply finish_story.
  Qed.

  (** ** In terms of the operations of one handler *)
  Lemma replay_cat h es : forall v v' cs, replay h (HCat v) es = Some (v', cs) ->
    v' = HCat (cat_run v (cat_history h es)) /\ cs = Page_spec.cat_calls v (cat_history h es).
  Proof.
    induction es as [|e es IH]; intros v v' cs H; [by injection H as <- <-|].
    simpl in H. destruct (decide (about e = h)) as [Ha|Ha].
    - destruct e as [h' [x|x]|h' f|h' [x|x] f|h' [x|x] f|h' f b]; simpl in Ha; subst h'; simpl in H |- *;
        rewrite ?decide_True by done; try done.
      + destruct (ch_toggle v x) as [v1 cs1] eqn:T. destruct (replay h (HCat v1) es) as [[v2 cs2]|] eqn:R; [|done].
        simpl in H. injection H as <- <-. apply IH in R as [-> ->]. unfold cat_run. simpl. rewrite T. done.
      + destruct (replay h _ es) as [[v2 cs2]|] eqn:R; [|done]. simpl in H. injection H as <- <-. by apply IH in R as [-> ->].
      + destruct (replay h _ es) as [[v2 cs2]|] eqn:R; [|done]. simpl in H. injection H as <- <-. by apply IH in R as [-> ->].
      + destruct (replay h _ es) as [[v2 cs2]|] eqn:R; [|done]. simpl in H. injection H as <- <-. by apply IH in R as [-> ->].
      + destruct (replay h _ es) as [[v2 cs2]|] eqn:R; [|done]. simpl in H. injection H as <- <-. by apply IH in R as [-> ->].
    - destruct e as [h' [x|x]|h' f|h' [x|x] f|h' [x|x] f|h' f b]; simpl in Ha |- *; rewrite ?decide_False by done; by apply IH.
  Qed.
  Lemma replay_tag h es : forall v v' cs, replay h (HTag v) es = Some (v', cs) ->
    exists x, v' = HTag x /\ tag_run v (tag_history h es) = Done x /\ cs = Page_spec.tag_calls v (tag_history h es).
  Proof.
    induction es as [|e es IH]; intros v v' cs H; [injection H as <- <-; by exists v|].
    simpl in H. destruct (decide (about e = h)) as [Ha|Ha].
    - destruct e as [h' [x|x]|h' f|h' [x|x] f|h' [x|x] f|h' f b]; simpl in Ha; subst h'; simpl in H |- *;
        rewrite ?decide_True by done; try done.
      + destruct (th_toggle v x) as [[v1 cs1]| | |] eqn:T; try done. cbn [mbind res_bind] in H.
        destruct (replay h (HTag v1) es) as [[v2 cs2]|] eqn:R; [|done].
        simpl in H. injection H as <- <-. apply IH in R as (y & -> & Ry & ->). exists y. split; [done|].
        unfold tag_run. simpl. rewrite T. done.
      + destruct (replay h _ es) as [[v2 cs2]|] eqn:R; [|done]. simpl in H. injection H as <- <-.
        apply IH in R as (y & -> & Ry & ->). by exists y.
      + destruct (th_add_tag v x f) as [v1| | |] eqn:T; try done. cbn [mbind res_bind] in H.
        destruct (replay h (HTag v1) es) as [[v2 cs2]|] eqn:R; [|done].
        simpl in H. injection H as <- <-. apply IH in R as (y & -> & Ry & ->). exists y. split; [done|].
        unfold tag_run. simpl. rewrite T. done.
      + destruct (th_remove_tag v x f) as [v1| | |] eqn:T; try done. cbn [mbind res_bind] in H.
        destruct (replay h (HTag v1) es) as [[v2 cs2]|] eqn:R; [|done].
        simpl in H. injection H as <- <-. apply IH in R as (y & -> & Ry & ->). exists y. split; [done|].
        unfold tag_run. simpl. rewrite T. done.
      + destruct (replay h _ es) as [[v2 cs2]|] eqn:R; [|done]. simpl in H. injection H as <- <-.
        apply IH in R as (y & -> & Ry & ->). by exists y.
    - destruct e as [h' [x|x]|h' f|h' [x|x] f|h' [x|x] f|h' f b]; simpl in Ha |- *; rewrite ?decide_False by done; by apply IH.
  Qed.
  Lemma run_accounted fuel p w w' t : run fuel w p = Done (w', t) ->
    exists es, w_log w' = w_log w ++ es /\
      (forall h v b, w_handlers w !! h = Some (Cell (HCat v) b) ->
         exists b', w_handlers w' !! h = Some (Cell (HCat (cat_run v (cat_history h es))) b') /\
           calls_by h es = Page_spec.cat_calls v (cat_history h es)) /\
      (forall h v b, w_handlers w !! h = Some (Cell (HTag v) b) ->
         exists v' b', tag_run v (tag_history h es) = Done v' /\ w_handlers w' !! h = Some (Cell (HTag v') b') /\
           calls_by h es = Page_spec.tag_calls v (tag_history h es)).
  Proof.
    intros [_ (es & L & T)]%run_story. exists es. split; [done|]. split; intros h v b H; destruct (T h _ b H) as (v' & b' & G & R & _).
    - apply replay_cat in R as [-> R]. by exists b'.
    - apply replay_tag in R as (x & -> & Rx & R). by exists x, b'.
  Qed.
End story.
