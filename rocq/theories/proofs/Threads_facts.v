(** C102, C103, C78 in full: interleaved entry points. *)
From Verif.model Require Import Base F32 Utf8 Prim Coll Data Gram Indexer Nodes Classic Lit Raw Js Lib Threads.
From Verif.spec Require Import Spec Js_spec Lib_spec Threads_spec.
From Verif.proofs Require Import Base_facts.

(** ** Programs *)
(** How far a call is with one of the cells. *)
Inductive lk := Fresh | Held | Spent.
Fixpoint wf (si sc : lk) (p : prog) : Prop :=
  match p with
  | Ret _ => si <> Held /\ sc <> Held
  | Lock Index ok err => si = Fresh /\ sc = Fresh /\ wf Held sc ok /\ wf Spent sc err
  | Lock Classics ok err => sc = Fresh /\ wf si Held ok /\ wf si Spent err
  | Unlock Index _ k => si = Held /\ wf Spent sc k
  | Unlock Classics _ k => sc = Held /\ wf si Spent k
  | GetIndex f => si = Held /\ forall v, wf si sc (f v)
  | GetClassic f => sc = Held /\ forall v, wf si sc (f v)
  | SetIndex _ k => si = Held /\ wf si sc k
  | SetClassic _ k => sc = Held /\ wf si sc k
  end.
(** The whole program without interruption. *)
Fixpoint solo (p : prog) (st : lib_state) : lib_state * reply :=
  match p with
  | Ret a => (st, a)
  | Lock m ok err => if poisoned m st then solo err st else solo ok st
  | Unlock m panicking k => solo k (if panicking : bool then poison m st else st)
  | GetIndex f => solo (f (s_index st)) st
  | GetClassic f => solo (f (s_classic st)) st
  | SetIndex v k => solo k (put_index v st)
  | SetClassic v k => solo k (put_classic v st)
  end.
Definition ipart (st : lib_state) := (s_index st, s_index_dead st).
Definition cpart (st : lib_state) := (s_classic st, s_classic_dead st).

Section programs.
Context (low : N -> list N) (P : platform).
Notation prog_of := (prog_of low P).
Notation alone := (alone low P).
Lemma wf_prog r : wf Fresh Fresh (prog_of r).
Proof.
  destruct r as [bytes|o input categories tags order entries| | | |]; cbn [Threads.prog_of]; [| |by unfold do_read; cbn..].
  - unfold do_initialize. destruct (deserialize_all _ _ _) as [[gi cl]| | |]; by cbn.
  - unfold do_search. destruct (parse_filters entries) as [filters|]; [|by cbn]. cbn. repeat (split; [done|]). split; [|done].
    split; [done|]. intros [gi|]; [|by cbn]. destruct (search_filtered _ _ _ _ _ _ _) as [l| | |]; [|by cbn..].
    destruct order as [key|]; [|by cbn]. cbn. split; [done|]. split; [|done]. split; [done|]. intros v.
    destruct (cl ← v; get_orders (cl_order cl) key) as [table|]; [|by cbn]. destruct (sort_by_order table l); by cbn.
Qed.
Lemma solo_prog r st : solo (prog_of r) st = alone st r.
Proof.
  destruct r as [bytes|o input categories tags order entries| | | |]; cbn [Threads.prog_of Threads_spec.alone].
  - unfold do_initialize, initialize. destruct (deserialize_all _ _ _) as [[gi cl]| | |]; try done. cbn.
    destruct st as [a b [] []]; done.
  - unfold do_search, search. destruct (parse_filters entries) as [filters|]; [|done]. cbn.
    destruct st as [a b [] d]; [done|]. cbn. destruct a as [gi|]; [|done].
    destruct (search_filtered _ _ _ _ _ _ _) as [l| | |]; [|done..].
    destruct order as [key|]; [|done]. cbn. destruct d; [done|]. cbn.
    destruct (cl ← b; get_orders (cl_order cl) key) as [table|]; [|done]. destruct (sort_by_order table l); done.
  - destruct st as [a [cl|] c []]; done.
  - destruct st as [a [cl|] c []]; done.
  - destruct st as [a [cl|] c []]; done.
  - unfold tag_suggestion. destruct st as [a [cl|] c []]; try done.
Qed.

Lemma spent_index p : forall sc st st', wf Spent sc p -> cpart st = cpart st' -> (solo p st).2 = (solo p st').2.
Proof.
  induction p as [a|m ok IH1 err IH2|m b k IH|f IH|f IH|v k IH|v k IH]; intros sc st st' W E; cbn in *.
  - done.
  - destruct m; [by destruct W|]. destruct W as (-> & W1 & W2). cbn. pose proof E as E0. injection E as E1 E2. rewrite E2.
    destruct (s_classic_dead st'); [by eapply IH2|by eapply IH1].
  - destruct m; destruct W as [? W]; [done|]. eapply IH; [done|]. destruct b; [|done]. injection E as E1 E2. cbn. unfold cpart. cbn. by rewrite E1.
  - by destruct W.
  - destruct W as [_ W]. injection E as E1 E2. rewrite E1. eapply IH; [done|]. unfold cpart. by rewrite E1, E2.
  - by destruct W.
  - destruct W as [_ W]. eapply IH; [done|]. injection E as E1 E2. unfold cpart. cbn. by rewrite E2.
Qed.
Lemma spent_classic p : forall si st st', wf si Spent p -> ipart st = ipart st' -> (solo p st).2 = (solo p st').2.
Proof.
  induction p as [a|m ok IH1 err IH2|m b k IH|f IH|f IH|v k IH|v k IH]; intros si st st' W E; cbn in *.
  - done.
  - destruct m; destruct W as (? & W1 & W2); done.
  - destruct m; destruct W as [? W]; [|done]. eapply IH; [done|]. destruct b; [|done]. injection E as E1 E2. cbn. unfold ipart. cbn. by rewrite E1.
  - destruct W as [_ W]. injection E as E1 E2. rewrite E1. eapply IH; [done|]. unfold ipart. by rewrite E1, E2.
  - by destruct W.
  - destruct W as [_ W]. eapply IH; [done|]. injection E as E1 E2. unfold ipart. cbn. by rewrite E2.
  - by destruct W.
Qed.

(** ** Executions *)
Section execution.
Context (clients : list (list reply -> option request)) (ws : list world).
Context (X : execution low P clients ws).
Notation in_call := (in_call ws).
Definition st_at (t : nat) : lib_state := match ws !! t with Some w => wo_state w | None => lib_init end.
Definition pin (c : option nat) (st : lib_state) : lib_state := match c with Some t => st_at t | None => st end.
Definition fresh_iff (s : lk) (c : option nat) : Prop := s = Fresh <-> c = None.
Definition before (c1 c2 : option nat) : Prop :=
  match c1, c2 with Some t1, Some t2 => (t1 <= t2)%nat | _, _ => True end.
Record committed (t i : nat) (w : world) (x : worker) (r : request) (p : prog) : Prop := Committed {
  co_client : wk_client x (wk_replies x) = Some r;
  co_rest : exists si sc c1 c2, wf si sc p /\
    (owner Index w = Some i <-> si = Held) /\ (owner Classics w = Some i <-> sc = Held) /\
    fresh_iff si c1 /\ fresh_iff sc c2 /\ before c1 c2 /\
    (forall t', c1 = Some t' \/ c2 = Some t' -> (t' <= t)%nat /\ in_call i (length (wk_replies x)) t') /\
    forall st, (si = Held -> ipart st = ipart (wo_state w)) -> (sc = Held -> cpart st = cpart (wo_state w)) ->
      (solo p st).2 = (alone (mixed (pin c1 st) (pin c2 st)) r).2
}.
Definition explained (i k : nat) (r : request) (a : reply) : Prop :=
  exists t1 t2, (t1 <= t2)%nat /\ in_call i k t1 /\ in_call i k t2 /\ a = (alone (mixed (st_at t1) (st_at t2)) r).2.
Record good (t : nat) (w : world) : Prop := Good {
  go_owner : forall m i, owner m w = Some i -> exists x y, wo_workers w !! i = Some x /\ wk_running x = Some y;
  go_running : forall i x r p, wo_workers w !! i = Some x -> wk_running x = Some (r, p) -> committed t i w x r p;
  go_done : forall i x k a, wo_workers w !! i = Some x -> wk_replies x !! k = Some a ->
    exists r, wk_client x (take k (wk_replies x)) = Some r /\ explained i k r a
}.
Lemma good_start w : ws !! 0%nat = Some w -> good 0 w.
Proof.
  intros E. destruct X as [E0 _]. rewrite E0 in E. injection E as <-. split.
  - intros [] i; done.
  - intros i x r p Hx Hr. cbn in Hx. rewrite list_lookup_fmap in Hx. apply fmap_Some in Hx as (c & _ & ->). done.
  - intros i x k a Hx Hr. cbn in Hx. rewrite list_lookup_fmap in Hx. apply fmap_Some in Hx as (c & _ & ->). done.
Qed.
(** What a step of thread [j] does to the threads that do not move. *)
Lemma others t w w' j x : good t w -> wo_workers w !! j = Some x ->
  (exists y, wo_workers w' = <[j := y]> (wo_workers w)) ->
  (forall m i, i <> j -> owner m w' = Some i <-> owner m w = Some i) ->
  (owner Index w <> Some j -> ipart (wo_state w') = ipart (wo_state w)) ->
  (owner Classics w <> Some j -> cpart (wo_state w') = cpart (wo_state w)) ->
  forall i x, i <> j -> wo_workers w' !! i = Some x ->
  (forall r p, wk_running x = Some (r, p) -> committed (S t) i w' x r p) /\
  (forall k a, wk_replies x !! k = Some a -> exists r, wk_client x (take k (wk_replies x)) = Some r /\ explained i k r a).
Proof.
  intros G Hj [y Ew] Ho Hi Hc i x' Hij Hx. rewrite Ew, list_lookup_insert_ne in Hx by done. split.
  2: { intros k a. by eapply go_done. }
  intros r p Hr. destruct (go_running t w G i x' r p Hx Hr) as [C (si & sc & c1 & c2 & W & O1 & O2 & F1 & F2 & B & M & S)].
  split; [done|]. exists si, sc, c1, c2. split; [done|].
  split; [by rewrite Ho|]. split; [by rewrite Ho|]. do 3 (split; [done|]). split.
  - intros t' Ht. destruct (M t' Ht). split; [lia|done].
  - intros st H1 H2. apply S.
    + intros Hs. rewrite H1 by done. apply Hi. apply O1 in Hs. rewrite Hs. congruence.
    + intros Hs. rewrite H2 by done. apply Hc. apply O2 in Hs. rewrite Hs. congruence.
Qed.
Lemma mixed_same st : mixed st st = st.
Proof. by destruct st. Qed.
Lemma mixed_cong a a' b b' : ipart a = ipart a' -> cpart b = cpart b' -> mixed a b = mixed a' b'.
Proof. intros [= E1 E2] [= E3 E4]. unfold mixed. by rewrite E1, E2, E3, E4. Qed.
Lemma poisoned_ipart st st' : ipart st = ipart st' -> poisoned Index st = poisoned Index st'.
Proof. by intros [= _ ?]. Qed.
Lemma poisoned_cpart st st' : cpart st = cpart st' -> poisoned Classics st = poisoned Classics st'.
Proof. by intros [= _ ?]. Qed.
Lemma st_at_lookup t w : ws !! t = Some w -> st_at t = wo_state w.
Proof. unfold st_at. by intros ->. Qed.
Lemma close_step t w w' j x y : good t w -> wo_workers w !! j = Some x ->
  wo_workers w' = <[j := y]> (wo_workers w) ->
  (forall m i, i <> j -> owner m w' = Some i <-> owner m w = Some i) ->
  (owner Index w <> Some j -> ipart (wo_state w') = ipart (wo_state w)) ->
  (owner Classics w <> Some j -> cpart (wo_state w') = cpart (wo_state w)) ->
  (forall r p, wk_running y = Some (r, p) -> committed (S t) j w' y r p) ->
  (forall k a, wk_replies y !! k = Some a -> exists r, wk_client y (take k (wk_replies y)) = Some r /\ explained j k r a) ->
  (wk_running y = None -> forall m, owner m w' <> Some j) ->
  good (S t) w'.
Proof.
  intros G Hj Ew Ho Hi Hc Hr Hd Hn. assert (Hl : (j < length (wo_workers w))%nat) by by eapply lookup_lt_Some.
  assert (Ej : wo_workers w' !! j = Some y) by (rewrite Ew; by apply list_lookup_insert).
  pose proof (others t w w' j x G Hj (ex_intro _ y Ew) Ho Hi Hc) as O. split.
  - intros m i Hm. destruct (decide (i = j)) as [->|N].
    + destruct (wk_running y) as [z|] eqn:R; [by exists y, z|]. by destruct (Hn eq_refl m).
    + rewrite Ho in Hm by done. destruct (go_owner t w G m i Hm) as (x' & z & Hx & Hz). exists x', z. by rewrite Ew, list_lookup_insert_ne.
  - intros i x' r p Hx' Hr'. destruct (decide (i = j)) as [->|N].
    + rewrite Ej in Hx'. injection Hx' as <-. by apply Hr.
    + by apply (O i x').
  - intros i x' k a Hx' Hr'. destruct (decide (i = j)) as [->|N].
    + rewrite Ej in Hx'. injection Hx' as <-. by apply Hd.
    + by apply (O i x').
Qed.
Lemma good_step t w w' j : ws !! t = Some w -> ws !! S t = Some w' -> work low P w j = Some w' -> good t w -> good (S t) w'.
Proof.
  intros Ht Ht' Hw G. pose proof (st_at_lookup t w Ht) as Et.
  unfold work in Hw. destruct (wo_workers w !! j) as [x|] eqn:Hj; [|done]. cbn [mbind option_bind] in Hw.
  assert (Hl : (j < length (wo_workers w))%nat) by by eapply lookup_lt_Some.
  destruct (wk_running x) as [[r p]|] eqn:R.
  2: { (* a call begins *)
    destruct (wk_client x (wk_replies x)) as [r|] eqn:C; [|done]. cbn [mbind option_bind] in Hw. injection Hw as <-.
    assert (No : forall m, owner m w <> Some j).
    { intros m Hm. destruct (go_owner t w G m j Hm) as (x' & y & Hx & Hy). rewrite Hj in Hx. injection Hx as <-. congruence. }
    eapply (close_step t w _ j x); [done|done|reflexivity|by intros []|done|done| | |done].
    - intros r' p' [= <- <-]. split; [done|]. exists Fresh, Fresh, None, None. split; [apply wf_prog|].
      split; [split; [intros H; by destruct (No Index)|done]|]. split; [split; [intros H; by destruct (No Classics)|done]|].
      do 3 (split; [done|]). split; [by intros ? [|]|]. intros st _ _. by rewrite solo_prog, mixed_same.
    - cbn. intros k a. by apply (go_done t w G j x). }
  destruct (go_running t w G j x r p Hj R) as [C (si & sc & c1 & c2 & W & O1 & O2 & F1 & F2 & B & M & S)].
  assert (Ct : in_call j (length (wk_replies x)) t) by (exists w, x; by rewrite R).
  assert (Dn : forall k a, wk_replies x !! k = Some a -> exists r, wk_client x (take k (wk_replies x)) = Some r /\ explained j k r a).
  { intros k a. by apply (go_done t w G j x). }
  assert (M' : forall t', c1 = Some t' \/ c2 = Some t' -> (t' <= Datatypes.S t)%nat /\ in_call j (length (wk_replies x)) t').
  { intros t' H. destruct (M t' H). split; [lia|done]. }
  destruct p as [a|m ok err|m b k|f|f|v k|v k]; cbn in W.
  - (* it ends *)
    injection Hw as <-. destruct W as [W1 W2].
    eapply (close_step t w _ j x); [done|done|reflexivity|by intros []|done|done|done| |].
    + intros k a' Hk. cbn in Hk |- *. destruct (decide (k < length (wk_replies x))%nat) as [L|L].
      * rewrite lookup_app_l in Hk by done. rewrite take_app_le by lia. by apply Dn.
      * assert (k = length (wk_replies x)) as ->.
        { apply lookup_lt_Some in Hk. rewrite app_length in Hk. simpl in Hk. lia. }
        rewrite list_lookup_middle in Hk by done. injection Hk as <-. rewrite take_app. exists r. split; [done|].
        pose proof S as S0. specialize (S (wo_state w) ltac:(done) ltac:(done)). cbn in S.
        destruct c1 as [t1|], c2 as [t2|]; cbn in S, B.
        -- exists t1, t2. destruct (M t1 ltac:(by left)), (M t2 ltac:(by right)). done.
        -- exists t1, t. destruct (M t1 ltac:(by left)). rewrite Et. done.
        -- exists t2, t2. destruct (M t2 ltac:(by right)). do 3 (split; [done|]).
           apply (S0 (st_at t2)); done.
        -- exists t, t. rewrite Et. done.
    + intros _ m Hm. destruct m; [by apply O1 in Hm|by apply O2 in Hm].
  - (* lock *)
    destruct (owner m w) as [i|] eqn:Om; [done|]. destruct m; cbn in W, Om.
    + destruct W as (-> & -> & W1 & W2).
      assert (c1 = None) as -> by by apply F1. assert (c2 = None) as -> by by apply F2.
      destruct (poisoned Index (wo_state w)) eqn:D; injection Hw as <-.
      * eapply (close_step t w _ j x); [done|done|reflexivity|by intros []|done|done| |exact Dn|done].
        intros r' p' [= <- <-]. split; [done|]. exists Spent, Fresh, (Some t), None. split; [done|]. cbn.
        split; [by rewrite Om|]. split; [done|]. split; [done|]. split; [done|]. split; [done|]. split.
        { intros t' [[= <-]|?]; [|done]. split; [lia|done]. }
        intros st _ _. set (st0 := mixed (wo_state w) st).
        rewrite (spent_index err Fresh st st0 W2) by done. specialize (S st0 ltac:(done) ltac:(done)). cbn in S, D. rewrite D in S.
        rewrite S. do 2 f_equal. apply mixed_cong; [by rewrite Et|done].
      * eapply (close_step t w _ j x); [done|done|reflexivity| |done|done| |exact Dn|done].
        { intros [] i N; cbn; [|done]. rewrite Om. split; [intros [= <-]; done|done]. }
        intros r' p' [= <- <-]. split; [done|]. exists Held, Fresh, (Some t), None. split; [done|]. cbn.
        split; [done|]. split; [done|]. split; [done|]. split; [done|]. split; [done|]. split.
        { intros t' [[= <-]|?]; [|done]. split; [lia|done]. }
        intros st Hi _. specialize (Hi eq_refl). specialize (S st ltac:(done) ltac:(done)). cbn [solo] in S.
        rewrite (poisoned_ipart _ _ Hi), D in S. rewrite S. do 2 f_equal. apply mixed_cong; [by rewrite Et|done].
    + destruct W as (-> & W1 & W2). assert (c2 = None) as -> by by apply F2.
      assert (Bt : before c1 (Some t)). { destruct c1 as [t1|]; [|done]. apply (M t1). by left. }
      assert (Mt : forall t', c1 = Some t' \/ Some t = Some t' -> (t' <= Datatypes.S t)%nat /\ in_call j (length (wk_replies x)) t').
      { intros t' [H|[= <-]]; [apply M'; by left|]. split; [lia|done]. }
      destruct (poisoned Classics (wo_state w)) eqn:D; injection Hw as <-.
      * eapply (close_step t w _ j x); [done|done|reflexivity|by intros []|done|done| |exact Dn|done].
        intros r' p' [= <- <-]. split; [done|]. exists si, Spent, c1, (Some t). split; [done|]. cbn.
        split; [done|]. split; [by rewrite Om|]. split; [done|]. split; [done|]. split; [done|]. split; [done|].
        intros st Hi _. set (st0 := mixed st (wo_state w)).
        rewrite (spent_classic err si st st0 W2) by done. specialize (S st0 Hi ltac:(done)). cbn in S, D. rewrite D in S.
        rewrite S. do 2 f_equal. apply mixed_cong; [by destruct c1|by rewrite Et].
      * eapply (close_step t w _ j x); [done|done|reflexivity| |done|done| |exact Dn|done].
        { intros [] i N; cbn; [done|]. rewrite Om. split; [intros [= <-]; done|done]. }
        intros r' p' [= <- <-]. split; [done|]. exists si, Held, c1, (Some t). split; [done|]. cbn.
        split; [done|]. split; [done|]. split; [done|]. split; [done|]. split; [done|]. split; [done|].
        intros st Hi Hc. specialize (Hc eq_refl). specialize (S st Hi ltac:(done)). cbn [solo] in S.
        rewrite (poisoned_cpart _ _ Hc), D in S. rewrite S. do 2 f_equal. apply mixed_cong; [done|by rewrite Et].
  - (* unlock *)
    injection Hw as <-. destruct m; cbn in W.
    + destruct W as (-> & W). assert (Oi : owner Index w = Some j) by by apply O1.
      assert (exists t1, c1 = Some t1) as [t1 ->]. { destruct c1; [by eexists|]. by pose proof (proj2 F1 eq_refl). }
      eapply (close_step t w _ j x); [done|done|by destruct b| | | | |exact Dn|done].
      { intros [] i N; cbn; [|by destruct b]. cbn in Oi. rewrite Oi. split; [done|]. intros [= <-]. done. }
      { done. }
      { intros _. by destruct b. }
      intros r' p' [= <- <-]. split; [done|]. exists Spent, sc, (Some t1), c2. split; [done|].
      split; [done|]. split; [by destruct b|]. split; [done|]. split; [done|]. split; [done|]. split; [done|].
      intros st _ Hc. set (st0 := mixed (wo_state w) st).
      assert (Hc' : sc = Held -> cpart st0 = cpart (wo_state w)).
      { intros Hs. change (cpart st0) with (cpart st). rewrite Hc by done. by destruct b. }
      specialize (S st0 ltac:(done) Hc'). cbn [solo] in S.
      rewrite (spent_index k sc st (if b then poison Index st0 else st0) W) by by destruct b. rewrite S. do 2 f_equal.
      apply mixed_cong; [done|by destruct c2].
    + destruct W as (-> & W). assert (Oi : owner Classics w = Some j) by by apply O2.
      assert (exists t2, c2 = Some t2) as [t2 ->]. { destruct c2; [by eexists|]. by pose proof (proj2 F2 eq_refl). }
      eapply (close_step t w _ j x); [done|done|by destruct b| | | | |exact Dn|done].
      { intros [] i N; cbn; [by destruct b|]. cbn in Oi. rewrite Oi. split; [done|]. intros [= <-]. done. }
      { intros _. by destruct b. }
      { done. }
      intros r' p' [= <- <-]. split; [done|]. exists si, Spent, c1, (Some t2). split; [done|].
      split; [by destruct b|]. split; [done|]. split; [done|]. split; [done|]. split; [done|]. split; [done|].
      intros st Hi _. set (st0 := mixed st (wo_state w)).
      assert (Hi' : si = Held -> ipart st0 = ipart (wo_state w)).
      { intros Hs. change (ipart st0) with (ipart st). rewrite Hi by done. by destruct b. }
      specialize (S st0 Hi' ltac:(done)). cbn [solo] in S.
      rewrite (spent_classic k si st (if b then poison Classics st0 else st0) W) by by destruct b. rewrite S. do 2 f_equal.
      apply mixed_cong; [by destruct c1|done].
  - (* read *)
    injection Hw as <-. destruct W as [-> W].
    eapply (close_step t w _ j x); [done|done|reflexivity|by intros []|done|done| |exact Dn|done].
    intros r' p' [= <- <-]. split; [done|]. exists Held, sc, c1, c2. split; [done|].
    do 6 (split; [done|]). intros st Hi Hc. rewrite <- (S st Hi Hc). cbn [solo].
    specialize (Hi eq_refl). by injection Hi as -> _.
  - injection Hw as <-. destruct W as [-> W].
    eapply (close_step t w _ j x); [done|done|reflexivity|by intros []|done|done| |exact Dn|done].
    intros r' p' [= <- <-]. split; [done|]. exists si, Held, c1, c2. split; [done|].
    do 6 (split; [done|]). intros st Hi Hc. rewrite <- (S st Hi Hc). cbn [solo].
    specialize (Hc eq_refl). by injection Hc as -> _.
  - (* write *)
    injection Hw as <-. destruct W as [-> W]. assert (Oi : owner Index w = Some j) by by apply O1.
    eapply (close_step t w _ j x); [done|done|reflexivity|by intros []|done|done| |exact Dn|done].
    intros r' p' [= <- <-]. split; [done|]. exists Held, sc, c1, c2. split; [done|].
    do 6 (split; [done|]). intros st Hi Hc. specialize (Hi eq_refl). set (st0 := mixed (wo_state w) st).
    specialize (S st0 ltac:(done) Hc). cbn [solo] in S.
    assert (Es : put_index v st0 = st).
    { destruct st. unfold st0, put_index. cbn in *. by injection Hi as -> ->. }
    rewrite Es in S. rewrite S. do 2 f_equal.
    assert (exists t1, c1 = Some t1) as [t1 ->]. { destruct c1; [by eexists|]. by pose proof (proj2 F1 eq_refl). }
    apply mixed_cong; [done|by destruct c2].
  - injection Hw as <-. destruct W as [-> W]. assert (Oi : owner Classics w = Some j) by by apply O2.
    eapply (close_step t w _ j x); [done|done|reflexivity|by intros []|done|done| |exact Dn|done].
    intros r' p' [= <- <-]. split; [done|]. exists si, Held, c1, c2. split; [done|].
    do 6 (split; [done|]). intros st Hi Hc. specialize (Hc eq_refl). set (st0 := mixed st (wo_state w)).
    specialize (S st0 Hi ltac:(done)). cbn [solo] in S.
    assert (Es : put_classic v st0 = st).
    { destruct st. unfold st0, put_classic. cbn in *. by injection Hc as -> ->. }
    rewrite Es in S. rewrite S. do 2 f_equal.
    assert (exists t2, c2 = Some t2) as [t2 ->]. { destruct c2; [by eexists|]. by pose proof (proj2 F2 eq_refl). }
    apply mixed_cong; [by destruct c1|done].
Qed.
Lemma all_good t w : ws !! t = Some w -> good t w.
Proof.
  revert w. induction t as [|t IH]; intros w Hw; [by apply good_start|].
  destruct (lookup_lt_is_Some_2 ws t) as [w0 H0]; [apply lookup_lt_Some in Hw; lia|].
  destruct X as [_ Xs]. destruct (Xs t w0 w H0 Hw) as [j Hj]. eapply good_step; [done..|]. by apply IH.
Qed.

(** C102 *)
Lemma in_call_world i k t : in_call i k t -> exists w, ws !! t = Some w.
Proof. intros (w & _ & H & _). by exists w. Qed.
Lemma call_explained i k r a : replied ws i k r a ->
  exists t1 t2 w1 w2, (t1 <= t2)%nat /\ in_call i k t1 /\ in_call i k t2 /\ ws !! t1 = Some w1 /\ ws !! t2 = Some w2 /\
    a = (alone (mixed (wo_state w1) (wo_state w2)) r).2.
Proof.
  intros (t & w & x & Hw & Hx & Ha & Hr). destruct (go_done t w (all_good t w Hw) i x k a Hx Ha) as (r' & Hr' & t1 & t2 & L & I1 & I2 & E).
  rewrite Hr in Hr'. injection Hr' as <-. destruct (in_call_world _ _ _ I1) as [w1 H1], (in_call_world _ _ _ I2) as [w2 H2].
  exists t1, t2, w1, w2. rewrite (st_at_lookup t1 w1 H1), (st_at_lookup t2 w2 H2) in E. done.
Qed.
Lemma one_cell_mixed r st1 st2 : one_cell r ->
  (alone (mixed st1 st2) r).2 = (alone (match r with RSearch _ _ _ _ _ _ => st1 | _ => st2 end) r).2.
Proof.
  destruct r as [bytes|o input categories tags order entries| | | |]; cbn; intros H; try done. subst order.
  unfold search. destruct (parse_filters entries) as [filters|]; [|done]. cbn. destruct (lock_ok true (s_index_dead st1)); try done.
  destruct (s_index st1); [|done]. by destruct (search_filtered _ _ _ _ _ _ _).
Qed.
Lemma call_linearizable i k r a : replied ws i k r a -> one_cell r ->
  exists t w, in_call i k t /\ ws !! t = Some w /\ a = (alone (wo_state w) r).2.
Proof.
  intros Hr Ho. destruct (call_explained i k r a Hr) as (t1 & t2 & w1 & w2 & _ & I1 & I2 & H1 & H2 & ->).
  rewrite one_cell_mixed by done. destruct r; [by exists t2, w2|by exists t1, w1|by exists t2, w2..].
Qed.

(** ** No deadlock *)
Lemma blocked t w i x : ws !! t = Some w -> wo_workers w !! i = Some x -> ~ at_rest x -> work low P w i = None ->
  exists m j ok err r, wk_running x = Some (r, Lock m ok err) /\ owner m w = Some j.
Proof.
  intros Hw Hx Hr. unfold work. rewrite Hx. cbn [mbind option_bind]. destruct (wk_running x) as [[r p]|] eqn:R.
  - destruct p as [a|m ok err|m b k|f|f|v k|v k]; try done. destruct (owner m w) as [j|] eqn:O; [|by destruct (poisoned _ _)].
    intros _. by exists m, j, ok, err, r.
  - destruct (wk_client x (wk_replies x)) eqn:C; [done|]. by destruct Hr.
Qed.
Lemma classic_owner_moves t w j : ws !! t = Some w -> owner Classics w = Some j -> is_Some (work low P w j).
Proof.
  intros Hw Ho. pose proof (all_good t w Hw) as G. destruct (go_owner t w G _ _ Ho) as (x & [r p] & Hx & Hr).
  destruct (work low P w j) as [w'|] eqn:E; [done|]. exfalso.
  destruct (blocked t w j x Hw Hx) as (m & i & ok & err & r' & Hr' & Om); [by intros []; congruence|done|].
  destruct (go_running t w G j x r p Hx Hr) as [_ (si & sc & c1 & c2 & W & O1 & O2 & _)].
  rewrite Hr in Hr'. injection Hr' as <- ->. apply O2 in Ho. subst sc. destruct m; cbn in W; [by destruct W as (_ & ? & _)|by destruct W].
Qed.
Lemma some_moves t w : ws !! t = Some w -> Forall at_rest (wo_workers w) \/ exists i w', work low P w i = Some w'.
Proof.
  intros Hw. pose proof (all_good t w Hw) as G.
  destruct (decide (Exists (fun i => is_Some (work low P w i)) (seq 0 (length (wo_workers w))))) as [(i & _ & w' & E)%Exists_exists|N].
  { right. by exists i, w'. }
  left. apply Forall_lookup. intros i x Hx.
  assert (B : forall j y, wo_workers w !! j = Some y -> work low P w j = None).
  { intros j y Hy. destruct (work low P w j) as [w'|] eqn:E; [|done]. destruct N. apply Exists_exists. exists j.
    split; [|by rewrite E]. apply elem_of_seq. apply lookup_lt_Some in Hy. lia. }
  destruct (wk_running x) as [y|] eqn:R.
  - exfalso. assert (Nr : ~ at_rest x) by (intros []; congruence).
    destruct (blocked t w i x Hw Hx Nr (B i x Hx)) as (m & j & ok & err & r & Hr & Om). destruct m.
    + destruct (go_owner t w G _ _ Om) as (x' & y' & Hx' & Hr').
      destruct (blocked t w j x' Hw Hx') as (m & j' & ok' & err' & r' & Hr'' & Om'); [by intros []; congruence|by eapply B|].
      destruct (go_running t w G j x' _ _ Hx' Hr'') as [_ (si & sc & c1 & c2 & W & O1 & O2 & _)]. apply O1 in Om. subst si.
      destruct m; cbn in W; [by destruct W|]. destruct (classic_owner_moves t w j' Hw Om') as [w' E].
      destruct (go_owner t w G _ _ Om') as (z & ? & Hz & _). by rewrite (B j' z Hz) in E.
    + destruct (classic_owner_moves t w j Hw Om) as [w' E]. destruct (go_owner t w G _ _ Om) as (z & ? & Hz & _). by rewrite (B j z Hz) in E.
  - split; [done|]. pose proof (B i x Hx) as E. unfold work in E. rewrite Hx in E. cbn [mbind option_bind] in E. rewrite R in E.
    by destruct (wk_client x (wk_replies x)).
Qed.
End execution.
End programs.
