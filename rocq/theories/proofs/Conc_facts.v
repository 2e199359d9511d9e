(** C65, C78: concurrent calls. *)
From Verif.model Require Import Base Conc.
From Verif.spec Require Import Conc_spec.

(** In the middle of a search, holding the guard. *)
Definition holding (t : thread) : bool :=
  match th_calls t, th_held t with
  | (SearchBy | SearchPlain) :: _, Some _ => true
  | _, _ => false
  end.
(** Between the two stores of an [initialize]. *)
Definition storing (t : thread) : bool :=
  match th_calls t, th_held t with
  | Initialize _ :: _, Some _ => true
  | _, _ => false
  end.

(** ** The guard *)
Definition guard_inv (c : config) : Prop :=
  (forall j t, cf_threads c !! j = Some t ->
     (holding t = true -> cf_guard c = Some j) /\
     (head (th_calls t) = Some Getter -> th_held t = None)) /\
  (forall j, cf_guard c = Some j -> exists t, cf_threads c !! j = Some t /\ holding t = true).
Lemma lookup_become (l : list thread) i t t' j u : l !! i = Some t -> <[i := t']> l !! j = Some u ->
  j = i /\ u = t' \/ j <> i /\ l !! j = Some u.
Proof.
  intros Hi Hj. destruct (decide (j = i)) as [->|N].
  - rewrite list_lookup_insert in Hj by by eapply lookup_lt_Some. left. by injection Hj as ->.
  - rewrite list_lookup_insert_ne in Hj by done. by right.
Qed.
Lemma become_same (l : list thread) i t t' : l !! i = Some t -> <[i := t']> l !! i = Some t'.
Proof. intros Hi. apply list_lookup_insert. by eapply lookup_lt_Some. Qed.
(** All ways to make a step. *)
Inductive stepped (c : config) (i : nat) : config -> Prop :=
| st_store v calls seen : cf_threads c !! i = Some (Thread (Initialize v :: calls) None seen) -> cf_guard c = None ->
    stepped c i (Config (Some v) (cf_classic c) None (<[i := Thread (Initialize v :: calls) (Some v) seen]> (cf_threads c)))
| st_store2 v w calls seen : cf_threads c !! i = Some (Thread (Initialize v :: calls) (Some w) seen) ->
    stepped c i (Config (cf_index c) (Some v) (cf_guard c) (<[i := Thread calls None seen]> (cf_threads c)))
| st_get calls seen : cf_threads c !! i = Some (Thread (Getter :: calls) None seen) ->
    stepped c i (Config (cf_index c) (cf_classic c) (cf_guard c) (<[i := Thread calls None (seen ++ [SawClassic (cf_classic c)])]> (cf_threads c)))
| st_take s v calls seen : s = SearchBy \/ s = SearchPlain -> cf_threads c !! i = Some (Thread (s :: calls) None seen) ->
    cf_guard c = None -> cf_index c = Some v ->
    stepped c i (Config (cf_index c) (cf_classic c) (Some i) (<[i := Thread (s :: calls) (Some v) seen]> (cf_threads c)))
| st_none s calls seen : s = SearchBy \/ s = SearchPlain -> cf_threads c !! i = Some (Thread (s :: calls) None seen) ->
    cf_guard c = None -> cf_index c = None ->
    stepped c i (Config (cf_index c) (cf_classic c) None (<[i := Thread calls None (seen ++ [SawNothing])]> (cf_threads c)))
| st_both v calls seen : cf_threads c !! i = Some (Thread (SearchBy :: calls) (Some v) seen) ->
    stepped c i (Config (cf_index c) (cf_classic c) None (<[i := Thread calls None (seen ++ [SawBoth v (cf_classic c)])]> (cf_threads c)))
| st_plain v calls seen : cf_threads c !! i = Some (Thread (SearchPlain :: calls) (Some v) seen) ->
    stepped c i (Config (cf_index c) (cf_classic c) None (<[i := Thread calls None (seen ++ [SawIndex v])]> (cf_threads c))).
Lemma run_thread_stepped c i c' : run_thread c i = Some c' -> stepped c i c'.
Proof.
  unfold run_thread. destruct (cf_threads c !! i) as [[calls held seen]|] eqn:E; [|done]. cbn [mbind option_bind th_calls th_held th_seen].
  destruct calls as [|[v| | |] calls]; [done|..]; destruct held as [w|].
  - intros [= <-]. by eapply st_store2.
  - destruct (cf_guard c) eqn:G; [done|]. intros [= <-]. by apply st_store.
  - intros [= <-]. by apply st_both.
  - destruct (cf_guard c) eqn:G; [done|]. destruct (cf_index c) as [v|] eqn:I; intros [= <-].
    + pose proof (st_take c i SearchBy v calls seen) as Q. rewrite I in Q. apply Q; auto.
    + pose proof (st_none c i SearchBy calls seen) as Q. rewrite I in Q. apply Q; auto.
  - intros [= <-]. by apply st_plain.
  - destruct (cf_guard c) eqn:G; [done|]. destruct (cf_index c) as [v|] eqn:I; intros [= <-].
    + pose proof (st_take c i SearchPlain v calls seen) as Q. rewrite I in Q. apply Q; auto.
    + pose proof (st_none c i SearchPlain calls seen) as Q. rewrite I in Q. apply Q; auto.
  - done.
  - intros [= <-]. by apply st_get.
Qed.
Lemma guard_step c i c' : guard_inv c -> run_thread c i = Some c' -> guard_inv c'.
Proof.
  intros [I1 I2] H%run_thread_stepped. destruct H as [v calls seen Ht G|v w calls seen Ht|calls seen Ht|s v calls seen S Ht G X|s calls seen S Ht G X|v calls seen Ht|v calls seen Ht].
  all: pose proof (I1 i _ Ht) as [J1 J2].
  - split; cbn.
    + intros j t [[-> ->]|[N Hj]]%(lookup_become _ _ _ _ _ _ Ht); [done|]. destruct (I1 _ _ Hj) as [A B]. rewrite G in A. done.
    + done.
  - split; cbn.
    + intros j t [[-> ->]|[N Hj]]%(lookup_become _ _ _ _ _ _ Ht); [|by apply I1].
      split; [by destruct calls as [|[]]|done].
    + intros j Hg. destruct (I2 j Hg) as (t & Hj & Hh). exists t. split; [|done]. rewrite list_lookup_insert_ne; [done|].
      intros ->. rewrite Ht in Hj. by injection Hj as <-.
  - split; cbn.
    + intros j t [[-> ->]|[N Hj]]%(lookup_become _ _ _ _ _ _ Ht); [|by apply I1].
      split; [by destruct calls as [|[]]|done].
    + intros j Hg. destruct (I2 j Hg) as (t & Hj & Hh). exists t. split; [|done]. rewrite list_lookup_insert_ne; [done|].
      intros ->. rewrite Ht in Hj. by injection Hj as <-.
  - split; cbn.
    + intros j t [[-> ->]|[N Hj]]%(lookup_become _ _ _ _ _ _ Ht); [split; [done|by destruct S; subst]|].
      destruct (I1 _ _ Hj) as [A B]. split; [|done]. intros A'. by rewrite G in A; specialize (A A').
    + intros j [= <-]. eexists. split; [by eapply become_same|]. by destruct S; subst.
  - split; cbn; [|done].
    intros j t [[-> ->]|[N Hj]]%(lookup_become _ _ _ _ _ _ Ht); [split; [by destruct calls as [|[]]|done]|].
    destruct (I1 _ _ Hj) as [A B]. split; [|done]. intros A'. by rewrite G in A; specialize (A A').
  - assert (G : cf_guard c = Some i) by by apply J1. split; cbn; [|done].
    intros j t [[-> ->]|[N Hj]]%(lookup_become _ _ _ _ _ _ Ht); [split; [by destruct calls as [|[]]|done]|].
    destruct (I1 _ _ Hj) as [A B]. split; [|done]. intros A'. specialize (A A'). congruence.
  - assert (G : cf_guard c = Some i) by by apply J1. split; cbn; [|done].
    intros j t [[-> ->]|[N Hj]]%(lookup_become _ _ _ _ _ _ Ht); [split; [by destruct calls as [|[]]|done]|].
    destruct (I1 _ _ Hj) as [A B]. split; [|done]. intros A'. specialize (A A'). congruence.
Qed.
Lemma start_lookup threads j t : cf_threads (start threads) !! j = Some t ->
  exists calls, threads !! j = Some calls /\ t = Thread calls None [].
Proof. simpl. rewrite list_lookup_fmap. destruct (threads !! j) as [calls|]; [|done]. intros [= <-]. eauto. Qed.
Lemma guard_start threads : guard_inv (start threads).
Proof.
  split; [|done]. intros j t (calls & _ & ->)%start_lookup. split; [by destruct calls as [|[]]|done].
Qed.
Lemma run_preserves (I : config -> Prop) : (forall c i c', I c -> run_thread c i = Some c' -> I c') ->
  forall schedule c c', I c -> run_schedule c schedule = Some c' -> I c'.
Proof.
  intros St schedule. induction schedule as [|i schedule IH]; intros c c' H E; [by injection E as <-|].
  cbn [run_schedule] in E. destruct (run_thread c i) as [d|] eqn:R; [|done]. by apply (IH d); [eapply St|].
Qed.

(** *** No deadlock *)
Lemma guard_progress c : guard_inv c -> all_finished c \/ exists i c', run_thread c i = Some c'.
Proof.
  intros [I1 I2]. destruct (cf_guard c) as [j|] eqn:G.
  - right. destruct (I2 j eq_refl) as ([calls held seen] & Hj & Hh). exists j. unfold run_thread. rewrite Hj.
    cbn [mbind option_bind th_calls th_held th_seen]. destruct calls as [|[] calls], held; try done; eauto.
  - destruct (decide (Forall (fun t => th_calls t = []) (cf_threads c))) as [F|F]; [by left|right].
    apply not_Forall_Exists, Exists_exists in F as (t & [i Hi]%elem_of_list_lookup & Nf); [|intros t; apply _].
    exists i. unfold run_thread. rewrite Hi. cbn [mbind option_bind]. destruct (I1 i t Hi) as [A B].
    destruct t as [calls held seen]. cbn in *. rewrite G.
    destruct calls as [|[] calls]; [done|..]; destruct held; try done; eauto; [..|by specialize (B eq_refl)];
      destruct (cf_index c); eauto.
Qed.
Lemma no_deadlock threads schedule c : run_schedule (start threads) schedule = Some c ->
  all_finished c \/ exists i c', run_thread c i = Some c'.
Proof. intros H. apply guard_progress. eapply run_preserves; [exact guard_step|apply guard_start|exact H]. Qed.

(** *** Termination: every step uses up one of at most two steps of a call. *)
Definition work (t : thread) : nat := 2 * length (th_calls t) - (if th_held t then 1 else 0).
Definition busy_ok (c : config) : Prop := Forall (fun t => th_held t <> None -> th_calls t <> []) (cf_threads c).
Definition total_work (c : config) : nat := foldr Nat.add 0%nat (map work (cf_threads c)).
Lemma total_insert l i t t' : l !! i = Some t ->
  (foldr Nat.add 0 (map work (<[i := t']> l)) + work t = foldr Nat.add 0 (map work l) + work t')%nat.
Proof.
  revert i. induction l as [|u l IH]; intros i Hi; [done|]. destruct i as [|i]; simpl in *.
  - injection Hi as ->. lia.
  - specialize (IH i Hi). lia.
Qed.
Lemma work_step c i c' : run_thread c i = Some c' -> (total_work c' < total_work c)%nat.
Proof.
  intros H%run_thread_stepped. unfold total_work.
  destruct H as [v calls seen Ht G|v w calls seen Ht|calls seen Ht|s v calls seen S Ht G X|s calls seen S Ht G X|v calls seen Ht|v calls seen Ht];
    cbn [cf_threads]; match goal with |- context [<[i := ?t']> _] => pose proof (total_insert _ i _ t' Ht) as E end;
    unfold work in E at 2 4; cbn in E; lia.
Qed.
Lemma start_work threads : total_work (start threads) = (2 * foldr Nat.add 0 (map length threads))%nat.
Proof. unfold total_work. simpl. induction threads as [|calls l IH]; [done|]. simpl. unfold work at 1. simpl. simpl in IH. lia. Qed.
Lemma schedule_bounded threads schedule c : run_schedule (start threads) schedule = Some c ->
  (length schedule <= 2 * foldr Nat.add 0 (map length threads))%nat.
Proof.
  rewrite <- start_work. generalize (start threads). induction schedule as [|i schedule IH]; intros d E; simpl in *; [lia|].
  destruct (run_thread d i) as [d'|] eqn:R; [|done]. apply IH in E. apply work_step in R. lia.
Qed.

(** ** One initializing thread *)
Section initializer.
Context (k : nat) (vs : list N).
Definition init_inv (c : config) : Prop :=
  exists d, (d <= length vs)%nat /\
    (exists t, cf_threads c !! k = Some t /\ versions (th_calls t) = drop d vs /\
       cf_classic c = loaded_before vs d /\
       cf_index c = if storing t then vs !! d else loaded_before vs d) /\
    (forall j t, cf_threads c !! j = Some t -> j <> k -> versions (th_calls t) = []) /\
    (forall j t, cf_threads c !! j = Some t -> holding t = true -> cf_guard c = Some j /\ cf_index c = th_held t) /\
    (forall s, seen_in c s -> at_most_one_behind vs s).
Lemma loaded_elem d v : loaded_before vs d = Some v -> v ∈ vs.
Proof. destruct d; [done|]. apply elem_of_list_lookup_2. Qed.
Lemma seen_become c i t t' new idx cls g :
  cf_threads c !! i = Some t -> th_seen t' = th_seen t ++ new ->
  Forall (at_most_one_behind vs) new -> (forall s, seen_in c s -> at_most_one_behind vs s) ->
  forall s, seen_in (Config idx cls g (<[i := t']> (cf_threads c))) s -> at_most_one_behind vs s.
Proof.
  intros Ht Es F H s (j & u & Hj & Hs). cbn in Hj. apply (lookup_become _ _ _ _ _ _ Ht) in Hj as [[-> ->]|[N Hj]].
  - rewrite Es in Hs. apply elem_of_app in Hs as [Hs|Hs]; [apply H; by exists i, t|]. rewrite Forall_forall in F. by apply F.
  - apply H. by exists j, u.
Qed.
Lemma versions_cons v calls : versions (Initialize v :: calls) = v :: versions calls.
Proof. done. Qed.
Lemma drop_cons_inv {A} (l : list A) d x r : x :: r = drop d l -> l !! d = Some x /\ r = drop (S d) l /\ (S d <= length l)%nat.
Proof.
  intros E. assert (Hd : l !! d = Some x).
  { replace d with (d + 0)%nat by lia. rewrite <- lookup_drop, <- E. done. }
  split; [done|]. split; [|by apply lookup_lt_Some in Hd]. rewrite (drop_S _ _ _ Hd) in E. by injection E.
Qed.
Lemma init_step c i c' : guard_inv c -> init_inv c -> run_thread c i = Some c' -> init_inv c'.
Proof.
  intros [GI _] (d & Ld & (tk & Hk & Vk & Ck & Ik) & Ho & Hg & Hs) H%run_thread_stepped.
  destruct H as [v calls seen Ht G|v w calls seen Ht|calls seen Ht|s v calls seen S Ht G X|s calls seen S Ht G X|v calls seen Ht|v calls seen Ht].
  - (* first store *)
    assert (i = k) as ->. { destruct (decide (i = k)) as [|N]; [done|]. by specialize (Ho _ _ Ht N). }
    rewrite Hk in Ht. injection Ht as ->. cbn in Vk. pose proof Vk as (Hv & _ & _)%drop_cons_inv.
    exists d. split; [done|]. split; [|split; [|split]]; cbn.
    + eexists. split; [by eapply become_same|]. cbn. done.
    + intros j t [[-> ->]|[N Hj]]%(lookup_become _ _ _ _ _ _ Hk) Nk; [done|by eapply Ho].
    + intros j t [[-> ->]|[N Hj]]%(lookup_become _ _ _ _ _ _ Hk) Hh; [done|]. destruct (Hg _ _ Hj Hh) as [A _]. congruence.
    + eapply seen_become; [done| |by apply Forall_nil|done]. cbn. by rewrite app_nil_r.
  - (* second store *)
    assert (i = k) as ->. { destruct (decide (i = k)) as [|N]; [done|]. by specialize (Ho _ _ Ht N). }
    rewrite Hk in Ht. injection Ht as ->. cbn in Vk, Ik. apply drop_cons_inv in Vk as (Hv & Vr & Ls).
    exists (S d). split; [done|]. split; [|split; [|split]]; cbn.
    + eexists. split; [by eapply become_same|]. cbn. split; [done|]. split; [done|].
      assert (storing (Thread calls None seen) = false) as -> by by destruct calls as [|[]]. done.
    + intros j t [[-> ->]|[N Hj]]%(lookup_become _ _ _ _ _ _ Hk) Nk; [done|by eapply Ho].
    + intros j t [[-> ->]|[N Hj]]%(lookup_become _ _ _ _ _ _ Hk) Hh; [by destruct calls as [|[]]|]. by apply Hg.
    + eapply seen_become; [done| |by apply Forall_nil|done]. cbn. by rewrite app_nil_r.
  - (* getter *)
    exists d. split; [done|]. split; [|split; [|split]]; cbn.
    + destruct (decide (i = k)) as [->|N].
      * rewrite Hk in Ht. injection Ht as ->. eexists. split; [by eapply become_same|]. cbn in *. split; [done|]. split; [done|].
        by assert (storing (Thread calls None (seen ++ [SawClassic (cf_classic c)])) = false) as -> by by destruct calls as [|[]].
      * exists tk. rewrite list_lookup_insert_ne by done. done.
    + intros j t [[-> ->]|[N Hj]]%(lookup_become _ _ _ _ _ _ Ht) Nk; [by apply (Ho _ _ Ht)|by eapply Ho].
    + intros j t [[-> ->]|[N Hj]]%(lookup_become _ _ _ _ _ _ Ht) Hh; [by destruct calls as [|[]]|]. by apply Hg.
    + eapply seen_become; [done|done| |done]. constructor; [|done]. cbn. destruct (cf_classic c) as [v|] eqn:E; [|done].
      symmetry in Ck. by eapply loaded_elem.
  - (* a search takes the guard *)
    assert (NI : versions (s :: calls) = versions calls) by by destruct S; subst.
    exists d. split; [done|]. split; [|split; [|split]]; cbn.
    + destruct (decide (i = k)) as [->|N].
      * rewrite Hk in Ht. injection Ht as ->. eexists. split; [by eapply become_same|]. split; [done|]. split; [done|].
        by destruct S; subst.
      * exists tk. rewrite list_lookup_insert_ne by done. done.
    + intros j t [[-> ->]|[N Hj]]%(lookup_become _ _ _ _ _ _ Ht) Nk; [by apply (Ho _ _ Ht)|by eapply Ho].
    + intros j t [[-> ->]|[N Hj]]%(lookup_become _ _ _ _ _ _ Ht) Hh; [done|]. destruct (Hg _ _ Hj Hh) as [A _]. congruence.
    + eapply seen_become; [done| |by apply Forall_nil|done]. cbn. by rewrite app_nil_r.
  - (* nothing loaded *)
    assert (NI : versions (s :: calls) = versions calls) by by destruct S; subst.
    exists d. split; [done|]. split; [|split; [|split]]; cbn.
    + destruct (decide (i = k)) as [->|N].
      * rewrite Hk in Ht. injection Ht as ->. eexists. split; [by eapply become_same|]. cbn [th_calls] in *. rewrite NI in Vk. split; [done|]. split; [done|].
        assert (storing (Thread calls None (seen ++ [SawNothing])) = false) as -> by by destruct calls as [|[]]. by destruct S; subst.
      * exists tk. rewrite list_lookup_insert_ne by done. done.
    + intros j t [[-> ->]|[N Hj]]%(lookup_become _ _ _ _ _ _ Ht) Nk; [|by eapply Ho]. specialize (Ho _ _ Ht Nk). cbn [th_calls] in *. by rewrite NI in Ho.
    + intros j t [[-> ->]|[N Hj]]%(lookup_become _ _ _ _ _ _ Ht) Hh; [by destruct calls as [|[]]|]. destruct (Hg _ _ Hj Hh) as [A _]. congruence.
    + eapply seen_become; [done|done| |done]. by repeat constructor.
  - (* a search by an order ends *)
    destruct (Hg _ _ Ht eq_refl) as [G X]. cbn in X.
    exists d. split; [done|]. split; [|split; [|split]]; cbn.
    + destruct (decide (i = k)) as [->|N].
      * rewrite Hk in Ht. injection Ht as ->. eexists. split; [by eapply become_same|]. cbn in *. split; [done|]. split; [done|].
        by assert (storing (Thread calls None (seen ++ [SawBoth v (cf_classic c)])) = false) as -> by by destruct calls as [|[]].
      * exists tk. rewrite list_lookup_insert_ne by done. done.
    + intros j t [[-> ->]|[N Hj]]%(lookup_become _ _ _ _ _ _ Ht) Nk; [by apply (Ho _ _ Ht)|by eapply Ho].
    + intros j t [[-> ->]|[N Hj]]%(lookup_become _ _ _ _ _ _ Ht) Hh; [by destruct calls as [|[]]|]. destruct (Hg _ _ Hj Hh) as [A _]. congruence.
    + eapply seen_become; [done|done| |done]. constructor; [|done]. cbn. rewrite X in Ik. destruct (storing tk).
      * exists d. split; [done|]. by right.
      * destruct d as [|d]; [done|]. exists d. split; [done|]. left. by rewrite Ck.
  - (* a search without an order ends *)
    destruct (Hg _ _ Ht eq_refl) as [G X]. cbn in X.
    exists d. split; [done|]. split; [|split; [|split]]; cbn.
    + destruct (decide (i = k)) as [->|N].
      * rewrite Hk in Ht. injection Ht as ->. eexists. split; [by eapply become_same|]. cbn in *. split; [done|]. split; [done|].
        by assert (storing (Thread calls None (seen ++ [SawIndex v])) = false) as -> by by destruct calls as [|[]].
      * exists tk. rewrite list_lookup_insert_ne by done. done.
    + intros j t [[-> ->]|[N Hj]]%(lookup_become _ _ _ _ _ _ Ht) Nk; [by apply (Ho _ _ Ht)|by eapply Ho].
    + intros j t [[-> ->]|[N Hj]]%(lookup_become _ _ _ _ _ _ Ht) Hh; [by destruct calls as [|[]]|]. destruct (Hg _ _ Hj Hh) as [A _]. congruence.
    + eapply seen_become; [done|done| |done]. constructor; [|done]. cbn. rewrite X in Ik. destruct (storing tk).
      * by eapply elem_of_list_lookup_2.
      * by eapply loaded_elem.
Qed.
End initializer.

Lemma one_initializer threads k calls schedule c : threads !! k = Some calls ->
  (forall j calls', threads !! j = Some calls' -> j <> k -> versions calls' = []) ->
  run_schedule (start threads) schedule = Some c ->
  forall s, seen_in c s -> at_most_one_behind (versions calls) s.
Proof.
  intros Hk Ho H.
  assert (I : guard_inv c /\ init_inv k (versions calls) c); [|by destruct I as [_ (_ & _ & _ & _ & _ & I)]].
  revert H. apply run_preserves with (I := fun c => guard_inv c /\ init_inv k (versions calls) c).
  - intros d i d' [G I] R. split; [by eapply guard_step|by eapply init_step].
  - split; [apply guard_start|]. exists 0%nat. split; [lia|]. split; [|split; [|split]].
    + exists (Thread calls None []). split; [simpl; by rewrite list_lookup_fmap, Hk|]. split; [done|]. split; [done|].
      by destruct calls as [|[]].
    + intros j t (calls' & Hj & ->)%start_lookup Nk. by eapply Ho.
    + intros j t (calls' & Hj & ->)%start_lookup Hh. by destruct calls' as [|[]].
    + intros s (j & t & (calls' & Hj & ->)%start_lookup & Hs). by apply elem_of_nil in Hs.
Qed.

(** *** C65: the counterexamples. *)
Lemma mixed_read : exists c s, run_schedule (start [[Initialize 1; Initialize 2]; [SearchBy]]) [0; 0; 0; 1; 1]%nat = Some c /\
  seen_in c s /\ ~ same_file s.
Proof.
  eexists _, (SawBoth 2 (Some 1)). split; [vm_compute; reflexivity|]. split; [|by intros [=]].
  exists 1%nat. eexists. split; [reflexivity|]. left.
Qed.
Definition mixed_inv (c : config) : Prop := cf_index c = Some 2%N /\ cf_classic c = Some 1%N /\
  (forall i t, cf_threads c !! i = Some t -> Forall (eq SearchBy) (th_calls t) /\
     (th_held t = None \/ th_held t = Some 2%N) /\ Forall (eq (SawBoth 2 (Some 1))) (th_seen t)).
Lemma mixed_step c i c' : mixed_inv c -> run_thread c i = Some c' -> mixed_inv c'.
Proof.
  intros (I1 & I2 & I3). unfold run_thread. destruct (cf_threads c !! i) as [[calls held seen]|] eqn:E; [|done].
  cbn [mbind option_bind th_calls th_held th_seen]. destruct (I3 _ _ E) as (F & Hh & S). simpl in *.
  destruct calls as [|call calls]; [done|]. apply Forall_cons in F as [<- F].
  destruct held as [v|].
  - destruct Hh as [|[= ->]]; [done|]. intros [= <-]. split; [done|]. split; [done|]. simpl.
    intros j t [[-> ->]|[N Hj]]%(lookup_become _ _ _ _ _ _ E); [|by apply (I3 j)].
    split; [done|]. split; [by left|]. simpl. apply Forall_app. rewrite I2. by repeat constructor.
  - destruct (cf_guard c); [done|]. rewrite I1. intros [= <-]. split; [done|]. split; [done|]. simpl.
    intros j t [[-> ->]|[N Hj]]%(lookup_become _ _ _ _ _ _ E); [|by apply (I3 j)].
    split; [by constructor|]. split; [by right|]. done.
Qed.
Lemma mixed_for_good (n : nat) :
  exists c, run_schedule (start [[Initialize 1]; [Initialize 2]; repeat SearchBy n]) [0; 1; 1; 0]%nat = Some c /\
    forall schedule c' s, run_schedule c schedule = Some c' -> seen_in c' s -> s = SawBoth 2 (Some 1).
Proof.
  eexists. split; [reflexivity|]. intros schedule c' s R.
  assert (I : mixed_inv c').
  { eapply run_preserves; [exact mixed_step| |exact R]. split; [done|]. split; [done|]. simpl.
    intros i t H. destruct i as [|[|[|i]]]; [injection H as <-; simpl..|done].
    all: split; [|by split; [left|constructor]]; try by constructor.
    apply Forall_forall. intros x Hx. apply elem_of_list_In in Hx. by apply repeat_spec in Hx. }
  intros (i & t & Ht & Hs). destruct I as (_ & _ & I). destruct (I _ _ Ht) as (_ & _ & F). rewrite Forall_forall in F.
  symmetry. by apply F.
Qed.
