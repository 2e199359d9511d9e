(** C78, C103: poisoning, and the ends of calls. *)
From Verif.model Require Import Base F32 Utf8 Prim Coll Data Gram Indexer Nodes Classic Lit Raw Js Lib Threads.
From Verif.spec Require Import Spec Data_spec Gram_spec Classic_spec Raw_spec Js_spec Lib_spec End_spec Threads_spec.
From Verif.proofs Require Import Base_facts Classic_facts File_facts Raw_facts Lib_facts End_facts Threads_facts.

Section threads.
Context (low : N -> list N) (P : platform).

(** ** Executions grow step by step *)
Lemma execution_ind clients ws (I : nat -> world -> Prop) : execution low P clients ws -> I 0%nat (begin clients) ->
  (forall t w w' i, I t w -> work low P w i = Some w' -> I (S t) w') -> forall t w, ws !! t = Some w -> I t w.
Proof.
  intros [X0 X] H0 Hs t. induction t as [|t IH]; intros w Hw; [rewrite X0 in Hw; by injection Hw as <-|].
  destruct (lookup_lt_is_Some_2 ws t) as [w0 E]; [apply lookup_lt_Some in Hw; lia|].
  destruct (X t w0 w E Hw) as [i Hi]. eapply Hs; [by apply IH|done].
Qed.
Lemma execution_between clients ws (I : world -> Prop) : execution low P clients ws ->
  (forall w w' i, I w -> work low P w i = Some w' -> I w') ->
  forall t t' w w', (t <= t')%nat -> ws !! t = Some w -> ws !! t' = Some w' -> I w -> I w'.
Proof.
  intros [_ X] Hs t t' w w' L. revert w'. induction L as [|t' L IH]; intros w' Hw Hw' Hi; [rewrite Hw in Hw'; by injection Hw' as <-|].
  destruct (lookup_lt_is_Some_2 ws t') as [w0 E]; [apply lookup_lt_Some in Hw'; lia|].
  destruct (X t' w0 w' E Hw') as [i Hi']. eapply Hs; [|done]. by apply IH.
Qed.
Lemma trace_execution clients schedule : execution low P clients (trace low P (begin clients) schedule).
Proof.
  split; [destruct schedule; [done|]; cbn; by destruct (work _ _ _ _)|]. generalize (begin clients) as w0.
  induction schedule as [|i schedule IH]; intros w0 t w w'; cbn.
  { destruct t; [|done]. done. }
  destruct (work low P w0 i) as [w1|] eqn:E; [|by destruct t]. destruct t as [|t]; [|by apply IH].
  cbn. intros [= <-] H. exists i. rewrite E. destruct schedule as [|i' s]; cbn in H; [done|]. by destruct (work low P w1 i').
Qed.

(** ** Poison stays *)
Lemma poison_stays w w' i m : poisoned m (wo_state w) = true -> work low P w i = Some w' -> poisoned m (wo_state w') = true.
Proof.
  intros D. unfold work. destruct (wo_workers w !! i) as [x|]; [|done]. cbn [mbind option_bind].
  destruct (wk_running x) as [[r p]|]; [|destruct (wk_client x _); [|done]; by intros [= <-]].
  destruct p as [a|m' ok err|m' b k|f|f|v k|v k]; try (intros [= <-]; by destruct m).
  - destruct (owner m' w); [done|]. destruct (poisoned m' _); intros [= <-]; by destruct m'.
  - intros [= <-]. destruct b, m, m'; done.
Qed.
Lemma dead_call r st1 st2 : both_poisoned st1 -> both_poisoned st2 -> failed (alone low P (mixed st1 st2) r).2.
Proof.
  intros [D1 _] [_ D2]. destruct r as [bytes|o input categories tags order entries| | | |]; cbn.
  - unfold initialize. destruct (deserialize_all _ _ _) as [[gi cl]| | |]; try done. cbn. by rewrite D1.
  - unfold search. destruct (parse_filters entries); [|done]. cbn. by rewrite D1.
  - unfold get_categories. cbn. by rewrite D2.
  - unfold get_tags. cbn. by rewrite D2.
  - unfold lib_get_orders. cbn. by rewrite D2.
  - unfold tag_suggestion. cbn. by rewrite D2.
Qed.
Lemma dead_forever clients ws t w i k r a : execution low P clients ws ->
  ws !! t = Some w -> both_poisoned (wo_state w) -> replied ws i k r a ->
  (forall t', in_call ws i k t' -> (t <= t')%nat) -> failed a.
Proof.
  intros X Hw [D1 D2] Hr Hl. destruct (call_explained low P clients ws X i k r a Hr) as (t1 & t2 & w1 & w2 & _ & I1 & I2 & H1 & H2 & ->).
  assert (B : forall t' w', (t <= t')%nat -> ws !! t' = Some w' -> both_poisoned (wo_state w')).
  { intros t' w' L Hw'. apply (execution_between clients ws (fun w => both_poisoned (wo_state w)) X) with t t' w; [|done..].
    intros v v' j [E1 E2] Hv. split; [by apply (poison_stays v v' j Index)|by apply (poison_stays v v' j Classics)]. }
  apply dead_call; eauto.
Qed.

(** ** When nothing is ever poisoned *)
Section safe.
Context (okI : gram_index -> Prop) (okC : classic -> Prop).
Definition fine (r : request) (a : reply) : Prop :=
  panicked a -> exists bytes, r = RInitialize bytes /\ forall gi cl, deserialize_all P ngram_index_size bytes <> Done (gi, cl).
Fixpoint safe (r : request) (p : prog) : Prop :=
  match p with
  | Ret a => fine r a
  | Lock _ ok _ => safe r ok
  | Unlock _ b k => b = false /\ safe r k
  | GetIndex f => forall v, (forall gi, v = Some gi -> okI gi) -> safe r (f v)
  | GetClassic f => forall v, (forall cl, v = Some cl -> okC cl) -> safe r (f v)
  | SetIndex v k => okI v /\ safe r k
  | SetClassic v k => okC v /\ safe r k
  end.
Record calm (clients : list (list reply -> option request)) (w : world) : Prop := Calm {
  ca_none : none_poisoned (wo_state w);
  ca_index : forall gi, s_index (wo_state w) = Some gi -> okI gi;
  ca_classic : forall cl, s_classic (wo_state w) = Some cl -> okC cl;
  ca_client : forall i x, wo_workers w !! i = Some x -> clients !! i = Some (wk_client x);
  ca_running : forall i x r p, wo_workers w !! i = Some x -> wk_running x = Some (r, p) ->
    wk_client x (wk_replies x) = Some r /\ safe r p;
  ca_done : forall i x k r a, wo_workers w !! i = Some x -> wk_replies x !! k = Some a ->
    wk_client x (take k (wk_replies x)) = Some r -> fine r a
}.
Lemma calm_step clients w w' i : (forall c r, c ∈ clients -> asks c r -> safe r (prog_of low P r)) ->
  calm clients w -> work low P w i = Some w' -> calm clients w'.
Proof.
  intros Hs [N Ci Cc Cl Cr Cd] Hw. unfold work in Hw. destruct (wo_workers w !! i) as [x|] eqn:Hx; [|done]. cbn [mbind option_bind] in Hw.
  assert (Hl : (i < length (wo_workers w))%nat) by by eapply lookup_lt_Some.
  assert (G : forall w1 y, wo_workers w1 = <[i := y]> (wo_workers w) -> wk_client y = wk_client x ->
    none_poisoned (wo_state w1) -> (forall gi, s_index (wo_state w1) = Some gi -> okI gi) ->
    (forall cl, s_classic (wo_state w1) = Some cl -> okC cl) ->
    (forall r p, wk_running y = Some (r, p) -> wk_client y (wk_replies y) = Some r /\ safe r p) ->
    (forall k r a, wk_replies y !! k = Some a -> wk_client y (take k (wk_replies y)) = Some r -> fine r a) -> calm clients w1).
  { intros w1 y Ew Ec N1 I1 C1 R1 D1. split; [done|done|done| | |].
    - intros j z Hz. rewrite Ew in Hz. destruct (decide (i = j)) as [<-|Ne].
      + rewrite list_lookup_insert in Hz by done. injection Hz as <-. rewrite Ec. by apply Cl.
      + rewrite list_lookup_insert_ne in Hz by done. by apply Cl.
    - intros j z r p Hz. rewrite Ew in Hz. destruct (decide (i = j)) as [<-|Ne].
      + rewrite list_lookup_insert in Hz by done. injection Hz as <-. apply R1.
      + rewrite list_lookup_insert_ne in Hz by done. by eapply Cr.
    - intros j z k r a Hz. rewrite Ew in Hz. destruct (decide (i = j)) as [<-|Ne].
      + rewrite list_lookup_insert in Hz by done. injection Hz as <-. apply D1.
      + rewrite list_lookup_insert_ne in Hz by done. by eapply Cd. }
  assert (D0 : forall k r a, wk_replies x !! k = Some a -> wk_client x (take k (wk_replies x)) = Some r -> fine r a).
  { intros k r a. by eapply Cd. }
  destruct (wk_running x) as [[r p]|] eqn:R.
  2: { destruct (wk_client x (wk_replies x)) as [r|] eqn:C; [|done]. cbn [mbind option_bind] in Hw. injection Hw as <-.
    eapply G; [reflexivity|done|done|done|done| |exact D0]. intros r' p' [= <- <-]. split; [done|].
    apply (Hs (wk_client x)); [|by eexists]. eapply elem_of_list_lookup_2. by apply Cl. }
  destruct (Cr i x r p Hx R) as [C S].
  destruct p as [a|m ok err|m b k|f|f|v k|v k]; cbn in S.
  - injection Hw as <-. eapply G; [reflexivity|done|done|done|done|done|]. cbn. intros k r' a' Hk Hr'.
    destruct (decide (k < length (wk_replies x))%nat) as [L|L].
    + rewrite lookup_app_l in Hk by done. rewrite take_app_le in Hr' by lia. by eapply D0.
    + assert (k = length (wk_replies x)) as ->.
      { apply lookup_lt_Some in Hk. rewrite app_length in Hk. simpl in Hk. lia. }
      rewrite lookup_app_r, Nat.sub_diag in Hk by lia. injection Hk as <-. rewrite take_app, C in Hr'. by injection Hr' as <-.
  - destruct (owner m w); [done|]. assert (poisoned m (wo_state w) = false) as E by (destruct N; by destruct m). rewrite E in Hw.
    injection Hw as <-. eapply G; [by destruct m|done|by destruct m|by destruct m|by destruct m| |exact D0]. by intros r' p' [= <- <-].
  - destruct S as [-> S]. injection Hw as <-.
    eapply G; [by destruct m|done|by destruct m|by destruct m|by destruct m| |exact D0]. by intros r' p' [= <- <-].
  - injection Hw as <-. eapply G; [reflexivity|done|done|done|done| |exact D0]. intros r' p' [= <- <-]. split; [done|]. apply S. exact Ci.
  - injection Hw as <-. eapply G; [reflexivity|done|done|done|done| |exact D0]. intros r' p' [= <- <-]. split; [done|]. apply S. exact Cc.
  - destruct S as [Hv S]. injection Hw as <-. eapply G; [reflexivity|done|done| |done| |exact D0]; [|by intros r' p' [= <- <-]].
    cbn. by intros gi [= <-].
  - destruct S as [Hv S]. injection Hw as <-. eapply G; [reflexivity|done|done|done| | |exact D0]; [|by intros r' p' [= <- <-]].
    cbn. by intros gi [= <-].
Qed.
Lemma calm_always clients ws : (forall c r, c ∈ clients -> asks c r -> safe r (prog_of low P r)) ->
  execution low P clients ws ->
  (forall t w, ws !! t = Some w -> none_poisoned (wo_state w)) /\
  (forall i k r a, replied ws i k r a -> fine r a).
Proof.
  intros Hs X. assert (A : forall t w, ws !! t = Some w -> calm clients w).
  { apply (execution_ind clients ws (fun _ w => calm clients w) X).
    - split; [done|done|done| | |].
      + intros i x Hx. cbn in Hx. rewrite list_lookup_fmap in Hx. apply fmap_Some in Hx as (c & Hc & ->). done.
      + intros i x r p Hx. cbn in Hx. rewrite list_lookup_fmap in Hx. apply fmap_Some in Hx as (c & Hc & ->). done.
      + intros i x k r a Hx. cbn in Hx. rewrite list_lookup_fmap in Hx. apply fmap_Some in Hx as (c & Hc & ->). done.
    - intros _ w w' i. by apply calm_step. }
  split; [intros t w Hw; by apply (A t w Hw)|]. intros i k r a (t & w & x & Hw & Hx & Ha & Hr). by eapply (ca_done _ _ (A t w Hw)).
Qed.
Lemma safe_read {B} r (f : classic -> res B) e wrap : (forall cl, f cl <> Panic) ->
  (forall y, panicked (wrap y) -> y = Panic) -> safe r (do_read f e wrap).
Proof.
  intros Hf Hw. cbn. intros v _. split; [done|]. intros H%Hw. destruct v as [cl|]; cbn in H; [|done]. by apply Hf in H.
Qed.
Lemma safe_initialize bytes :
  (forall gi cl, deserialize_all P ngram_index_size bytes = Done (gi, cl) -> okI gi /\ okC cl) ->
  safe (RInitialize bytes) (do_initialize P bytes).
Proof.
  intros H. unfold do_initialize. destruct (deserialize_all P ngram_index_size bytes) as [[gi cl]| | |] eqn:E; cbn.
  - destruct (H gi cl eq_refl). repeat (split; [done|]). by intros ?.
  - intros _. exists bytes. split; [done|]. intros gi cl. by rewrite E.
  - intros _. exists bytes. split; [done|]. intros gi cl. by rewrite E.
  - by intros [].
Qed.
Lemma safe_search o input categories tags order entries : valid_search_order o -> handlers_ok categories tags ->
  (forall gi, okI gi -> consistent_gram_index ngram_index_size gi) ->
  (order = None \/ forall gi cl key table, okI gi -> okC cl -> get_orders (cl_order cl) key = Some table ->
    (length (c_products (gi_container gi)) <= length table)%nat) ->
  forall r, safe r (do_search low o input categories tags order entries).
Proof.
  intros Ho Hok Hcon Hord r. unfold do_search. destruct (parse_filters entries) as [filters|]; [|by intros []].
  cbn. intros [gi|] Hgi; [|by (split; [done|intros []])].
  destruct (filtered_spec low o gi input categories tags filters Ho Hok) as (rs & ok & _ & _ & E). rewrite E.
  pose proof (Hgi gi eq_refl) as Gi. pose proof (results_in_range low o gi input categories tags filters _ (Hcon gi Gi) Ho Hok E) as Rg.
  revert Rg. generalize (map p_sid (filter (fun p => ok p = true) (map fst rs))) as l. intros l Rg.
  destruct order as [key|]; [|by (split; [done|intros []])]. destruct Hord as [|Hord]; [done|]. cbn. intros v Hv.
  destruct (cl ← v; get_orders (cl_order cl) key) as [table|] eqn:T; [|by (split; [done|split; [done|intros []]])].
  destruct v as [cl|]; [|done]. cbn in T. pose proof (Hord gi cl key table Gi (Hv cl eq_refl) T) as L.
  destruct (sort_by_order_spec table l) as (l' & -> & _); [|by (split; [done|split; [done|intros []]])].
  eapply Forall_impl; [exact Rg|]. simpl. intros. lia.
Qed.
Lemma safe_all r : proper r -> (forall gi, okI gi -> consistent_gram_index ngram_index_size gi) ->
  (forall bytes gi cl, r = RInitialize bytes -> deserialize_all P ngram_index_size bytes = Done (gi, cl) -> okI gi /\ okC cl) ->
  (unordered r \/ forall gi cl key table, okI gi -> okC cl -> get_orders (cl_order cl) key = Some table ->
    (length (c_products (gi_container gi)) <= length table)%nat) ->
  safe r (prog_of low P r).
Proof.
  intros Hp Hc Hi Ho. destruct r as [bytes|o input categories tags order entries| | | |]; cbn [prog_of].
  - apply safe_initialize. intros gi cl. by apply Hi.
  - destruct Hp as [Hp1 Hp2]. by apply safe_search.
  - apply safe_read; [done|]. by intros [].
  - apply safe_read; [done|]. by intros [].
  - apply safe_read; [done|]. by intros [].
  - apply safe_read; [|by intros []]. intros cl. destruct (suggest (cl_tags cl) query) as [[[? ?] ?]|]; done.
Qed.
End safe.
Lemma same_size_safe n clients ws : (forall c r, c ∈ clients -> asks c r -> proper r /\ file_of_size P n r) ->
  execution low P clients ws -> never_panics P ws.
Proof.
  intros H X. apply (calm_always (fun gi => consistent_gram_index ngram_index_size gi /\ length (c_products (gi_container gi)) = n)
    (fun cl => forall key table, get_orders (cl_order cl) key = Some table -> length table = n) clients ws); [|done].
  intros c r Hc Ha. destruct (H c r Hc Ha) as [Hp Hf]. apply safe_all; [done|by intros gi []| |].
  - intros bytes gi cl -> E. destruct (Hf gi cl E) as [Hl Ht]. split; [|done]. split; [|done]. by eapply load_consistent.
  - right. intros gi cl key table [_ <-] Ht Hk. by rewrite (Ht key table Hk).
Qed.
Lemma unordered_safe clients ws : (forall c r, c ∈ clients -> asks c r -> proper r /\ unordered r) ->
  execution low P clients ws -> never_panics P ws.
Proof.
  intros H X. apply (calm_always (fun gi => consistent_gram_index ngram_index_size gi) (fun _ => True) clients ws); [|done].
  intros c r Hc Ha. destruct (H c r Hc Ha) as [Hp Hf]. apply safe_all; [done|done| |by left].
  intros bytes gi cl -> E. split; [|done]. by eapply load_consistent.
Qed.

(** ** What the cells hold *)
Section stored.
Context (okI : gram_index -> Prop) (okC : classic -> Prop).
Fixpoint stores (p : prog) : Prop :=
  match p with
  | Ret a => True
  | Lock _ ok err => stores ok /\ stores err
  | Unlock _ _ k => stores k
  | GetIndex f => forall v, stores (f v)
  | GetClassic f => forall v, stores (f v)
  | SetIndex v k => okI v /\ stores k
  | SetClassic v k => okC v /\ stores k
  end.
Record kept (clients : list (list reply -> option request)) (w : world) : Prop := Kept {
  ke_index : forall gi, s_index (wo_state w) = Some gi -> okI gi;
  ke_classic : forall cl, s_classic (wo_state w) = Some cl -> okC cl;
  ke_client : forall i x, wo_workers w !! i = Some x -> clients !! i = Some (wk_client x);
  ke_running : forall i x r p, wo_workers w !! i = Some x -> wk_running x = Some (r, p) -> stores p
}.
Lemma kept_step clients w w' i : (forall c r, c ∈ clients -> asks c r -> stores (prog_of low P r)) ->
  kept clients w -> work low P w i = Some w' -> kept clients w'.
Proof.
  intros Hs [Ci Cc Cl Cr] Hw. unfold work in Hw. destruct (wo_workers w !! i) as [x|] eqn:Hx; [|done]. cbn [mbind option_bind] in Hw.
  assert (Hl : (i < length (wo_workers w))%nat) by by eapply lookup_lt_Some.
  assert (G : forall w1 y, wo_workers w1 = <[i := y]> (wo_workers w) -> wk_client y = wk_client x ->
    (forall gi, s_index (wo_state w1) = Some gi -> okI gi) ->
    (forall cl, s_classic (wo_state w1) = Some cl -> okC cl) ->
    (forall r p, wk_running y = Some (r, p) -> stores p) -> kept clients w1).
  { intros w1 y Ew Ec I1 C1 R1. split; [done|done| |].
    - intros j z Hz. rewrite Ew in Hz. destruct (decide (i = j)) as [<-|Ne].
      + rewrite list_lookup_insert in Hz by done. injection Hz as <-. rewrite Ec. by apply Cl.
      + rewrite list_lookup_insert_ne in Hz by done. by apply Cl.
    - intros j z r p Hz. rewrite Ew in Hz. destruct (decide (i = j)) as [<-|Ne].
      + rewrite list_lookup_insert in Hz by done. injection Hz as <-. apply R1.
      + rewrite list_lookup_insert_ne in Hz by done. by eapply Cr. }
  destruct (wk_running x) as [[r p]|] eqn:R.
  2: { destruct (wk_client x (wk_replies x)) as [r|] eqn:C; [|done]. cbn [mbind option_bind] in Hw. injection Hw as <-.
    eapply G; [reflexivity|done|done|done|]. intros r' p' [= <- <-].
    apply (Hs (wk_client x)); [|by eexists]. eapply elem_of_list_lookup_2. by apply Cl. }
  pose proof (Cr i x r p Hx R) as S.
  destruct p as [a|m ok err|m b k|f|f|v k|v k]; cbn in S.
  - injection Hw as <-. by eapply G.
  - destruct S. destruct (owner m w); [done|]. destruct (poisoned m _); injection Hw as <-.
    + eapply G; [reflexivity|done|done|done|]. by intros r' p' [= <- <-].
    + eapply G; [by destruct m|done|by destruct m|by destruct m|]. by intros r' p' [= <- <-].
  - injection Hw as <-. eapply G; [by destruct m, b|done|by destruct m, b|by destruct m, b|]. by intros r' p' [= <- <-].
  - injection Hw as <-. eapply G; [reflexivity|done|done|done|]. intros r' p' [= <- <-]. apply S.
  - injection Hw as <-. eapply G; [reflexivity|done|done|done|]. intros r' p' [= <- <-]. apply S.
  - destruct S as [Hv S]. injection Hw as <-. eapply G; [reflexivity|done| |done|]; [|by intros r' p' [= <- <-]]. cbn. by intros gi [= <-].
  - destruct S as [Hv S]. injection Hw as <-. eapply G; [reflexivity|done|done| |]; [|by intros r' p' [= <- <-]]. cbn. by intros gi [= <-].
Qed.
Lemma kept_always clients ws : (forall c r, c ∈ clients -> asks c r -> stores (prog_of low P r)) ->
  execution low P clients ws -> forall t w, ws !! t = Some w -> kept clients w.
Proof.
  intros Hs X. apply (execution_ind clients ws (fun _ w => kept clients w) X).
  - split; [done|done| |].
    + intros i x Hx. cbn in Hx. rewrite list_lookup_fmap in Hx. apply fmap_Some in Hx as (c & Hc & ->). done.
    + intros i x r p Hx. cbn in Hx. rewrite list_lookup_fmap in Hx. apply fmap_Some in Hx as (c & Hc & ->). done.
  - intros _ w w' i. by apply kept_step.
Qed.
Lemma stores_prog r : (forall bytes gi cl, r = RInitialize bytes -> deserialize_all P ngram_index_size bytes = Done (gi, cl) -> okI gi /\ okC cl) ->
  stores (prog_of low P r).
Proof.
  intros H. destruct r as [bytes|o input categories tags order entries| | | |]; cbn [Threads.prog_of]; [| |by unfold do_read; cbn..].
  - unfold do_initialize. destruct (deserialize_all _ _ _) as [[gi cl]| | |] eqn:E; [|by cbn..]. destruct (H bytes gi cl eq_refl E). by cbn.
  - unfold do_search. destruct (parse_filters entries) as [filters|]; [|by cbn]. cbn. split; [|done].
    intros [gi|]; [|by cbn]. destruct (search_filtered _ _ _ _ _ _ _) as [l| | |]; [|by cbn..].
    destruct order as [key|]; [|by cbn]. cbn. split; [|done]. intros v.
    destruct (cl ← v; get_orders (cl_order cl) key) as [table|]; [|by cbn]. destruct (sort_by_order table l); by cbn.
Qed.
End stored.
Lemma contents clients ws t w : execution low P clients ws -> ws !! t = Some w ->
  (forall gi, s_index (wo_state w) = Some gi -> exists c bytes cl, c ∈ clients /\ asks c (RInitialize bytes) /\
     deserialize_all P ngram_index_size bytes = Done (gi, cl)) /\
  (forall cl, s_classic (wo_state w) = Some cl -> exists c bytes gi, c ∈ clients /\ asks c (RInitialize bytes) /\
     deserialize_all P ngram_index_size bytes = Done (gi, cl)).
Proof.
  intros X Hw.
  destruct (kept_always
    (fun gi => exists c bytes cl, c ∈ clients /\ asks c (RInitialize bytes) /\ deserialize_all P ngram_index_size bytes = Done (gi, cl))
    (fun cl => exists c bytes gi, c ∈ clients /\ asks c (RInitialize bytes) /\ deserialize_all P ngram_index_size bytes = Done (gi, cl))
    clients ws) with t w as [K1 K2 _ _]; [|done..]. intros c r Hc Ha. apply stores_prog. intros bytes gi cl -> E. split; [exists c, bytes, cl|exists c, bytes, gi]; done.
Qed.

(** ** One thread *)
Lemma in_turn_app rs r st : in_turn low P st (rs ++ [r]) =
  let '(st', l) := in_turn low P st rs in let '(st'', a) := alone low P st' r in (st'', l ++ [a]).
Proof.
  revert st. induction rs as [|r0 rs IH]; intros st; cbn; [by destruct (alone low P st r)|].
  destruct (alone low P st r0) as [st1 a0]. rewrite IH. destruct (in_turn low P st1 rs) as [st2 l]. by destruct (alone low P st2 r).
Qed.
Definition lone (c : list reply -> option request) (w : world) : Prop :=
  exists replies running rs st0, wo_workers w = [Worker c replies running] /\ length rs = length replies /\
    (forall k r, rs !! k = Some r -> c (take k replies) = Some r) /\ in_turn low P lib_init rs = (st0, replies) /\
    match running with
    | None => wo_state w = st0
    | Some (r, p) => c replies = Some r /\ solo p (wo_state w) = alone low P st0 r
    end.
Lemma lone_step c w w' i : lone c w -> work low P w i = Some w' -> lone c w'.
Proof.
  intros (replies & running & rs & st0 & Ew & El & Hrs & Hin & R) Hw. unfold work in Hw. rewrite Ew in Hw.
  destruct i as [|i]; [|done]. cbn [lookup list_lookup mbind option_bind wk_running wk_client wk_replies] in Hw.
  assert (K : forall r p' w1, wo_workers w1 = wo_workers w -> c replies = Some r -> solo p' (wo_state w1) = alone low P st0 r ->
    lone c (set_worker 0 (Worker c replies (Some (r, p'))) w1)).
  { intros r p' w1 E1 Hr Hsolo. exists replies, (Some (r, p')), rs, st0. cbn. rewrite E1, Ew. done. }
  destruct running as [[r p]|].
  2: { destruct (c replies) as [r|] eqn:C; [|done]. cbn [mbind option_bind] in Hw. injection Hw as <-. apply K; [done|done|]. rewrite solo_prog. by rewrite R. }
  destruct R as [C R]. destruct p as [a|m ok err|m b k|f|f|v k|v k]; cbn in R.
  - injection Hw as <-. exists (replies ++ [a]), None, (rs ++ [r]), (wo_state w). cbn. rewrite Ew. cbn. split; [done|].
    split; [rewrite !app_length; cbn; lia|]. split.
    + intros k r' Hk. destruct (decide (k < length rs)%nat) as [L|L].
      * rewrite lookup_app_l in Hk by done. rewrite take_app_le by lia. by apply Hrs.
      * assert (k = length rs) as -> by (apply lookup_lt_Some in Hk; rewrite app_length in Hk; cbn in Hk; lia).
        rewrite lookup_app_r, Nat.sub_diag in Hk by lia. injection Hk as <-. rewrite El. by rewrite take_app.
    + split; [|done]. by rewrite in_turn_app, Hin, <- R.
  - destruct (owner m w); [done|]. destruct (poisoned m (wo_state w)); injection Hw as <-; apply K; by destruct m.
  - injection Hw as <-. apply K; [by destruct m, b|done|]. by destruct m, b.
  - injection Hw as <-. by apply K.
  - injection Hw as <-. by apply K.
  - injection Hw as <-. by apply K.
  - injection Hw as <-. by apply K.
Qed.
Lemma one_thread c ws t w x : execution low P [c] ws -> ws !! t = Some w -> wo_workers w !! 0%nat = Some x -> wk_running x = None ->
  exists rs, length rs = length (wk_replies x) /\ (forall k r, rs !! k = Some r -> c (take k (wk_replies x)) = Some r) /\
    in_turn low P lib_init rs = (wo_state w, wk_replies x).
Proof.
  intros X Hw Hx Hr. assert (L : lone c w).
  { apply (execution_ind [c] ws (fun _ w => lone c w) X) with t; [| |done].
    - exists [], None, [], lib_init. cbn. done.
    - intros _ v v' i. by apply lone_step. }
  destruct L as (replies & running & rs & st0 & Ew & El & Hrs & Hin & R). rewrite Ew in Hx. injection Hx as <-. cbn in *. subst running.
  exists rs. split; [done|]. split; [done|]. by rewrite Hin, R.
Qed.

(** ** The ends of calls *)
Fixpoint depth_le (d : nat) (p : prog) : Prop :=
  match d, p with
  | S d, Ret _ => True
  | S d, Lock _ ok err => depth_le d ok /\ depth_le d err
  | S d, Unlock _ _ k | S d, SetIndex _ k | S d, SetClassic _ k => depth_le d k
  | S d, GetIndex f => forall v, depth_le d (f v)
  | S d, GetClassic f => forall v, depth_le d (f v)
  | O, _ => False
  end.
Lemma prog_depth r : depth_le 7 (prog_of low P r).
Proof.
  destruct r as [bytes|o input categories tags order entries| | | |]; cbn [Threads.prog_of]; [| |by unfold do_read; cbn..].
  - unfold do_initialize. destruct (deserialize_all _ _ _) as [[gi cl]| | |]; by cbn.
  - unfold do_search. destruct (parse_filters entries) as [filters|]; [|by cbn]. cbn. split; [|done].
    intros [gi|]; [|by cbn]. destruct (search_filtered _ _ _ _ _ _ _) as [l| | |]; [|by cbn..].
    destruct order as [key|]; [|by cbn]. cbn. split; [|done]. intros v.
    destruct (cl ← v; get_orders (cl_order cl) key) as [table|]; [|by cbn]. destruct (sort_by_order table l); by cbn.
Qed.
Definition bounded (n : nat) (x : worker) (m : nat) : Prop :=
  (forall h, (n <= length h)%nat -> wk_client x h = None) /\
  match wk_running x with
  | None => (8 * (n - length (wk_replies x)) <= m)%nat
  | Some (_, p) => exists d, depth_le d p /\ (length (wk_replies x) < n)%nat /\ (d + 8 * (n - length (wk_replies x) - 1) <= m)%nat
  end.
Lemma bounded_step n w w' i ms : Forall2 (bounded n) (wo_workers w) ms -> work low P w i = Some w' ->
  exists ms', Forall2 (bounded n) (wo_workers w') ms' /\ (S (sum_list ms') <= sum_list ms)%nat.
Proof.
  intros F Hw. unfold work in Hw. destruct (wo_workers w !! i) as [x|] eqn:Hx; [|done]. cbn [mbind option_bind] in Hw.
  destruct (Forall2_lookup_l _ _ _ _ _ F Hx) as (m & Hm & [Hc B]).
  assert (G : forall w1 y m', wo_workers w1 = <[i := y]> (wo_workers w) -> bounded n y m' -> (S m' <= m)%nat ->
    exists ms', Forall2 (bounded n) (wo_workers w1) ms' /\ (S (sum_list ms') <= sum_list ms)%nat).
  { intros w1 y m' Ew By L. exists (<[i := m']> ms). split; [rewrite Ew; by apply Forall2_insert|].
    rewrite <- (take_drop_middle ms i m Hm) at 2. rewrite insert_take_drop by by eapply lookup_lt_Some.
    rewrite !sum_list_with_app. cbn. lia. }
  destruct (wk_running x) as [[r p]|] eqn:R.
  2: { destruct (wk_client x (wk_replies x)) as [r|] eqn:C; [|done]. cbn [mbind option_bind] in Hw. injection Hw as <-.
    assert (L : (length (wk_replies x) < n)%nat).
    { destruct (decide (length (wk_replies x) < n)%nat) as [|L]; [done|]. rewrite Hc in C by lia. done. }
    eapply (G _ _ (m - 1)%nat); [reflexivity| |lia]. split; [done|]. cbn. exists 7%nat. split; [apply prog_depth|]. lia. }
  destruct B as (d & D & L & B). destruct d as [|d]; [by destruct p|].
  assert (K : forall p', depth_le d p' -> bounded n (Worker (wk_client x) (wk_replies x) (Some (r, p'))) (m - 1)%nat).
  { intros p' Hp. split; [done|]. cbn. exists d. split; [done|]. lia. }
  destruct p as [a|c ok err|c b k|f|f|v k|v k]; cbn in D.
  - injection Hw as <-. eapply (G _ _ (m - 1)%nat); [reflexivity| |lia]. split; [done|]. cbn. rewrite app_length. cbn. lia.
  - destruct D as [D1 D2]. destruct (owner c w); [done|]. destruct (poisoned c _); injection Hw as <-.
    + eapply (G _ _ (m - 1)%nat); [reflexivity|by apply K|lia].
    + eapply (G _ _ (m - 1)%nat); [by destruct c|by apply K|lia].
  - injection Hw as <-. eapply (G _ _ (m - 1)%nat); [by destruct c, b|by apply K|lia].
  - injection Hw as <-. eapply (G _ _ (m - 1)%nat); [reflexivity|by apply K|lia].
  - injection Hw as <-. eapply (G _ _ (m - 1)%nat); [reflexivity|by apply K|lia].
  - injection Hw as <-. eapply (G _ _ (m - 1)%nat); [reflexivity|by apply K|lia].
  - injection Hw as <-. eapply (G _ _ (m - 1)%nat); [reflexivity|by apply K|lia].
Qed.
Lemma execution_ends n clients ws : (forall c h, c ∈ clients -> (n <= length h)%nat -> c h = None) ->
  execution low P clients ws -> (length ws <= 1 + 8 * n * length clients)%nat.
Proof.
  intros Hc X.
  assert (A : forall t w, ws !! t = Some w -> exists ms, Forall2 (bounded n) (wo_workers w) ms /\ (t + sum_list ms <= 8 * n * length clients)%nat).
  { apply (execution_ind clients ws (fun t w => exists ms, Forall2 (bounded n) (wo_workers w) ms /\ (t + sum_list ms <= 8 * n * length clients)%nat) X).
    - exists (replicate (length clients) (8 * n)%nat). cbn. split.
      + clear X. induction clients as [|c l IH]; [constructor|]. cbn. constructor.
        * split; [intros h; apply Hc; left|]. cbn. lia.
        * apply IH. intros c' h Hin. apply Hc. by right.
      + clear. induction clients as [|c l IH]; cbn; [lia|]. cbn in IH. lia.
    - intros t w w' i (ms & F & L) Hw. destruct (bounded_step n w w' i ms F Hw) as (ms' & F' & L'). exists ms'. split; [done|]. lia. }
  destruct (decide (length ws = 0)%nat) as [->|N]; [lia|].
  destruct (lookup_lt_is_Some_2 ws (length ws - 1)) as [w Hw]; [lia|]. destruct (A _ _ Hw) as (ms & _ & L). lia.
Qed.
End threads.

(** Files of the indexer. *)
Lemma indexed_size low parse P Q bo ro so input bytes :
  valid_build_order bo -> valid_ser_order so -> low_ok low -> parse_ok parse ->
  raw_fits Q low input -> total_grams (map (raw_text low) input) < 2 ^ 32 ->
  index_and_serialize low parse P bo ro so input = Done bytes -> file_of_size Q (length input) (RInitialize bytes).
Proof.
  intros Hbo Hso Hlow Hparse Hfit Hlim E gi' cl' L. destruct (indexed_inv _ _ _ _ _ _ _ _ _ E) as (c & cl & gi & O & I & ->).
  pose proof (file_loads low parse P Q bo so input Hbo Hso Hlow Hparse Hfit Hlim c cl gi [] O I) as F.
  rewrite app_nil_r, L in F. injection F as -> ->. destruct (optimize_products parse bo input c cl O) as [D _]. split.
  - cbn. rewrite (index_container _ _ _ _ _ _ I). cbn. rewrite map_length. symmetry. by eapply Forall2_length.
  - intros key table Hk. cbn in Hk. destruct (optimize_orders_perm parse bo input c cl O) as (a & u & d & Eo & R).
    apply Forall_cons in R as [R1 R]. apply Forall_cons in R as [R2 R]. apply Forall_cons in R as [R3 _].
    unfold get_orders in Hk. rewrite Eo in Hk. unfold order_index in Hk. rewrite !lookup_insert_Some, lookup_empty in Hk.
    destruct Hk as [[_ <-]|[_ [[_ <-]|[_ [[_ <-]|[_ Hk]]]]]]; [..|done];
      (erewrite Permutation_length by done); by rewrite map_length, seq_length.
Qed.
