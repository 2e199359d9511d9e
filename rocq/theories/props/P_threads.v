(** C102, C103 and C78: concurrent calls of the entry points, with what they store, find and
    how they fail (native builds). *)
From Verif.model Require Import Base F32 Utf8 Prim Coll Data Gram Indexer Nodes Classic Lit Raw Js Lib Threads.
From Verif.spec Require Import Spec Data_spec Gram_spec Classic_spec Raw_spec Js_spec Lib_spec End_spec Samples Raw_samples Gram_samples Lib_samples Threads_spec Threads_samples.
From Verif.proofs Require Import Threads_facts Threads_props Threads_samples_facts.

(** C102. With a single thread the steps add up to the entry points of [Lib.v]. *)
Theorem C102_one_thread : forall low P c ws t w x, execution low P [c] ws ->
  ws !! t = Some w -> wo_workers w !! 0%nat = Some x -> wk_running x = None ->
  exists rs, length rs = length (wk_replies x) /\
    (forall k r, rs !! k = Some r -> c (take k (wk_replies x)) = Some r) /\
    in_turn low P lib_init rs = (wo_state w, wk_replies x).
Proof. exact one_thread. Qed.
Print Assumptions C102_one_thread.
(** With many, every reply is that of the undisturbed call on the SHARED_INDEX of one moment
    and the SHARED_CLASSIC_INDEX of a moment no earlier, both while the call was running. *)
Theorem C102_explained : forall low P clients ws, execution low P clients ws ->
  forall i k r a, replied ws i k r a ->
  exists t1 t2 w1 w2, (t1 <= t2)%nat /\ in_call ws i k t1 /\ in_call ws i k t2 /\ ws !! t1 = Some w1 /\ ws !! t2 = Some w2 /\
    a = (alone low P (mixed (wo_state w1) (wo_state w2)) r).2.
Proof. exact call_explained. Qed.
Print Assumptions C102_explained.
(** For the calls that lock one cell only, it is one moment. *)
Theorem C102_linearizable : forall low P clients ws, execution low P clients ws ->
  forall i k r a, replied ws i k r a -> one_cell r ->
  exists t w, in_call ws i k t /\ ws !! t = Some w /\ a = (alone low P (wo_state w) r).2.
Proof. exact call_linearizable. Qed.
Print Assumptions C102_linearizable.
(** Each cell always holds the whole of its part of some file. *)
Theorem C102_contents : forall low P clients ws t w, execution low P clients ws -> ws !! t = Some w ->
  (forall gi, s_index (wo_state w) = Some gi -> exists c bytes cl, c ∈ clients /\ asks c (RInitialize bytes) /\
     deserialize_all P ngram_index_size bytes = Done (gi, cl)) /\
  (forall cl, s_classic (wo_state w) = Some cl -> exists c bytes gi, c ∈ clients /\ asks c (RInitialize bytes) /\
     deserialize_all P ngram_index_size bytes = Done (gi, cl)).
Proof. exact contents. Qed.
Print Assumptions C102_contents.
Example C102_hyps : execution ascii_low host64 reload reload_run /\
  (shown_at reload_run 12, shown_at reload_run 20, shown_at reload_run 24) =
  (Some (false, false, [[Done []]; []]), Some (false, false, [[Done []]; [Done [1; 0; 2]]]),
   Some (false, false, [[Done []; Done []]; [Done [1; 0; 2]]])).
Proof. exact (conj reload_execution reload_shown). Qed.

(** C103. Two threads that only load files of the indexer and search with sound handlers can
    poison both mutexes. *)
Theorem C103_race_refuted : exists clients ws t w,
  (forall c r, c ∈ clients -> asks c r -> proper r /\ from_indexer r) /\
  execution ascii_low host64 clients ws /\ ws !! t = Some w /\ both_poisoned (wo_state w).
Proof. exact clash_poisons. Qed.
Print Assumptions C103_race_refuted.
(** From then on, every call fails. *)
Theorem C103_for_good : forall low P clients ws t w i k r a, execution low P clients ws ->
  ws !! t = Some w -> both_poisoned (wo_state w) -> replied ws i k r a ->
  (forall t', in_call ws i k t' -> (t <= t')%nat) -> failed a.
Proof. exact dead_forever. Qed.
Print Assumptions C103_for_good.
Example C103_clash : execution ascii_low host64 clash clash_run /\
  (shown_at clash_run 12, shown_at clash_run 20, shown_at clash_run 24) =
  (Some (false, false, [[Done []]; []]), Some (true, true, [[Done []]; [Panic]]), Some (true, true, [[Done []; Panic]; [Panic]])).
Proof. exact (conj clash_execution clash_shown). Qed.
(** It cannot happen while all files have the same number of products, *)
Theorem C103_same_size_partial : forall low P n clients ws,
  (forall c r, c ∈ clients -> asks c r -> proper r /\ file_of_size P n r) ->
  execution low P clients ws -> never_panics P ws.
Proof. exact same_size_safe. Qed.
Print Assumptions C103_same_size_partial.
Theorem C103_indexed_size : forall low parse P Q bo ro so input bytes,
  valid_build_order bo -> valid_ser_order so -> low_ok low -> parse_ok parse ->
  raw_fits Q low input -> total_grams (map (raw_text low) input) < 2 ^ 32 ->
  index_and_serialize low parse P bo ro so input = Done bytes -> file_of_size Q (length input) (RInitialize bytes).
Proof. exact indexed_size. Qed.
Print Assumptions C103_indexed_size.
Example C103_same_size_hyps : forall c r, c ∈ reload -> asks c r -> proper r /\ file_of_size host64 3 r.
Proof. exact reload_proper. Qed.
(** nor while no search asks for an order, whatever the files. *)
Theorem C103_unordered_partial : forall low P clients ws,
  (forall c r, c ∈ clients -> asks c r -> proper r /\ unordered r) ->
  execution low P clients ws -> never_panics P ws.
Proof. exact unordered_safe. Qed.
Print Assumptions C103_unordered_partial.
Example C103_unordered_hyps : proper any_order /\ unordered any_order /\ unordered (RInitialize short_file) /\ ~ unordered by_price.
Proof. split; [exact any_order_proper|]. split; [reflexivity|]. split; [exact Logic.I|]. discriminate. Qed.

(** C78, with panics and poisoned mutexes. *)
Theorem C78_threads_no_deadlock : forall low P clients ws, execution low P clients ws ->
  forall t w, ws !! t = Some w ->
  Forall at_rest (wo_workers w) \/ exists i w', work low P w i = Some w'.
Proof. exact some_moves. Qed.
Print Assumptions C78_threads_no_deadlock.
Theorem C78_threads_end : forall low P n clients ws,
  (forall c h, c ∈ clients -> (n <= length h)%nat -> c h = None) ->
  execution low P clients ws -> (length ws <= 1 + 8 * n * length clients)%nat.
Proof. exact execution_ends. Qed.
Print Assumptions C78_threads_end.
Example C78_threads_hyps : forall c h, c ∈ clash -> (3 <= length h)%nat -> c h = None.
Proof. exact clash_ends. Qed.
