(** What concurrent calls should do. *)
From Verif.model Require Import Base F32 Utf8 Prim Coll Data Gram Indexer Nodes Classic Lit Raw Js Lib Threads.
From Verif.spec Require Import Spec Js_spec Lib_spec.

Section calls.
  Context (low : N -> list N) (P : platform).
  (** The call with nothing else going on: the sequential entry points of [Lib.v]. *)
  Definition alone (st : lib_state) (r : request) : lib_state * reply :=
    match r with
    | RInitialize bytes => let '(st', x) := initialize P st bytes in (st', AInitialize x)
    | RSearch o input categories tags order entries =>
      let '(st', x) := search low true o st input categories tags order entries in (st', ASearch x)
    | RCategories => (st, ACategories (get_categories st))
    | RTags => (st, ATags (get_tags st))
    | ROrders o => (st, AOrders (lib_get_orders true o st))
    | RSuggest query => (st, ASuggest (tag_suggestion st query))
    end.

  (** Calls one after the other. *)
  Fixpoint in_turn (st : lib_state) (rs : list request) : lib_state * list reply :=
    match rs with
    | [] => (st, [])
    | r :: rs' => let '(st', a) := alone st r in let '(st'', l) := in_turn st' rs' in (st'', a :: l)
    end.

  (** An execution: worlds one step apart, from the first one on. *)
  Definition execution (clients : list (list reply -> option request)) (ws : list world) : Prop :=
    ws !! 0%nat = Some (begin clients) /\
    forall t w w', ws !! t = Some w -> ws !! S t = Some w' -> exists i, work low P w i = Some w'.
  (** At moment [t] thread [i] is in its call number [k]. *)
  Definition in_call (ws : list world) (i k t : nat) : Prop :=
    exists w x, ws !! t = Some w /\ wo_workers w !! i = Some x /\ length (wk_replies x) = k /\ is_Some (wk_running x).
  (** At some moment thread [i] has got the reply [a] to its call number [k], which was [r]. *)
  Definition replied (ws : list world) (i k : nat) (r : request) (a : reply) : Prop :=
    exists t w x, ws !! t = Some w /\ wo_workers w !! i = Some x /\
      wk_replies x !! k = Some a /\ wk_client x (take k (wk_replies x)) = Some r.
End calls.

(** The SHARED_INDEX of one state with the SHARED_CLASSIC_INDEX of another. *)
Definition mixed (st1 st2 : lib_state) : lib_state :=
  LibState (s_index st1) (s_classic st2) (s_index_dead st1) (s_classic_dead st2).
(** Calls that lock only one of the cells. *)
Definition one_cell (r : request) : Prop :=
  match r with RSearch _ _ _ _ order _ => order = None | RInitialize _ => False | _ => True end.

(** Neither in a call nor about to make one. *)
Definition at_rest (x : worker) : Prop := wk_running x = None /\ wk_client x (wk_replies x) = None.

(** Calls that failed: [None] or a panic. *)
Definition failed (a : reply) : Prop :=
  match a with
  | AInitialize (Done _) | ASearch (Done _) | ACategories (Done _) | ATags (Done _)
  | AOrders (Done _) | ASuggest (Done _) => False
  | _ => True
  end.
Definition panicked (a : reply) : Prop :=
  match a with
  | AInitialize Panic | ASearch Panic | ACategories Panic | ATags Panic | AOrders Panic | ASuggest Panic => True
  | _ => False
  end.
(** Neither cell can be locked again. *)
Definition both_poisoned (st : lib_state) : Prop := s_index_dead st = true /\ s_classic_dead st = true.
Definition none_poisoned (st : lib_state) : Prop := s_index_dead st = false /\ s_classic_dead st = false.

(** All that a thread may ever ask for. *)
Definition asks (c : list reply -> option request) (r : request) : Prop := exists h, c h = Some r.
(** Searches with handlers whose active options and tags exist. *)
Definition proper (r : request) : Prop :=
  match r with
  | RSearch o _ categories tags _ _ => valid_search_order o /\ handlers_ok categories tags
  | _ => True
  end.
(** Files that, if they can be read, have exactly [n] products and ranks for [n] products. *)
Definition file_of_size (P : platform) (n : nat) (r : request) : Prop :=
  match r with
  | RInitialize bytes => forall gi cl, deserialize_all P ngram_index_size bytes = Done (gi, cl) ->
      length (c_products (gi_container gi)) = n /\
      forall key table, get_orders (cl_order cl) key = Some table -> length table = n
  | _ => True
  end.
Definition unordered (r : request) : Prop := match r with RSearch _ _ _ _ order _ => order = None | _ => True end.

(** No mutex is poisoned, and no call panics but [initialize] of a file that cannot be read. *)
Definition never_panics (P : platform) (ws : list world) : Prop :=
  (forall t w, ws !! t = Some w -> none_poisoned (wo_state w)) /\
  (forall i k r a, replied ws i k r a -> panicked a ->
     exists bytes, r = RInitialize bytes /\ forall gi cl, deserialize_all P ngram_index_size bytes <> Done (gi, cl)).

(** The worlds of a schedule (which thread moves next). *)
Fixpoint trace (low : N -> list N) (P : platform) (w : world) (schedule : list nat) : list world :=
  match schedule with
  | [] => [w]
  | i :: schedule' => match work low P w i with Some w' => w :: trace low P w' schedule' | None => [w] end
  end.
(** A thread that makes the given calls whatever the replies. *)
Definition script (rs : list request) (h : list reply) : option request := rs !! length h.
