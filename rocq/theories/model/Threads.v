(** Concurrent use of the entry points of src/lib.rs (native builds, where panics unwind and
    poison mutexes): every lock, access and unlock of the two shared cells is a step of its
    own, contents and panics included. [model/Conc.v] is the same without contents. *)
From Verif.model Require Import Base F32 Utf8 Prim Coll Data Gram Indexer Nodes Classic Lit Raw Js Lib.

(** The entry points that touch the cells. *)
Inductive request :=
| RInitialize (bytes : list N)                       (* src/lib.rs:49-61 *)
| RSearch (o : search_order) (input : rstr) (categories : cat_handler) (tags : tag_handler)
    (order : option rstr) (entries : list (rstr * jsval))  (* src/lib.rs:64-100 *)
| RCategories                                        (* src/lib.rs:105-112 *)
| RTags                                              (* src/lib.rs:114-121 *)
| ROrders (o : order_of (rstr * list N))             (* src/lib.rs:123-130 *)
| RSuggest (query : rstr).                           (* src/lib.rs:149-191 *)
(** What they return: [Nope] is [None], [Panic] a panic that the caller's thread may catch. *)
Inductive reply :=
| AInitialize (r : res bool)
| ASearch (r : res producer)
| ACategories (r : res cat_handler)
| ATags (r : res tag_handler)
| AOrders (r : res (list rstr))
| ASuggest (r : res tag_suggestion_result).

(** src/lib.rs:29-34: SHARED_INDEX and SHARED_CLASSIC_INDEX. *)
Inductive cell := Index | Classics.
(** What a call still has to do with the cells (no counterpart in the code; everything between
    two of these steps is local to the thread). [Lock m ok poisoned]: [lock()] and what follows
    when it returns [Ok] or [Err]; the guard inside an [Err] is dropped at once.
    [Unlock m panicking k]: the guard is dropped, while unwinding if [panicking]. *)
Inductive prog :=
| Ret (a : reply)
| Lock (m : cell) (ok poisoned : prog)
| Unlock (m : cell) (panicking : bool) (k : prog)
| GetIndex (k : option gram_index -> prog)
| GetClassic (k : option classic -> prog)
| SetIndex (v : gram_index) (k : prog)
| SetClassic (v : classic) (k : prog).

Section programs.
  Context (to_lowercase : N -> list N) (P : platform).

  (** src/lib.rs:49-61, [initialize]. The guards are temporaries, dropped at the end of
      their statements. *)
  Definition do_initialize (input : list N) : prog :=
    match deserialize_all P ngram_index_size input with
    | Done (index, classic) =>
      Lock Index
        (SetIndex index (Unlock Index false
          (Lock Classics
            (SetClassic classic (Unlock Classics false (Ret (AInitialize (Done true)))))
            (Ret (AInitialize Panic)))))
        (Ret (AInitialize Panic))
    | Nope | Panic => Ret (AInitialize Panic)
    | Stuck => Ret (AInitialize Stuck)
    end.

  (** src/lib.rs:64-100, [search]. The guard of SHARED_INDEX lives to the end, that of
      SHARED_CLASSIC_INDEX to the end of the [if]. *)
  Definition do_search (o : search_order) (input : rstr) (categories : cat_handler) (tags : tag_handler)
      (order : option rstr) (entries : list (rstr * jsval)) : prog :=
    match parse_filters entries with
    | None => Ret (ASearch Nope)
    | Some filters =>
      Lock Index
        (GetIndex (fun shared =>
          match shared with
          | None => Unlock Index false (Ret (ASearch Nope))
          | Some index =>
            match search_filtered to_lowercase o index input categories tags filters with
            | Done results =>
              match order with
              | None => Unlock Index false (Ret (ASearch (Done (pp_new (gi_container index) results))))
              | Some order =>
                Lock Classics
                  (GetClassic (fun shared =>
                    match cl ← shared; get_orders (cl_order cl) order with
                    | None => Unlock Classics false (Unlock Index false (Ret (ASearch Nope)))
                    | Some order =>
                      match sort_by_order order results with
                      | Done results =>
                        Unlock Classics false (Unlock Index false
                          (Ret (ASearch (Done (pp_new (gi_container index) results)))))
                      | Nope => Unlock Classics false (Unlock Index false (Ret (ASearch Nope)))
                      | Panic => Unlock Classics true (Unlock Index true (Ret (ASearch Panic)))
                      | Stuck => Unlock Classics false (Unlock Index false (Ret (ASearch Stuck)))
                      end
                    end))
                  (Unlock Index false (Ret (ASearch Nope)))
              end
            | Nope => Unlock Index false (Ret (ASearch Nope))
            | Panic => Unlock Index true (Ret (ASearch Panic))
            | Stuck => Unlock Index false (Ret (ASearch Stuck))
            end
          end))
        (Ret (ASearch Nope))
    end.

  (** src/lib.rs:105-130, 149-191: lock, read, unlock. [poisoned] is [Panic] where the code
      says [lock().unwrap()], [Nope] where it says [lock().ok()?]. *)
  Definition do_read {A} (f : classic -> res A) (poisoned : res A) (wrap : res A -> reply) : prog :=
    Lock Classics
      (GetClassic (fun shared => Unlock Classics false (Ret (wrap (index ← of_opt shared; f index)))))
      (Ret (wrap poisoned)).

  (** All entry points. *)
  Definition prog_of (r : request) : prog :=
    match r with
    | RInitialize bytes => do_initialize bytes
    | RSearch o input categories tags order entries => do_search o input categories tags order entries
    | RCategories => do_read (fun index => Done (ch_new index)) Panic ACategories
    | RTags => do_read (fun index => Done (th_new index)) Panic ATags
    | ROrders o => do_read (fun index => Done (order_options o (cl_order index))) Nope AOrders
    | RSuggest query =>
      do_read (fun index => '(_, tag_id, input) ← of_opt (suggest (cl_tags index) query);
                            Done (TagSuggestion (JSTag index tag_id) input)) Panic ASuggest
    end.

  (** A thread (no counterpart in the code): which call it makes next, given the replies so
      far; the replies; and the call it is in, with what is left of it. *)
  Record worker := Worker {
    wk_client : list reply -> option request;
    wk_replies : list reply;
    wk_running : option (request * prog)
  }.
  (** The cells with their owners, and the threads. *)
  Record world := World {
    wo_state : lib_state;
    wo_index_owner : option nat;
    wo_classic_owner : option nat;
    wo_workers : list worker
  }.

  (** Reading and changing one of the two cells. *)
  Definition poisoned (m : cell) (st : lib_state) : bool :=
    match m with Index => s_index_dead st | Classics => s_classic_dead st end.
  Definition poison (m : cell) (st : lib_state) : lib_state :=
    match m with
    | Index => LibState (s_index st) (s_classic st) true (s_classic_dead st)
    | Classics => LibState (s_index st) (s_classic st) (s_index_dead st) true
    end.
  Definition put_index (v : gram_index) (st : lib_state) : lib_state :=
    LibState (Some v) (s_classic st) (s_index_dead st) (s_classic_dead st).
  Definition put_classic (v : classic) (st : lib_state) : lib_state :=
    LibState (s_index st) (Some v) (s_index_dead st) (s_classic_dead st).
  Definition owner (m : cell) (w : world) : option nat :=
    match m with Index => wo_index_owner w | Classics => wo_classic_owner w end.
  Definition set_owner (m : cell) (i : option nat) (w : world) : world :=
    match m with
    | Index => World (wo_state w) i (wo_classic_owner w) (wo_workers w)
    | Classics => World (wo_state w) (wo_index_owner w) i (wo_workers w)
    end.
  Definition set_state (st : lib_state) (w : world) : world :=
    World st (wo_index_owner w) (wo_classic_owner w) (wo_workers w).
  Definition set_worker (i : nat) (k : worker) (w : world) : world :=
    World (wo_state w) (wo_index_owner w) (wo_classic_owner w) (<[i := k]> (wo_workers w)).

  (** One step of thread [i]; [None]: it is blocked, or makes no more calls. *)
  Definition work (w : world) (i : nat) : option world :=
    k ← wo_workers w !! i;
    match wk_running k with
    | None =>
      r ← wk_client k (wk_replies k);
      Some (set_worker i (Worker (wk_client k) (wk_replies k) (Some (r, prog_of r))) w)
    | Some (r, p) =>
      let go (p' : prog) (w' : world) :=
        Some (set_worker i (Worker (wk_client k) (wk_replies k) (Some (r, p'))) w') in
      match p with
      | Ret a => Some (set_worker i (Worker (wk_client k) (wk_replies k ++ [a]) None) w)
      | Lock m ok err =>
        match owner m w with
        | Some _ => None
        | None => if poisoned m (wo_state w) then go err w else go ok (set_owner m (Some i) w)
        end
      | Unlock m panicking p' =>
        let w := if panicking : bool then set_state (poison m (wo_state w)) w else w in
        go p' (set_owner m None w)
      | GetIndex f => go (f (s_index (wo_state w))) w
      | GetClassic f => go (f (s_classic (wo_state w))) w
      | SetIndex v p' => go p' (set_state (put_index v (wo_state w)) w)
      | SetClassic v p' => go p' (set_state (put_classic v (wo_state w)) w)
      end
    end.

  (** src/lib.rs:30-31: nothing loaded; no call running. *)
  Definition begin (clients : list (list reply -> option request)) : world :=
    World lib_init None None (map (fun c => Worker c [] None) clients).
End programs.
