(** Concurrent use of the two shared cells of src/lib.rs:29-34 (native build: the entry
    points may run on several threads). A small-step interleaving model: one step is one
    critical section or one lock event. Simplified: the contents of a cell are abstracted
    to the number of the [initialize] call that stored them, and no call panics (C62, C77
    are about panics). *)
From Verif.model Require Import Base.

(** The entry points that touch the cells. *)
Inductive call :=
| Initialize (version : N)  (* src/lib.rs:49-61, once the bytes are decoded *)
| SearchBy                  (* src/lib.rs:64-100, [search] with an order *)
| SearchPlain               (* src/lib.rs:64-100, [search] without an order *)
| Getter.                   (* src/lib.rs:105-130, 149-191 *)

(** What a finished call read from the cells. *)
Inductive saw :=
| SawBoth (index : N) (classic : option N)
| SawIndex (index : N)
| SawClassic (classic : option N)
| SawNothing.   (* src/lib.rs:74, [lock.as_ref()?] on an empty cell *)

(** A thread (no counterpart in the code): the calls it still has to make, how far the first
    of them is, and what its finished searches and getters saw. [th_held]: [None], the first
    call has not started; [Some v], an [initialize] has stored its first cell, or a search
    holds the SHARED_INDEX guard and has cloned version [v]. *)
Record thread := Thread {
  th_calls : list call;
  th_held : option N;
  th_seen : list saw
}.
(** src/lib.rs:29-34: the cells, and which thread holds the SHARED_INDEX guard between two
    steps. (The SHARED_CLASSIC_INDEX guard is never held while another lock is awaited, so
    its critical sections are single steps.) *)
Record config := Config {
  cf_index : option N;
  cf_classic : option N;
  cf_guard : option nat;
  cf_threads : list thread
}.

(** One step of thread number [i]; [None]: it is blocked or has finished. *)
Definition run_thread (c : config) (i : nat) : option config :=
  t ← cf_threads c !! i;
  let become (t' : thread) := <[i := t']> (cf_threads c) in
  match th_calls t with
  | [] => None
  | Initialize v :: calls =>
    match th_held t with
    | None => (* src/lib.rs:54: lock, replace, unlock *)
      match cf_guard c with
      | Some _ => None
      | None => Some (Config (Some v) (cf_classic c) None
                        (become (Thread (th_calls t) (Some v) (th_seen t))))
      end
    | Some _ => (* src/lib.rs:55-58: lock, replace, unlock *)
      Some (Config (cf_index c) (Some v) (cf_guard c) (become (Thread calls None (th_seen t))))
    end
  | Getter :: calls => (* src/lib.rs:107, 116, 125, 167: lock, clone or read, unlock *)
    match th_held t with
    | None => Some (Config (cf_index c) (cf_classic c) (cf_guard c)
                      (become (Thread calls None (th_seen t ++ [SawClassic (cf_classic c)]))))
    | Some _ => None
    end
  | search :: calls => (* the other two *)
    match th_held t with
    | None => (* src/lib.rs:73-74: lock and clone *)
      match cf_guard c, cf_index c with
      | Some _, _ => None
      | None, Some v => Some (Config (cf_index c) (cf_classic c) (Some i)
                                (become (Thread (th_calls t) (Some v) (th_seen t))))
      | None, None => Some (Config (cf_index c) (cf_classic c) None
                              (become (Thread calls None (th_seen t ++ [SawNothing]))))
      end
    | Some v => (* src/lib.rs:92-100: lock, sort, unlock if there is an order; drop the guard *)
      let seen := match search with SearchBy => SawBoth v (cf_classic c) | _ => SawIndex v end in
      Some (Config (cf_index c) (cf_classic c) None (become (Thread calls None (th_seen t ++ [seen]))))
    end
  end.

(** A schedule (no counterpart in the code): which thread moves at each step. *)
Fixpoint run_schedule (c : config) (schedule : list nat) : option config :=
  match schedule with
  | [] => Some c
  | i :: schedule' => c' ← run_thread c i; run_schedule c' schedule'
  end.

(** src/lib.rs:30-31: nothing loaded; nothing running yet. *)
Definition start (threads : list (list call)) : config :=
  Config None None None (map (fun calls => Thread calls None []) threads).
