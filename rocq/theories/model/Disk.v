(** src/main.rs with the files it reads and writes, and what can go wrong with these. *)
From Coq Require Import String.
From Verif.model Require Import Base F32 Utf8 Data Gram Indexer Nodes Lit Raw Lib Json.
Local Open Scope list_scope.

(** The files of the working directory by name. Links and directories are left out. *)
Notation disk := (gmap rstr (list N)).
(** src/main.rs:12 and 20: "./test.json" and "out.test", in the working directory. *)
Definition in_path : rstr := lit "test.json"%string.
Definition out_path : rstr := lit "out.test"%string.

(** [std::fs::read_to_string] (src/main.rs:12), up to the bytes; [fails] is any error of the system. *)
Definition fs_read (fails : bool) (d : disk) (path : rstr) : option (list N) :=
  if fails then None else d !! path.

(** What happens to a write: it succeeds; the file cannot be opened; or it can, which empties it, and
    an error comes (or the process is killed) when [k] bytes have been written. *)
Inductive writing := Written | Not_opened | Broken (k : nat).
(** [std::fs::write] (src/main.rs:20): [File::create], then [write_all]. *)
Definition fs_write (w : writing) (d : disk) (path : rstr) (contents : list N) : disk * bool :=
  match w with
  | Written => (<[path := contents]> d, true)
  | Not_opened => (d, false)
  | Broken k => (<[path := take k contents]> d, false)
  end.

(** How a run ends: [Ok(())], [Err(_)] from any [?], or a panic. [Never_ends] if the model of
    the indexer runs out of fuel, which it does not ([Disk_facts.run_ends]). *)
Inductive ending := Ended_ok | Ended_err | Ended_panic | Never_ends.

Section run.
  Context (to_lowercase : N -> list N) (parse_f32 : rstr -> option f32).

  (** src/main.rs:11-23, [main]. *)
  Definition run (P : platform) (mo : order_of (rstr * raw_product)) (bo : build_order)
      (ro : order_of (rstr * (product * f32))) (so : ser_order) (read_fails : bool) (w : writing) (d : disk)
      : disk * ending :=
    match fs_read read_fails d in_path with
    | None => (d, Ended_err)
    | Some file =>
      match main to_lowercase parse_f32 P mo bo ro so file with
      | Done output => let '(d, ok) := fs_write w d out_path output in (d, if ok : bool then Ended_ok else Ended_err)
      | Nope => (d, Ended_err)
      | Panic => (d, Ended_panic)
      | Stuck => (d, Never_ends)
      end
    end.
End run.
