(** What concurrent calls may see. *)
From Verif.model Require Import Base Conc.

(** The files that a sequence of calls loads, in order. *)
Definition versions (calls : list call) : list N :=
  omap (fun c => match c with Initialize v => Some v | _ => None end) calls.
(** The file loaded before number [i] of the list, if any. *)
Definition loaded_before (vs : list N) (i : nat) : option N :=
  match i with O => None | S i' => vs !! i' end.

(** A search by an order used the two indexes of one file. *)
Definition same_file (s : saw) : Prop :=
  match s with SawBoth v c => c = Some v | _ => True end.
(** ... or, at worst, the classic index of the file loaded just before. *)
Definition at_most_one_behind (vs : list N) (s : saw) : Prop :=
  match s with
  | SawBoth v c => exists i, vs !! i = Some v /\ (c = Some v \/ c = loaded_before vs i)
  | SawIndex v => v ∈ vs
  | SawClassic (Some v) => v ∈ vs
  | SawClassic None | SawNothing => True
  end.

(** Something that some thread saw. *)
Definition seen_in (c : config) (s : saw) : Prop :=
  exists i t, cf_threads c !! i = Some t /\ s ∈ th_seen t.
(** All threads have made all their calls. *)
Definition all_finished (c : config) : Prop := Forall (fun t => th_calls t = []) (cf_threads c).
