(** Spec for C125: which searches panic. *)
From Verif.model Require Import Base F32 Utf8 Prim Coll Data Gram Indexer Nodes Classic Lit Raw Js Lib.
From Verif.spec Require Import Js_spec Lib_spec.

(** An active option, resp. tag, is not there in the data of the handler. *)
Definition option_missing (h : cat_handler) : Prop :=
  exists key, key ∈ ch_active h /\ forall cat opt, ~ option_at (ch_handle h) key cat opt.
Definition tag_missing (h : tag_handler) : Prop :=
  exists id, id ∈ th_active h /\ forall t, ~ tag_at (th_handle h) id t.

(** The search answers with the listed positions. *)
Definition finds (r : lib_state * res producer) (gi : gram_index) (ids : list N) : Prop :=
  r.2 = Done (pp_new (gi_container gi) ids).
(** At least two positions are listed, and one of them is beyond the table. *)
Definition not_ranked (table : list N) (ids : list N) : Prop :=
  (2 <= length ids)%nat /\ exists sid, sid ∈ ids /\ (length table <= N.to_nat sid)%nat.
