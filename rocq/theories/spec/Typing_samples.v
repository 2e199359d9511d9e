(** Concrete queries for C101. *)
From Verif.model Require Import Base F32 Utf8 Prim Coll Data Gram Indexer Lit.
From Verif.spec Require Import Spec Samples Gram_samples.
From Coq Require Import String.
Local Open Scope string_scope.

(** The results of a search by their ids. *)
Definition found (gi : gram_index) (q : rstr) : res (list N) :=
  match gram_search 5 no_order gi q with
  | Done l => Done (map (fun r => p_sid r.1) l)
  | Nope => Nope | Panic => Panic | Stuck => Stuck
  end.
Definition words : rstr := lit "fghij fghij".
(** Texts with NULs. *)
Definition with_nul : list (product * rstr) := plain_source [[0; 0; 0; 97; 98]; []; []; []; []].
