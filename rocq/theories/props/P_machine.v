(** C139: the search with machine integers and checked accesses. *)
From Verif.model Require Import Base F32 Utf8 Prim Coll Data Gram Indexer Machine.
From Verif.spec Require Import Spec Samples Gram_samples Machine_samples.
From Verif.proofs Require Import Machine_facts Machine_end.

(** C139. For windows of up to 764, on any index, the 8-bit counter of changes does not overflow
    and no access is out of bounds, with and without overflow checks ... *)
Theorem C139_safe : forall P n o gi input, (1 <= n <= 764)%nat -> exists l, gram_search8 P n o gi input = Done l.
Proof. exact machine_search_safe. Qed.
Print Assumptions C139_safe.
(** ... and the search is the one all other properties are about. *)
Theorem C139_same : forall P n o gi input, (1 <= n <= 764)%nat -> gram_search8 P n o gi input = gram_search n o gi input.
Proof. exact same_gram_search. Qed.
Print Assumptions C139_same.
Theorem C139_same_match : forall P n gi query, (1 <= n <= 764)%nat -> length query = n ->
  search_gram8 P n gi query = search_gram n gi query.
Proof. exact same_gram. Qed.
Print Assumptions C139_same_match.
(** That is sharp: with windows of 765 and overflow checks the counter overflows when a text of 765
    times the same char is looked up with all but the first char mistyped. *)
Example C139_beyond : match index_from checked32 765 hash_order (monotone_text 765) (Container [sample_p0] sample_vendors ∅) with
  | Done gi => panics (search_gram8 checked32 765 gi (97 :: replicate 764 98))
  | _ => false
  end = true.
Proof. exact counter_overflows. Qed.
