(** C139: safety of the search, and where it ends. *)
From Verif.model Require Import Base F32 Utf8 Prim Coll Data Gram Indexer Machine.
From Verif.spec Require Import Spec Samples Gram_samples Machine_samples.
From Verif.proofs Require Import Base_facts Search_props Machine_facts.
From Coq Require Import Lia.

Lemma machine_search_safe P n o gi input : (1 <= n <= 764)%nat -> exists l, gram_search8 P n o gi input = Done l.
Proof. intros Hn. rewrite same_gram_search by done. by apply search_total. Qed.

Lemma counter_overflows : match index_from checked32 765 hash_order (monotone_text 765) (Container [sample_p0] sample_vendors ∅) with
  | Done gi => panics (search_gram8 checked32 765 gi (97 :: replicate 764 98))
  | _ => false
  end = true.
Proof. vm_compute. reflexivity. Qed.
