(** Concrete words. *)
From Coq Require Import String.
From Verif.model Require Import Base F32 Utf8 Prim Coll Data Gram Indexer Lit Classic Nodes Raw Js Lib.
From Verif.spec Require Import Spec Samples Gram_samples Lib_samples Pieces_spec.
Local Open Scope list_scope.

Definition word_old : rstr := lit "old".
Definition word_cat : rstr := lit "cat".
Definition word_table : rstr := lit "table".
(** The title and the vendor of the chair and of the table, as they are indexed. *)
Definition a_chair : rstr := lit "chairbolt".
Definition a_table : rstr := lit "tableacme".
(** Five products, one of them an old cat. *)
Definition cats : list (product * rstr) := plain_source [joined [word_old; word_cat]; word_table; []; []; []].
(** The index that is loaded. *)
Definition index_of (st : lib_state) : gram_index :=
  match s_index st with Some gi => gi | None => GramIndex ∅ ∅ (Container [] vm_new ∅) end.
