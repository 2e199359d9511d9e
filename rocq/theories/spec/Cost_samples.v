(** Concrete cases for the claims about the cost of searching and storing. *)
From Coq Require Import String.
From Verif.model Require Import Base F32 Utf8 Prim Coll Data Gram Indexer Nodes Classic Lit Raw Js Lib.
From Verif.spec Require Import Spec Data_spec Gram_spec Samples Gram_samples Raw_samples Cost_spec.
Local Open Scope string_scope.

(** Five popular second grams and an unpopular one. *)
Definition unpopular : list (product * rstr) :=
  plain_source [lit "ab"; lit "ab"; lit "ac"; lit "ac"; lit "ad"; lit "ad"; lit "ae"; lit "ae"; lit "af"; lit "af"; lit "agxyz"].
Definition misspelt : rstr := lit "a?xyz".

(** A trie that is one long branch. *)
Fixpoint branch (d : nat) : node :=
  match d with
  | O => Node 97 f32_one []
  | S d' => Node 97 f32_one [branch d']
  end.
Definition branch_index (d : nat) : gram_index :=
  GramIndex (<[97 := branch d]> ∅) ∅ (Container [] vm_new ∅).
Definition branch_file (d : nat) : list N := serialize_all sample_order (branch_index d) (Classic [] [] ∅).

(** Two tagged products among many, next to each other or far apart. *)
Definition tagged : raw_product := RawProduct [] [lit "x"] [] [] [] [] str_one [].
Definition together : list raw_product := tagged :: tagged :: replicate 128 (raw_plain str_one []).
Definition apart : list raw_product := tagged :: replicate 128 (raw_plain str_one []) ++ [tagged].
