(** Concrete sources for the indexer, for the satisfiability examples and counterexamples. *)
From Verif.model Require Import Base F32 Utf8 Prim Coll Data Gram Indexer Lit.
From Verif.spec Require Import Spec Samples.
From Coq Require Import String.
Local Open Scope string_scope.

Definition plain_product (i : N) : product := Product [] [] (Vendor [] 0) [48 + i] i.
Definition plain_source (texts : list rstr) : list (product * rstr) :=
  imap (fun i t => (plain_product (N.of_nat i), t)) texts.
Definition plain_container (source : list (product * rstr)) : container :=
  Container (map fst source) vm_new ∅.
Definition hash_order : build_order := BuildOrder (fun _ => no_order) rev_order no_order.
Definition other_order : build_order := BuildOrder (fun _ => rev_order) no_order no_order.

(** One of five products repeats a window. *)
Definition repeating : list (product * rstr) :=
  plain_source [lit "aaaaaa"; lit "xy"; lit "xz"; lit "xw"; lit "xv"].

(** Two products spell a word slightly differently from the first. *)
Definition lookalikes : list (product * rstr) :=
  plain_source [lit "abcde"; lit "abcdf"; lit "abcdf"; lit ""; lit ""].
(** Two words that differ in the last character. *)
Definition twins : list (product * rstr) :=
  plain_source [lit "abcde"; lit "abcdf"; lit ""; lit ""; lit ""].
(** Two different products with the same id. *)
Definition same_ids : list (product * rstr) :=
  map (fun '(p, t) => (Product (p_description p) (p_title p) (p_vendor p) (lit "x") (p_sid p), t))
    (plain_source [lit "abcde"; lit "abcde"]) ++ drop 2 twins.
Definition abcde : rstr := lit "abcde".
Definition abcdx : rstr := lit "abcdx".
(** Words with nothing in common. *)
Definition strangers : list (product * rstr) :=
  plain_source [lit "abcde"; lit "fghij"; lit "klmno"; lit "pqrst"].
