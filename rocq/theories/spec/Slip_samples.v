(** Slips while typing the letters of the alphabet. *)
From Coq Require Import String.
From Verif.model Require Import Base F32 Utf8 Prim Coll Data Gram Indexer Nodes Classic Lit Raw Js Lib.
From Verif.spec Require Import Spec Data_spec Gram_spec Choice_spec Samples Gram_samples Lib_samples Choice_samples Typing_samples Slip_spec.

Definition lit_alphabet : rstr := lit "abcdefghijkl"%string.
Definition letters : list (product * rstr) :=
  plain_source [lit_alphabet; lit "nopqrst"%string; lit "12345"%string; []; []].
(** Typed for "bcdefg", "abcdef", "abcdefgh" and "abcdefgh" with one slip each. *)
Definition wrong_q : rstr := lit "bcxefg"%string.
Definition left_out_q : rstr := lit "abcef"%string.
Definition too_many_q : rstr := lit "abcdxefgh"%string.
Definition swapped_q : rstr := lit "abdcefgh"%string.
Definition slips : list (rstr * rstr) :=
  [(lit "bcdefg"%string, wrong_q); (lit "abcdef"%string, left_out_q);
   (lit "abcdefgh"%string, too_many_q); (lit "abcdefgh"%string, swapped_q)].
(** The same with one right char less, at the worst place. *)
Definition hopeless : list rstr :=
  [lit "xbcde"%string; lit "abce"%string; lit "abcxdefg"%string; lit "abdcefg"%string].
Definition unmistakable_b (n : nat) (texts : list (list N)) (limit : N) (t q : list N) : bool :=
  forallb (fun v => negb (bool_decide (length v = n)) || forallb (fun g => existsb (fun g' => bool_decide (g' = g)) (pieces n t) && bool_decide (uses n texts g < limit))
    (candidates n texts v)) (pieces n q).
(** "four legs", with two chars in the wrong order. *)
Definition four_legs : rstr := lit "four legs"%string.
Definition fuor_legs : rstr := lit "fuor legs"%string.
