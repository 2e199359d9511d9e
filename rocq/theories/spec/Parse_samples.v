(** Concrete prices, for the satisfiability examples and counterexamples. *)
From Coq Require Import String.
From Verif.model Require Import Base F32 Utf8 Lit Raw Parse.
From Verif.spec Require Import Raw_samples.
Local Open Scope string_scope.

Definition price_raw (s : string) : raw_product := raw_plain (lit s) [].
Definition cheap_raw : list raw_product := [price_raw "19.99"; price_raw "5"; price_raw "1e1"; price_raw "19.989"].
(** Prices in cents, in several notations. *)
Definition shop_raw : list raw_product := [price_raw "19.99"; price_raw "5"; price_raw "19.98"; price_raw ".2e2"].
Definition shop_cents : list N := [1999; 500; 1998; 2000].
(** One cent apart, the dearer one first. *)
Definition dear_raw : list raw_product := [price_raw "131072.02"; price_raw "131072.01"].
Definition dear_cents : list N := [13107202; 13107201].
Definition unread_raw : list raw_product := [price_raw "19.99"; price_raw "19,99"].
(** The f64 that a JavaScript program means by 19.99, and the reported one. *)
Definition js_1999 : f64 := nearest_decimal prec64 emax64 false 1999 (-2).
Definition js_1998 : f64 := nearest_decimal prec64 emax64 false 1998 (-2).
Definition js_2000 : f64 := nearest_decimal prec64 emax64 false 20 0.
