(** A catalogue in which the benchmarks find something. *)
From Coq Require Import String.
From Verif.model Require Import Base F32 Utf8 Prim Coll Data Gram Indexer Nodes Classic Lit Raw Js Lib.
From Verif.spec Require Import Spec Samples Raw_samples.
Definition titled (id title : rstr) : raw_product := RawProduct [] [] title [] id [] str_one [].
Definition orange : raw_product := titled (lit "1") (lit "orang").
Definition posters : list raw_product := [orange; titled (lit "2") (lit "lampe"); titled (lit "3") (lit "skab")].
Definition ora : rstr := lit "ora".
