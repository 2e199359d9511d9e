(** Tags one of which begins like another, and a query for a tag of the sample catalogue. *)
From Coq Require Import String.
From Verif.model Require Import Base F32 Utf8 Prim Coll Data Gram Indexer Nodes Classic Lit Raw Js Lib.
From Verif.spec Require Import Spec Lib_spec Samples Raw_samples Gram_samples Lib_samples.
Definition word_lampshade : rstr := lit "lampshade".
Definition two_lamps : list rstr := [lit "lamp"; word_lampshade].
Definition query_sales : rstr := lit "sales lamp".
Definition word_sale : rstr := lit "sale".
Definition word_sales : rstr := lit "sales".
Definition sample_state : lib_state := after [InitOp sample_file].
Definition weighing (w : f32) : node := Node 97 w [].
Definition other_letter : node := Node 98 f32_one [].
