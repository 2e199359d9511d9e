(** Catalogues with one product more. *)
From Coq Require Import String.
From Verif.model Require Import Base F32 Utf8 Prim Coll Data Gram Indexer Nodes Classic Lit Raw Js Lib.
From Verif.spec Require Import Spec Data_spec Gram_spec Js_spec Lib_spec Samples Raw_samples Gram_samples Lib_samples End_samples
  Choice_spec Reorder_spec Reorder_samples Reading_spec Reading_samples Growth_spec.

(** Three of five products are hammers; a fourth one makes them too common. *)
Definition hammers : list (product * rstr) :=
  plain_source [lit "hammer"; lit "hammer"; lit "hammer"; lit "xylem"; lit "xylem"].
Definition more_hammers : list (product * rstr) := (hammers ++ [(plain_product 5, lit "hammer")])%list.
Definition hammer : rstr := lit "hammer".
(** A word, and another that is likelier than it. *)
Definition one_word : list (product * rstr) := plain_source [lit "abcde"; lit "qqq"; lit "rrr"].
Definition likelier_word : list (product * rstr) := (one_word ++ [(plain_product 3, lit "abcdf abcdf")])%list.

(** The three woods, and something else in front of them. *)
Definition ochre : raw_product := raw_wood (lit "Ochre") (lit "Yellow") (lit "4").
Definition woods_and_ochre : list raw_product := ochre :: woods.
Definition ochre_file : list N := file_of woods_and_ochre.
Definition ochre_state : lib_state := after [InitOp ochre_file].
Definition surest_of (texts : list (list N)) (w : list N) : option (list N * f32) := head (all_readings ngram_index_size texts w).
