(** What is in a loaded file. *)
From Verif.model Require Import Base F32 Utf8 Data Gram Indexer Classic Lib.

Definition titles (st : lib_state) : list rstr :=
  match s_index st with Some gi => map p_title (c_products (gi_container gi)) | None => [] end.
