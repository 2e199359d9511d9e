(** A catalogue without ties, and the same catalogue the other way round. *)
From Verif.model Require Import Base F32 Utf8 Prim Coll Data Gram Indexer Nodes Classic Lit Raw Js Lib.
From Verif.spec Require Import Spec Data_spec Js_spec Lib_spec Samples Raw_samples Gram_samples Lib_samples End_samples.
From Coq Require Import String.
Local Open Scope string_scope.

Definition raw_wood (title colour id : rstr) : raw_product :=
  RawProduct [] [lit "wood"] title (lit "Zy") id [RawOption (lit "Colour") [colour]] str_one [].
Definition lit_boughs : rstr := lit "Boughs".
Definition lit_green : rstr := lit "Green".
Definition lit_id3 : rstr := lit "3".
Definition woods : list raw_product :=
  [raw_wood (lit "Plank") (lit "Red") (lit "1"); raw_wood (lit "Mitre") (lit "Blue") (lit "2");
   raw_wood lit_boughs lit_green lit_id3].
Definition woods_reversed : list raw_product := rev woods.
Definition woods_file : list N := file_of woods.
(** Built with other hash orders, too. *)
Definition woods_other_file : list N :=
  match index_and_serialize ascii_low sample_parse host64 other_order rev_order sample_order woods_reversed with
  | Done bytes => bytes
  | _ => []
  end.
Definition woods_state : lib_state := after [InitOp woods_file].
Definition woods_other_state : lib_state := lib_run ascii_low false wasm32 lib_init [InitOp woods_other_file].
Definition query_woods : rstr := lit "plank mitre".
Definition lit_id2 : rstr := lit "2".
Definition delivered_ids (u : bool) (o : search_order) (st : lib_state) (cats : cat_handler) : res (list rstr) :=
  match (search ascii_low u o st query_woods cats (tags_of st) None []).2 with
  | Done p => mapR (fun sid => jp_id (JsProduct (pp_container p) sid)) (pp_export p)
  | _ => Nope
  end.

(** The same products in other letters, and with all text in the title. *)
Definition woods_upper : list raw_product :=
  [raw_wood (lit "PLANK") (lit "Red") (lit "1"); raw_wood (lit "mitre") (lit "Blue") (lit "2");
   raw_wood (lit "BoUgHs") (lit "Green") (lit "3")].
Definition raw_joined (title colour id : rstr) : raw_product :=
  RawProduct [] [lit "wood"] (app title (lit "Zy")) [] id [RawOption (lit "Colour") [colour]] str_one [].
Definition woods_joined : list raw_product :=
  [raw_joined (lit "Plank") (lit "Red") (lit "1"); raw_joined (lit "Mitre") (lit "Blue") (lit "2");
   raw_joined (lit "Boughs") (lit "Green") (lit "3")].
Definition query_upper : rstr := lit "pLaNk MITRE".
Definition query_across : rstr := lit "ghszy".
Definition woods_upper_file : list N := file_of woods_upper.
Definition woods_joined_file : list N := file_of woods_joined.
Definition woods_answer : res producer :=
  (search ascii_low true plain_search woods_state query_across (cats_of woods_state) (tags_of woods_state) None []).2.
