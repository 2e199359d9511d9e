(** Concrete files and histories, for the satisfiability examples and counterexamples. *)
From Verif.model Require Import Base F32 Utf8 Prim Coll Data Gram Indexer Nodes Classic Lit Raw Js Lib.
From Verif.spec Require Import Spec Data_spec Js_spec Lib_spec Samples Raw_samples Gram_samples.
From Coq Require Import String.
Local Open Scope string_scope.

(** [char::to_lowercase] on ASCII. *)
Definition ascii_low (c : N) : list N := [if (65 <=? c)%N && (c <=? 90)%N then (c + 32)%N else c].
Definition plain_search : search_order := SearchOrder no_order rev_order no_order.
Definition other_search : search_order := SearchOrder rev_order no_order rev_order.
Definition file_of (raw : list raw_product) : list N :=
  match index_and_serialize ascii_low sample_parse host64 hash_order no_order sample_order raw with
  | Done bytes => bytes
  | _ => []
  end.
Definition sample_file : list N := file_of sample_raw.
(** The same products in another order. *)
Definition shuffled_file : list N := file_of [raw_chair; raw_table; raw_lamp].
Definition after (ops : list lib_op) : lib_state := lib_run ascii_low true host64 lib_init ops.
Definition no_cats : cat_handler := ch_new (Classic [] [] ∅).
Definition no_tags : tag_handler := th_new (Classic [] [] ∅).
Definition word_lamp : rstr := lit "Lamp".
Definition word_chair : rstr := lit "chair".
Definition answer (st : lib_state) (input : rstr) (cats : cat_handler) (tags : tag_handler) (order : option rstr)
    (entries : list (rstr * jsval)) : res (list N) :=
  match (search ascii_low true plain_search st input cats tags order entries).2 with
  | Done p => Done (pp_export p) | Nope => Nope | Panic => Panic | Stuck => Stuck
  end.
Definition three_words : rstr := lit "lamp chair table".
(** The handler of the state with one option switched on. *)
Definition with_option (st : lib_state) (cat opt : N) : cat_handler :=
  match get_categories st with Done h => (ch_toggle h (ExportOption [] cat opt)).1 | _ => no_cats end.
(** Red in [sample_file]. *)
Definition with_first_option (st : lib_state) : cat_handler := with_option st 0 0.
Definition option_name (st : lib_state) (cat opt : N) : option rstr :=
  match get_categories st with
  | Done h => c ← (cl_categories (ch_handle h) : list category) !! N.to_nat cat; o_name <$> cat_options c !! N.to_nat opt
  | _ => None
  end.
(** A handler with an option switched on that its index does not have. *)
Definition broken_cats : cat_handler := (ch_toggle no_cats (ExportOption [] 7 7)).1.
(** Tags in a loaded state. *)
Definition tagged (names : list rstr) : classic := Classic [] (imap (fun i name => Tag name [] ∅ (N.of_nat i)) names) ∅.
Definition danish : rstr := [230; 248; 229].
Definition three_tags : list rstr := [lit "furniture"; lit "lamps"; lit "lamp"].
Definition query_lamps : rstr := lit "red lampe  lamps".
Definition word_red : rstr := lit "red".
Definition word_lampe : rstr := lit "lampe".
Definition word_lamps : rstr := lit "lamps".
Definition lit_red : rstr := lit "Red".
