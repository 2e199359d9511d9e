(** What is switched on, as a page can see it. *)
From Verif.model Require Import Base F32 Utf8 Data Gram Indexer Nodes Classic Lit Raw Js Lib.
From Verif.spec Require Import Js_spec.

(** Two handlers of the same index that show the same status for every option, resp. tag. *)
Definition same_options (c1 c2 : cat_handler) : Prop :=
  ch_handle c1 = ch_handle c2 /\ forall item, ch_get_status c1 item = ch_get_status c2 item.
Definition same_tags (t1 t2 : tag_handler) : Prop :=
  th_handle t1 = th_handle t2 /\ forall t, th_get_status t1 t = th_get_status t2 t.
(** One option of an exclusive category at most is on. *)
Definition one_at_most (h : cat_handler) : Prop :=
  forall item1 item2 cat opt1 opt2, option_at (ch_handle h) (eo_keys item1) cat opt1 -> option_at (ch_handle h) (eo_keys item2) cat opt2 ->
    eo_cat item1 = eo_cat item2 -> cat_exclusive cat = true -> ch_get_status h item1 = true -> ch_get_status h item2 = true ->
    eo_opt item1 = eo_opt item2.
(** A file with one exclusive category of two options. *)
Definition exclusive_file : list N := [0; 0; 0; 0; 0; 1; 1; 0; 2; 0; 0; 0; 0; 0; 0].
(** The first two options of the first category. *)
Definition pick_red : handler_op export_option := Toggle (ExportOption [] 0 0).
Definition pick_blue : handler_op export_option := Toggle (ExportOption [] 0 1).
