(** Handlers with more switched on. *)
From Verif.model Require Import Base F32 Utf8 Data Gram Indexer Nodes Classic Lit Raw Js Lib.
From Verif.spec Require Import Js_spec.

(** All that is on in the first handler is on in the second, of the same index. *)
Definition fewer_options (c1 c2 : cat_handler) : Prop :=
  ch_handle c1 = ch_handle c2 /\ forall item, ch_get_status c1 item = true -> ch_get_status c2 item = true.
Definition fewer_tags (t1 t2 : tag_handler) : Prop :=
  th_handle t1 = th_handle t2 /\ forall t, th_get_status t1 t = true -> th_get_status t2 t = true.
(** On in the third is what is on in the first or the second. *)
Definition joins_options (c1 c2 c : cat_handler) : Prop :=
  ch_handle c1 = ch_handle c /\ ch_handle c2 = ch_handle c /\
  forall item, ch_get_status c item = ch_get_status c1 item || ch_get_status c2 item.
Definition joins_tags (t1 t2 t : tag_handler) : Prop :=
  th_handle t1 = th_handle t /\ th_handle t2 = th_handle t /\
  forall g, th_get_status t g = th_get_status t1 g || th_get_status t2 g.
