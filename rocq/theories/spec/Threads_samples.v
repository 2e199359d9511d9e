(** Concrete threads. *)
From Verif.model Require Import Base F32 Utf8 Prim Coll Data Gram Indexer Nodes Classic Lit Raw Js Lib Threads.
From Verif.spec Require Import Spec Data_spec Js_spec Lib_spec Samples Raw_samples Gram_samples Lib_samples Threads_spec.

(** A catalogue of one product, replaced by the one of three. *)
Definition short_file : list N := file_of [raw_chair].
Definition by_price : request := RSearch plain_search three_words no_cats no_tags (Some s_price_up) [].
Definition any_order : request := RSearch plain_search three_words no_cats no_tags None [].
Definition clash : list (list reply -> option request) :=
  [script [RInitialize short_file; RInitialize sample_file; any_order]; script [by_price]].
(** The first thread loads the short file and gets through the first store of the other one;
    the second thread searches; the first one goes on. *)
Definition clash_schedule : list nat := replicate 12 0%nat ++ replicate 8 1%nat ++ replicate 4 0%nat.
Definition clash_run : list world := trace ascii_low host64 (begin clash) clash_schedule.
(** Two files of the same three products. *)
Definition reload : list (list reply -> option request) :=
  [script [RInitialize sample_file; RInitialize shuffled_file; any_order]; script [by_price]].
Definition reload_run : list world := trace ascii_low host64 (begin reload) clash_schedule.

(** Nothing but files of the indexer. *)
Definition from_indexer (r : request) : Prop :=
  match r with
  | RInitialize bytes => exists input, index_and_serialize ascii_low sample_parse host64 hash_order no_order sample_order input = Done bytes
  | _ => True
  end.

(** For comparing: the ids found, the yes of [initialize]. *)
Definition shown (a : reply) : res (list N) :=
  match a with
  | ASearch (Done p) => Done (pp_export p)
  | ASearch Nope | AInitialize Nope => Nope
  | ASearch Panic | AInitialize Panic => Panic
  | AInitialize (Done _) => Done []
  | _ => Stuck
  end.
Definition shown_at (ws : list world) (t : nat) : option (bool * bool * list (list (res (list N)))) :=
  w ← ws !! t;
  Some (s_index_dead (wo_state w), s_classic_dead (wo_state w), map (fun x => map shown (wk_replies x)) (wo_workers w)).
