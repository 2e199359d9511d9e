(** Which tag is suggested for a word. *)
From Verif.model Require Import Base F32 Utf8 Prim Coll Data Gram Indexer Nodes Classic Lit Raw Js Lib.
From Verif.spec Require Import Spec Lib_spec.

Definition ascii (s : rstr) : Prop := Forall (fun c => c < 128) s.
(** One of the two words begins with the other, which has at least three chars, all of them ASCII. *)
Definition extends (short long : rstr) : Prop := ascii short /\ (3 <= length short)%nat /\ exists rest, long = short ++ rest.
Definition one_extends (a b : rstr) : Prop := extends a b \/ extends b a.
(** The tag at position [i] is the first one whose name is so related to the word. *)
Definition first_related (word : rstr) (tags : list tag) (i : nat) (t : tag) : Prop :=
  tags !! i = Some t /\ one_extends word (t_name t) /\
  forall j t', (j < i)%nat -> tags !! j = Some t' -> ~ one_extends word (t_name t').
