(** A catalogue with one other price. *)
From Verif.model Require Import Base F32 Utf8 Prim Coll Data Gram Indexer Nodes Classic Lit Js Lib.

(** Product [i] costs [v]; nothing else is different. *)
Definition repriced (i : nat) (v : f32) (c : container) : container :=
  match c_features c !! s_price with
  | Some (FFloat col) => Container (c_products c) (c_vendors c) (<[s_price := FFloat (<[i := v]> col)]> (c_features c))
  | _ => c
  end.
Definition index_repriced (i : nat) (v : f32) (gi : gram_index) : gram_index :=
  GramIndex (gi_roots gi) (gi_data gi) (repriced i v (gi_container gi)).
(** The positions a search delivers. *)
Definition positions_of (r : res producer) : res (list N) :=
  match r with Done p => Done (pp_export p) | Nope => Nope | Panic => Panic | Stuck => Stuck end.
