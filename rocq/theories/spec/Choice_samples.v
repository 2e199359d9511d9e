(** The likeliest similar windows, found by trying all pieces of the texts. *)
From Coq Require Import String.
From Verif.model Require Import Base F32 Utf8 Prim Coll Data Gram Indexer Nodes Classic Lit Raw Js Lib.
From Verif.spec Require Import Spec Data_spec Gram_spec Classic_spec Raw_spec Js_spec Lib_spec End_spec Reorder_spec Choice_spec
  Samples Raw_samples Gram_samples Lib_samples End_samples Reorder_samples.

Definition pieces (n : nat) (t : list N) : list (list N) := map (fun i => take n (drop i t)) (seq 0 (S (length t))).
Definition inserted_at (m q : list N) (i : nat) : bool :=
  bool_decide (i < length m)%nat && bool_decide (take i m = take i q) && bool_decide (drop (S i) m = drop i (removelast q)).
Definition similar_b (n : nat) (q g : list N) : bool :=
  match q, g with
  | x :: q', y :: m =>
    bool_decide (x = y) && bool_decide (length m = length q') &&
    (bool_decide (differences m q' <= n / 3)%nat ||
     (bool_decide (3 <= n)%nat && existsb (inserted_at m q') (seq 0 (length m))))
  | _, _ => false
  end.
Definition candidates (n : nat) (texts : list (list N)) (q : list N) : list (list N) :=
  List.filter (similar_b n q) (concat (map (pieces (length q)) texts)).
Definition clearly_b (n : nat) (texts : list (list N)) (q : list N) (r : option (list N)) : bool :=
  match r with
  | None => match candidates n texts q with [] => true | _ => false end
  | Some g =>
    let c := likelihood texts g in
    existsb (fun g' => bool_decide (g' = g)) (candidates n texts q) && SFleb c c &&
    forallb (fun g' => bool_decide (g' = g) || SFltb (likelihood texts g') c) (candidates n texts q)
  end.
Definition with_likelihood (texts : list (list N)) (r : option (list N)) : option (list N * f32) :=
  g ← r; Some (g, likelihood texts g).
Definition lookalike_texts : list (list N) := map snd lookalikes.
Definition wood_texts : list (list N) := map (raw_text ascii_low) woods.
(** The catalogue of three woods has no similar windows but equal ones. *)
Definition wood_choice (w : list N) : option (list N) := head (candidates ngram_index_size wood_texts w).
Definition query_typo : rstr := lit "plank mitra"%string.
