(** How much work a search is, how large an index and its file are. *)
From Verif.model Require Import Base F32 Utf8 Prim Coll Data Gram Classic Raw.
From Verif.spec Require Import Spec Gram_spec.

(** ** Counting calls *)
(** A value together with the number of calls made to compute it and how deep they nest. *)
Definition counted (A : Type) := (A * (nat * nat))%type.
Definition free {A} (a : A) : counted A := (a, (0, 0))%nat.
(** One after the other: calls add up, nesting does not. *)
Definition and_then {A B} (x : counted A) (f : A -> counted B) : counted B :=
  let '(a, (calls1, depth1)) := x in
  let '(b, (calls2, depth2)) := f a in (b, (calls1 + calls2, Nat.max depth1 depth2))%nat.
(** Doing [x] within a call. *)
Definition call {A} (x : counted A) : counted A :=
  let '(a, (calls, depth)) := x in (a, (S calls, S depth)).
Definition value {A} (x : counted A) : A := x.1.
Definition calls {A} (x : counted A) : nat := x.2.1.
Definition depth {A} (x : counted A) : nat := x.2.2.

(** [recursive_search] with its calls of itself counted. *)
Fixpoint counted_search (n limit k : nat) (input : list N) {struct k} :
    node -> option node -> nat -> f32 -> list N -> counted (option candidate) :=
  match k with
  | O => fun nd prev changes weight found => call (free (Some (found, weight)))
  | S k' =>
    (fix go (input : list N) (nd : node) (prev : option node) (changes : nat) (weight : f32)
        (found : list N) {struct input} : counted (option candidate) :=
      let down (input : list N) (changes : nat) (child : node) :=
        counted_search n limit k' input child (Some nd) changes (f32_mul weight (n_weight child))
          (<[(n - k)%nat := n_item child]> found) in
      let typed := gram ← head input; node_items nd !! gram in
      call (
        and_then (match typed with Some child => down (tail input) changes child | None => free None end)
          (fun exact =>
        if Nat.ltb changes limit then
          and_then
            (foldl (fun acc child =>
               and_then acc (fun best =>
               and_then (down (tail input) (S changes) child) (fun replaced =>
               and_then (down input (S (S changes)) child) (fun inserted =>
               free (best_result (best_result replaced inserted) best)))))
             (free exact)
             (filter (fun child => Some (n_item child) <> n_item <$> typed) (n_children nd)))
            (fun corrected =>
          match input with
          | [] => free corrected
          | x :: rest =>
            match prev ≫= (fun p => node_items p !! x) with
            | Some last =>
              and_then (go rest last None (S changes) weight (<[(n - k - 1)%nat := n_item last]> found))
                (fun skipped => free (best_result skipped corrected))
            | None => free corrected
            end
          end)
        else free exact))) input
  end.

(** [search_gram] with the calls of [recursive_search] counted. *)
Definition counted_search_gram (n : nat) (gi : gram_index) (query : list N) : counted (option candidate) :=
  match query with
  | [] => free None
  | q0 :: query' =>
    match gi_roots gi !! q0 with
    | None => free None
    | Some root =>
      counted_search n (n / 3) (n - 1) query' root None 0 f32_one (q0 :: replicate (n - 1) 0)
    end
  end.

(** The different grams of the texts. *)
Definition alphabet (texts : list (list N)) : list N := remove_dups (concat texts).

(** ** Sizes *)
(** The nodes below and including [nd]. *)
Fixpoint node_count (nd : node) : nat :=
  match nd with Node _ _ children => S (list_sum (map node_count children)) end.
Definition trie_nodes (roots : gmap N node) : nat := list_sum (map (fun '(_, nd) => node_count nd) (map_to_list roots)).
(** The entries of all posting lists. *)
Definition posting_entries (data : gmap (list N) (list product)) : nat :=
  list_sum (map (fun '(_, l) => length l) (map_to_list data)).
(** How many nodes are there on the longest way down from [nd]? *)
Fixpoint node_depth (nd : node) : nat :=
  match nd with Node _ _ children => S (list_max (map node_depth children)) end.

(** ** The strings of a catalogue *)
Definition raw_strings (raw : raw_product) : list rstr :=
  [r_title raw; r_id raw; r_vendor raw; r_description raw] ++ r_tags raw ++ r_media raw ++
  concat (map (fun o => ro_name o :: ro_values o) (r_options raw)).
Definition catalogue_strings (input : list raw_product) : list rstr := concat (map raw_strings input).
Definition total_bytes (ss : list rstr) : N := sum_N (map str_len ss).
(** A catalogue fits this when everything counted in it is less than 2^28. *)
Definition modest : platform :=
  {| usize_bits := 28; cap_max := fun _ => 2 ^ 28 - 1; overflow_checks := false |}.
