(** Occurrences of gram sequences in texts, and what a trie and posting lists say about
    them. *)
From Verif.model Require Import Base F32 Utf8 Prim Coll Data Gram.
From Verif.spec Require Import Spec.

(** ** Texts *)
(** [w] occurs contiguously in [t]. *)
Definition occurs (w t : list N) : Prop := exists u v, t = u ++ w ++ v.
(** At how many positions of [t] does [w] start? *)
Fixpoint occurrences (w t : list N) : N :=
  match t with
  | [] => 0
  | _ :: t' => (if bool_decide (w `prefix_of` t) then 1 else 0) + occurrences w t'
  end.
Definition sum_N (l : list N) : N := foldr N.add 0 l.
Definition total_occurrences (w : list N) (texts : list (list N)) : N :=
  sum_N (map (occurrences w) texts).
Definition total_grams (texts : list (list N)) : N := sum_N (map lenN texts).

(** [limit] is four fifths of [n], rounded down; of more than 5,242,880 products about that, with
    an error of less than one in five million. *)
Definition cutoff_for (n limit : N) : Prop :=
  (n <= 5242880 -> limit = 4 * n / 5) /\
  5 * limit <= 4 * n + n / 2 ^ 20 /\ 4 * n <= 5 * limit + 5 + n / 2 ^ 20.

(** The [n] grams that end at position [j] of [t], filled up on the left with NUL. *)
Definition window (n : nat) (t : list N) (j : nat) : list N :=
  take n (drop (S j) (replicate n 0 ++ t)).
Definition windows (n : nat) (t : list N) : list (list N) :=
  map (window n t) (seq 0 (length t)).
(** The owners of the occurrences of [key] as a window, in source order, a product once for
    each occurrence in its text. *)
Definition owners (n : nat) (source : list (product * list N)) (key : list N) : list product :=
  concat (map (fun '(p, t) => replicate (length (filter (fun w => w = key) (windows n t))) p) source).

(** ** Tries *)
(** [nd'] is reached from [nd] by following children labelled [w]. *)
Inductive reaches : node -> list N -> node -> Prop :=
| reaches_here nd : reaches nd [] nd
| reaches_down nd child w nd' :
    child ∈ n_children nd -> reaches child w nd' -> reaches nd (n_item child :: w) nd'.
(** [nd] is the node of the trie at path [w]. *)
Definition at_path (roots : gmap N node) (w : list N) (nd : node) : Prop :=
  exists g w' root, w = g :: w' /\ roots !! g = Some root /\ reaches root w' nd.
(** The number of occurrences a path's weight is relative to: those of the path without its
    last gram, or all grams for a path of one gram. *)
Definition parent_occurrences (w : list N) (texts : list (list N)) : N :=
  match w with
  | [] | [_] => total_grams texts
  | _ => total_occurrences (removelast w) texts
  end.
(** Most frequent first: weights never increase. *)
Fixpoint descending (l : list node) : Prop :=
  match l with
  | [] => True
  | x :: l' => Forall (fun y => f32_le (n_weight y) (n_weight x)) l' /\ descending l'
  end.

(** Some child of [nd] is labelled [g] and no child of [nd] is heavier than it. *)
Definition heaviest_child (nd : node) (g : N) : Prop :=
  exists child, child ∈ n_children nd /\ n_item child = g /\
    Forall (fun other => f32_le (n_weight other) (n_weight child)) (n_children nd).

(** ** Fuzzy matching *)
(** [edit q m steps cost]: [m] can be obtained from the typed grams [q] (whose end may be
    ignored) by [steps] corrections of total [cost]: replacing a gram, adding a gram when the
    input is exhausted and dropping a gram cost 1, inserting a gram costs 2. *)
Inductive edit : list N -> list N -> nat -> nat -> Prop :=
| edit_end q : edit q [] 0 0
| edit_keep x q m s c : edit q m s c -> edit (x :: q) (x :: m) s c
| edit_replace x y q m s c : edit q m s c -> edit (x :: q) (y :: m) (S s) (S c)
| edit_add y m s c : edit [] m s c -> edit [] (y :: m) (S s) (S c)
| edit_drop x q m s c : edit q m s c -> edit (x :: q) m (S s) (S c)
| edit_insert y q m s c : edit q m s c -> edit q (y :: m) (S s) (S (S c)).

(** The confidence of the exact path: the weights of the nodes from the second gram on,
    multiplied in order. *)
Inductive exact_confidence : node -> list N -> f32 -> f32 -> Prop :=
| exact_here nd x : exact_confidence nd [] x x
| exact_down nd child w x y :
    child ∈ n_children nd -> exact_confidence child w (f32_mul x (n_weight child)) y ->
    exact_confidence nd (n_item child :: w) x y.

(** ** Ranking *)
(** What the window [w] of a query contributes: every entry of the posting list of the gram
    chosen for [w], with that gram's confidence. *)
Definition window_hits (n : nat) (gi : gram_index) (w : list N) : list (product * f32) :=
  match search_gram n gi w with
  | Done (Some (matched, confidence)) =>
    match gi_data gi !! matched with
    | Some l => map (fun p => (p, confidence)) l
    | None => []
    end
  | _ => []
  end.
Definition query_hits (n : nat) (gi : gram_index) (input : list N) : list (product * f32) :=
  concat (map (window_hits n gi) (windows n input)).
Definition hits_of (id : rstr) (hits : list (product * f32)) : list (product * f32) :=
  filter (fun hit => p_id hit.1 = id) hits.
(** The result has one entry for each id that is hit: the product hit first, with the sum of
    the confidences of all hits of that id, added up in order. *)
Definition totals (hits res : list (product * f32)) : Prop :=
  NoDup (map (fun r => p_id r.1) res) /\
  forall p x, (p, x) ∈ res <->
    exists c rest, hits_of (p_id p) hits = (p, c) :: rest /\ x = foldl f32_add c (map snd rest).
(** Best first. *)
Fixpoint ranked (res : list (product * f32)) : Prop :=
  match res with
  | [] => True
  | r :: res' => Forall (fun r' => f32_le r'.2 r.2) res' /\ ranked res'
  end.

(** At how many positions do two lists of the same length differ? *)
Fixpoint differences (a b : list N) : nat :=
  match a, b with
  | x :: a', y :: b' => (if decide (x = y) then 0 else 1) + differences a' b'
  | _, _ => 0
  end.

(** The search without the branch that skips the previously typed gram. *)
Fixpoint search_without_skip (n limit k : nat) (input : list N) (nd : node) (changes : nat)
    (weight : f32) (found : list N) : option candidate :=
  match k with
  | O => Some (found, weight)
  | S k' =>
    let down (input : list N) (changes : nat) (child : node) :=
      search_without_skip n limit k' input child changes (f32_mul weight (n_weight child))
        (<[(n - k)%nat := n_item child]> found) in
    let typed := gram ← head input; node_items nd !! gram in
    let exact := typed ≫= down (tail input) changes in
    if Nat.ltb changes limit then
      foldl (fun best child =>
               best_result (best_result (down (tail input) (S changes) child)
                                        (down input (S (S changes)) child)) best)
        exact (filter (fun child => Some (n_item child) <> n_item <$> typed) (n_children nd))
    else exact
  end.
Definition search_gram_without_skip (n : nat) (gi : gram_index) (query : list N) : option candidate :=
  match query with
  | [] => None
  | q0 :: query' =>
    match gi_roots gi !! q0 with
    | None => None
    | Some root => search_without_skip n (n / 3) (n - 1) query' root 0 f32_one (q0 :: replicate (n - 1) 0)
    end
  end.

(** The rounded share of the occurrences of [w] that [g] follows. *)
Definition share (texts : list (list N)) (w : list N) (g : N) : f32 :=
  f32_div (f32_of_N (total_occurrences (w ++ [g]) texts)) (f32_of_N (total_occurrences w texts)).
(** After some sequence of fewer than [n] grams two different grams follow equally often, as
    far as rounded shares can tell. *)
Definition tied (n : nat) (texts : list (list N)) : Prop :=
  exists w x y t1 t2, w <> [] /\ (length w < n)%nat /\ x <> y /\
    t1 ∈ texts /\ occurs (w ++ [x]) t1 /\ t2 ∈ texts /\ occurs (w ++ [y]) t2 /\
    f32_cmp (share texts w x) (share texts w y) = Some Eq.
