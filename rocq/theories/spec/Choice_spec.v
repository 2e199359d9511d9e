(** What a search answers, in terms of the texts alone: no index, no trie, no posting lists. *)
From Verif.model Require Import Base F32 Utf8 Prim Coll Data Gram Indexer Nodes Classic Lit Raw Js Lib.
From Verif.spec Require Import Spec Data_spec Gram_spec Classic_spec Raw_spec Js_spec Lib_spec End_spec Reorder_spec.

(** The typed window [q] and the window [g] begin with the same gram, and from there on at most
    a third of the places differ, or one gram was inserted and the last typed one ignored. *)
Definition similar (n : nat) (q g : list N) : Prop :=
  exists x q' m, q = x :: q' /\ g = x :: m /\ length m = length q' /\
    ((differences m q' <= n / 3)%nat \/
     (3 <= n)%nat /\ exists a y b z, m = a ++ y :: b /\ q' = a ++ b ++ [z]).
Definition in_texts (texts : list (list N)) (g : list N) : Prop := exists t, t ∈ texts /\ occurs g t.
(** How sure one can be of [m] after [w], starting from [x]: gram by gram, the share of the
    occurrences of what is there already that the next gram follows, multiplied in order. *)
Fixpoint sureness (texts : list (list N)) (w m : list N) (x : f32) : f32 :=
  match m with
  | [] => x
  | g :: m' => sureness texts (w ++ [g]) m' (f32_mul x (share texts w g))
  end.
Definition likelihood (texts : list (list N)) (g : list N) : f32 :=
  sureness texts (take 1 g) (drop 1 g) f32_one.
Definition candidate_for (n : nat) (texts : list (list N)) (q g : list N) : Prop :=
  similar n q g /\ in_texts texts g.
(** [r] is the likeliest window of the texts that is similar to [q], with its likelihood, or
    nothing if no similar window is in the texts. *)
Definition likeliest (n : nat) (texts : list (list N)) (q : list N) (r : option (list N * f32)) : Prop :=
  match r with
  | None => forall g, ~ candidate_for n texts q g
  | Some (g, c) => candidate_for n texts q g /\ c = likelihood texts g /\
      forall g', candidate_for n texts q g' -> f32_le (likelihood texts g') c
  end.
(** The same, and there is no tie. *)
Definition clearly_likeliest (n : nat) (texts : list (list N)) (q : list N) (r : option (list N * f32)) : Prop :=
  likeliest n texts q r /\
  forall g c g', r = Some (g, c) -> candidate_for n texts q g' -> g' <> g -> f32_lt (likelihood texts g') c.

(** The windows that are too common to be of use: they make up [limit] or more windows of all
    the texts together. *)
Definition uses (n : nat) (texts : list (list N)) (g : list N) : N :=
  lenN (filter (fun w => w = g) (concat (map (windows n) texts))).
(** What the text [t] scores for a query: for each window of the query, the likelihood of the
    window chosen for it, as often as that occurs in [t]. *)
Definition points (n : nat) (texts : list (list N)) (limit : N) (choice : list N -> option (list N * f32))
    (input t : list N) : list f32 :=
  concat (map (fun w =>
    match choice w with
    | Some (g, c) =>
      if bool_decide (uses n texts g < limit)
      then replicate (length (filter (fun w' => w' = g) (windows n t))) c
      else []
    | None => []
    end) (windows n input)).

(** The answer to a query: [answer] lists, each once, the products of the catalogue that score
    something and are [wanted], with the sum of their points. *)
Definition answers_among (n : nat) (limit : N) (choice : list N -> option (list N * f32))
    (low : N -> list N) (input : list raw_product) (query : rstr) (wanted : raw_product -> Prop)
    (answer : list (raw_product * f32)) : Prop :=
  NoDup (map fst answer) /\
  forall raw x, (raw, x) ∈ answer <->
    raw ∈ input /\ wanted raw /\
    exists c rest, points n (map (raw_text low) input) limit choice (lower low query) (raw_text low raw) = c :: rest /\
      x = foldl f32_add c rest.
(** Wanted are those that have all that is switched on ... *)
Definition answers (n : nat) (limit : N) (choice : list N -> option (list N * f32))
    (low : N -> list N) (input : list raw_product) (query : rstr) (cats : cat_handler) (tags : tag_handler)
    (answer : list (raw_product * f32)) : Prop :=
  answers_among n limit choice low input query (suits cats tags) answer.
(** ... and those that a filter lets pass: for each entry, both bounds are missing (or no numbers),
    or the entry is about the price, and the price lies between the bounds. *)
Definition let_pass (parse : rstr -> option f32) (entries : list (rstr * jsval)) (raw : raw_product) : Prop :=
  forall key v props, (key, v) ∈ entries -> plain_object v props ->
    (~ is_number (property props s_from) /\ ~ is_number (property props s_to)) \/
    (key = s_price /\ exists x, priced parse raw x /\ within (property props s_from) (property props s_to) (f64_of_f32 x)).
(** Best first. *)
Fixpoint falling (l : list f32) : Prop :=
  match l with
  | [] => True
  | x :: l' => Forall (fun y => f32_le y x) l' /\ falling l'
  end.
