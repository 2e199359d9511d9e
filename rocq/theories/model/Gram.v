(** src/ngram/index.rs and src/ngram/result_ranker.rs: the n-gram index and its search.
    The gram type [G] is [char] (a number), as in src/lib.rs:27 and
    src/lib.rs:229; [G::default()] is the NUL character. The gram size [N] is
    the argument [n]. *)
From Verif.model Require Import Base F32 Utf8 Prim Coll Data.

Definition gram_default : N := 0.

(** src/ngram/index.rs:31-33, the loop of [n_gram_with_1_padding]: [k] slots left to fill, the
    next one at position [i] of the array. [iter] is what is left of the iterator. *)
Fixpoint fill_slots (k : nat) (i : N) (base iter : list N) : res (list N * option (list N)) :=
  match k with
  | O => Done (iter, Some base)
  | S k' =>
    match iter with
    | [] => Done ([], None)
    | item :: iter' => base ← setN base i item; fill_slots k' (i + 1) base iter'
    end
  end.
(** src/ngram/index.rs:27-35, [n_gram_with_1_padding]: what is left of the iterator, and the
    gram. For [N = 0] the [N - 1] overflows: a panic in checked builds, otherwise
    [take(usize::MAX)] of no slots. *)
Definition n_gram_with_1_padding (P : platform) (n : nat) (iter : list N)
  : res (list N * option (list N)) :=
  match n with
  | O => if overflow_checks P then Panic else Done (iter, Some [])
  | S n' => fill_slots n' 0 (replicate n gram_default) iter
  end.

(** src/ngram/index.rs:37-43, [GramNode]. The field [items] is always built from
    [by_occurances] by inserting the children in order (src/ngram/indexer.rs:53-59 and
    src/serialize/nodes.rs:41-44), so it is the derived map [node_items] below. *)
Inductive node := Node (item : N) (weight : f32) (by_occurances : list node).
Definition n_item (nd : node) : N := match nd with Node i _ _ => i end.
Definition n_weight (nd : node) : f32 := match nd with Node _ w _ => w end.
Definition n_children (nd : node) : list node := match nd with Node _ _ l => l end.

(** src/ngram/indexer.rs:53-59 and src/serialize/nodes.rs:41-44: later children overwrite
    earlier ones with the same item. *)
Definition items_of (by_occurances : list node) : gmap N node :=
  foldl (fun map item => <[n_item item := item]> map) ∅ by_occurances.
Definition node_items (nd : node) : gmap N node := items_of (n_children nd).

(** src/ngram/index.rs:47-53, [Ord for GramNode]. *)
Definition node_cmp (a b : node) : comparison :=
  unwrap_or_equal (f32_cmp (n_weight a) (n_weight b)).

(** src/ngram/index.rs:61-67, [GramIndex] with [Data = Product]. *)
Record gram_index := GramIndex {
  gi_roots : gmap N node;
  gi_data : gmap (list N) (list product);
  gi_container : container
}.

(** src/ngram/index.rs:75-78: following the first child until there is none. Structural
    recursion on the tree. *)
Fixpoint chain_from (nd : node) : list N :=
  match nd with
  | Node item _ children =>
    item :: match children with [] => [] | first :: _ => chain_from first end
  end.
(** src/ngram/index.rs:72-80, [most_popular_chain]. *)
Definition most_popular_chain (gi : gram_index) (input : N) : list N :=
  match gi_roots gi !! input with None => [] | Some nd => chain_from nd end.

(** A candidate match: the gram and its confidence. *)
Definition candidate := (list N * f32)%type.

(** src/ngram/index.rs:154-162, [best_result]. *)
Definition best_result (a b : option candidate) : option candidate :=
  match a, b with
  | Some v, None | None, Some v => Some v
  | None, None => None
  | Some a, Some b => Some (if f32_gt a.2 b.2 then a else b)
  end.

(** src/ngram/index.rs:136-259, [recursive_search]. [k] is [N - index], so
    [index = n - k]; the recursion is structural on [k] and, for the "ignore the
    previous gram" branch that keeps [index], on [input].
    [changes] and [changes_limit] are unbounded here; in the code they are [u8]
    and [changes + 2] cannot overflow for [N < 765]. *)
Fixpoint recursive_search (n changes_limit : nat) (k : nat) (input : list N) {struct k} :
    node -> option node -> nat -> f32 -> list N -> option candidate :=
  match k with
  | O => fun nd previous_node changes cummulative_weight previous_input =>
      (* 150-152: index == N *)
      Some (previous_input, cummulative_weight)
  | S k' =>
    (fix go (input : list N) (nd : node) (previous_node : option node) (changes : nat)
        (cummulative_weight : f32) (previous_input : list N) {struct input} : option candidate :=
      let index := (n - k)%nat in
      (* 164-165 *)
      let user_entered := gram ← head input; node_items nd !! gram in
      let user_entered_gram := n_item <$> user_entered in
      (* 169 *)
      let next_input := tail input in
      (* 172-189 *)
      let most_likely :=
        match user_entered with
        | Some ue =>
          let found := recursive_search n changes_limit k' next_input ue (Some nd) changes
                         (f32_mul cummulative_weight (n_weight ue))
                         (<[index := n_item ue]> previous_input) in
          best_result found None
        | None => None
        end in
      (* 192-256 *)
      if Nat.ltb changes changes_limit then
        let changes := S changes in
        (* 196-201 *)
        let most_popular :=
          filter (fun potential => Some (n_item potential) <> user_entered_gram) (n_children nd) in
        (* 203-232 *)
        let most_likely :=
          foldl (fun most_likely next_node =>
            let previous_input := <[index := n_item next_node]> previous_input in
            let weight := f32_mul cummulative_weight (n_weight next_node) in
            let found := recursive_search n changes_limit k' next_input next_node (Some nd)
                           changes weight previous_input in
            let repeat_found := recursive_search n changes_limit k' input next_node (Some nd)
                                  (S changes) weight previous_input in
            best_result (best_result found repeat_found) most_likely)
          most_likely most_popular in
        (* 235-255 *)
        match input with
        | [] => most_likely
        | current_input :: next_input =>
          match previous_node ≫= (fun p => node_items p !! current_input) with
          | Some last =>
            let previous_input := <[(index - 1)%nat := n_item last]> previous_input in
            let found := go next_input last None changes cummulative_weight previous_input in
            best_result found most_likely
          | None => most_likely
          end
        end
      else most_likely) input
  end.

(** src/ngram/index.rs:118-133, [search_gram]. [query] has length [n];
    [u8::try_from(N / 3).unwrap()] panics for [N >= 768]; for [N = 0],
    [query.get(0)?] is [None]. *)
Definition search_gram (n : nat) (gi : gram_index) (query : list N) : res (option candidate) :=
  match query with
  | [] => Done None
  | q0 :: query' =>
    match gi_roots gi !! q0 with
    | None => Done None
    | Some root_node =>
      if Nat.leb (n / 3) 255 then
        Done (recursive_search n (n / 3) (n - 1) query' root_node None 0 f32_one
                (q0 :: replicate (n - 1) gram_default))
      else Panic
    end
  end.

(** src/ngram/result_ranker.rs:29-31, [ResultRanker]: keyed by the product's id string
    ([HashExtractable for Product], src/ngram/result_ranker.rs:13-19). *)
Definition ranker := gmap rstr (product * f32).

(** src/ngram/result_ranker.rs:34-43, [ResultRanker::add]. *)
Definition rank_add (r : ranker) (data : product) (confidence : f32) : ranker :=
  match r !! p_id data with
  | Some (d, current) => <[p_id data := (d, f32_add current confidence)]> r
  | None => <[p_id data := (data, confidence)]> r
  end.

(** src/ngram/result_ranker.rs:47-51: descending confidence. *)
Definition rank_cmp (a b : product * f32) : comparison :=
  reverse_ord (unwrap_or_equal (f32_cmp a.2 b.2)).

(** src/ngram/result_ranker.rs:45-53, [export_data_by_confidence]; [o] is the hash order of
    [drain()]. *)
Definition rank_export (o : order_of (rstr * (product * f32))) (r : ranker) : list (product * f32) :=
  sort_by rank_cmp (map snd (o (map_to_list r))).

(** src/ngram/index.rs:86-89: shifting the window left and appending a gram. *)
Definition shift_in (window : list N) (gram : N) : list N := tail window ++ [gram].

(** src/ngram/index.rs:85-101: one round of the loop of [search]. For [N = 0],
    [ngram[N - 1]] panics. *)
Definition search_step (n : nat) (gi : gram_index) (st : list N * ranker) (gram : N)
  : res (list N * ranker) :=
  let '(ngram, results) := st in
  match n with
  | O => Panic
  | _ =>
    let ngram := shift_in ngram gram in
    found ← search_gram n gi ngram;
    match found with
    | None => Done (ngram, results)
    | Some (matched, confidence) =>
      match gi_data gi !! matched with
      | None => Done (ngram, results)
      | Some data => Done (ngram, foldl (fun r d => rank_add r d confidence) results data)
      end
    end
  end.

(** src/ngram/index.rs:82-103, [GramIndex::search]. *)
Definition gram_search (n : nat) (o : order_of (rstr * (product * f32))) (gi : gram_index)
    (input : list N) : res (list (product * f32)) :=
  '(_, results) ← foldM (search_step n gi) input (replicate n gram_default, ∅);
  Done (rank_export o results).
