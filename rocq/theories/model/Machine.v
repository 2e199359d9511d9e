(** src/ngram/index.rs: the search again, statement by statement, with the 8-bit counter of
    changes and with every array access that could panic. In Gram.v the counter is unbounded and
    accesses are plain list updates. *)
From Verif.model Require Import Base F32 Utf8 Prim Coll Data Gram.

(** src/ngram/index.rs:136-259, [recursive_search]. [k] is [N - index], as in Gram.v. *)
Fixpoint recursive_search8 (P : platform) (n : nat) (changes_limit : N) (k : nat) (input : list N) {struct k} :
    node -> option node -> N -> f32 -> list N -> res (option candidate) :=
  match k with
  | O => fun nd previous_node changes cummulative_weight previous_input =>
      (* 150-152: index == N *)
      Done (Some (previous_input, cummulative_weight))
  | S k' =>
    (fix go (input : list N) (nd : node) (previous_node : option node) (changes : N)
        (cummulative_weight : f32) (previous_input : list N) {struct input} : res (option candidate) :=
      let index := N.of_nat (n - k) in
      (* 164-165 *)
      let user_entered := gram ← head input; node_items nd !! gram in
      let user_entered_gram := n_item <$> user_entered in
      (* 169 *)
      let next_input := tail input in
      (* 172-189 *)
      most_likely ←
        match user_entered with
        | Some ue =>
          previous_input ← setN previous_input index (n_item ue);
          found ← recursive_search8 P n changes_limit k' next_input ue (Some nd) changes
                    (f32_mul cummulative_weight (n_weight ue)) previous_input;
          Done (best_result found None)
        | None => Done None
        end;
      (* 192-256 *)
      if changes <? changes_limit then
        changes ← add_bits P 8 changes 1;
        (* 196-201 *)
        let most_popular :=
          filter (fun potential => Some (n_item potential) <> user_entered_gram) (n_children nd) in
        (* 203-232 *)
        most_likely ←
          foldM (fun most_likely next_node =>
            previous_input ← setN previous_input index (n_item next_node);
            let weight := f32_mul cummulative_weight (n_weight next_node) in
            found ← recursive_search8 P n changes_limit k' next_input next_node (Some nd) changes weight previous_input;
            changes ← add_bits P 8 changes 1;
            repeat_found ← recursive_search8 P n changes_limit k' input next_node (Some nd) changes weight previous_input;
            Done (best_result (best_result found repeat_found) most_likely))
          most_popular most_likely;
        (* 235-255; [index] is at least 1 *)
        match input with
        | [] => Done most_likely
        | current_input :: next_input =>
          match previous_node ≫= (fun p => node_items p !! current_input) with
          | Some last =>
            previous_input ← setN previous_input (index - 1) (n_item last);
            found ← go next_input last None changes cummulative_weight previous_input;
            Done (best_result found most_likely)
          | None => Done most_likely
          end
        end
      else Done most_likely) input
  end.

(** src/ngram/index.rs:118-133, [search_gram]. *)
Definition search_gram8 (P : platform) (n : nat) (gi : gram_index) (query : list N) : res (option candidate) :=
  match query with
  | [] => Done None
  | q0 :: query' =>
    match gi_roots gi !! q0 with
    | None => Done None
    | Some root_node =>
      previous ← setN (replicate n gram_default) 0 q0;
      if N.of_nat n / 3 <? 2 ^ 8 then
        recursive_search8 P n (N.of_nat n / 3) (n - 1) query' root_node None 0 f32_one previous
      else Panic
    end
  end.

(** src/ngram/index.rs:86-88: [for i in 1..N { ngram[i - 1] = ngram[i]; }]. *)
Definition shift_loop (n : nat) (ngram : list N) : res (list N) :=
  foldM (fun ngram i => x ← unwrap (getN ngram (N.of_nat i)); setN ngram (N.of_nat i - 1) x) (seq 1 (n - 1)) ngram.
(** src/ngram/index.rs:85-101: one round of the loop of [search]. *)
Definition search_step8 (P : platform) (n : nat) (gi : gram_index) (st : list N * ranker) (gram : N)
  : res (list N * ranker) :=
  let '(ngram, results) := st in
  match n with
  | O => Panic
  | _ =>
    ngram ← shift_loop n ngram;
    ngram ← setN ngram (N.of_nat n - 1) gram;
    found ← search_gram8 P n gi ngram;
    match found with
    | None => Done (ngram, results)
    | Some (matched, confidence) =>
      match gi_data gi !! matched with
      | None => Done (ngram, results)
      | Some data => Done (ngram, foldl (fun r d => rank_add r d confidence) results data)
      end
    end
  end.
(** src/ngram/index.rs:82-103, [GramIndex::search]. *)
Definition gram_search8 (P : platform) (n : nat) (o : order_of (rstr * (product * f32))) (gi : gram_index)
    (input : list N) : res (list (product * f32)) :=
  '(_, results) ← foldM (search_step8 P n gi) input (replicate n gram_default, ∅);
  Done (rank_export o results).
