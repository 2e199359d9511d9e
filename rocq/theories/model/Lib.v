(** src/lib.rs and src/serialize/all_indexes.rs: the public entry points. *)
From Verif.model Require Import Base F32 Utf8 Prim Coll Data Gram Indexer Nodes Classic Lit Raw Js.

(** src/lib.rs:26. *)
Definition ngram_index_size : nat := 5.

(** src/serialize/all_indexes.rs:11-20, [serialize_all]. *)
Definition serialize_all (o : ser_order) (gi : gram_index) (cl : classic) : list N :=
  enc_gram_index o gi ++ enc_classic o cl.

(** src/serialize/all_indexes.rs:22-34, [deserialize_all]. *)
Definition deserialize_all (P : platform) (n : nat) (input : list N) : res (gram_index * classic) :=
  '(input, ngram) ← dec_gram_index P n input;
  '(_, classic) ← dec_classic P (gi_container ngram) input;
  Done (ngram, classic).

Section lowercase.
  (** [char::to_lowercase]: an arbitrary function from a char to chars. *)
  Context (to_lowercase : N -> list N).

  (** [s.chars().flat_map(char::to_lowercase)]. *)
  Definition lower (s : rstr) : list N := concat (map to_lowercase s).

  (** src/lib.rs:210-225: the grams fed for a product, its description, title and vendor name
      run together. *)
  Definition product_grams (p : product) : list N :=
    lower (p_description p ++ p_title p ++ v_name (p_vendor p)).

  (** src/lib.rs:204-239, [index_and_serialize_with_n]: the bytes. The trial search
      (231) is run but its results are only counted. *)
  Definition index_and_serialize_with_n (parse_f32 : rstr -> option f32) (P : platform) (n : nat)
      (bo : build_order) (ro : order_of (rstr * (product * f32))) (so : ser_order)
      (products : list raw_product) : res (list N) :=
    '(prods, classic_index) ← optimize parse_f32 bo products;
    index ← index_from P n bo (map (fun p => (p, product_grams p)) (c_products prods)) prods;
    _ ← gram_search n ro index (lower s_kunst);
    Done (serialize_all so index classic_index).
  (** src/lib.rs:197-202, [index_and_serialize]. *)
  Definition index_and_serialize (parse_f32 : rstr -> option f32) (P : platform)
      (bo : build_order) (ro : order_of (rstr * (product * f32))) (so : ser_order)
      (products : list raw_product) : res (list N) :=
    index_and_serialize_with_n parse_f32 P ngram_index_size bo ro so products.

  (** ** The loaded library *)

  (** src/lib.rs:29-34: the two shared cells. A mutex whose holder panicked is
      dead: poisoned when panics unwind, still locked when they abort (wasm). *)
  Record lib_state := LibState {
    s_index : option gram_index;
    s_classic : option classic;
    s_index_dead : bool;
    s_classic_dead : bool
  }.
  Definition lib_init : lib_state := LibState None None false false.

  (** Outcome of [lock()]: with unwinding panics a dead mutex gives [Err]
      ([ok()?] returns [None]); with aborting panics acquiring it again panics. *)
  Definition lock_ok (unwinding dead : bool) : res unit :=
    if dead then (if unwinding then Nope else Panic) else Done tt.
  (** [lock().unwrap()]. *)
  Definition lock_unwrap (dead : bool) : res unit := if dead then Panic else Done tt.

  (** src/lib.rs:49-61, [initialize]: the new state and the outcome. *)
  Definition initialize (P : platform) (st : lib_state) (input : list N) : lib_state * res bool :=
    match deserialize_all P ngram_index_size input with
    | Done (index, classic) =>
      match lock_unwrap (s_index_dead st) with
      | Done _ =>
        let st := LibState (Some index) (s_classic st) (s_index_dead st) (s_classic_dead st) in
        match lock_unwrap (s_classic_dead st) with
        | Done _ =>
          (LibState (s_index st) (Some classic) (s_index_dead st) (s_classic_dead st), Done true)
        | _ => (st, Panic)
        end
      | _ => (st, Panic)
      end
    | Nope | Panic => (st, Panic)   (* unwrap() *)
    | Stuck => (st, Stuck)
    end.

  (** Iteration orders used by one search. *)
  Record search_order := SearchOrder {
    se_rank : order_of (rstr * (product * f32));
    se_categories : order_of (N * N);
    se_tags : order_of N
  }.
  Definition valid_search_order (o : search_order) : Prop :=
    valid_order (se_rank o) /\ valid_order (se_categories o) /\ valid_order (se_tags o).

  (** [Iterator::filter] with a predicate that may panic. *)
  Fixpoint filterR {A} (f : A -> res bool) (l : list A) : res (list A) :=
    match l with
    | [] => Done []
    | x :: l' => b ← f x; l'' ← filterR f l'; Done (if b : bool then x :: l'' else l'')
    end.

  (** src/lib.rs:82-83: both validity filters on one product. *)
  Definition both_valid (o : search_order) (categories : cat_handler) (tags : tag_handler)
      (p : product) : res bool :=
    b ← ch_is_valid (se_categories o) categories p;
    if b : bool then th_is_valid (se_tags o) tags p else Done false.

  (** src/lib.rs:76-90: gram search and all filters; runs while holding the
      SHARED_INDEX lock. *)
  Definition search_filtered (o : search_order) (index : gram_index) (input : rstr)
      (categories : cat_handler) (tags : tag_handler) (filters : list feature_filter)
    : res (list N) :=
    results ← gram_search ngram_index_size (se_rank o) index (lower input);
    filtered ← filterR (both_valid o categories tags) (map fst results);
    let filtered := foldl (fun l f => filter_apply f (c_features (gi_container index)) l)
                      filtered filters in
    Done (map p_sid filtered).

  (** src/lib.rs:96, [results.sort_by_cached_key(|v| order[*v])] (a stable sort). With
      fewer than two results no key is computed. *)
  Definition sort_by_order (order : list N) (results : list N) : res (list N) :=
    match results with
    | [] | [_] => Done results
    | _ =>
      keyed ← mapR (fun v => k ← unwrap (getN order v); Done (k, v)) results;
      Done (map snd (sort_by (fun a b => N.compare a.1 b.1) keyed))
    end.

  (** src/lib.rs:64-100, [search]: the new state (a mutex dies if its holder panics) and
      the outcome. [entries] are the entries of the filter object. *)
  Definition search (unwinding : bool) (o : search_order) (st : lib_state) (input : rstr)
      (categories : cat_handler) (tags : tag_handler) (order : option rstr)
      (entries : list (rstr * jsval)) : lib_state * res producer :=
    match parse_filters entries with
    | None => (st, Nope)
    | Some filters =>
      match lock_ok unwinding (s_index_dead st) with
      | Done _ =>
        match s_index st with
        | None => (st, Nope)
        | Some index =>
          match search_filtered o index input categories tags filters with
          | Done results =>
            match order with
            | None => (st, Done (pp_new (gi_container index) results))
            | Some order =>
              match lock_ok unwinding (s_classic_dead st) with
              | Done _ =>
                match cl ← s_classic st; get_orders (cl_order cl) order with
                | None => (st, Nope)
                | Some order =>
                  match sort_by_order order results with
                  | Done results => (st, Done (pp_new (gi_container index) results))
                  | Nope => (st, Nope)
                  | Panic => (LibState (s_index st) (s_classic st) true true, Panic)
                  | Stuck => (st, Stuck)
                  end
                end
              | Nope => (st, Nope)
              | Panic => (LibState (s_index st) (s_classic st) true (s_classic_dead st), Panic)
              | Stuck => (st, Stuck)
              end
            end
          | Nope => (st, Nope)
          | Panic => (LibState (s_index st) (s_classic st) true (s_classic_dead st), Panic)
          | Stuck => (st, Stuck)
          end
        end
      | Nope => (st, Nope)
      | Panic => (st, Panic)
      | Stuck => (st, Stuck)
      end
    end.

  (** src/lib.rs:105-112, [get_categories]. *)
  Definition get_categories (st : lib_state) : res cat_handler :=
    _ ← lock_unwrap (s_classic_dead st);
    index ← of_opt (s_classic st);
    Done (ch_new index).
  (** src/lib.rs:114-121, [get_tags]. *)
  Definition get_tags (st : lib_state) : res tag_handler :=
    _ ← lock_unwrap (s_classic_dead st);
    index ← of_opt (s_classic st);
    Done (th_new index).
  (** src/lib.rs:123-130, [get_orders]. *)
  Definition lib_get_orders (unwinding : bool) (o : order_of (rstr * list N)) (st : lib_state)
    : res (list rstr) :=
    _ ← lock_ok unwinding (s_classic_dead st);
    index ← of_opt (s_classic st);
    Done (order_options o (cl_order index)).
End lowercase.

(** ** Tag suggestions *)

(** src/lib.rs:158-163: the matching positions, summed in [f32]. *)
Definition overlap_sum (original other : rstr) : f32 :=
  match zip_with (fun a b => if a =? b then f32_one else f32_zero) original other with
  | [] => f32_zero
  | x :: l => foldl f32_add x l
  end.
(** src/lib.rs:151-165, [overlap]. [str::len] counts bytes. *)
Definition overlap (original other : rstr) (min_len : N) : f32 :=
  let min_len_found := N.min (str_len original) (str_len other) in
  if min_len_found <? min_len then f32_zero
  else f32_div (overlap_sum original other) (f32_of_N min_len_found).

(** src/lib.rs:174-183, one keyword against one tag. *)
Definition suggest_step (keyword : rstr) (most_likely : option (f32 * N * rstr)) (t : tag)
  : option (f32 * N * rstr) :=
  let ov := overlap (t_name t) keyword 3 in
  if f32_gt ov f32_0_8 then
    match most_likely with
    | Some (current, id, input) =>
      if f32_gt ov current then Some (ov, t_id t, keyword) else Some (current, id, input)
    | None => Some (ov, t_id t, keyword)
    end
  else most_likely.

(** src/lib.rs:171-185, all keywords against all tags. *)
Definition suggest (tags : tag_index) (query : rstr) : option (f32 * N * rstr) :=
  foldl (fun most_likely keyword => foldl (suggest_step keyword) most_likely tags)
    None (split_space query).

(** src/lib.rs:131-135, [TagSuggestionResult]. *)
Record tag_suggestion_result := TagSuggestion { ts_tag : js_tag; ts_input : rstr }.

(** src/lib.rs:149-191, [tag_suggestion]. *)
Definition tag_suggestion (st : lib_state) (query : rstr) : res tag_suggestion_result :=
  _ ← lock_unwrap (s_classic_dead st);
  index ← of_opt (s_classic st);
  '(_, tag_id, input) ← of_opt (suggest (cl_tags index) query);
  Done (TagSuggestion (JSTag index tag_id) input).
