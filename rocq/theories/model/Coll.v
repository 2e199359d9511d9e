(** src/serialize/collections.rs and src/serialize/sequential_array.rs. *)
From Verif.model Require Import Base F32 Utf8 Prim.

(** src/serialize/collections.rs:11-36, [serialize] for [Vec<&T>], [&Vec<T>], [Vec<usize>]. *)
Definition enc_vec {A} (enc : encoder A) : encoder (list A) := fun l =>
  enc_usize (lenN l) ++ concat (map enc l).

(** src/serialize/collections.rs:38-49 [Vec<T>::deserialize] and 51-70
    [Vec<&T>::deserialize_arena]; [k] identifies the pre-allocation. *)
Definition dec_vec (P : platform) (k : kind) {A} (dec : decoder A) : decoder (list A) := fun input =>
  '(input, len) ← dec_usize P input;
  _ ← with_capacity P k len;
  rep_N len (fun '(input, out) =>
    '(new_input, item) ← dec input;
    Done (new_input, out ++ [item])) (input, []).

(** src/serialize/collections.rs:72-85, [serialize] for [&str] and [String]. *)
Definition enc_str : encoder rstr := fun s => enc_usize (str_len s) ++ utf8 s.

(** src/serialize/collections.rs:121-128, [String::deserialize]: [&input[..len]] panics when
    [len] exceeds the input. *)
Definition dec_str (P : platform) : decoder rstr := fun input =>
  '(input, len) ← dec_usize P input;
  if len <=? lenN input then
    s ← of_opt (utf8_decode (take (N.to_nat len) input));
    Done (drop (N.to_nat len) input, s)
  else Panic.

(** src/serialize/collections.rs:87-102, [limit_string_len]. [offset] is the byte
    offset of the next char, [seen] the chars before it; a candidate cut is
    represented by the chars before it. The slices [&input[0..viable]] and
    [&input[0..offset]] are always at char boundaries, so they cannot panic
    ([Coll_facts.limit_go_bytes]). *)
Fixpoint limit_go (max_len : N) (rest seen : rstr) (offset : N) (last_candidate : option rstr)
  : rstr :=
  match rest with
  | [] => seen
  | c :: rest' =>
    if max_len <? offset then
      match last_candidate with Some viable => viable | None => seen end
    else
      let last_candidate := if c =? 32 then Some seen else last_candidate in
      limit_go max_len rest' (seen ++ [c]) (offset + char_len c) last_candidate
  end.
Definition limit_string_len (input : rstr) (max_len : N) : rstr :=
  limit_go max_len input [] 0 None.

(** src/serialize/collections.rs:104-106, [serialize_string_with_limit]. *)
Definition enc_str_with_limit (max_len : N) : encoder rstr := fun s =>
  enc_str (limit_string_len s max_len).

(** src/serialize/collections.rs:130-138, [AHashMap<K, V>::serialize]; [o] is the hash
    iteration order. *)
Definition enc_map `{Countable K} {V} (o : order_of (K * V))
    (enck : encoder K) (encv : encoder V) : encoder (gmap K V) := fun m =>
  enc_usize (N.of_nat (size m)) ++
  concat (map (fun '(k, v) => enck k ++ encv v) (o (map_to_list m))).

(** src/serialize/collections.rs:140-162 [AHashMap::deserialize_arena] and 164-176
    [AHashMap::deserialize]. *)
Definition dec_map (P : platform) (kd : kind) `{Countable K} {V}
    (deck : decoder K) (decv : decoder V) : decoder (gmap K V) := fun input =>
  '(input, len) ← dec_usize P input;
  _ ← with_capacity P kd len;
  rep_N len (fun '(input, out) =>
    '(new_input, key) ← deck input;
    '(new_input, value) ← decv new_input;
    Done (new_input, <[key := value]> out)) (input, ∅).

(** src/serialize/collections.rs:178-185, [[T; N]::serialize]. *)
Definition enc_array {A} (enc : encoder A) : encoder (list A) := fun l =>
  enc_u64 (lenN l) ++ concat (map enc l).

(** src/serialize/collections.rs:187-213, [[T; N]::deserialize]: asserts the length. *)
Definition dec_array (P : platform) (n : nat) {A} (dec : decoder A) : decoder (list A) := fun input =>
  '(input, len) ← dec_usize P input;
  if len =? N.of_nat n then
    rep_nat n (fun '(input, out) =>
      '(new_input, item) ← dec input;
      Done (new_input, out ++ [item])) (input, [])
  else Panic.

(** src/serialize/sequential_array.rs:13-22: the deltas written by [serialize]. *)
Fixpoint deltas (previous : option N) (content : list N) : list N :=
  match content with
  | [] => []
  | item :: content' =>
    (match previous with Some p => item - p | None => item end) :: deltas (Some item) content'
  end.

(** src/serialize/sequential_array.rs:3-23, [sequential_array::serialize] at [usize]. *)
Definition enc_seq : encoder (list N) := fun input =>
  let content := sort_by N.compare input in
  enc_usize (lenN content) ++ concat (map enc_usize (deltas None content)).

(** src/serialize/sequential_array.rs:25-47, [sequential_array::deserialize] at [usize]. *)
Definition dec_seq (P : platform) : decoder (list N) := fun input =>
  '(input, len) ← dec_usize P input;
  _ ← with_capacity P KIds len;
  '(input, output, _) ← rep_N len (fun '(input, output, previous) =>
    '(new_input, parsed) ← dec_usize P input;
    item ← match previous with
           | Some p => add_bits P (usize_bits P) parsed p
           | None => Done parsed
           end;
    Done (new_input, output ++ [item], Some item)) (input, [], None);
  Done (input, output).
