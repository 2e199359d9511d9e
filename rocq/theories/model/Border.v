(** How strings pass between JavaScript and the exported functions and methods. The code is
    generated by wasm-bindgen 0.2.80 (Cargo.lock:248-249) for the [&str], [String] and [Option<String>] in
    src/lib.rs:65,68,123,138,150, src/js_interactable/category_handler.rs:157,171,
    src/js_interactable/tag_handler.rs:136 and src/js_interactable/product_producer.rs:50,59,68,72,76, and for
    [as_string] in src/js_interactable/feature_filter.rs:39. *)
From Verif.model Require Import Base Utf8.

(** A JavaScript string: its UTF-16 code units. *)
Definition jstr := list N.
Definition is_high (u : N) : bool := (55296 <=? u) && (u <=? 56319).
Definition is_low (u : N) : bool := (56320 <=? u) && (u <=? 57343).

(** The code points of a JavaScript string; a surrogate without partner stands for itself. *)
Fixpoint points (u : jstr) : list N :=
  match u with
  | [] => []
  | a :: r =>
    match r with
    | b :: r' =>
      if is_high a && is_low b then 65536 + (a - 55296) * 1024 + (b - 56320) :: points r'
      else a :: points r
    | [] => [a]
    end
  end.
(** [TextEncoder.encodeInto]: surrogates without partner become U+FFFD, the rest is encoded as UTF-8. *)
Definition scalar_points (u : jstr) : rstr := map (fun c => if is_scalar c then c else 65533) (points u).
Definition encode_into (u : jstr) : list N := utf8 (scalar_points u).
(** wasm-bindgen's [passStringToWasm0]: code units below 128 are stored one by one; from the
    first other one on, the rest is encoded. *)
Fixpoint pass_string (u : jstr) : list N :=
  match u with
  | [] => []
  | a :: r => if a <=? 127 then a :: pass_string r else encode_into u
  end.

(** The code units of one char. *)
Definition utf16_char (c : N) : list N :=
  if c <? 65536 then [c] else [55296 + (c - 65536) / 1024; 56320 + (c - 65536) mod 1024].
Definition utf16 (s : rstr) : jstr := concat (map utf16_char s).
(** wasm-bindgen's [getStringFromWasm0]: [TextDecoder.decode] with [fatal] and [ignoreBOM]; an
    exception ([None]) if the bytes are not UTF-8. *)
Definition get_string (bytes : list N) : option jstr := utf16 <$> utf8_decode bytes.
