(** serde_json::from_str::<AHashMap<String, RawProduct>> as derived in src/data/raw_parser.rs:14-48,
    and the entry points that use it: [index] (src/lib.rs:241-252) and src/main.rs.

    serde_json (1.0.79, Cargo.lock) reads the text and fills the structures in one pass; here
    the text is first read as a tree and the structures are then taken from the tree. Every
    error is [None] in both, so only acceptance and values matter. The text is a list of
    chars instead of bytes (all that serde_json looks at is ASCII). The nesting limit of
    serde_json (128) does not apply: the structures are nested 6 deep, and values of unknown
    fields are skipped without a limit. *)
From Coq Require Import String.
From Verif.model Require Import Base F32 Utf8 Prim Coll Data Gram Indexer Nodes Classic Lit Raw Js Lib.

(** ** Text to tree *)

(** One piece of a string: a char as it is, [\] with a letter, [\u] with a number. *)
Inductive piece :=
| Plain (c : N)
| Esc (letter : N)
| Hex (n : N).
(** A JSON value. Strings are kept as written: whether one can be borrowed from the input
    depends on that. Numbers (only found in skipped fields) are kept as text. *)
Inductive tree :=
| TNull
| TBool (b : bool)
| TNum (s : rstr)
| TStr (ps : list piece)
| TArr (l : list tree)
| TObj (l : list (list piece * tree)).

(** serde_json de.rs, [parse_whitespace]. *)
Definition is_space (c : N) : bool := (c =? 32) || (c =? 10) || (c =? 9) || (c =? 13).
Fixpoint skip_space (s : rstr) : rstr :=
  match s with
  | c :: r => if is_space c then skip_space r else s
  | [] => []
  end.

(** serde_json read.rs, [parse_escape]: what a letter after [\] stands for ([u] is apart). *)
Definition escape_meaning (letter : N) : option N :=
  if letter =? 34 then Some 34          (* quote *)
  else if letter =? 92 then Some 92     (* backslash *)
  else if letter =? 47 then Some 47     (* slash *)
  else if letter =? 98 then Some 8      (* b *)
  else if letter =? 102 then Some 12    (* f *)
  else if letter =? 110 then Some 10    (* n *)
  else if letter =? 114 then Some 13    (* r *)
  else if letter =? 116 then Some 9     (* t *)
  else None.
(** serde_json read.rs, [decode_hex_val]. *)
Definition hex_val (c : N) : option N :=
  if (48 <=? c) && (c <=? 57) then Some (c - 48)
  else if (65 <=? c) && (c <=? 70) then Some (c - 55)
  else if (97 <=? c) && (c <=? 102) then Some (c - 87)
  else None.
(** serde_json read.rs, [decode_hex_escape]. *)
Definition hex4 (a b c d : N) : option N :=
  a ← hex_val a; b ← hex_val b; c ← hex_val c; d ← hex_val d;
  Some (((a * 16 + b) * 16 + c) * 16 + d).

(** serde_json read.rs, [parse_str_bytes] and [ignore_str], after the opening quote. *)
Fixpoint read_string (s : rstr) : option (rstr * list piece) :=
  match s with
  | [] => None
  | c :: r =>
    if c =? 34 then Some (r, [])
    else if c =? 92 then
      match r with
      | [] => None
      | e :: r1 =>
        if e =? 117 then
          match r1 with
          | h1 :: h2 :: h3 :: h4 :: r2 =>
            n ← hex4 h1 h2 h3 h4;
            '(rest, ps) ← read_string r2;
            Some (rest, Hex n :: ps)
          | _ => None
          end
        else
          _ ← escape_meaning e;
          '(rest, ps) ← read_string r1;
          Some (rest, Esc e :: ps)
      end
    else if c <? 32 then None
    else '(rest, ps) ← read_string r; Some (rest, Plain c :: ps)
  end.

Definition is_digit (c : N) : bool := (48 <=? c) && (c <=? 57).
(** The digits at the front. *)
Fixpoint read_digits (s : rstr) : rstr * rstr :=
  match s with
  | c :: r => if is_digit c then let '(rest, ds) := read_digits r in (rest, c :: ds) else (s, [])
  | [] => ([], [])
  end.
(** At least one digit. *)
Definition read_digits1 (s : rstr) : option (rstr * rstr) :=
  let '(rest, ds) := read_digits s in
  match ds with [] => None | _ => Some (rest, ds) end.
(** serde_json de.rs, [ignore_integer] up to the point or exponent: no leading zeros. *)
Definition read_int (s : rstr) : option (rstr * rstr) :=
  '(rest, ds) ← read_digits1 s;
  match ds with
  | z :: _ :: _ => if z =? 48 then None else Some (rest, ds)
  | _ => Some (rest, ds)
  end.
(** serde_json de.rs, [ignore_decimal]. *)
Definition read_fraction (s : rstr) : option (rstr * rstr) :=
  match s with
  | c :: r => if c =? 46 then '(rest, ds) ← read_digits1 r; Some (rest, c :: ds) else Some (s, [])
  | [] => Some (s, [])
  end.
(** serde_json de.rs, [ignore_exponent]. *)
Definition read_exponent (s : rstr) : option (rstr * rstr) :=
  match s with
  | c :: r =>
    if (c =? 101) || (c =? 69) then
      match r with
      | g :: r' =>
        if (g =? 43) || (g =? 45)
        then '(rest, ds) ← read_digits1 r'; Some (rest, c :: g :: ds)
        else '(rest, ds) ← read_digits1 r; Some (rest, c :: ds)
      | [] => None
      end
    else Some (s, [])
  | [] => Some (s, [])
  end.
(** serde_json de.rs, [ignore_value] on a number. *)
Definition read_number (s : rstr) : option (rstr * rstr) :=
  let '(s, sign) := match s with
                    | c :: r => if c =? 45 then (r, [c]) else (s, [])
                    | [] => (s, [])
                    end in
  '(s, int) ← read_int s;
  '(s, fraction) ← read_fraction s;
  '(s, exponent) ← read_exponent s;
  Some (s, sign ++ int ++ fraction ++ exponent).

(** serde_json de.rs, [parse_ident]. *)
Fixpoint strip (word s : rstr) : option rstr :=
  match word, s with
  | [], _ => Some s
  | w :: word', c :: s' => if w =? c then strip word' s' else None
  | _ :: _, [] => None
  end.

(** serde_json de.rs, a value with the whitespace before it. [read_items] reads the items of an
    array up to its end, [read_members] the members of an object. [fuel] bounds the number
    of calls ([Json_facts.read_json_complete] shows that there is always enough). *)
Fixpoint read_value (fuel : nat) (s : rstr) : option (rstr * tree) :=
  match fuel with
  | O => None
  | S fuel =>
    match skip_space s with
    | [] => None
    | c :: r =>
      if c =? 34 then '(rest, ps) ← read_string r; Some (rest, TStr ps)
      else if c =? 91 then
        match skip_space r with
        | c' :: r' =>
          if c' =? 93 then Some (r', TArr [])
          else '(rest, l) ← read_items fuel r; Some (rest, TArr l)
        | [] => None
        end
      else if c =? 123 then
        match skip_space r with
        | c' :: r' =>
          if c' =? 125 then Some (r', TObj [])
          else '(rest, l) ← read_members fuel r; Some (rest, TObj l)
        | [] => None
        end
      else if (c =? 45) || is_digit c then
        '(rest, n) ← read_number (c :: r); Some (rest, TNum n)
      else if c =? 110 then rest ← strip (lit "ull") r; Some (rest, TNull)
      else if c =? 116 then rest ← strip (lit "rue") r; Some (rest, TBool true)
      else if c =? 102 then rest ← strip (lit "alse") r; Some (rest, TBool false)
      else None
    end
  end
with read_items (fuel : nat) (s : rstr) : option (rstr * list tree) :=
  match fuel with
  | O => None
  | S fuel =>
    '(rest, v) ← read_value fuel s;
    match skip_space rest with
    | c :: rest =>
      if c =? 44 then '(rest, l) ← read_items fuel rest; Some (rest, v :: l)
      else if c =? 93 then Some (rest, [v])
      else None
    | [] => None
    end
  end
with read_members (fuel : nat) (s : rstr) : option (rstr * list (list piece * tree)) :=
  match fuel with
  | O => None
  | S fuel =>
    match skip_space s with
    | c :: r =>
      if c =? 34 then
        '(rest, key) ← read_string r;
        match skip_space rest with
        | c :: rest =>
          if c =? 58 then
            '(rest, v) ← read_value fuel rest;
            match skip_space rest with
            | c :: rest =>
              if c =? 44 then '(rest, l) ← read_members fuel rest; Some (rest, (key, v) :: l)
              else if c =? 125 then Some (rest, [(key, v)])
              else None
            | [] => None
            end
          else None
        | [] => None
        end
      else None
    | [] => None
    end
  end.

(** serde_json de.rs, [from_str]: one value and nothing but whitespace after it. *)
Definition read_json (s : rstr) : option tree :=
  '(rest, v) ← read_value (2 * List.length s + 2) s;
  match skip_space rest with [] => Some v | _ => None end.

(** ** Tree to structures *)

(** serde_json read.rs, [parse_str_bytes] and [parse_escape]: the string meant. [\u] with a
    surrogate must be followed by [\u] with its other half. *)
Fixpoint decode_pieces (ps : list piece) : option rstr :=
  match ps with
  | [] => Some []
  | Plain c :: ps' => s ← decode_pieces ps'; Some (c :: s)
  | Esc e :: ps' => c ← escape_meaning e; s ← decode_pieces ps'; Some (c :: s)
  | Hex n :: ps' =>
    if (55296 <=? n) && (n <=? 56319) then
      match ps' with
      | Hex m :: ps'' =>
        if (56320 <=? m) && (m <=? 57343) then
          s ← decode_pieces ps'';
          Some ((n - 55296) * 1024 + (m - 56320) + 65536 :: s)
        else None
      | _ => None
      end
    else if (56320 <=? n) && (n <=? 57343) then None
    else s ← decode_pieces ps'; Some (n :: s)
  end.
(** [Deserialize for String]. *)
Definition de_string (v : tree) : option rstr :=
  match v with TStr ps => decode_pieces ps | _ => None end.
(** The chars of a string written without [\]. *)
Fixpoint plain_pieces (ps : list piece) : option rstr :=
  match ps with
  | [] => Some []
  | Plain c :: ps' => s ← plain_pieces ps'; Some (c :: s)
  | _ :: _ => None
  end.
(** [Deserialize for &str]: only a string that can be borrowed from the input, that is, one
    without escapes; "expected a borrowed string" otherwise. *)
Definition de_str (v : tree) : option rstr :=
  match v with TStr ps => plain_pieces ps | _ => None end.
(** [Deserialize for Vec]. *)
Definition de_vec {A} (f : tree -> option A) (v : tree) : option (list A) :=
  match v with TArr l => mapM f l | _ => None end.

(** The value of a field in an object: missing and repeated fields are errors. *)
Definition de_field (members : list (list piece * tree)) (name : rstr) : option tree :=
  match filter (fun m => decode_pieces m.1 = Some name) members with
  | [(_, v)] => Some v
  | _ => None
  end.
(** [#[derive(Deserialize)]] on a structure with these fields: from an object (all field names
    are decoded, unknown fields are skipped) or from an array of the fields in order. *)
Definition de_struct (names : list rstr) (v : tree) : option (list tree) :=
  match v with
  | TObj members =>
    _ ← mapM (fun m => decode_pieces m.1) members;
    mapM (de_field members) names
  | TArr l => if Nat.eqb (List.length l) (List.length names) then Some l else None
  | _ => None
  end.

(** src/data/raw_parser.rs:14-19, [CurrencyAmount]: the amount. *)
Definition de_amount (v : tree) : option rstr :=
  l ← de_struct [lit "amount"; lit "currencyCode"] v;
  match l with
  | [amount; code] => amount ← de_string amount; _ ← de_string code; Some amount
  | _ => None
  end.
(** src/data/raw_parser.rs:21-25, [ProductPrice]: the minimum amount (the only part used). *)
Definition de_price (v : tree) : option rstr :=
  l ← de_struct [lit "min"; lit "max"] v;
  match l with
  | [min; max] => min ← de_amount min; _ ← de_amount max; Some min
  | _ => None
  end.
(** src/data/raw_parser.rs:27-30, [MediaItem]: the url. *)
Definition de_media (v : tree) : option rstr :=
  l ← de_struct [lit "url"] v;
  match l with
  | [url] => de_str url
  | _ => None
  end.
(** src/data/raw_parser.rs:44-48, [RawProductOption]. *)
Definition de_option (v : tree) : option raw_option :=
  l ← de_struct [lit "name"; lit "values"] v;
  match l with
  | [name; values] => name ← de_str name; values ← de_vec de_str values; Some (RawOption name values)
  | _ => None
  end.
(** src/data/raw_parser.rs:32-42, [RawProduct]. *)
Definition de_product (v : tree) : option raw_product :=
  l ← de_struct [lit "description"; lit "tags"; lit "title"; lit "vendor"; lit "id"; lit "options";
                 lit "price"; lit "media"] v;
  match l with
  | [description; tags; title; vendor; id; options; price; media] =>
    description ← de_string description;
    tags ← de_vec de_str tags;
    title ← de_str title;
    vendor ← de_str vendor;
    id ← de_str id;
    options ← de_vec de_option options;
    price ← de_price price;
    media ← de_vec de_media media;
    Some (RawProduct description tags title vendor id options price media)
  | _ => None
  end.

(** [Deserialize for AHashMap<String, RawProduct>]: the entries in order of the text. *)
Definition de_entries (v : tree) : option (list (rstr * raw_product)) :=
  match v with
  | TObj members => mapM (fun m => key ← decode_pieces m.1; p ← de_product m.2; Some (key, p)) members
  | _ => None
  end.
(** A later entry replaces an earlier one with the same key. *)
Definition to_map (entries : list (rstr * raw_product)) : gmap rstr raw_product :=
  foldl (fun m '(key, p) => <[key := p]> m) ∅ entries.
(** [serde_json::from_str], src/lib.rs:244 and src/main.rs:14. *)
Definition read_catalogue (input : rstr) : option (gmap rstr raw_product) :=
  v ← read_json input;
  entries ← de_entries v;
  Some (to_map entries).

Section entry.
  Context (to_lowercase : N -> list N) (parse_f32 : rstr -> option f32).

  (** src/lib.rs:243-252, [index]; [mo] is the hash order of the map of products. *)
  Definition index (P : platform) (mo : order_of (rstr * raw_product)) (bo : build_order)
      (ro : order_of (rstr * (product * f32))) (so : ser_order) (input : rstr) : res (list N) :=
    products ← of_opt (read_catalogue input);
    index_and_serialize to_lowercase parse_f32 P bo ro so (map snd (mo (map_to_list products))).

  (** src/main.rs:11-23, [main]: the bytes of ./test.json to the bytes of out.test; [Nope] is any
      error returned. The files, and errors with these, are in model/Disk.v. *)
  Definition main (P : platform) (mo : order_of (rstr * raw_product)) (bo : build_order)
      (ro : order_of (rstr * (product * f32))) (so : ser_order) (file : list N) : res (list N) :=
    text ← of_opt (utf8_decode file);
    index P mo bo ro so text.
End entry.
