(** What a JSON text is (RFC 8259), and which JSON texts describe a catalogue. *)
From Coq Require Import String.
From Verif.model Require Import Base F32 Utf8 Data Classic Lit Raw Json.

(** ** Grammar *)
(** Whitespace: blank, newline, tab, return. *)
Definition ws (s : rstr) : Prop := Forall (fun c => c = 32 \/ c = 10 \/ c = 9 \/ c = 13) s.
Definition digit (c : N) : Prop := 48 <= c <= 57.
Definition digits (s : rstr) : Prop := s <> [] /\ Forall digit s.
(** [c] is the hexadecimal digit of value [v]. *)
Definition hex_digit (c v : N) : Prop :=
  v <= 9 /\ c = v + 48 \/ 10 <= v <= 15 /\ (c = v + 55 \/ c = v + 87).

(** A string without its quotes, and its pieces. *)
Inductive string_text : list piece -> rstr -> Prop :=
| st_end : string_text [] []
| st_plain c ps s : 32 <= c -> c <> 34 -> c <> 92 -> string_text ps s -> string_text (Plain c :: ps) (c :: s)
| st_escape e ps s : e ∈ lit """\/bfnrt" -> string_text ps s -> string_text (Esc e :: ps) (92 :: e :: s)
| st_hex a b c d va vb vc vd ps s :
    hex_digit a va -> hex_digit b vb -> hex_digit c vc -> hex_digit d vd -> string_text ps s ->
    string_text (Hex (va * 4096 + vb * 256 + vc * 16 + vd) :: ps) (92 :: 117 :: a :: b :: c :: d :: s).

Definition number_text (s : rstr) : Prop := exists sign int fraction exponent,
  s = sign ++ int ++ fraction ++ exponent /\
  (sign = [] \/ sign = [45]) /\
  digits int /\ (head int = Some 48 -> int = [48]) /\
  (fraction = [] \/ exists ds, fraction = 46 :: ds /\ digits ds) /\
  (exponent = [] \/ exists e sg ds, exponent = e :: sg ++ ds /\ (e = 101 \/ e = 69) /\
     (sg = [] \/ sg = [43] \/ sg = [45]) /\ digits ds).

Inductive value_text : tree -> rstr -> Prop :=
| vt_null : value_text TNull (lit "null")
| vt_true : value_text (TBool true) (lit "true")
| vt_false : value_text (TBool false) (lit "false")
| vt_number s : number_text s -> value_text (TNum s) s
| vt_string ps s : string_text ps s -> value_text (TStr ps) ([34] ++ s ++ [34])
| vt_empty_array w : ws w -> value_text (TArr []) ([91] ++ w ++ [93])
| vt_array l s : items_text l s -> value_text (TArr l) ([91] ++ s ++ [93])
| vt_empty_object w : ws w -> value_text (TObj []) ([123] ++ w ++ [125])
| vt_object l s : members_text l s -> value_text (TObj l) ([123] ++ s ++ [125])
with items_text : list tree -> rstr -> Prop :=
| it_last w1 v s w2 : ws w1 -> value_text v s -> ws w2 -> items_text [v] (w1 ++ s ++ w2)
| it_more w1 v s w2 l s' : ws w1 -> value_text v s -> ws w2 -> items_text l s' ->
    items_text (v :: l) (w1 ++ s ++ w2 ++ [44] ++ s')
with members_text : list (list piece * tree) -> rstr -> Prop :=
| mt_last w1 ps k w2 w3 v s w4 : ws w1 -> string_text ps k -> ws w2 -> ws w3 -> value_text v s -> ws w4 ->
    members_text [(ps, v)] (w1 ++ [34] ++ k ++ [34] ++ w2 ++ [58] ++ w3 ++ s ++ w4)
| mt_more w1 ps k w2 w3 v s w4 l s' : ws w1 -> string_text ps k -> ws w2 -> ws w3 -> value_text v s -> ws w4 ->
    members_text l s' ->
    members_text ((ps, v) :: l) (w1 ++ [34] ++ k ++ [34] ++ w2 ++ [58] ++ w3 ++ s ++ w4 ++ [44] ++ s').
(** [t] is a JSON text with the value [v]. *)
Definition json_text (t : rstr) (v : tree) : Prop :=
  exists w1 s w2, t = w1 ++ s ++ w2 /\ ws w1 /\ value_text v s /\ ws w2.

(** ** Strings *)
(** The char each escape stands for. *)
Definition escapes (e c : N) : Prop :=
  (e, c) ∈ [(34, 34); (92, 92); (47, 47); (98, 8); (102, 12); (110, 10); (114, 13); (116, 9)].
(** The chars that the pieces stand for. *)
Inductive means : list piece -> rstr -> Prop :=
| means_end : means [] []
| means_plain c ps s : means ps s -> means (Plain c :: ps) (c :: s)
| means_escape e c ps s : escapes e c -> means ps s -> means (Esc e :: ps) (c :: s)
| means_hex n ps s : n < 55296 \/ 57343 < n -> means ps s -> means (Hex n :: ps) (n :: s)
| means_pair hi lo ps s : 55296 <= hi < 56320 -> 56320 <= lo < 57344 -> means ps s ->
    means (Hex hi :: Hex lo :: ps) (65536 + (hi - 55296) * 1024 + (lo - 56320) :: s).
(** Written as it is, without escapes. *)
Definition verbatim (ps : list piece) (s : rstr) : Prop := ps = map Plain s.

(** ** Structures *)
(** The string [s], written in any way or in the way [how]. *)
Definition is_string (how : list piece -> rstr -> Prop) (s : rstr) (v : tree) : Prop :=
  exists ps, v = TStr ps /\ how ps s.
Definition is_array {A} (is_item : A -> tree -> Prop) (l : list A) (v : tree) : Prop :=
  exists vs, v = TArr vs /\ Forall2 is_item l vs.
(** The object has exactly one member of that name, and its value is [v]. *)
Definition has_member (members : list (list piece * tree)) (name : rstr) (v : tree) : Prop :=
  exists a ps b, members = a ++ (ps, v) :: b /\ means ps name /\ Forall (fun m => ~ means m.1 name) (a ++ b).
(** The value has these fields: it is an object with such members (and possibly others), or
    an array of the values alone. *)
Definition has_fields (names : list rstr) (vs : list tree) (v : tree) : Prop :=
  (exists members, v = TObj members /\ Forall (fun m => exists s, means m.1 s) members /\
     Forall2 (has_member members) names vs) \/
  (v = TArr vs /\ List.length vs = List.length names).

Section how.
  (** How the strings are written that the structures borrow. *)
  Context (how : list piece -> rstr -> Prop).
  Definition is_amount (amount : rstr) (v : tree) : Prop := exists a c code,
    has_fields [lit "amount"; lit "currencyCode"] [a; c] v /\ is_string means amount a /\ is_string means code c.
  Definition is_price (min : rstr) (v : tree) : Prop := exists lo hi max,
    has_fields [lit "min"; lit "max"] [lo; hi] v /\ is_amount min lo /\ is_amount max hi.
  Definition is_media (url : rstr) (v : tree) : Prop := exists u,
    has_fields [lit "url"] [u] v /\ is_string how url u.
  Definition is_option (o : raw_option) (v : tree) : Prop := exists n vs,
    has_fields [lit "name"; lit "values"] [n; vs] v /\ is_string how (ro_name o) n /\
    is_array (is_string how) (ro_values o) vs.
  (** The value describes the raw product. *)
  Definition is_product (raw : raw_product) (v : tree) : Prop := exists d ts t n i os p ms,
    has_fields [lit "description"; lit "tags"; lit "title"; lit "vendor"; lit "id"; lit "options";
                lit "price"; lit "media"] [d; ts; t; n; i; os; p; ms] v /\
    is_string means (r_description raw) d /\ is_array (is_string how) (r_tags raw) ts /\
    is_string how (r_title raw) t /\ is_string how (r_vendor raw) n /\ is_string how (r_id raw) i /\
    is_array is_option (r_options raw) os /\ is_price (r_price_min_amount raw) p /\
    is_array is_media (r_media raw) ms.
  (** The text describes the catalogue: an object of products. *)
  Definition is_catalogue (entries : list (rstr * raw_product)) (t : rstr) : Prop :=
    exists members, json_text t (TObj members) /\
      Forall2 (fun e m => means m.1 e.1 /\ is_product e.2 m.2) entries members.
End how.

(** ** Duplicates *)
(** The last entry of each key, as a hash map keeps them, in some order. *)
Definition last_entry (entries : list (rstr * raw_product)) (key : rstr) (raw : raw_product) : Prop :=
  exists a b, entries = a ++ (key, raw) :: b /\ key ∉ map fst b.
Definition survivors (entries l : list (rstr * raw_product)) : Prop :=
  NoDup (map fst l) /\ forall key raw, (key, raw) ∈ l <-> last_entry entries key raw.

(** ** Chars that cannot be written without an escape *)
Definition needs_escape (s : rstr) : Prop := exists c, c ∈ s /\ (c < 32 \/ c = 34 \/ c = 92).
(** The strings of a raw product that the code borrows. *)
Definition borrowed (raw : raw_product) : list rstr :=
  [r_title raw; r_vendor raw; r_id raw] ++ r_tags raw ++ r_media raw ++
  List.concat (map (fun o => ro_name o :: ro_values o) (r_options raw)).
