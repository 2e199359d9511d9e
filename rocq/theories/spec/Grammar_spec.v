(** The file format as a grammar: what is made of any bytes at all. *)
From Verif.model Require Import Base Utf8.
From Verif.spec Require Import Spec.

(** ** Numbers *)
(** Digits in base 128, the lowest first; a digit is a byte without its top bit. *)
Fixpoint base128 (digits : list N) : N :=
  match digits with [] => 0 | d :: ds => d mod 128 + 128 * base128 ds end.
(** The bytes [bs] begin with the number [v], and [rest] is after it. A number of up to eight digits
    ends with a byte below 128; or with the input. After eight bytes of 128 and above, a
    ninth digit and a last byte follow, whatever they are, and the last byte is 2^63 if it is 1. *)
Inductive number : list N -> list N -> N -> Prop :=
| Number_ends ds d rest : Forall continues ds -> (length ds < 8)%nat -> d < 128 ->
    number (ds ++ d :: rest) rest (base128 (ds ++ [d]))
| Number_cut ds : Forall continues ds -> (0 < length ds <= 8)%nat -> number ds [] (base128 ds)
| Number_long ds d last rest : Forall continues ds -> length ds = 8%nat -> is_byte d ->
    number (ds ++ d :: last :: rest) rest (base128 (ds ++ [d]) + (if last =? 1 then 2 ^ 63 else 0)).

(** ** Forms *)
(** What is expected at some place of a file. *)
Inductive form :=
| Number                              (* a number, which is the value *)
| Byte                                (* a byte, which is the value *)
| Block (k : nat)                     (* any [k] bytes *)
| Letters (len : N)                   (* [len] bytes of UTF-8 *)
| Times (count : N) (f : form)        (* [count] times the same *)
| Sums (count : N) (previous : option N) (top : N)
                                      (* [count] differences between ids; the value is the smallest
                                         number above them all and not below [top] *)
| Tree                                (* a node with its children *)
| Seq (f : form) (g : N -> form)      (* one and another, which may depend on the value of the first *)
(* and conditions, which take no bytes: *)
| Give (v : N)                        (* nothing; the value is [v] *)
| Require (b : bool)                  (* the file is no good unless [b] *)
| Room (k : kind) (count : N)         (* memory for [count] elements is claimed at once *)
| Assert_size (n count : N)           (* [count] is asserted to be [n] *)
| Add (previous : option N) (d : N).  (* a sum of two ids, which is the value *)

(** What makes the loader panic. *)
Inductive fall :=
| Beyond_end (len : N)                (* a text longer than the rest of the file *)
| No_room (k : kind) (count : N)      (* more elements than a collection can have *)
| Wrong_size (count : N)              (* a gram that is not of the gram size *)
| Overflows (a b : N).                (* a sum of two ids beyond the greatest [usize] *)

(** How it ends: read, with what bytes left and what value; rejected; or a panic,
    with what bytes left. *)
Inductive fate :=
| Reads (rest : list N) (v : N)
| Rejected
| Falls (rest : list N) (why : fall).

Section platform.
  Context (P : platform).

  (** Forms made of others. *)
  Definition Size : form := Seq Number (fun v => Seq (Require (v <? 2 ^ usize_bits P)) (fun _ => Give v)).
  Definition Text : form := Seq Size Letters.
  Definition Char : form := Seq Number (fun c => Require (((c <? 55296) || (57343 <? c)) && (c <? 1114112))).
  Definition Float : form := Block 4.
  Definition Many (k : kind) (f : form) : form :=
    Seq Size (fun count => Seq (Room k count) (fun _ => Times count f)).
  (** Ids of products, as differences. *)
  Definition Refs (products : N) : form :=
    Seq Size (fun count => Seq (Room KIds count) (fun _ => Seq (Sums count None 0) (fun top =>
      Seq (Room KProductRefs count) (fun _ => Require (top <=? products))))).

  (** One element at a time; one node at a time. *)
  Definition unfold (f : form) : option form :=
    match f with
    | Times count f =>
      Some (if count =? 0 then Give 0 else Seq f (fun _ => Times (count - 1) f))
    | Sums count previous top =>
      Some (if count =? 0 then Give top
            else Seq Size (fun d => Seq (Add previous d) (fun id =>
                   Sums (count - 1) (Some id) (N.max top (id + 1)))))
    | Tree => Some (Seq Char (fun _ => Seq Float (fun _ => Many KNodeRefs Tree)))
    | _ => None
    end.

  (** What becomes of [bs] where [f] is expected. *)
  Inductive fares : form -> list N -> fate -> Prop :=
  | Fares_number bs rest v : number bs rest v -> fares Number bs (Reads rest v)
  | Fares_no_number bs : (forall rest v, ~ number bs rest v) -> fares Number bs Rejected
  | Fares_byte b bs : fares Byte (b :: bs) (Reads bs b)
  | Fares_no_byte : fares Byte [] Rejected
  | Fares_block k block rest : length block = k -> fares (Block k) (block ++ rest) (Reads rest 0)
  | Fares_no_block k bs : (length bs < k)%nat -> fares (Block k) bs Rejected
  | Fares_letters s rest : valid_str s -> fares (Letters (lenN (utf8 s))) (utf8 s ++ rest) (Reads rest 0)
  | Fares_no_letters len block rest : lenN block = len -> (forall s, valid_str s -> utf8 s <> block) ->
      fares (Letters len) (block ++ rest) Rejected
  | Fares_beyond len bs : lenN bs < len -> fares (Letters len) bs (Falls bs (Beyond_end len))
  | Fares_unfold f f' bs r : unfold f = Some f' -> fares f' bs r -> fares f bs r
  | Fares_seq f g bs rest v r : fares f bs (Reads rest v) -> fares (g v) rest r -> fares (Seq f g) bs r
  | Fares_seq_rejected f g bs : fares f bs Rejected -> fares (Seq f g) bs Rejected
  | Fares_seq_falls f g bs rest why : fares f bs (Falls rest why) -> fares (Seq f g) bs (Falls rest why)
  | Fares_give v bs : fares (Give v) bs (Reads bs v)
  | Fares_required bs : fares (Require true) bs (Reads bs 0)
  | Fares_refused bs : fares (Require false) bs Rejected
  | Fares_room k count bs : count <= cap_max P k -> fares (Room k count) bs (Reads bs 0)
  | Fares_no_room k count bs : cap_max P k < count -> fares (Room k count) bs (Falls bs (No_room k count))
  | Fares_size n bs : fares (Assert_size n n) bs (Reads bs 0)
  | Fares_wrong_size n count bs : count <> n -> fares (Assert_size n count) bs (Falls bs (Wrong_size count))
  | Fares_first d bs : fares (Add None d) bs (Reads bs d)
  | Fares_add p d bs : p + d < 2 ^ usize_bits P -> fares (Add (Some p) d) bs (Reads bs (p + d))
  | Fares_wraps p d bs : 2 ^ usize_bits P <= p + d -> overflow_checks P = false ->
      fares (Add (Some p) d) bs (Reads bs ((p + d) mod 2 ^ usize_bits P))
  | Fares_overflows p d bs : 2 ^ usize_bits P <= p + d -> overflow_checks P = true ->
      fares (Add (Some p) d) bs (Falls bs (Overflows p d)).

  (** ** The file *)
  Definition vendors_form : form :=
    Seq Size (fun count => Seq (Room KVendorMap count) (fun _ => Seq (Room KVendorVec count) (fun _ =>
      Seq (Times count Text) (fun _ => Give count)))).
  (** Description, title, id, vendor. *)
  Definition product_form (vendors : N) : form :=
    Seq Text (fun _ => Seq Text (fun _ => Seq Text (fun _ => Seq Size (fun vendor => Require (vendor <? vendors))))).
  Definition products_form (vendors : N) : form :=
    Seq Size (fun count => Seq (Times count (product_form vendors)) (fun _ => Give count)).
  (** A column of texts, of floats or of numbers below 2^32. *)
  Definition column_form : form :=
    Seq Byte (fun b =>
      if b =? 0 then Many KStrings Text
      else if b =? 1 then Many KFloats Float
      else if b =? 2 then Many KInts (Seq Number (fun v => Require (v <? 2 ^ 32)))
      else Require false).
  (** A gram and the products it occurs in. *)
  Definition gram_form (n : nat) (products : N) : form :=
    Seq Size (fun count => Seq (Assert_size (N.of_nat n) count) (fun _ =>
      Seq (Times (N.of_nat n) Char) (fun _ => Refs products))).
  (** A tag, or an option of a category: its name and its products. *)
  Definition named_refs (products : N) : form := Seq Text (fun _ => Refs products).
  Definition category_form (products : N) : form :=
    Seq Byte (fun _ => Seq Text (fun _ => Many KOptions (named_refs products))).
  Definition order_form : form := Seq Text (fun _ => Many KUsizes Size).
  Definition file_form (n : nat) : form :=
    Seq vendors_form (fun vendors => Seq (products_form vendors) (fun products =>
      Seq (Many KFeatureMap (Seq Text (fun _ => column_form))) (fun _ =>
      Seq (Many KRootMap (Seq Char (fun _ => Tree))) (fun _ =>
      Seq (Many KDataMap (gram_form n products)) (fun _ =>
      Seq (Many KCategories (category_form products)) (fun _ =>
      Seq (Many KTags (named_refs products)) (fun _ =>
      Many KOrderMap order_form))))))).
End platform.
