(** src/serde_array.rs: arrays of a fixed size for serde. The module is compiled (src/lib.rs:23) but
    nothing uses it. serde itself is generic in the format; the one here is serde_json (1.0.79,
    Cargo.lock), the only format among the dependencies, as in Json.v: a text is first read as a
    tree, and every error is [Nope]. *)
From Coq Require Import String.
From Verif.model Require Import Base F32 Utf8 Prim Coll Data Gram Indexer Nodes Classic Lit Raw Js Lib Json.
Local Open Scope N_scope.

(** ** Writing *)
(** serde_json ser.rs, [State] of a sequence that is being written. *)
Inductive seq_state := Empty | First | Rest.
(** serde_json ser.rs, [serialize_tuple], which is [serialize_seq]: an empty one is closed at once. *)
Definition serialize_tuple (len : N) : rstr * seq_state :=
  if len =? 0 then (lit "[]", Empty) else (lit "[", First).
(** serde_json ser.rs, [serialize_element]; [item] is the text of the element. *)
Definition serialize_element (s : rstr * seq_state) (item : rstr) : rstr * seq_state :=
  let '(out, state) := s in
  ((out ++ match state with First => [] | _ => lit "," end ++ item)%list, Rest).
(** serde_json ser.rs, [SerializeTuple::end]. *)
Definition serialize_end (s : rstr * seq_state) : rstr :=
  let '(out, state) := s in
  match state with Empty => out | _ => (out ++ lit "]")%list end.
(** src/serde_array.rs:9-18, [arrays::serialize]; [show] writes an element, [n] is [N]. *)
Definition array_serialize {A} (show : A -> rstr) (n : nat) (data : list A) : rstr :=
  serialize_end (fold_left (fun s item => serialize_element s (show item)) data (serialize_tuple (N.of_nat n))).
(** [Serialize for u8]: serde_json writes what itoa gives, decimal without leading zeros. *)
Definition show_u8 (b : N) : rstr :=
  if b <? 10 then [48 + b]
  else if b <? 100 then [48 + b / 10; 48 + b mod 10]
  else [48 + b / 100; 48 + (b / 10) mod 10; 48 + b mod 10].
(** src/serde_array.rs:63-73, derived [Serialize] for [TypeWithArray] ([n] = 64) and
    [TypeWithConstGenericArray<N>]: a structure with one field. *)
Definition write_arr (n : nat) (arr : list N) : rstr :=
  (lit "{""arr"":" ++ array_serialize show_u8 n arr ++ lit "}")%list.

(** ** Reading *)
Section reading.
  Context {A : Type} (de : tree -> option A).
  (** serde_json de.rs, [SeqAccess::next_element]: the next item, if there is one; [seq] is what
      is left of the array. *)
  Definition next_element (seq : list tree) : res (list tree * option A) :=
    match seq with
    | [] => Done ([], None)
    | v :: seq' => x ← of_opt (de v); Done (seq', Some x)
    end.
  (** [TryFrom<Vec<T>> for [T; N]]. *)
  Definition try_into (n : nat) (data : list A) : option (list A) :=
    if Nat.eqb (List.length data) n then Some data else None.
  (** src/serde_array.rs:33-51, [visit_seq]; [Err(_) => unreachable!()] is a panic. *)
  Definition visit_seq (n : nat) (seq : list tree) : res (list tree * list A) :=
    '(seq, data) ← rep_nat n (fun '(seq, data) =>
      '(seq, item) ← next_element seq;
      match item with
      | Some val => Done (seq, (data ++ [val])%list)
      | None => Nope
      end) (seq, []);
    match try_into n data with
    | Some arr => Done (seq, arr)
    | None => Panic
    end.
  (** src/serde_array.rs:53-59, [arrays::deserialize]; serde_json de.rs, [deserialize_tuple]: only
      an array, and [end_seq] wants it to be at its end. *)
  Definition array_deserialize (n : nat) (v : tree) : res (list A) :=
    match v with
    | TArr l =>
      '(seq, arr) ← visit_seq n l;
      match seq with [] => Done arr | _ => Nope end
    | _ => Nope
    end.
End reading.
(** [Deserialize for u8]; serde_json de.rs, [deserialize_number]: a number with a sign, a fraction
    or an exponent is an [i64] or [f64], of which none is taken for a [u8] (-0 is an [f64]). *)
Definition de_u8 (v : tree) : option N :=
  match v with
  | TNum s =>
    if forallb is_digit s then
      let significand := fold_left (fun significand c => significand * 10 + (c - 48)) s 0 in
      if significand <=? 255 then Some significand else None
    else None
  | _ => None
  end.
(** src/serde_array.rs:63-73, derived [Deserialize], from a text. *)
Definition read_arr (n : nat) (text : rstr) : res (list N) :=
  v ← of_opt (read_json text);
  l ← of_opt (de_struct [lit "arr"] v);
  match l with
  | [arr] => array_deserialize de_u8 n arr
  | _ => Nope
  end.
