(** src/serialize/primitives.rs and src/serialize/collections.rs: the integer codec and the
    shortening of descriptions again, with shifts of 64-bit words, the [i32] counter and every
    slice that could panic. In Prim.v and Coll.v these are total functions on numbers and chars. *)
From Verif.model Require Import Base F32 Utf8 Prim Coll.

(** [a << k] and [a >> k] on [u64]: a shift by 64 or more, or by a negative amount, panics in
    checked builds and is taken modulo 64 otherwise. *)
Definition shift_amount (P : platform) (k : Z) : res N :=
  if ((0 <=? k) && (k <? 64))%Z then Done (Z.to_N k)
  else if overflow_checks P then Panic else Done (Z.to_N (k mod 64)).
Definition shl64 (P : platform) (a : N) (k : Z) : res N :=
  k ← shift_amount P k; Done (N.shiftl a k mod 2 ^ 64).
Definition shr64 (P : platform) (a : N) (k : Z) : res N :=
  k ← shift_amount P k; Done (N.shiftr a k).
(** The result of an operation on [i32]. *)
Definition int32 (P : platform) (z : Z) : res Z :=
  if ((- 2 ^ 31 <=? z) && (z <? 2 ^ 31))%Z then Done z
  else if overflow_checks P then Panic else Done ((z + 2 ^ 31) mod 2 ^ 32 - 2 ^ 31)%Z.
(** [&input[1..]]. *)
Definition from_one {A} (l : list A) : res (list A) :=
  match l with [] => Panic | _ :: l' => Done l' end.

(** src/serialize/primitives.rs:52-69, [u64::serialize]: what is put out so far. *)
Fixpoint enc_u64_words (P : platform) (fuel : nat) (input : N) (out : list N) : res (list N) :=
  match fuel with
  | O => Stuck
  | S fuel' =>
    let to_encode := N.land (input mod 2 ^ 8) 127 in
    input ← shr64 P input 7;
    if input =? 0 then Done (out ++ [to_encode])
    else enc_u64_words P fuel' input (out ++ [N.lor to_encode 128])
  end.
(** src/serialize/primitives.rs:77-97, the [while] loop of [u64::deserialize]; [Nope] is the
    [return None] of 94-96. *)
Fixpoint dec_u64_words_loop (P : platform) (fuel : nat) (input : list N) (out : N) (eaten : Z) : res (list N * N * Z) :=
  match fuel with
  | O => Stuck
  | S fuel' =>
    if negb (lenN input =? 0) && (eaten <? 9)%Z then
      byte ← unwrap (getN input 0);
      let more_bytes := N.land byte 128 =? 128 in
      let byte := N.shiftl byte 1 mod 2 ^ 8 in
      out ← shr64 P out 7;
      byte ← shl64 P byte (64 - 8);
      let out := N.lor out byte in
      input ← from_one input;
      eaten ← int32 P (eaten + 1);
      if negb more_bytes then Done (input, out, eaten)
      else if (10 <? eaten)%Z then Nope
      else dec_u64_words_loop P fuel' input out eaten
    else Done (input, out, eaten)
  end.
(** src/serialize/primitives.rs:72-115, [u64::deserialize]. *)
Definition dec_u64_words (P : platform) (input : list N) : res (list N * N) :=
  '(input, out, eaten) ← dec_u64_words_loop P 11 input 0 0;
  if (eaten =? 9)%Z then
    out ← shr64 P out 1;
    byte ← of_opt (getN input 0);
    let out := if byte =? 1 then N.lor out (2 ^ 63) else out in
    input ← from_one input;
    Done (input, out)
  else if (eaten =? 0)%Z then Nope
  else
    product ← int32 P (eaten * 7);
    reset_shift ← int32 P (64 - product);
    out ← shr64 P out reset_shift;
    Done (input, out).

(** [str::char_indices]: every char with its offset in bytes. *)
Fixpoint char_indices (offset : N) (s : rstr) : list (N * N) :=
  match s with [] => [] | c :: s' => (offset, c) :: char_indices (offset + char_len c) s' end.
(** [&s[0..to]] of a string given by its bytes: panics beyond the end, and in the middle of a
    char, where the next byte is a continuation byte ([str::is_char_boundary]). *)
Definition str_slice_to (s : list N) (to : N) : res (list N) :=
  if to =? lenN s then Done s
  else match getN s to with
       | None => Panic
       | Some b => if (128 <=? b) && (b <? 192) then Panic else Done (take (N.to_nat to) s)
       end.
(** src/serialize/collections.rs:87-102, [limit_string_len], on the bytes of the string. *)
Fixpoint limit_words_go (max_len : N) (input : list N) (rest : list (N * N)) (last_candidate : option N) : res (list N) :=
  match rest with
  | [] => Done input
  | (offset, char) :: rest' =>
    if max_len <? offset then
      match last_candidate with
      | Some viable => str_slice_to input viable
      | None => str_slice_to input offset
      end
    else limit_words_go max_len input rest' (if char =? 32 then Some offset else last_candidate)
  end.
Definition limit_string_len_words (s : rstr) (max_len : N) : res (list N) :=
  limit_words_go max_len (utf8 s) (char_indices 0 s) None.
