(** src/serialize/primitives.rs: the primitive codecs. Bytes are numbers
    below 256. *)
From Verif.model Require Import Base F32 Utf8.

(** A decoder: [fn deserialize(input: &[u8]) -> Option<(&[u8], Self)>]
    (src/serialize/traits.rs:7-12). *)
Definition decoder (A : Type) := list N -> res (list N * A).
(** An encoder: [fn serialize(&self, output)] (src/serialize/traits.rs:3-5); the bytes pushed to
    [output], in order. *)
Definition encoder (A : Type) := A -> list N.

(** src/serialize/primitives.rs:52-69, [u64::serialize]. One round of the loop
    per fuel unit; [N.size_nat v + 1] rounds are always enough
    ([Prim_facts.enc_u64_unfold]). [(input as u8) & 0b0111_1111] is
    [N.land (v mod 256) 127]. *)
Fixpoint enc_u64_fuel (fuel : nat) (v : N) : list N :=
  match fuel with
  | O => []
  | S fuel' =>
    let to_encode := N.land (v mod 256) 127 in
    let rest := N.shiftr v 7 in
    if rest =? 0 then [to_encode]
    else N.lor to_encode 128 :: enc_u64_fuel fuel' rest
  end.
Definition enc_u64 (v : N) : list N := enc_u64_fuel (S (N.size_nat v)) v.

(** src/serialize/primitives.rs:77-97, the [while] loop of [u64::deserialize]:
    [rounds] = 9 - eaten. Returns the remaining input, [out] and [eaten].
    All shifts are on 64-bit (resp. 8-bit) words. The check [eaten > 10] (94-96)
    can never fire since [eaten <= 9] there. *)
Fixpoint dec_u64_loop (rounds : nat) (input : list N) (out eaten : N) : list N * N * N :=
  match rounds with
  | O => (input, out, eaten)
  | S rounds' =>
    match input with
    | [] => (input, out, eaten)
    | byte :: input' =>
      let more_bytes := N.land byte 128 =? 128 in
      let byte7 := (N.shiftl byte 1) mod 256 in
      let out := N.lor (N.shiftr out 7) (N.shiftl byte7 56) in
      if more_bytes then dec_u64_loop rounds' input' out (eaten + 1)
      else (input', out, eaten + 1)
    end
  end.

(** src/serialize/primitives.rs:72-115, [u64::deserialize]. *)
Definition dec_u64 : decoder N := fun input =>
  let '(input, out, eaten) := dec_u64_loop 9 input 0 0 in
  if eaten =? 9 then
    let out := N.shiftr out 1 in
    match input with
    | [] => Nope
    | b :: input' =>
      Done (input', if b =? 1 then N.lor out (N.shiftl 1 63) else out)
    end
  else if eaten =? 0 then Nope
  else Done (input, N.shiftr out (64 - eaten * 7)).

(** src/serialize/primitives.rs:118-122, [usize::serialize]. *)
Definition enc_usize : encoder N := enc_u64.
(** src/serialize/primitives.rs:124-130, [usize::deserialize]: fails if the number does
    not fit the target's [usize]. *)
Definition dec_usize (P : platform) : decoder N := fun input =>
  '(input, v) ← dec_u64 input;
  if v <=? usize_max P then Done (input, v) else Nope.

(** src/serialize/primitives.rs:132-136, [u32::serialize]. *)
Definition enc_u32 : encoder N := enc_u64.
(** src/serialize/primitives.rs:138-144, [u32::deserialize]. *)
Definition dec_u32 : decoder N := fun input =>
  '(input, v) ← dec_u64 input;
  if v <? 2 ^ 32 then Done (input, v) else Nope.

(** src/serialize/primitives.rs:3-8, [char::serialize]. *)
Definition enc_char : encoder N := enc_u32.
(** src/serialize/primitives.rs:10-16, [char::deserialize] ([char::from_u32] rejects
    non-scalar values). *)
Definition dec_char : decoder N := fun input =>
  '(input, v) ← dec_u32 input;
  if is_scalar v then Done (input, v) else Nope.

(** src/serialize/primitives.rs:18-24, [f32::serialize]: [to_be_bytes]. *)
Definition enc_f32 : encoder f32 := fun x =>
  let b := f32_to_bits x in
  [b / 2 ^ 24; (b / 2 ^ 16) mod 256; (b / 2 ^ 8) mod 256; b mod 256].
(** src/serialize/primitives.rs:26-37, [f32::deserialize]. *)
Definition dec_f32 : decoder f32 := fun input =>
  match input with
  | b0 :: b1 :: b2 :: b3 :: input' =>
    Done (input', f32_of_bits (b0 * 2 ^ 24 + b1 * 2 ^ 16 + b2 * 2 ^ 8 + b3))
  | _ => Nope
  end.

(** src/serialize/primitives.rs:39-43, [bool::serialize]. *)
Definition enc_bool : encoder bool := fun b => [if b then 1 else 0].
(** src/serialize/primitives.rs:45-50, [bool::deserialize]. *)
Definition dec_bool : decoder bool := fun input =>
  match input with [] => Nope | b :: input' => Done (input', negb (b =? 0)) end.

(** src/serialize/primitives.rs:146-150, [u8::serialize]. *)
Definition enc_u8 : encoder N := fun b => [b].
(** src/serialize/primitives.rs:151-156, [u8::deserialize]. *)
Definition dec_u8 : decoder N := fun input =>
  match input with [] => Nope | b :: input' => Done (input', b) end.
