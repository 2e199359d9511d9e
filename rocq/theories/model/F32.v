(** [f32] and [f64]: the standard library's executable IEEE-754 floats. *)
From Verif.model Require Import Base.
From Coq Require Export Floats.SpecFloat.

(** Rust [f32]: IEEE binary32 (precision 24, emax 128); [f64]: binary64.
    Simplification: a single NaN (no payloads). *)
Definition f32 := spec_float.
Definition f64 := spec_float.
Definition prec32 : Z := 24.
Definition emax32 : Z := 128.
Definition prec64 : Z := 53.
Definition emax64 : Z := 1024.

Definition f32_mul : f32 -> f32 -> f32 := SFmul prec32 emax32.
Definition f32_add : f32 -> f32 -> f32 := SFadd prec32 emax32.
Definition f32_div : f32 -> f32 -> f32 := SFdiv prec32 emax32.
(** [PartialOrd::partial_cmp]: [None] when an operand is NaN. *)
Definition f32_cmp : f32 -> f32 -> option comparison := SFcompare.
(** [a > b]. *)
Definition f32_gt (a b : f32) : bool := SFltb b a.
(** [n as f32]: round to nearest even. *)
Definition f32_of_N (n : N) : f32 := binary_normalize prec32 emax32 (Z.of_N n) 0 false.
Definition f32_zero : f32 := S754_zero false.
Definition f32_one : f32 := S754_finite false 8388608 (-23).
(** The literal [0.8f32] (bits 0x3F4CCCCD). *)
Definition f32_0_8 : f32 := S754_finite false 13421773 (-24).

(** [x as usize]: truncation towards zero, saturating, NaN to 0. *)
Definition f32_to_usize (P : platform) (x : f32) : N :=
  match x with
  | S754_finite false m e =>
      let v := match e with
               | Z0 => Npos m
               | Zpos p => N.shiftl (Npos m) (Npos p)
               | Zneg p => N.shiftr (Npos m) (Npos p)
               end in
      N.min v (usize_max P)
  | S754_infinity false => usize_max P
  | _ => 0
  end.

(** [f64::from(x : f32)]: exact. *)
Definition f64_of_f32 (x : f32) : f64 :=
  match x with
  | S754_finite s m e => binary_normalize prec64 emax64 (if s then Zneg m else Zpos m) e s
  | _ => x
  end.
(** [f64::from(n : u32)]: exact. *)
Definition f64_of_u32 (n : N) : f64 := binary_normalize prec64 emax64 (Z.of_N n) 0 false.
(** [a <= b] on [f64]. *)
Definition f64_le (a b : f64) : bool := SFleb a b.
(** JavaScript [===] on numbers. *)
Definition f64_eq (a b : f64) : bool := SFeqb a b.

(** [f32::to_bits] (NaN is the quiet NaN 0x7FC00000). *)
Definition f32_to_bits (x : f32) : N :=
  match x with
  | S754_zero s => if s then 2 ^ 31 else 0
  | S754_infinity s => (if s then 2 ^ 31 else 0) + 255 * 2 ^ 23
  | S754_nan => 255 * 2 ^ 23 + 2 ^ 22
  | S754_finite s m e =>
      (if s then 2 ^ 31 else 0) +
      (if Npos m <? 2 ^ 23 then Npos m
       else Z.to_N (e + 150) * 2 ^ 23 + (Npos m - 2 ^ 23))
  end.

(** [f32::from_bits]. *)
Definition f32_of_bits (b : N) : f32 :=
  let s := 2 ^ 31 <=? b in
  let ex := (b / 2 ^ 23) mod 256 in
  let mx := b mod 2 ^ 23 in
  if ex =? 255 then (if mx =? 0 then S754_infinity s else S754_nan)
  else if ex =? 0 then
    match mx with 0 => S754_zero s | Npos m => S754_finite s m (-149) end
  else
    match mx + 2 ^ 23 with
    | 0 => S754_nan (* impossible *)
    | Npos m => S754_finite s m (Z.of_N ex - 150)
    end.
