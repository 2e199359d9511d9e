(** Vocabulary of the property statements: nothing here depends on how the
    model computes, only on its types. *)
From Verif.model Require Import Base F32 Utf8 Prim.

(** ** Bytes, strings, floats *)
Definition is_byte (b : N) : Prop := b < 256.
(** A continuation byte of the integer format: top bit set. *)
Definition continues (b : N) : Prop := 128 <= b < 256.
(** [rest] is the unread end of [input]. *)
Definition suffix_of {A} (rest input : list A) : Prop := exists pre, input = pre ++ rest.
(** Representable binary32 values (mantissa and exponent in range). *)
Definition valid_f32 (x : f32) : Prop := valid_binary 24 128 x = true.
Definition is_nan (x : f32) : bool := match x with S754_nan => true | _ => false end.

(** ** Codecs *)
(** [x], written by [enc] and followed by anything, is read by [dec] as [y],
    and exactly what followed is left. *)
Definition reads_back {A B} (enc : encoder A) (dec : decoder B) (x : A) (y : B) : Prop :=
  forall rest, dec (enc x ++ rest) = Done (rest, y).

(** ** Sizes supported by file format and platform *)
(** A length or id that fits the reader's [usize] and is below 2^56. *)
Definition size_ok (P : platform) (n : N) : Prop := n < 2 ^ 56 /\ n <= usize_max P.
(** ... and that the container can pre-allocate. *)
Definition len_ok (P : platform) (k : kind) (n : N) : Prop := size_ok P n /\ n <= cap_max P k.
(** A string that can be stored and read back. *)
Definition str_ok (P : platform) (s : rstr) : Prop := valid_str s /\ size_ok P (str_len s).

(** Two sample platforms, for the satisfiability examples. The capacity limits are those of
    vectors of 16-byte elements: isize::MAX / 16. *)
Definition wasm32 : platform :=
  {| usize_bits := 32; cap_max := fun _ => 2 ^ 27 - 1; overflow_checks := false |}.
Definition host64 : platform :=
  {| usize_bits := 64; cap_max := fun _ => 2 ^ 59 - 1; overflow_checks := false |}.

(** ** Orders *)
(** Ascending, duplicates allowed. *)
Fixpoint ascending (l : list N) : Prop :=
  match l with
  | [] => True
  | x :: l' => Forall (fun y => x <= y) l' /\ ascending l'
  end.

(** A total preorder given as a comparison. *)
Record total_cmp {A} (cmp : A -> A -> comparison) : Prop := {
  tc_refl : forall x, cmp x x = Eq;
  tc_sym : forall x y, cmp y x = CompOpp (cmp x y);
  tc_trans : forall x y z, cmp x y <> Gt -> cmp y z <> Gt -> cmp x z <> Gt
}.

(** ** Numbers *)
(** A representable [f32] that is not NaN (infinities included). *)
Definition f32_number (x : f32) : Prop := valid_f32 x /\ x <> S754_nan.
(** [x <= y] and [x < y] as Rust compares [f32]; false when an operand is NaN. *)
Definition f32_le (x y : f32) : Prop := SFleb x y = true.
Definition f32_lt (x y : f32) : Prop := SFltb x y = true.
(** In [0, 1] and in (0, 1]. *)
Definition f32_unit (x : f32) : Prop := valid_f32 x /\ f32_le f32_zero x /\ f32_le x f32_one.
Definition f32_ratio (x : f32) : Prop := valid_f32 x /\ f32_lt f32_zero x /\ f32_le x f32_one.
(** Two floats, possibly of different formats, that are the same number (or both NaN). The
    exponents of [f32] and [f64] are above -1200. *)
Definition same_value (x y : spec_float) : Prop :=
  match x, y with
  | S754_zero s, S754_zero s' => s = s'
  | S754_infinity s, S754_infinity s' => s = s'
  | S754_nan, S754_nan => True
  | S754_finite s m e, S754_finite s' m' e' =>
    s = s' /\ (-1200 <= e)%Z /\ (-1200 <= e')%Z /\
    (Zpos m * 2 ^ (e + 1200) = Zpos m' * 2 ^ (e' + 1200))%Z
  | _, _ => False
  end.
