(** Decimal numbers as text, and the float nearest to a real number. *)
From Coq Require Import String Reals.
From Flocq Require Import Core.Core IEEE754.BinarySingleNaN.
From Verif.model Require Import Base F32 Utf8 Lit Raw.
Local Open Scope N_scope.

(** ** Texts of numbers *)
Definition digit_char (c : N) : Prop := 48 <= c <= 57.
(** The number that digits stand for. *)
Fixpoint digits_value (s : rstr) : N :=
  match s with [] => 0 | c :: r => (c - 48) * 10 ^ lenN r + digits_value r end.
Definition sign_text (s : rstr) (negative : bool) : Prop :=
  (s = [] /\ negative = false) \/ (s = lit "+" /\ negative = false) \/ (s = lit "-" /\ negative = true).
(** An optional exponent. *)
Definition exponent_text (s : rstr) (k : Z) : Prop :=
  (s = [] /\ k = 0%Z) \/
  exists letter sign negative ds, s = letter :: sign ++ ds /\ (letter = 101 \/ letter = 69) /\
    sign_text sign negative /\ ds <> [] /\ Forall digit_char ds /\
    k = (if negative then - Z.of_N (digits_value ds) else Z.of_N (digits_value ds))%Z.
(** The text is a decimal number: sign, digits, perhaps a point and digits, perhaps an exponent;
    at least one digit. Its value is [m * 10 ^ e], negated if [negative]. *)
Definition decimal_text (s : rstr) (negative : bool) (m : N) (e : Z) : Prop :=
  exists sign int point frac expo k, s = sign ++ int ++ point ++ frac ++ expo /\
    sign_text sign negative /\ Forall digit_char int /\ Forall digit_char frac /\
    (point = lit "." \/ (point = [] /\ frac = [])) /\ int ++ frac <> [] /\
    exponent_text expo k /\ m = digits_value (int ++ frac) /\ e = (k - Z.of_N (lenN frac))%Z.
(** The text is [name], with a sign and in any case. *)
Definition ascii_lower (c : N) : N := if decide (65 <= c <= 90) then c + 32 else c.
Definition named_text (name : rstr) (s : rstr) (negative : bool) : Prop :=
  exists sign r, s = sign ++ r /\ sign_text sign negative /\ map ascii_lower r = name.
Definition infinity_text (s : rstr) (negative : bool) : Prop :=
  named_text (lit "inf") s negative \/ named_text (lit "infinity") s negative.
Definition nan_text (s : rstr) : Prop := exists negative, named_text (lit "nan") s negative.

(** ** Values *)
Definition radix10 : radix := Build_radix 10 eq_refl.
Definition dec_val (negative : bool) (m : N) (e : Z) : R :=
  F2R (Float radix10 (cond_Zopp negative (Z.of_N m)) e).
(** Rounding to nearest, ties to even, to [prec] bits (24 for [f32], 53 for [f64]) with no unit
    below the smallest float. *)
Definition rounded (prec emax : Z) (v : R) : R := round radix2 (FLT_exp (3 - emax - prec) prec) ZnearestE v.
(** [x] is the float nearest to [v], or the infinity of its sign if that is out of range. *)
Definition nearest (prec emax : Z) (negative : bool) (v : R) (x : spec_float) : Prop :=
  valid_binary prec emax x = true /\
  ((Rabs (rounded prec emax v) < bpow radix2 emax)%R ->
     SF2R radix2 x = rounded prec emax v /\ is_finite_SF x = true /\ sign_SF x = negative) /\
  ((bpow radix2 emax <= Rabs (rounded prec emax v))%R -> x = S754_infinity negative).

(** The text is a price of [c] cents (or whatever a hundredth is called). *)
Definition costs (s : rstr) (c : N) : Prop :=
  lenN s < 65000 /\ exists m e, decimal_text s false m e /\ dec_val false m e = (IZR (Z.of_N c) / 100)%R.
(** It is at most 131072.00. *)
Definition costs_at_most (raw : raw_product) (c : N) : Prop :=
  costs (r_price_min_amount raw) c /\ c <= 13107200.
Definition finite_f64 (x : f64) : Prop := valid_binary prec64 emax64 x = true /\ is_finite_SF x = true.
(** The texts that are read as floats. *)
Definition float_text (s : rstr) : Prop :=
  (exists negative m e, decimal_text s negative m e) \/ (exists negative, infinity_text s negative) \/ nan_text s.
