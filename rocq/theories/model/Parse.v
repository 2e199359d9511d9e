(** [str::parse::<f32>], used for prices in src/data/raw_parser.rs:82: the grammar of
    core::num::dec2flt (Rust 2021, i.e. 1.56 or later).

    Simplification: dec2flt uses several algorithms that all return the float nearest to the
    decimal number; here that float is computed by one exact division. The text is a list of
    chars instead of bytes (all chars of a number are ASCII). *)
From Coq Require Import String.
From Verif.model Require Import Base F32 Utf8 Lit.

(** dec2flt/parse.rs, [parse_digits]: the digits at the start, and the rest. *)
Definition digit_of (c : N) : option N := if (48 <=? c) && (c <=? 57) then Some (c - 48) else None.
Fixpoint take_digits (s : rstr) : list N * rstr :=
  match s with
  | c :: r => match digit_of c with
              | Some d => let '(ds, r') := take_digits r in (d :: ds, r')
              | None => ([], s)
              end
  | [] => ([], [])
  end.
(** dec2flt/parse.rs, [try_parse_digits]: 10 * mantissa + digit. *)
Definition mantissa (ds : list N) : N := fold_left (fun a d => 10 * a + d) ds 0.
(** dec2flt/parse.rs, [parse_scientific]: the exponent stops growing at 0x10000. *)
Definition saturating (ds : list N) : N := fold_left (fun a d => if a <? 65536 then 10 * a + d else a) ds 0.
Definition parse_scientific (s : rstr) : option (Z * rstr) :=
  let '(negative, s) := match s with
                        | c :: r => if c =? 45 then (true, r) else if c =? 43 then (false, r) else (false, s)
                        | [] => (false, [])
                        end in
  match take_digits s with
  | ([], _) => None
  | (ds, r) => Some (if negative then - Z.of_N (saturating ds) else Z.of_N (saturating ds), r)%Z
  end.
(** dec2flt/parse.rs, [parse_number], the part after the point: its digits, and the rest. *)
Definition parse_fraction (s : rstr) : list N * rstr :=
  match s with
  | c :: r => if c =? 46 then take_digits r else ([], s)
  | [] => ([], [])
  end.
(** dec2flt/parse.rs, [parse_number]: the number [m * 10 ^ e]. *)
Definition parse_number (s : rstr) : option (N * Z) :=
  let '(int, s) := take_digits s in
  let '(frac, s) := parse_fraction s in
  let exponent := (- Z.of_nat (List.length frac))%Z in
  match (int ++ frac)%list with
  | [] => None
  | ds =>
      match s with
      | [] => Some (mantissa ds, exponent)
      | c :: r =>
          if (c =? 101) || (c =? 69) then
            match parse_scientific r with
            | Some (k, []) => Some (mantissa ds, exponent + k)%Z
            | _ => None
            end
          else None
      end
  end.
(** dec2flt/parse.rs, [parse_inf_nan]: without regard to case. *)
Definition fold_case (c : N) : N := if (65 <=? c) && (c <=? 90) then c + 32 else c.
Definition parse_inf_nan (s : rstr) (negative : bool) : option f32 :=
  let s := map fold_case s in
  if decide (s = lit "nan") then Some S754_nan
  else if decide (s = lit "inf") then Some (S754_infinity negative)
  else if decide (s = lit "infinity") then Some (S754_infinity negative)
  else None.
(** The float nearest to [num / den], ties to even. *)
Definition nearest_ratio (prec emax : Z) (negative : bool) (num : N) (den : positive) : spec_float :=
  match num with
  | N0 => S754_zero negative
  | Npos n =>
      let '(m, e, l) := SFdiv_core_binary prec emax (Zpos n) 0 (Zpos den) 0 in
      binary_round_aux prec emax negative m e l
  end.
Definition pow10 (n : N) : positive := N.succ_pos (N.pred (10 ^ n)).
Definition nearest_decimal (prec emax : Z) (negative : bool) (m : N) (e : Z) : spec_float :=
  nearest_ratio prec emax negative (m * Npos (pow10 (Z.to_N e))) (pow10 (Z.to_N (- e))).
(** dec2flt/mod.rs, [dec2flt]. *)
Definition parse_f32 (s : rstr) : option f32 :=
  match s with
  | [] => None
  | c :: r =>
      let negative := c =? 45 in
      let s := if (c =? 45) || (c =? 43) then r else s in
      match s with
      | [] => None
      | _ =>
          match parse_number s with
          | Some (m, e) => Some (nearest_decimal prec32 emax32 negative m e)
          | None => parse_inf_nan s negative
          end
      end
  end.
