(** Rust strings: lists of Unicode scalar values, with their UTF-8 bytes. *)
From Verif.model Require Import Base.

(** A Rust [char] is a Unicode scalar value. *)
Definition is_scalar (c : N) : bool :=
  (c <? 55296) || ((57344 <=? c) && (c <=? 1114111)).

(** A Rust [String]/[&str], as its [chars()]. All Rust strings satisfy
    [valid_str]. *)
Definition rstr := list N.
Definition valid_str (s : rstr) : Prop := Forall (fun c => is_scalar c = true) s.

(** UTF-8 bytes of one char. *)
Definition utf8_char (c : N) : list N :=
  if c <? 128 then [c]
  else if c <? 2048 then [192 + c / 64; 128 + c mod 64]
  else if c <? 65536 then
    [224 + c / 4096; 128 + (c / 64) mod 64; 128 + c mod 64]
  else
    [240 + c / 262144; 128 + (c / 4096) mod 64; 128 + (c / 64) mod 64; 128 + c mod 64].

(** [str::bytes] *)
Definition utf8 (s : rstr) : list N := concat (map utf8_char s).

(** [str::len]: number of bytes. *)
Definition str_len (s : rstr) : N := lenN (utf8 s).
Definition char_len (c : N) : N := lenN (utf8_char c).

Definition is_cont (b : N) : bool := (128 <=? b) && (b <=? 191).

(** [String::from_utf8]: strict UTF-8 validation and decoding
    (core::str::from_utf8 rejects overlong forms, surrogates and codes above
    10FFFF). *)
Fixpoint utf8_decode (bs : list N) : option rstr :=
  match bs with
  | [] => Some []
  | b0 :: r0 =>
    if b0 <? 128 then cons b0 <$> utf8_decode r0
    else match r0 with
    | [] => None
    | b1 :: r1 =>
      if (194 <=? b0) && (b0 <=? 223) then
        if is_cont b1 then cons ((b0 - 192) * 64 + (b1 - 128)) <$> utf8_decode r1
        else None
      else match r1 with
      | [] => None
      | b2 :: r2 =>
        if (224 <=? b0) && (b0 <=? 239) then
          let lo := if b0 =? 224 then 160 else 128 in
          let hi := if b0 =? 237 then 159 else 191 in
          if (lo <=? b1) && (b1 <=? hi) && is_cont b2 then
            cons ((b0 - 224) * 4096 + (b1 - 128) * 64 + (b2 - 128)) <$> utf8_decode r2
          else None
        else match r2 with
        | [] => None
        | b3 :: r3 =>
          if (240 <=? b0) && (b0 <=? 244) then
            let lo := if b0 =? 240 then 144 else 128 in
            let hi := if b0 =? 244 then 143 else 191 in
            if (lo <=? b1) && (b1 <=? hi) && is_cont b2 && is_cont b3 then
              cons ((b0 - 240) * 262144 + (b1 - 128) * 4096 + (b2 - 128) * 64 + (b3 - 128))
                <$> utf8_decode r3
            else None
          else None
        end
      end
    end
  end.

(** [str::split(' ')]: the segments between spaces, including empty ones. *)
Fixpoint split_space (s : rstr) : list rstr :=
  match s with
  | [] => [[]]
  | c :: s' =>
    if c =? 32 then [] :: split_space s'
    else match split_space s' with
         | [] => [[c]] (* impossible: split_space is never empty *)
         | w :: ws => (c :: w) :: ws
         end
  end.

(** [Ord for str]: lexicographic comparison of the UTF-8 bytes. *)
Fixpoint bytes_cmp (a b : list N) : comparison :=
  match a, b with
  | [], [] => Eq
  | [], _ :: _ => Lt
  | _ :: _, [] => Gt
  | x :: a', y :: b' => match N.compare x y with Eq => bytes_cmp a' b' | c => c end
  end.
Definition str_cmp (a b : rstr) : comparison := bytes_cmp (utf8 a) (utf8 b).

(** [str::starts_with(&str)]: byte prefix. *)
Fixpoint bytes_prefix (p b : list N) : bool :=
  match p, b with
  | [], _ => true
  | _ :: _, [] => false
  | x :: p', y :: b' => (x =? y) && bytes_prefix p' b'
  end.
Definition starts_with (s p : rstr) : bool := bytes_prefix (utf8 p) (utf8 s).

(** [==] on strings. *)
Definition str_eqb (a b : rstr) : bool := bool_decide (a = b).
