(** Arrays of bytes in JSON texts. *)
From Coq Require Import String.
From Verif.model Require Import Base Utf8 Lit Json.
From Verif.spec Require Import Json_spec.
Local Open Scope N_scope.

(** The decimal digits [s] stand for the number [v]. *)
Inductive stands_for : rstr -> N -> Prop :=
| sf_nil : stands_for [] 0
| sf_digit s v d : stands_for s v -> d <= 9 -> stands_for (s ++ [48 + d])%list (10 * v + d).
(** The value is the byte [b], as a whole number without sign, point or exponent. *)
Definition is_byte (b : N) (v : tree) : Prop := exists s, v = TNum s /\ stands_for s b /\ b <= 255.
(** The text describes a structure whose field "arr" is the array [data] of bytes. *)
Definition describes_array (t : rstr) (data : list N) : Prop := exists v a,
  json_text t v /\ has_fields [lit "arr"] [a] v /\ is_array is_byte data a.

(** Samples. *)
Definition some_bytes : list N := [0; 7; 42; 100; 255].
Definition spaced_text : rstr := lit "  { ""x"": 1.5e3 , ""arr"" : [ 0,7,42 , 100, 255 ] } ".
