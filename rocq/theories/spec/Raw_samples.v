(** Concrete raw catalogues, for the satisfiability examples and counterexamples. *)
From Verif.model Require Import Base F32 Utf8 Prim Coll Data Gram Nodes Classic Lit Raw.
From Verif.spec Require Import Spec Samples.
From Coq Require Import String.
Local Open Scope string_scope.

Definition two_f32 : f32 := S754_finite false 8388608 (-22).
Definition str_one : rstr := lit "1".
Definition str_two : rstr := lit "2".
Definition str_half : rstr := lit "0.5".
Definition str_nan : rstr := lit "NaN".
(** A few price strings, read as Rust reads them. *)
Definition sample_parse (s : rstr) : option f32 :=
  if decide (s = str_one) then Some one_f32
  else if decide (s = str_two) then Some two_f32
  else if decide (s = str_half) then Some half_f32
  else if decide (s = str_nan) then Some S754_nan
  else None.

Definition raw_lamp : raw_product :=
  RawProduct (lit "a red lamp") [lit "new"; lit "sale"; lit "new"] (lit "Lamp") (lit "Acme") (lit "gid/7")
    [RawOption (lit "Colour") [lit "Red"; lit "Blue"; lit "Red"]; RawOption (lit "Size") [lit "Big"]]
    str_two [lit "lamp.png"; lit "lamp2.png"].
Definition raw_chair : raw_product :=
  RawProduct (lit "") [] (lit "Chair") (lit "Bolt") (lit "gid/12")
    [RawOption (lit "Size") [lit "Small"]] str_half [lit "chair.png"].
Definition raw_table : raw_product :=
  RawProduct (lit "four legs") [lit "sale"] (lit "Table") (lit "Acme") (lit "gid/9")
    [RawOption (lit "Colour") [lit "Blue"]; RawOption (lit "Colour") [lit "Green"]] str_two [lit "table.png"].
Definition sample_raw : list raw_product := [raw_lamp; raw_chair; raw_table].

(** A product with that price string and those images, and nothing else. *)
Definition raw_plain (price : rstr) (media : list rstr) : raw_product :=
  RawProduct [] [] [] [] [] [] price media.
(** A price that is not a number between two that are. *)
Definition nan_raw : list raw_product := [raw_plain str_two []; raw_plain str_nan []; raw_plain str_one []].
(** Only the second product has an image. *)
Definition pic : rstr := lit "pic.png".
Definition imageless_raw : list raw_product := [raw_plain str_one []; raw_plain str_one [pic]].
(** The second price is unreadable. *)
Definition unpriced_raw : list raw_product := [raw_lamp; raw_plain pic []].
