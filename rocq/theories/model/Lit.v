(** The string literals of the code. *)
From Verif.model Require Import Base Utf8.
From Coq Require Import String Ascii.

(** A Rust string literal (ASCII). *)
Fixpoint lit (s : string) : rstr :=
  match s with
  | EmptyString => []
  | String c s' => N_of_ascii c :: lit s'
  end.

(** src/data/raw_parser.rs:77. *)
Definition s_image_url : rstr := lit "image_url".
(** src/data/raw_parser.rs:82, 168 and 176. *)
Definition s_price : rstr := lit "price".
(** src/data/raw_parser.rs:164. *)
Definition s_alphabetical : rstr := lit "Alphabetical".
(** src/data/raw_parser.rs:172. *)
Definition s_price_up : rstr := lit "Price low to high".
(** src/data/raw_parser.rs:185. *)
Definition s_price_down : rstr := lit "Price high to low".
(** src/js_interactable/feature_filter.rs:42. *)
Definition s_from : rstr := lit "from".
(** src/js_interactable/feature_filter.rs:43. *)
Definition s_to : rstr := lit "to".
(** src/js_interactable/feature_filter.rs:51. *)
Definition s_exact : rstr := lit "exact".
(** src/lib.rs:231. *)
Definition s_kunst : rstr := lit "kunst".
