(** Concrete catalogues and indexes, for the satisfiability examples and counterexamples. *)
From Verif.model Require Import Base F32 Utf8 Prim Coll Data Gram Nodes Classic Lit.
From Verif.spec Require Import Spec Data_spec.
From Coq Require Import String.
Local Open Scope string_scope.

Definition no_order {A} : order_of A := fun l => l.
Definition rev_order {A} : order_of A := fun l => rev l.
Definition sample_order : ser_order := SerOrder rev_order no_order rev_order no_order rev_order.

Definition one_f32 : f32 := S754_finite false 8388608 (-23).
Definition half_f32 : f32 := S754_finite false 8388608 (-24).

Definition sample_vendors : vendor_manager := foldl vm_insert vm_new [lit "Acme"; lit "Bolt"].
Definition sample_p0 : product := Product (lit "hi there") (lit "Red lamp") (Vendor (lit "Acme") 0) (lit "gid/7") 0.
Definition sample_p1 : product := Product (lit "") (lit "Blue lamp") (Vendor (lit "Bolt") 1) (lit "gid/12") 1.
Definition sample_p2 : product := Product (lit "ho") (lit "Chair") (Vendor (lit "Acme") 0) (lit "gid/x") 2.
Definition sample_features : feature_set :=
  <[lit "price" := FFloat [one_f32; half_f32; one_f32]]> (<[lit "image_url" := FString [lit "a"; lit "b"]]> ∅).
Definition sample_container : container :=
  Container [sample_p0; sample_p1; sample_p2] sample_vendors sample_features.
Definition sample_root : node := Node 97 one_f32 [Node 98 half_f32 []; Node 0 one_f32 []].
Definition sample_index : gram_index :=
  GramIndex (<[97 := sample_root]> ∅)
    (<[[97; 98] := [sample_p2; sample_p0]]> (<[[97; 0] := [sample_p1]]> ∅)) sample_container.

Definition sample_option (name : rstr) (sid : N) (l : list product) : cat_option := CatOption name sid l (sids l).
Definition sample_categories : category_index :=
  [Category (lit "Colour") [sample_option (lit "Red") 0 [sample_p0]; sample_option (lit "Blue") 2 [sample_p1; sample_p2]] false;
   Category (lit "Size") [sample_option (lit "Big") 1 [sample_p0; sample_p1]] true].
Definition sample_tags : tag_index := [Tag (lit "new") [sample_p0; sample_p2] (sids [sample_p0; sample_p2]) 0].
Definition sample_orders : order_index := <[lit "Alphabetical" := [2; 0; 1]]> ∅.
Definition sample_classic : classic := Classic sample_categories sample_tags sample_orders.
(** The raw options from which [sample_categories] (up to the flag) is built. *)
Definition sample_raw_options : list (list raw_option) :=
  [[RawOption (lit "Colour") [lit "Red"]; RawOption (lit "Size") [lit "Big"]];
   [RawOption (lit "Colour") [lit "Blue"]; RawOption (lit "Size") [lit "Big"]];
   [RawOption (lit "Colour") [lit "Blue"]]].

(** A reader built with overflow checks. *)
Definition checked32 : platform :=
  {| usize_bits := 32; cap_max := fun _ => 2 ^ 27 - 1; overflow_checks := true |}.

(** A file with one tag whose id list is written as 1 followed by the difference 2^32 - 1. *)
Definition wrapping_file : list N :=
  enc_gram_index sample_order sample_index ++ enc_categories [] ++
  (enc_usize 1 ++ enc_str [116] ++ enc_usize 2 ++ enc_usize 1 ++ enc_usize (2 ^ 32 - 1)) ++
  enc_orders no_order ∅.
