(** Concrete catalogue texts. *)
From Coq Require Import String.
From Verif.model Require Import Base F32 Utf8 Prim Coll Data Gram Indexer Nodes Classic Lit Raw Js Lib Json.
From Verif.spec Require Import Spec Samples Raw_samples Gram_samples.
Local Open Scope string_scope.

(** The catalogue [sample_raw], with a field that is skipped, escapes where they are allowed,
    structures written as arrays, and fields in another order. *)
Definition sample_text : rstr := lit "{ ""lamp"": {""id"": ""gid/7"", ""title"": ""Lamp"", ""vendor"": ""Acme"", ""stock"": [1, -2.5e3, null, {""x"": false}],
   ""description"": ""a red lamp"", ""tags"": [""new"", ""sale"", ""new""],
   ""options"": [{""name"": ""Colour"", ""values"": [""Red"", ""Blue"", ""Red""]}, {""name"": ""Size"", ""values"": [""Big""]}],
   ""price"": {""min"": {""amount"": ""2"", ""currencyCode"": ""DKK""}, ""max"": {""amount"": ""3"", ""currencyCode"": ""DKK""}},
   ""media"": [{""url"": ""lamp.png""}, {""url"": ""lamp2.png""}]},
  ""chair"": ["""", [], ""Chair"", ""Bolt"", ""gid/12"", [[""Size"", [""Small""]]], [[""0.5"", """"], [""1"", """"]], [[""chair.png""]]],
  ""table"": {""media"": [{""url"": ""table.png""}],
   ""price"": {""max"": {""amount"": ""2"", ""currencyCode"": ""DKK""}, ""min"": {""amount"": ""2"", ""currencyCode"": ""DKK""}},
   ""options"": [{""name"": ""Colour"", ""values"": [""Blue""]}, {""values"": [""Green""], ""name"": ""Colour""}],
   ""id"": ""gid/9"", ""vendor"": ""Acme"", ""title"": ""Table"", ""tags"": [""sale""], ""description"": ""four legs""} }
".
Definition sample_entries : list (rstr * raw_product) :=
  [(lit "lamp", raw_lamp); (lit "chair", raw_chair); (lit "table", raw_table)].
(** A plain product with that description and title, priced 1. *)
Definition titled (description title : rstr) : raw_product :=
  RawProduct description [] title (lit "V") (lit "1") [] str_one [].
(** The title has an escaped quotation mark; the description may have one. *)
Definition quoted_text : rstr := lit "{""k"": {""description"": """", ""tags"": [], ""title"": ""12\"" vinyl"", ""vendor"": ""V"", ""id"": ""1"", ""options"": [], ""price"": {""min"": {""amount"": ""1"", ""currencyCode"": ""DKK""}, ""max"": {""amount"": ""1"", ""currencyCode"": ""DKK""}}, ""media"": []}}".
Definition quoted_entries : list (rstr * raw_product) := [(lit "k", titled [] (lit "12"" vinyl"))].
Definition quoted_description_text : rstr := lit "{""k"": {""description"": ""12\"" vinyl"", ""tags"": [], ""title"": """", ""vendor"": ""V"", ""id"": ""1"", ""options"": [], ""price"": {""min"": {""amount"": ""1"", ""currencyCode"": ""DKK""}, ""max"": {""amount"": ""1"", ""currencyCode"": ""DKK""}}, ""media"": []}}".
Definition quoted_description_entries : list (rstr * raw_product) := [(lit "k", titled (lit "12"" vinyl") [])].
(** Two products under the same key. *)
Definition twice_text : rstr := lit "{""k"": {""description"": """", ""tags"": [], ""title"": ""First"", ""vendor"": ""V"", ""id"": ""1"", ""options"": [], ""price"": {""min"": {""amount"": ""1"", ""currencyCode"": ""DKK""}, ""max"": {""amount"": ""1"", ""currencyCode"": ""DKK""}}, ""media"": []}, ""k"": {""description"": """", ""tags"": [], ""title"": ""Second"", ""vendor"": ""V"", ""id"": ""1"", ""options"": [], ""price"": {""min"": {""amount"": ""1"", ""currencyCode"": ""DKK""}, ""max"": {""amount"": ""1"", ""currencyCode"": ""DKK""}}, ""media"": []}}".
Definition twice_entries : list (rstr * raw_product) :=
  [(lit "k", titled [] (lit "First")); (lit "k", titled [] (lit "Second"))].
(** A price that is not a number. *)
Definition priceless_text : rstr := lit "{""k"": {""description"": """", ""tags"": [], ""title"": ""T"", ""vendor"": ""V"", ""id"": ""1"", ""options"": [], ""price"": {""min"": {""amount"": ""free"", ""currencyCode"": ""DKK""}, ""max"": {""amount"": ""free"", ""currencyCode"": ""DKK""}}, ""media"": []}}".
Definition priceless_entries : list (rstr * raw_product) :=
  [(lit "k", RawProduct [] [] (lit "T") (lit "V") (lit "1") [] (lit "free") [])].
(** Not JSON; JSON but no catalogue. *)
Definition broken_text : rstr := lit "{""k"": }".
Definition other_text : rstr := lit "[1, 2]".
(** Two orders of the map of products. *)
Definition map_order : order_of (rstr * raw_product) := fun l => l.
Definition map_order_rev : order_of (rstr * raw_product) := fun l => rev l.
