(** A directory with a catalogue of 128 products. *)
From Coq Require Import String.
From Verif.model Require Import Base F32 Utf8 Data Gram Indexer Nodes Classic Lit Raw Js Lib Json Disk.
From Verif.spec Require Import Spec Lib_spec Samples Raw_samples Gram_samples Lib_samples Json_samples.
Local Open Scope list_scope.

(** Products under the keys "", "a", "aa" and so on, priced 1 and otherwise empty. *)
Definition dull_entry (i : nat) : rstr :=
  lit """" ++ replicate i 97 ++ lit """: ["""", [], """", """", """", [], [[""1"",""""],[""1"",""""]], []]".
Definition dull_text : rstr :=
  lit "{" ++ dull_entry 0 ++ concat (map (fun i => lit "," ++ dull_entry i) (seq 1 127)) ++ lit "}".
Definition dull_index (file : list N) : list N :=
  match main ascii_low sample_parse host64 map_order hash_order no_order sample_order file with Done bytes => bytes | _ => [] end.
(** The index of another catalogue was written before. *)
Definition dull_disk : disk := <[in_path := utf8 dull_text]> (<[out_path := dull_index (utf8 sample_text)]> ∅).
(** The disk is full just before the end. *)
Definition dull_kept : nat := length (dull_index (utf8 dull_text)) - 129.
Definition dull_run (w : writing) : disk * ending :=
  run ascii_low sample_parse host64 map_order hash_order no_order sample_order false w dull_disk.
