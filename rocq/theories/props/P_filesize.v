(** C132, C133: how many bytes a file takes, and what makes it larger. *)
From Coq Require Import String.
From Verif.model Require Import Base F32 Utf8 Prim Coll Data Gram Indexer Nodes Classic Lit Raw Js Lib.
From Verif.spec Require Import Spec Data_spec Gram_spec Classic_spec Raw_spec Cost_spec Samples Raw_samples Gram_samples Lib_samples Filesize_spec.
From Verif.proofs Require Import Filesize_grow.

(** C132. The number of bytes of a file, from the raw catalogue. *)
Theorem C132_size : forall low parse P input,
  lenN input < 2 ^ 64 -> lenN input <= usize_max P -> total_grams (map (raw_text low) input) < 2 ^ 32 ->
  exists limit, cutoff_for (lenN input) limit /\ forall n bo ro so bytes, (1 <= n)%nat -> valid_build_order bo -> valid_ser_order so ->
    index_and_serialize_with_n low parse P n bo ro so input = Done bytes -> lenN bytes = file_bytes low n limit input.
Proof. exact file_sizes. Qed.
Print Assumptions C132_size.
(** A larger gram size never makes the file smaller. *)
Theorem C132_larger : forall low parse P n m bo bo' ro ro' so so' input bytes bytes', (1 <= n <= m)%nat ->
  valid_build_order bo -> valid_build_order bo' -> valid_ser_order so -> valid_ser_order so' ->
  total_grams (map (raw_text low) input) < 2 ^ 32 ->
  index_and_serialize_with_n low parse P n bo ro so input = Done bytes ->
  index_and_serialize_with_n low parse P m bo' ro' so' input = Done bytes' ->
  lenN bytes <= lenN bytes'.
Proof. exact larger_grams. Qed.
Print Assumptions C132_larger.
(** It makes it larger, unless no text is longer than [n] chars and no posting list is kept. *)
Theorem C132_same : forall low parse P n m bo bo' ro ro' so so' input bytes bytes', (1 <= n < m)%nat ->
  valid_build_order bo -> valid_build_order bo' -> valid_ser_order so -> valid_ser_order so' ->
  lenN input < 2 ^ 64 -> lenN input <= usize_max P -> total_grams (map (raw_text low) input) < 2 ^ 32 ->
  index_and_serialize_with_n low parse P n bo ro so input = Done bytes ->
  index_and_serialize_with_n low parse P m bo' ro' so' input = Done bytes' ->
  exists limit, cutoff_for (lenN input) limit /\ (lenN bytes = lenN bytes' <->
    Forall (fun raw => length (raw_text low raw) <= n)%nat input /\
    forall raw key, raw ∈ input -> key ∈ windows n (raw_text low raw) -> limit <= lenN (places n (map (raw_text low) input) key)).
Proof. exact same_size. Qed.
Print Assumptions C132_same.
Example C132_hyps : map (fun n => lenN <$> index_and_serialize_with_n ascii_low sample_parse host64 n hash_order no_order sample_order five_raw)
    [4; 5; 6]%nat = [Done 1420; Done 1648; Done 1870] /\
  map (fun n => lenN <$> index_and_serialize_with_n ascii_low sample_parse host64 n hash_order no_order sample_order [blank_raw; blank_raw])
    [4; 5; 6]%nat = [Done 91; Done 91; Done 91].
Proof. split; vm_compute; reflexivity. Qed.

(** C133. More products can make a smaller file: posting lists that become too long are dropped. *)
Theorem C133_growth_refuted : exists low parse input raw, prices_parse parse (input ++ [raw]) /\ total_grams (map (raw_text low) (input ++ [raw])) < 2 ^ 32 /\
  forall P bo ro so, 6 <= usize_max P -> valid_build_order bo -> valid_ser_order so -> exists bytes bytes',
    index_and_serialize low parse P bo ro so input = Done bytes /\
    index_and_serialize low parse P bo ro so (input ++ [raw]) = Done bytes' /\
    lenN bytes' < lenN bytes.
Proof. exists ascii_low, sample_parse, five_raw, alphabet_raw. exact shrunk. Qed.
Print Assumptions C133_growth_refuted.
(** Otherwise the file grows by at least a byte for each product. *)
Theorem C133_growth_partial : forall low parse P n bo bo' ro ro' so so' input extra bytes bytes', (1 <= n)%nat ->
  valid_build_order bo -> valid_build_order bo' -> valid_ser_order so -> valid_ser_order so' ->
  lenN (input ++ extra) < 2 ^ 64 -> lenN (input ++ extra) <= usize_max P -> total_grams (map (raw_text low) (input ++ extra)) < 2 ^ 32 ->
  index_and_serialize_with_n low parse P n bo ro so input = Done bytes ->
  index_and_serialize_with_n low parse P n bo' ro' so' (input ++ extra) = Done bytes' ->
  exists limit limit', cutoff_for (lenN input) limit /\ cutoff_for (lenN (input ++ extra)) limit' /\
    ((forall raw key, raw ∈ input -> key ∈ windows n (raw_text low raw) ->
        lenN (places n (map (raw_text low) input) key) < limit -> lenN (places n (map (raw_text low) (input ++ extra)) key) < limit') ->
     lenN bytes + lenN extra <= lenN bytes').
Proof. exact more_products. Qed.
Print Assumptions C133_growth_partial.
(** Five products, a sixth that makes the file smaller, and a sixth that makes it larger. *)
Example C133_hyps : exists bytes bytes' bytes'',
  index_and_serialize ascii_low sample_parse host64 hash_order no_order sample_order five_raw = Done bytes /\
  index_and_serialize ascii_low sample_parse host64 hash_order no_order sample_order (five_raw ++ [alphabet_raw]) = Done bytes' /\
  index_and_serialize ascii_low sample_parse host64 hash_order no_order sample_order (five_raw ++ [blank_raw]) = Done bytes'' /\
  (lenN bytes, lenN bytes', lenN bytes'') = (file_bytes ascii_low 5 4 five_raw, file_bytes ascii_low 5 4 (five_raw ++ [alphabet_raw]),
    file_bytes ascii_low 5 4 (five_raw ++ [blank_raw])) /\
  (lenN bytes, lenN bytes', lenN bytes'') = (1648, 1335, 1659).
Proof. exact five_bytes. Qed.
Example C133_kept : forall raw key, raw ∈ five_raw -> key ∈ windows 5 (raw_text ascii_low raw) ->
  lenN (places 5 (map (raw_text ascii_low) five_raw) key) < 4 -> lenN (places 5 (map (raw_text ascii_low) (five_raw ++ [blank_raw])) key) < 4.
Proof. exact five_kept. Qed.
