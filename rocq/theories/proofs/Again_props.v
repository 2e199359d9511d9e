(** Files of catalogues: none starts another. *)
From Verif.model Require Import Base F32 Utf8 Prim Coll Data Gram Indexer Nodes Classic Lit Raw Js Lib.
From Verif.spec Require Import Spec Data_spec Gram_spec Classic_spec Raw_spec Js_spec Lib_spec End_spec.
From Verif.proofs Require Import Base_facts Data_facts File_facts Raw_facts End_facts Again_facts.

Lemma no_file_starts_another low parse P P' Q bo bo' ro ro' so so' input input' :
  valid_build_order bo -> valid_build_order bo' -> valid_ser_order so -> valid_ser_order so' -> low_ok low -> parse_ok parse ->
  raw_fits Q low input -> raw_fits Q low input' ->
  total_grams (map (raw_text low) input) < 2 ^ 32 -> total_grams (map (raw_text low) input') < 2 ^ 32 ->
  forall bytes more, index_and_serialize low parse P bo ro so input = Done bytes ->
  index_and_serialize low parse P' bo' ro' so' input' = Done (bytes ++ more) -> more = [] /\ length input = length input' .
Proof.
  intros Hbo Hbo' Hso Hso' Hlow Hparse Hf Hf' Hlim Hlim' bytes more E E'.
  destruct (indexed_inv _ _ _ _ _ _ _ _ _ E) as (c & cl & gi & O & I & ->).
  destruct (indexed_inv _ _ _ _ _ _ _ _ _ E') as (c' & cl' & gi' & O' & I' & Eb).
  destruct (file_storable low parse P Q bo input Hbo Hlow Hparse Hf Hlim c cl gi O I) as [Hg Hc].
  destruct (file_storable low parse P' Q bo' input' Hbo' Hlow Hparse Hf' Hlim' c' cl' gi' O' I') as [Hg' Hc'].
  destruct (file_unique Q ngram_index_size so so' gi gi' cl cl' more [] Hso Hso' Hg Hc Hg' Hc') as (-> & Hs & _).
  { rewrite app_nil_r. exact Eb. }
  split; [done|]. apply (f_equal (fun g => length (c_products (gi_container g)))) in Hs.
  cbn [stored_gram_index gi_container stored_container c_products] in Hs. rewrite !map_length in Hs.
  rewrite (index_container _ _ _ _ _ _ I), (index_container _ _ _ _ _ _ I') in Hs.
  destruct (optimize_products parse bo input c cl O) as [D _]. destruct (optimize_products parse bo' input' c' cl' O') as [D' _].
  by rewrite (Forall2_length _ _ _ D), (Forall2_length _ _ _ D'), Hs.
Qed.
