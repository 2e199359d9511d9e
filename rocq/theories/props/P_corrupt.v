(** C135: a byte that was changed. *)
From Coq Require Import String.
From Verif.model Require Import Base F32 Utf8 Prim Coll Data Gram Indexer Nodes Classic Lit Raw Js Lib.
From Verif.spec Require Import Spec Data_spec Gram_spec Classic_spec Raw_spec Js_spec Lib_spec End_spec Corrupt_spec Samples Raw_samples
  Gram_samples Lib_samples Corrupt_samples.
From Verif.proofs Require Import Corrupt_end.

(** C135. In no file is it noticed that an ASCII char of a title became another one: the file is
    accepted and that product has another title. *)
Theorem C135_noticed_refuted : forall low parse P Q bo ro so input bytes i raw a c b,
  valid_build_order bo -> valid_ser_order so -> low_ok low -> parse_ok parse ->
  raw_fits Q low input -> total_grams (map (raw_text low) input) < 2 ^ 32 ->
  index_and_serialize low parse P bo ro so input = Done bytes ->
  input !! i = Some raw -> r_title raw = a ++ c :: b -> c < 128 ->
  exists before after, bytes = before ++ c :: after /\
  (forall x st, x < 128 -> s_index_dead st = false -> s_classic_dead st = false ->
     exists gi cl, initialize Q st (before ++ x :: after) = (loaded gi cl, Done true) /\
       map p_title (c_products (gi_container gi)) = <[i := a ++ x :: b]> (map r_title input) /\
       map p_id (c_products (gi_container gi)) = map r_id input) /\
  (forall x st, 128 <= x -> initialize Q st (before ++ x :: after) = (st, Panic)).
Proof. exact changed_file. Qed.
Print Assumptions C135_noticed_refuted.
(** What holds: nothing but that title is different; and any other byte in its place is noticed. *)
Theorem C135_noticed_partial : forall P n o gi cl i p a c b, valid_ser_order o -> gram_index_ok P n gi ->
  classic_ok P (c_products (gi_container gi)) cl ->
  c_products (gi_container gi) !! i = Some p -> p_title p = a ++ c :: b -> c < 128 ->
  exists before after, serialize_all o gi cl = before ++ c :: after /\
    (forall x, x < 128 -> let f := retitled (N.of_nat i) (a ++ x :: b) in
       deserialize_all P n (before ++ x :: after) = Done (index_with f (stored_gram_index gi), classic_with f (stored_classic cl))) /\
    (forall x, 128 <= x -> deserialize_all P n (before ++ x :: after) = Nope).
Proof. exact changed_byte. Qed.
Print Assumptions C135_noticed_partial.
(** The search for "chair" delivers a "Coair". *)
Example C135_hyps : sample_file !! 38%nat = Some 104 /\
  (initialize host64 lib_init (<[38%nat := 111]> sample_file)).2 = Done true /\
  titles (after [InitOp (<[38%nat := 111]> sample_file)]) = [lit "Lamp"; lit "Coair"; lit "Table"]%string /\
  answer (after [InitOp (<[38%nat := 111]> sample_file)]) word_chair no_cats no_tags None [] = Done [1] /\
  initialize host64 lib_init (<[38%nat := 200]> sample_file) = (lib_init, Panic).
Proof. exact coair_unnoticed. Qed.
