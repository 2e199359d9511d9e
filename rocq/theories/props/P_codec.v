(** C01-C12: integers, primitives, strings, truncation, id lists, collections. *)
From Verif.model Require Import Base F32 Utf8 Prim Coll.
From Verif.spec Require Import Spec.
From Verif.proofs Require Import Prim_facts F32_bits Prim_codec Utf8_facts Coll_facts Codec_lemmas.

(** C01. Full statement: [forall v, v < 2^64 -> reads_back enc_u64 dec_u64 v v]. It is false;
    the failing numbers are exactly those from 2^56 up to 2^63 - 1. *)
Theorem C01_u64_roundtrip_refuted : exists v, v < 2 ^ 64 /\ ~ reads_back enc_u64 dec_u64 v v.
Proof. exists (2 ^ 56). split; [done|]. intros H. specialize (H []). vm_compute in H. discriminate. Qed.
Print Assumptions C01_u64_roundtrip_refuted.
Theorem C01_u64_roundtrip_partial : forall v, v < 2 ^ 64 ->
  (forall rest, dec_u64 (enc_u64 v ++ rest) = Done (rest, v)) <-> ~ (2 ^ 56 <= v < 2 ^ 63).
Proof. exact u64_roundtrip_iff. Qed.
Print Assumptions C01_u64_roundtrip_partial.
(** What is read instead, for the numbers that fail: the byte after the number is
    swallowed, and added as 2^63 when it is 1. *)
Theorem C01_u64_band_behaviour : forall v rest, 2 ^ 56 <= v < 2 ^ 63 ->
  dec_u64 (enc_u64 v ++ rest) =
    match rest with
    | [] => Nope
    | b :: rest' => Done (rest', v + (if b =? 1 then 2 ^ 63 else 0))
    end.
Proof. exact dec_enc_u64_band. Qed.
Print Assumptions C01_u64_band_behaviour.
Example C01_hyps : 2 ^ 56 <= 2 ^ 56 + 5 < 2 ^ 63 /\ dec_u64 (enc_u64 300 ++ [7]) = Done ([7], 300) /\
  dec_u64 (enc_u64 (2 ^ 56) ++ [1; 7]) = Done ([7], 2 ^ 56 + 2 ^ 63).
Proof. split; [done|]. split; vm_compute; reflexivity. Qed.

(** C02 *)
Theorem C02_u64_roundtrip : forall v, (v < 2 ^ 56 \/ 2 ^ 63 <= v < 2 ^ 64) ->
  forall rest, dec_u64 (enc_u64 v ++ rest) = Done (rest, v).
Proof. exact rt_u64. Qed.
Print Assumptions C02_u64_roundtrip.
Theorem C02_usize_roundtrip : forall P v, v < 2 ^ 56 -> v <= usize_max P ->
  forall rest, dec_usize P (enc_usize v ++ rest) = Done (rest, v).
Proof. exact usize_roundtrip. Qed.
Print Assumptions C02_usize_roundtrip.
Example C02_hyps : (300 < 2 ^ 56 \/ 2 ^ 63 <= 300 < 2 ^ 64) /\ 2 ^ 63 <= 2 ^ 64 - 1 < 2 ^ 64 /\
  300 <= usize_max wasm32 /\ enc_u64 300 = [172; 2].
Proof. repeat split; try (left; done); done. Qed.

(** C03 *)
Theorem C03_compact : forall v, v < 2 ^ 64 ->
  lenN (enc_u64 v) = N.max 1 ((N.size v + 6) / 7) /\ 1 <= lenN (enc_u64 v) <= 10 /\
  exists pre b, enc_u64 v = pre ++ [b] /\ b < 128 /\ Forall continues pre.
Proof. exact enc_compact. Qed.
Print Assumptions C03_compact.
Theorem C03_prefix_free : forall v w r s, enc_u64 v ++ r = enc_u64 w ++ s -> v = w /\ r = s.
Proof. exact enc_u64_prefix_free. Qed.
Print Assumptions C03_prefix_free.
Example C03_hyps : 2 ^ 64 - 1 < 2 ^ 64 /\ lenN (enc_u64 (2 ^ 64 - 1)) = 10 /\
  enc_u64 300 ++ [7] = enc_u64 300 ++ [7].
Proof. repeat split; vm_compute; done. Qed.

(** C04 *)
Theorem C04_decode_safe : forall bs, Forall is_byte bs ->
  (exists pre rest v, bs = pre ++ rest /\ dec_u64 bs = Done (rest, v) /\
     1 <= lenN pre <= 10 /\ v < 2 ^ 64) \/
  (dec_u64 bs = Nope /\ (bs = [] \/ (length bs = 9%nat /\ Forall continues (take 8 bs)))).
Proof. exact dec_u64_safe. Qed.
Print Assumptions C04_decode_safe.
Theorem C04_fails_iff : forall bs, Forall is_byte bs ->
  dec_u64 bs = Nope <-> bs = [] \/ (length bs = 9%nat /\ Forall continues (take 8 bs)).
Proof. exact dec_u64_fails. Qed.
Print Assumptions C04_fails_iff.
Example C04_hyps : Forall is_byte [255; 3; 9] /\ dec_u64 [255; 3; 9] = Done ([9], 511) /\
  dec_u64 [128; 128; 128; 128; 128; 128; 128; 128; 5] = Nope.
Proof. split; [repeat constructor|]. split; vm_compute; done. Qed.

(** C05. Full statement: [forall v k, v < 2^64 -> 0 < k < length (enc_u64 v) ->
    dec_u64 (take k (enc_u64 v)) = Nope]. It is false. *)
Theorem C05_truncated_refuted : exists v k, v < 2 ^ 64 /\ (0 < k < length (enc_u64 v))%nat /\
  dec_u64 (take k (enc_u64 v)) = Done ([], 44).
Proof. exists 300, 1%nat. vm_compute. split; [done|]. split; [lia|done]. Qed.
Print Assumptions C05_truncated_refuted.
(** Exactly the cuts after nine bytes are rejected; every other cut reads the low bits. *)
Theorem C05_truncated_partial : forall v k, v < 2 ^ 64 -> (0 < k < length (enc_u64 v))%nat ->
  dec_u64 (take k (enc_u64 v)) = if Nat.eqb k 9 then Nope else Done ([], v mod 128 ^ N.of_nat k).
Proof. exact dec_u64_truncated. Qed.
Print Assumptions C05_truncated_partial.
Example C05_hyps : length (enc_u64 (2 ^ 63)) = 10%nat /\ dec_u64 (take 9 (enc_u64 (2 ^ 63))) = Nope /\
  dec_u64 (take 3 (enc_u64 123456789)) = Done ([], 123456789 mod 128 ^ 3).
Proof. split; [vm_compute; reflexivity|]. split; vm_compute; reflexivity. Qed.

(** C06 *)
Theorem C06_u32 : forall v, v < 2 ^ 32 -> reads_back enc_u32 dec_u32 v v.
Proof. exact rt_u32. Qed.
Print Assumptions C06_u32.
Theorem C06_u32_rejects : forall bs rest v, dec_u32 bs = Done (rest, v) -> v < 2 ^ 32.
Proof. exact dec_u32_small. Qed.
Print Assumptions C06_u32_rejects.
Theorem C06_char : forall c, is_scalar c = true -> reads_back enc_char dec_char c c.
Proof. exact rt_char. Qed.
Print Assumptions C06_char.
Theorem C06_char_scalar : forall bs rest c, dec_char bs = Done (rest, c) ->
  c <= 1114111 /\ ~ (55296 <= c <= 57343).
Proof. exact dec_char_scalar. Qed.
Print Assumptions C06_char_scalar.
Theorem C06_bool : forall b, reads_back enc_bool dec_bool b b.
Proof. exact rt_bool. Qed.
Print Assumptions C06_bool.
Theorem C06_u8 : forall b, is_byte b -> reads_back enc_u8 dec_u8 b b /\ enc_u8 b = [b].
Proof. exact u8_roundtrip. Qed.
Print Assumptions C06_u8.
Theorem C06_f32 : forall x, valid_f32 x -> is_nan x = false ->
  reads_back enc_f32 dec_f32 x x /\ Forall is_byte (enc_f32 x) /\ length (enc_f32 x) = 4%nat.
Proof. exact f32_roundtrip. Qed.
Print Assumptions C06_f32.
Theorem C06_primitives_never_panic : forall P bs, 
  dec_u64 bs <> Panic /\ dec_usize P bs <> Panic /\ dec_u32 bs <> Panic /\ dec_char bs <> Panic /\
  dec_bool bs <> Panic /\ dec_u8 bs <> Panic /\ dec_f32 bs <> Panic.
Proof. exact primitives_no_panic. Qed.
Print Assumptions C06_primitives_never_panic.
Example C06_hyps : 4294967295 < 2 ^ 32 /\ is_scalar 128512 = true /\ valid_f32 f32_0_8 /\
  is_nan f32_0_8 = false /\ enc_f32 f32_0_8 = [63; 76; 204; 205] /\
  dec_char (enc_u64 55296) = Nope /\ dec_u32 (enc_u64 (2 ^ 32)) = Nope.
Proof. repeat split; vm_compute; done. Qed.

(** C07 *)
Theorem C07_string_roundtrip : forall P s, str_ok P s -> reads_back enc_str (dec_str P) s s.
Proof. exact rt_str. Qed.
Print Assumptions C07_string_roundtrip.
Theorem C07_decoded_string_is_payload : forall P bs rest s, dec_str P bs = Done (rest, s) ->
  valid_str s /\ exists mid, dec_usize P bs = Done (mid, str_len s) /\ mid = utf8 s ++ rest.
Proof. exact dec_str_sound. Qed.
Print Assumptions C07_decoded_string_is_payload.
(** UTF-8 is injective and its decoder accepts exactly the encodings. *)
Theorem C07_utf8 : forall bs s, utf8_decode bs = Some s <-> valid_str s /\ bs = utf8 s.
Proof. exact utf8_decode_iff. Qed.
Print Assumptions C07_utf8.
Example C07_hyps : str_ok wasm32 [230; 248; 229; 8364; 128512] /\
  dec_str wasm32 [2; 195; 166; 7] = Done ([7], [230]).
Proof. split; [split; [repeat constructor|split; vm_compute; done]|vm_compute; done]. Qed.

(** C08 *)
Theorem C08_string_panics_iff : forall P bs, dec_str P bs = Panic <->
  exists rest len, dec_usize P bs = Done (rest, len) /\ lenN rest < len.
Proof. exact dec_str_panics. Qed.
Print Assumptions C08_string_panics_iff.
Theorem C08_string_fails_iff : forall P bs, dec_str P bs = Nope <->
  dec_usize P bs = Nope \/
  exists rest len, dec_usize P bs = Done (rest, len) /\ len <= lenN rest /\
    ~ exists s, valid_str s /\ utf8 s = take (N.to_nat len) rest.
Proof. exact dec_str_fails. Qed.
Print Assumptions C08_string_fails_iff.
Theorem C08_string_succeeds_iff : forall P bs rest s, dec_str P bs = Done (rest, s) <->
  valid_str s /\ exists mid, dec_usize P bs = Done (mid, str_len s) /\ mid = utf8 s ++ rest.
Proof. exact dec_str_succeeds. Qed.
Print Assumptions C08_string_succeeds_iff.
Example C08_hyps : dec_str wasm32 [5; 97; 98] = Panic /\ dec_str wasm32 [2; 195; 40] = Nope /\
  dec_str wasm32 [2; 97; 98; 99] = Done ([99], [97; 98]).
Proof. repeat split; vm_compute; done. Qed.

(** C09 *)
Theorem C09_truncation : forall s max,
  let r := limit_string_len s max in
  (exists t, s = r ++ t /\
     (t = [] \/ (exists t', t = 32 :: t' /\ str_len r <= max) \/ (32 ∉ r /\ max < str_len r))) /\
  (str_len s <= max -> r = s) /\
  str_len r <= max + 4 /\
  limit_string_len r max = r.
Proof. exact truncation. Qed.
Print Assumptions C09_truncation.
(** The cut is at the last space that starts within the limit, if there is one. *)
Theorem C09_truncation_cut : forall s max r, limit_string_len s max = r <->
  (r = s /\ forall pre c post, s = pre ++ c :: post -> str_len pre <= max) \/
  (exists pre c post, s = pre ++ c :: post /\ max < str_len pre /\
     (forall p d q, pre = p ++ d :: q -> str_len p <= max) /\
     ((exists w, pre = r ++ 32 :: w /\ 32 ∉ w) \/ (r = pre /\ 32 ∉ pre))).
Proof. exact truncation_cut. Qed.
Print Assumptions C09_truncation_cut.
Example C09_hyps : limit_string_len [104; 101; 106; 32; 100; 105; 103; 32; 111; 103] 5 = [104; 101; 106] /\
  limit_string_len [104; 101; 106; 100; 105; 103; 111; 103] 5 = [104; 101; 106; 100; 105; 103].
Proof. split; vm_compute; done. Qed.

(** C10. Full statement: [forall s, s <> [] -> limit_string_len s 100 <> []]. It is false. *)
Theorem C10_nonempty_description_refuted : exists s, valid_str s /\ s <> [] /\ limit_string_len s 100 = [].
Proof.
  exists (32 :: replicate 101 97). split; [|split; [done|vm_compute; done]].
  unfold valid_str. apply Forall_cons; split; [done|]. by apply Forall_replicate.
Qed.
Print Assumptions C10_nonempty_description_refuted.
(** Lost exactly when a description of over 100 bytes starts with the only space in its reach. *)
Theorem C10_nonempty_description_partial : forall s,
  (s <> [] /\ limit_string_len s 100 = []) <->
  exists w c post, s = 32 :: w ++ c :: post /\ 32 ∉ w /\ 100 < str_len (32 :: w) /\
    (forall p d q, 32 :: w = p ++ d :: q -> str_len p <= 100).
Proof. exact lost_description. Qed.
Print Assumptions C10_nonempty_description_partial.
Example C10_hyps : limit_string_len (replicate 50 97 ++ 32 :: replicate 60 97) 100 = replicate 50 97 /\
  limit_string_len (32 :: replicate 60 97 ++ 32 :: replicate 60 97) 100 = 32 :: replicate 60 97.
Proof. split; vm_compute; reflexivity. Qed.

(** C11 *)
Theorem C11_id_list_roundtrip : forall P l, len_ok P KIds (lenN l) -> Forall (size_ok P) l ->
  exists l', l' ≡ₚ l /\ ascending l' /\ reads_back enc_seq (dec_seq P) l l'.
Proof. exact seq_reads_back. Qed.
Print Assumptions C11_id_list_roundtrip.
Example C11_hyps : len_ok wasm32 KIds (lenN [5; 3; 3; 300]) /\ Forall (size_ok wasm32) [5; 3; 3; 300] /\
  dec_seq wasm32 (enc_seq [5; 3; 3; 300] ++ [1]) = Done ([1], [3; 3; 5; 300]).
Proof. split; [repeat split; vm_compute; done|]. split; [repeat constructor; vm_compute; done|vm_compute; done]. Qed.

(** C12 *)
Theorem C12_vec_roundtrip : forall P k A (enc : encoder A) (dec : decoder A) (l : list A),
  len_ok P k (lenN l) -> (forall x, x ∈ l -> reads_back enc dec x x) ->
  reads_back (enc_vec enc) (dec_vec P k dec) l l.
Proof. exact @rt_vec_id. Qed.
Print Assumptions C12_vec_roundtrip.
Theorem C12_map_roundtrip : forall P kd K (EqK : EqDecision K) (CK : Countable K) V (o : order_of (K * V))
    (enck : encoder K) (encv : encoder V) (deck : decoder K) (decv : decoder V) (m : gmap K V),
  valid_order o -> len_ok P kd (N.of_nat (size m)) ->
  (forall k v, m !! k = Some v -> reads_back enck deck k k /\ reads_back encv decv v v) ->
  reads_back (enc_map o enck encv) (dec_map P kd deck decv) m m.
Proof. exact @rt_map_id. Qed.
Print Assumptions C12_map_roundtrip.
Theorem C12_array_roundtrip : forall P n A (enc : encoder A) (dec : decoder A) (l : list A),
  length l = n -> size_ok P (lenN l) -> (forall x, x ∈ l -> reads_back enc dec x x) ->
  reads_back (enc_array enc) (dec_array P n dec) l l.
Proof. exact @rt_array. Qed.
Print Assumptions C12_array_roundtrip.
(** The hypotheses are met by, for instance, a map of strings to integers, in reverse order. *)
Example C12_hyps : exists m : gmap rstr N, size m = 2%nat /\
  reads_back (enc_map reverse enc_str enc_usize) (dec_map wasm32 KDataMap (dec_str wasm32) (dec_usize wasm32)) m m.
Proof. exact map_example. Qed.
