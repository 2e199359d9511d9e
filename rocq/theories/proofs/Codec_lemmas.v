(** Lemmas in the shape of the codec properties C01-C12. *)
From Verif.model Require Import Base F32 Utf8 Prim Coll.
From Verif.spec Require Import Spec.
From Verif.proofs Require Import Base_facts Sort_facts Prim_facts F32_bits Prim_codec Utf8_facts Coll_facts.
From Coq Require Import Sorting.Sorted.
From Coq Require Import ZifyBool ZifyNat ZifyN.
Ltac Zify.zify_post_hook ::= Z.div_mod_to_equations.

Lemma u64_band_loses v : 2 ^ 56 <= v < 2 ^ 63 -> exists rest, dec_u64 (enc_u64 v ++ rest) <> Done (rest, v).
Proof. intros H. exists []. by rewrite dec_enc_u64_band. Qed.

Lemma enc_compact v : v < 2 ^ 64 ->
  lenN (enc_u64 v) = N.max 1 ((N.size v + 6) / 7) /\ 1 <= lenN (enc_u64 v) <= 10 /\
  exists pre b, enc_u64 v = pre ++ [b] /\ b < 128 /\ Forall continues pre.
Proof.
  intros Hv. split; [apply enc_u64_length|]. split; [|apply enc_u64_shape].
  rewrite enc_u64_length. split; [unfold groups; lia|].
  apply groups_le; [done|]. eapply N.lt_trans; [exact Hv|done].
Qed.


Lemma span_full r bs : Forall is_byte bs -> length bs = S r ->
  span (S r) bs = (bs, []) <-> Forall continues (take r bs).
Proof.
  revert bs. induction r as [|r IH]; intros bs Hb Hl.
  - destruct bs as [|b [|b' bs]]; try (simpl in Hl; lia). simpl. split; [by constructor|].
    intros _. by destruct (128 <=? b mod 256).
  - destruct bs as [|b bs]; [done|]. injection Hl as Hl. inversion Hb as [|? ? Hb1 Hb2]; subst.
    specialize (IH bs Hb2 Hl). change (take (S r) (b :: bs)) with (b :: take r bs).
    change (span (S (S r)) (b :: bs)) with
      (if 128 <=? b mod 256 then let '(c, rest) := span (S r) bs in (b :: c, rest) else ([b], bs)).
    destruct (N.leb_spec 128 (b mod 256)) as [H|H].
    + destruct (span (S r) bs) as [c rest] eqn:E. split.
      * intros [= -> ->]. constructor; [unfold continues, is_byte in *; lia|]. by apply IH.
      * intros Hf. inversion Hf as [|? ? _ Hf']; subst. apply IH in Hf'. by injection Hf' as -> ->.
    + split.
      * intros [= <- E]. done.
      * intros Hf. inversion Hf as [|? ? Hc _]; subst. unfold continues in Hc. lia.
Qed.

Lemma dec_u64_fails bs : Forall is_byte bs ->
  dec_u64 bs = Nope <-> bs = [] \/ (length bs = 9%nat /\ Forall continues (take 8 bs)).
Proof.
  intros Hb. split.
  - intros H. destruct (dec_u64_total bs) as [(p & r & v & E & _)|[_ [->|[Hl Hs]]]].
    + congruence.
    + by left.
    + right. unfold lenN in Hl. assert (length bs = 9%nat) by lia. split; [done|]. by apply span_full.
  - intros [->|[Hl Hc]]; [done|].
    apply (span_full 8 bs Hb Hl) in Hc. rewrite (dec_u64_span _ _ _ Hc).
    unfold lenN. rewrite Hl. done.
Qed.

Lemma dec_u64_safe bs : Forall is_byte bs ->
  (exists pre rest v, bs = pre ++ rest /\ dec_u64 bs = Done (rest, v) /\ 1 <= lenN pre <= 10 /\ v < 2 ^ 64) \/
  (dec_u64 bs = Nope /\ (bs = [] \/ (length bs = 9%nat /\ Forall continues (take 8 bs)))).
Proof.
  intros Hb. destruct (dec_u64_total bs) as [(p & r & v & E1 & E2 & E3)|[E _]].
  - left. exists p, r, v. tauto.
  - right. split; [done|]. by apply dec_u64_fails.
Qed.

Lemma dec_str_panics P bs : dec_str P bs = Panic <->
  exists rest len, dec_usize P bs = Done (rest, len) /\ lenN rest < len.
Proof.
  rewrite dec_str_cases. destruct (dec_usize P bs) as [[rest len]| | |] eqn:E.
  - destruct (N.leb_spec len (lenN rest)).
    + destruct (utf8_decode _) as [s|]; (split; [done|]); intros (r & l & [= <- <-] & H2); lia.
    + split; [intros _; by exists rest, len|done].
  - split; [done|]. intros (r & l & ? & _). done.
  - by apply dec_usize_no_panic in E.
  - by apply dec_usize_no_stuck in E.
Qed.
Lemma dec_str_fails P bs : dec_str P bs = Nope <->
  dec_usize P bs = Nope \/
  exists rest len, dec_usize P bs = Done (rest, len) /\ len <= lenN rest /\
    ~ exists s, valid_str s /\ utf8 s = take (N.to_nat len) rest.
Proof.
  rewrite dec_str_cases. destruct (dec_usize P bs) as [[rest len]| | |] eqn:E.
  - destruct (N.leb_spec len (lenN rest)).
    + destruct (utf8_decode _) as [s|] eqn:E2.
      * split; [done|]. intros [?|(r & l & [= <- <-] & _ & Hn)]; [done|].
        exfalso. apply Hn. exists s. by apply utf8_decode_sound.
      * split; [|done]. intros _. right. exists rest, len. split; [done|]. split; [done|].
        intros (s & Hv & Hs). rewrite <- Hs, utf8_decode_encode in E2; done.
    + split; [done|]. intros [?|(r & l & [= <- <-] & ? & _)]; [done|lia].
  - tauto.
  - by apply dec_usize_no_panic in E.
  - by apply dec_usize_no_stuck in E.
Qed.
Lemma dec_str_succeeds P bs rest s : dec_str P bs = Done (rest, s) <->
  valid_str s /\ exists mid, dec_usize P bs = Done (mid, str_len s) /\ mid = utf8 s ++ rest.
Proof.
  split; [apply dec_str_sound|].
  intros (Hv & mid & Hu & ->). rewrite dec_str_cases, Hu.
  replace (str_len s <=? lenN (utf8 s ++ rest)) with true.
  2: { symmetry. apply N.leb_le. rewrite lenN_app. unfold str_len. lia. }
  unfold str_len. rewrite take_lenN_app, drop_lenN_app, utf8_decode_encode by done. done.
Qed.

Lemma truncation s max :
  let r := limit_string_len s max in
  (exists t, s = r ++ t /\
     (t = [] \/ (exists t', t = 32 :: t' /\ str_len r <= max) \/ (32 ∉ r /\ max < str_len r))) /\
  (str_len s <= max -> r = s) /\
  str_len r <= max + 4 /\
  limit_string_len r max = r.
Proof.
  intros r. split; [|split; [apply limit_short|split; [apply limit_len|apply limit_idem]]].
  pose proof (limit_spec max s) as H. fold r in H. clearbody r.
  destruct H as [[-> _]|(pre & c & post & -> & Hm & Hs & [(w & -> & _)|[-> Hn]])].
  - exists []. rewrite app_nil_r. split; [done|]. by left.
  - exists (32 :: w ++ c :: post). split; [by rewrite <- app_assoc|].
    right. left. eexists. split; [done|]. by apply (Hs _ 32 w).
  - exists (c :: post). split; [done|]. right. right. done.
Qed.
Lemma truncation_valid s max : valid_str s -> valid_str (limit_string_len s max).
Proof. apply limit_valid. Qed.

Lemma nonempty_kept s : s <> [] -> head s <> Some 32 -> limit_string_len s 100 <> [].
Proof.
  intros Hs Hh. destruct (limit_spec 100 s) as [[E _]|(pre & c & post & E & Hm & _ & [(w & Ew & _)|[Er _]])].
  - by rewrite E.
  - intros En. rewrite En in Ew. simpl in Ew. rewrite E, Ew in Hh. done.
  - rewrite Er. intros ->. rewrite str_len_nil in Hm. lia.
Qed.

Lemma ascending_sorted l : StronglySorted N.le l -> ascending l.
Proof. induction 1; simpl; auto. Qed.
Lemma seq_reads_back P l : len_ok P KIds (lenN l) -> Forall (size_ok P) l ->
  exists l', l' ≡ₚ l /\ ascending l' /\ reads_back enc_seq (dec_seq P) l l'.
Proof.
  intros H1 H2. exists (sort_by N.compare l). split; [apply sort_by_perm|].
  split; [apply ascending_sorted, sort_N_sorted|]. by apply rt_seq.
Qed.

Lemma u64_roundtrip_iff v : v < 2 ^ 64 ->
  (forall rest, dec_u64 (enc_u64 v ++ rest) = Done (rest, v)) <-> ~ (2 ^ 56 <= v < 2 ^ 63).
Proof.
  intros Hv. split.
  - intros H Hb. destruct (u64_band_loses v Hb) as [rest Hr]. by apply Hr.
  - intros Hb. apply rt_u64. unfold u64_ok. lia.
Qed.
Lemma usize_roundtrip P v : v < 2 ^ 56 -> v <= usize_max P ->
  forall rest, dec_usize P (enc_usize v ++ rest) = Done (rest, v).
Proof. intros H1 H2. by apply rt_usize_ok. Qed.
Lemma dec_u32_small bs rest v : dec_u32 bs = Done (rest, v) -> v < 2 ^ 32.
Proof. by intros [_ H]%dec_u32_inv. Qed.
Lemma dec_char_scalar bs rest c : dec_char bs = Done (rest, c) -> c <= 1114111 /\ ~ (55296 <= c <= 57343).
Proof. intros [_ H]%dec_char_inv. unfold is_scalar in H. lia. Qed.
Lemma u8_roundtrip b : is_byte b -> reads_back enc_u8 dec_u8 b b /\ enc_u8 b = [b].
Proof. intros _. split; [apply rt_u8|done]. Qed.
Lemma f32_roundtrip x : valid_f32 x -> is_nan x = false ->
  reads_back enc_f32 dec_f32 x x /\ Forall is_byte (enc_f32 x) /\ length (enc_f32 x) = 4%nat.
Proof.
  intros H _. split; [by apply rt_f32|]. split; [|done].
  pose proof (f32_to_bits_bound x H) as Hb. unfold enc_f32, is_byte. set (b := f32_to_bits x) in *.
  change (2 ^ 32) with 4294967296 in Hb. change (2 ^ 24) with 16777216. 
  repeat constructor; lia.
Qed.
Lemma primitives_no_panic P bs :
  dec_u64 bs <> Panic /\ dec_usize P bs <> Panic /\ dec_u32 bs <> Panic /\ dec_char bs <> Panic /\
  dec_bool bs <> Panic /\ dec_u8 bs <> Panic /\ dec_f32 bs <> Panic.
Proof.
  split; [apply dec_u64_no_panic|]. split; [apply dec_usize_no_panic|].
  split; [apply dec_u32_no_panic|]. split; [apply dec_char_no_panic|].
  split; [apply dec_bool_no_panic|]. split; [apply dec_u8_no_panic|apply dec_f32_no_panic].
Qed.
Lemma utf8_decode_iff bs s : utf8_decode bs = Some s <-> valid_str s /\ bs = utf8 s.
Proof.
  split; [intros H; apply utf8_decode_sound in H as [H1 H2]; by rewrite H2|].
  intros [H ->]. by apply utf8_decode_encode.
Qed.
Lemma elem_mid (a b : rstr) (x : N) : x ∈ a ++ x :: b.
Proof. rewrite elem_of_app, elem_of_cons. auto. Qed.
Lemma last_space_unique (r r' w w' : rstr) : 32 ∉ w -> 32 ∉ w' -> r ++ 32 :: w = r' ++ 32 :: w' -> r = r'.
Proof.
  revert r'. induction r as [|c r IH]; intros [|d r'] Hw Hw'; simpl.
  - done.
  - intros [= <- ->]. exfalso. apply Hw. apply elem_mid.
  - intros [= -> <-]. exfalso. apply Hw'. apply elem_mid.
  - intros [= -> E]. f_equal. eauto.
Qed.
Lemma starts_within_cut max pre c post pre' c' post' :
  pre ++ c :: post = pre' ++ c' :: post' -> max < str_len pre -> max < str_len pre' ->
  starts_within max pre -> starts_within max pre' -> pre = pre'.
Proof.
  intros E H1 H2 H3 H4.
  destruct (Nat.lt_trichotomy (length pre) (length pre')) as [Hl|[Hl|Hl]].
  - exfalso. assert (pre' = pre ++ c :: take (length pre' - S (length pre)) post) as E'.
    { assert (take (length pre') (pre' ++ c' :: post') = pre') as Ht by apply take_app.
      rewrite <- E in Ht. rewrite take_app_ge in Ht by lia.
      replace (length pre' - length pre)%nat with (S (length pre' - S (length pre))) in Ht by lia.
      simpl in Ht. done. }
    specialize (H4 _ _ _ E'). lia.
  - apply app_inj_1 in E as [-> _]; done.
  - exfalso. assert (pre = pre' ++ c' :: take (length pre - S (length pre')) post') as E'.
    { assert (take (length pre) (pre ++ c :: post) = pre) as Ht by apply take_app.
      rewrite E in Ht. rewrite take_app_ge in Ht by lia.
      replace (length pre - length pre')%nat with (S (length pre - S (length pre'))) in Ht by lia.
      simpl in Ht. done. }
    specialize (H3 _ _ _ E'). lia.
Qed.
Lemma limited_det max s r r' : limited max s r -> limited max s r' -> r = r'.
Proof.
  intros [[-> H]|(pre & c & post & E & Hm & Hs & H)] [[-> H']|(pre' & c' & post' & E' & Hm' & Hs' & H')].
  - done.
  - specialize (H _ _ _ E'). lia.
  - specialize (H' _ _ _ E). lia.
  - subst s. assert (pre = pre') as <-.
    { by eapply starts_within_cut. }
    destruct H as [(w & -> & Hw)|[-> Hn]], H' as [(w' & Ew & Hw')|[Er Hn']].
    + exact (last_space_unique r r' w w' Hw Hw' Ew).
    + exfalso. apply Hn'. apply elem_mid.
    + exfalso. apply Hn. rewrite Ew. apply elem_mid.
    + done.
Qed.
Lemma truncation_cut s max r : limit_string_len s max = r <->
  (r = s /\ forall pre c post, s = pre ++ c :: post -> str_len pre <= max) \/
  (exists pre c post, s = pre ++ c :: post /\ max < str_len pre /\
     (forall p d q, pre = p ++ d :: q -> str_len p <= max) /\
     ((exists w, pre = r ++ 32 :: w /\ 32 ∉ w) \/ (r = pre /\ 32 ∉ pre))).
Proof.
  change (limit_string_len s max = r <-> limited max s r). split.
  - intros <-. apply limit_spec.
  - intros H. eapply limited_det; [apply limit_spec|done].
Qed.
Lemma lost_description s :
  (s <> [] /\ limit_string_len s 100 = []) <->
  exists w c post, s = 32 :: w ++ c :: post /\ 32 ∉ w /\ 100 < str_len (32 :: w) /\
    (forall p d q, 32 :: w = p ++ d :: q -> str_len p <= 100).
Proof.
  rewrite truncation_cut. split.
  - intros [Hn [[<- _]|(pre & c & post & E & Hm & Hs & [(w & Ew & Hw)|[<- _]])]].
    + done.
    + simpl in Ew. subst pre. exists w, c, post. auto.
    + rewrite str_len_nil in Hm. lia.
  - intros (w & c & post & -> & Hw & Hm & Hs). split; [done|]. right.
    exists (32 :: w), c, post. split; [done|]. split; [done|]. split; [done|]. left. by exists w.
Qed.
Lemma map_example : exists m : gmap rstr N, size m = 2%nat /\
  reads_back (enc_map reverse enc_str enc_usize) (dec_map wasm32 KDataMap (dec_str wasm32) (dec_usize wasm32)) m m.
Proof.
  exists (<[[97; 98] := 7]> (<[[230] := 300]> ∅)). split; [done|].
  apply rt_map_id.
  - intros l. apply reverse_Permutation.
  - repeat split; vm_compute; done.
  - intros k v. rewrite lookup_insert_Some, lookup_insert_Some, lookup_empty.
    intros [[<- <-]|[_ [[<- <-]|[_ ?]]]]; [| |done].
    + split; [apply rt_str; repeat constructor; vm_compute; done|apply rt_usize_ok; split; vm_compute; done].
    + split; [apply rt_str; repeat constructor; vm_compute; done|apply rt_usize_ok; split; vm_compute; done].
Qed.
