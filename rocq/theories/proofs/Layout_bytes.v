(** Only bytes are written. *)
From Verif.model Require Import Base F32 Utf8 Prim Coll Data Gram Nodes Classic Lib.
From Verif.spec Require Import Spec Data_spec.
From Verif.proofs Require Import Sort_facts Prim_facts F32_bits Utf8_facts Coll_facts Codec_lemmas Data_facts File_facts.

Notation bytes := (Forall is_byte).
Lemma bytes_concat {A} (enc : A -> list N) l : (forall x, x ∈ l -> bytes (enc x)) -> bytes (concat (map enc l)).
Proof.
  induction l as [|x l IH]; intros H; cbn [map concat]; [constructor|]. apply Forall_app. split; [apply H; left|].
  apply IH. intros y Hy. apply H. by right.
Qed.
Lemma bytes_number v : bytes (enc_u64 v).
Proof. apply enc_u64_bytes. Qed.
Lemma bytes_vec {A} (enc : A -> list N) l : (forall x, x ∈ l -> bytes (enc x)) -> bytes (enc_vec enc l).
Proof. intros H. apply Forall_app. split; [apply bytes_number|by apply bytes_concat]. Qed.
Lemma bytes_char c : is_scalar c = true -> bytes (utf8_char c).
Proof.
  unfold is_scalar, utf8_char, is_byte. intros H.
  assert (Hc : c <= 1114111).
  { apply orb_true_iff in H as [H|H]; [apply N.ltb_lt in H; lia|]. apply andb_true_iff in H as [_ H]. by apply N.leb_le. }
  destruct (N.ltb_spec c 128); [repeat constructor; lia|]. destruct (N.ltb_spec c 2048).
  { repeat constructor; lia. }
  destruct (N.ltb_spec c 65536); repeat constructor; lia.
Qed.
Lemma bytes_utf8 s : valid_str s -> bytes (utf8 s).
Proof. intros H. apply bytes_concat. intros c Hc. apply bytes_char. unfold valid_str in H. rewrite Forall_forall in H. by apply H. Qed.
Lemma bytes_str s : valid_str s -> bytes (enc_str s).
Proof. intros H. apply Forall_app. split; [apply bytes_number|by apply bytes_utf8]. Qed.
Lemma bytes_f32 x : valid_f32 x -> bytes (enc_f32 x).
Proof.
  intros H. pose proof (f32_to_bits_bound x H) as Hb. unfold enc_f32, is_byte. set (b := f32_to_bits x) in *.
  change (2 ^ 32) with 4294967296 in Hb. change (2 ^ 24) with 16777216. repeat constructor; lia.
Qed.
Lemma bytes_map `{Countable K} {V} o (enc : K -> list N) (enc' : V -> list N) m : valid_order o ->
  (forall k v, m !! k = Some v -> bytes (enc k) /\ bytes (enc' v)) -> bytes (enc_map o enc enc' m).
Proof.
  intros Ho Hm. apply Forall_app. split; [apply bytes_number|]. apply bytes_concat. intros [k v] Hk.
  rewrite (Ho _) in Hk. apply elem_of_map_to_list in Hk. apply Forall_app. by apply Hm.
Qed.
Lemma bytes_refs l : bytes (enc_product_refs l).
Proof. apply Forall_app. split; [apply bytes_number|]. apply bytes_concat. intros x _. apply bytes_number. Qed.
Lemma bytes_node P nd : node_ok P nd -> bytes (enc_node nd).
Proof.
  induction nd as [c w kids IH] using node_ind'. inversion 1 as [? ? ? H1 H2 H3 H4]; subst. cbn [enc_node].
  apply Forall_app. split; [apply bytes_number|]. apply Forall_app. split; [by apply bytes_f32|].
  apply Forall_app. split; [apply bytes_number|]. apply bytes_concat. rewrite Forall_forall in IH, H4. auto.
Qed.
Lemma bytes_feature P f : feature_ok P f -> bytes (enc_feature f).
Proof.
  destruct f as [l|l|l]; intros [_ F]; rewrite Forall_forall in F; cbn [enc_feature]; (constructor; [done|]); apply bytes_vec; intros x Hx.
  - apply bytes_str, F, Hx.
  - apply bytes_f32, F, Hx.
  - apply bytes_number.
Qed.
Lemma bytes_vendors P o vm : valid_order o -> vendors_ok P vm -> bytes (enc_vendors o vm).
Proof.
  intros Ho (names & (_ & _ & HT) & F & _). apply Forall_app. split; [apply bytes_number|]. apply bytes_concat.
  intros v Hv. apply sort_by_elem in Hv. apply elem_of_list_fmap in Hv as ([k v'] & -> & Hk). rewrite (Ho _) in Hk.
  apply elem_of_map_to_list in Hk. apply HT in Hk as [Hn _]. cbn [snd]. apply bytes_str.
  unfold numbered in Hn. apply elem_of_lookup_imap in Hn as (i & name & -> & Hi). cbn [v_name].
  rewrite Forall_forall in F. apply F. by apply elem_of_list_lookup_2 in Hi.
Qed.
Lemma bytes_file P n o gi cl : valid_ser_order o -> gram_index_ok P n gi -> classic_ok P (c_products (gi_container gi)) cl ->
  bytes (serialize_all o gi cl).
Proof.
  intros (V1 & V3 & V4 & V5 & V8) ((HV & HF & _ & _ & HP & _) & _ & HR & _ & _ & HD) (_ & HC & _ & HT & _ & _ & HO).
  pose proof (proj1 (Forall_forall _ _) HP) as HP'. pose proof (proj1 (Forall_forall _ _) HC) as HC'. pose proof (proj1 (Forall_forall _ _) HT) as HT'. clear HP HC HT. rename HP' into HP, HC' into HC, HT' into HT.
  unfold serialize_all, enc_gram_index, enc_container, enc_classic. rewrite !Forall_app.
  assert (bytes (enc_vendors (so_vendors o) (c_vendors (gi_container gi)))) by (by eapply bytes_vendors).
  assert (bytes (enc_vec enc_product (c_products (gi_container gi)))).
  { apply bytes_vec. intros p Hp. destruct (HP p Hp) as (H1 & (H2 & _) & (H3 & _) & _). unfold enc_product, enc_str_with_limit.
    rewrite !Forall_app. split; [by apply bytes_str, limit_valid|]. split; [by apply bytes_str|]. split; [by apply bytes_str|apply bytes_number]. }
  assert (bytes (enc_features (so_features o) (c_features (gi_container gi)))).
  { apply bytes_map; [done|]. intros k v Hk. destruct HF as [_ HF]. destruct (HF k v Hk) as [(Hs & _) Hf]. split; [by apply bytes_str|by eapply bytes_feature]. }
  assert (bytes (enc_map (so_roots o) enc_char enc_node (gi_roots gi))).
  { apply bytes_map; [done|]. intros k v Hk. split; [apply bytes_number|]. eapply bytes_node, HR, Hk. }
  assert (bytes (enc_map (so_data o) (enc_array enc_char) enc_product_refs (gi_data gi))).
  { apply bytes_map; [done|]. intros k v Hk. split; [|apply bytes_refs]. apply bytes_vec. intros x _. apply bytes_number. }
  assert (bytes (enc_categories (cl_categories cl))).
  { apply bytes_vec. intros c Hc. destruct (HC c Hc) as ((Hs & _) & _ & Hos). rewrite Forall_forall in Hos.
    unfold enc_category. rewrite !Forall_app. split; [destruct (cat_exclusive c); repeat constructor|]. split; [by apply bytes_str|].
    split; [apply bytes_number|]. apply bytes_concat. intros op Hop. destruct (Hos op Hop) as ((Hn & _) & _).
    apply Forall_app. split; [by apply bytes_str|apply bytes_refs]. }
  assert (bytes (enc_tags (cl_tags cl))).
  { apply bytes_vec. intros t Ht. destruct (HT t Ht) as ((Hs & _) & _). apply Forall_app. split; [by apply bytes_str|apply bytes_refs]. }
  assert (bytes (enc_orders (so_orders o) (cl_order cl))).
  { apply bytes_map; [done|]. intros k v Hk. destruct (HO k v Hk) as [(Hs & _) _]. split; [by apply bytes_str|].
    apply bytes_vec. intros x _. apply bytes_number. }
  tauto.
Qed.
