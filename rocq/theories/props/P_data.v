(** C13-C23, C68-C70 and C74: vendors, features, catalogues, the index file, ids, equality. *)
From Verif.model Require Import Base F32 Utf8 Prim Coll Data Gram Nodes Classic Lib.
From Verif.spec Require Import Spec Data_spec Gram_spec Seq_spec Samples.
From Verif.proofs Require Import Data_facts File_facts Data_more Seq_exact Sample_facts.

(** C13 *)
Theorem C13_vendor_numbering : forall names,
  vendors_are (first_seen names) (foldl vm_insert vm_new names).
Proof. exact vm_inserts_are. Qed.
Print Assumptions C13_vendor_numbering.
(** [first_seen] is what it says: the same names, each once, and a name is never moved before
    one that appears earlier. *)
Theorem C13_first_seen : forall A (EA : EqDecision A) (names : list A),
  NoDup (first_seen names) /\ (forall x, x ∈ first_seen names <-> x ∈ names) /\
  (forall (l : list A) x, x ∉ l -> first_seen (l ++ [x]) = first_seen l ++ [x]) /\
  (forall (l : list A) x, x ∈ l -> first_seen (l ++ [x]) = first_seen l).
Proof. exact first_seen_spec. Qed.
Print Assumptions C13_first_seen.
(** Also through [get_or_insert], which answers with the vendor of that name. *)
Theorem C13_get_or_insert : forall names vm name, vendors_are names vm ->
  let '(vm', v) := vm_get_or_insert vm name in
  v_name v = name /\ vm_get vm' name = Some v /\
  vm_by_id vm' !! N.to_nat (v_id v) = Some v /\
  vendors_are (first_seen (names ++ [name])) vm'.
Proof. exact get_or_insert_spec. Qed.
Print Assumptions C13_get_or_insert.
Example C13_hyps : vendors_are [[65]; [66]] (foldl vm_insert vm_new [[65]; [66]; [65]]) /\
  vm_by_id (foldl vm_insert vm_new [[65]; [66]; [65]]) = [Vendor [65] 0; Vendor [66] 1].
Proof. split; [apply (vm_inserts_are [[65]; [66]; [65]])|vm_compute; done]. Qed.

(** C14 *)
Theorem C14_vendors_roundtrip : forall P o vm, valid_order o -> vendors_ok P vm ->
  reads_back (enc_vendors o) (dec_vendors P) vm vm.
Proof. exact rt_vendors. Qed.
Print Assumptions C14_vendors_roundtrip.
(** Every table built by inserts is such a table. *)
Theorem C14_inserts_ok : forall P names, Forall (str_ok P) names ->
  len_ok P KVendorMap (lenN names) -> len_ok P KVendorVec (lenN names) ->
  vendors_ok P (foldl vm_insert vm_new names).
Proof. exact inserts_ok. Qed.
Print Assumptions C14_inserts_ok.
Example C14_hyps : @valid_order (rstr * vendor) rev_order /\ vendors_ok wasm32 sample_vendors.
Proof. split; [exact rev_order_valid|exact sample_vendors_ok]. Qed.

(** C15 *)
Theorem C15_features_roundtrip : forall P o fs, valid_order o -> features_ok P fs ->
  reads_back (enc_features o) (dec_features P) fs fs.
Proof. exact rt_features. Qed.
Print Assumptions C15_features_roundtrip.
Example C15_hyps : features_ok wasm32 sample_features /\
  sample_features !! [112; 114; 105; 99; 101] = Some (FFloat [one_f32; half_f32; one_f32]).
Proof. split; [exact sample_features_ok|vm_compute; done]. Qed.

(** C16 *)
Theorem C16_catalogue_roundtrip : forall P ov of c, valid_order ov -> valid_order of ->
  container_ok P c -> reads_back (enc_container ov of) (dec_container P) c (stored_container c).
Proof. exact rt_container. Qed.
Print Assumptions C16_catalogue_roundtrip.
Theorem C16_what_is_stored : forall c,
  c_vendors (stored_container c) = c_vendors c /\ c_features (stored_container c) = c_features c /\
  length (c_products (stored_container c)) = length (c_products c) /\
  forall i p, c_products c !! i = Some p ->
    exists p', c_products (stored_container c) !! i = Some p' /\
      p_title p' = p_title p /\ p_id p' = p_id p /\ p_vendor p' = p_vendor p /\ p_sid p' = p_sid p /\
      (exists t, p_description p = p_description p' ++ t) /\
      (str_len (p_description p) <= 100 -> p_description p' = p_description p).
Proof. exact what_is_stored. Qed.
Print Assumptions C16_what_is_stored.
Example C16_hyps : container_ok wasm32 sample_container /\ length (c_products sample_container) = 3%nat.
Proof. split; [exact sample_container_ok|done]. Qed.

(** C17 *)
Theorem C17_gram_index_roundtrip : forall P n o gi, valid_ser_order o -> gram_index_ok P n gi ->
  reads_back (enc_gram_index o) (dec_gram_index P n) gi (stored_gram_index gi).
Proof. exact rt_gram_index. Qed.
Print Assumptions C17_gram_index_roundtrip.
Theorem C17_what_is_stored : forall gi,
  gi_roots (stored_gram_index gi) = gi_roots gi /\
  gi_container (stored_gram_index gi) = stored_container (gi_container gi) /\
  (forall g, gi_data gi !! g = None -> gi_data (stored_gram_index gi) !! g = None) /\
  (forall g l, gi_data gi !! g = Some l -> exists l', gi_data (stored_gram_index gi) !! g = Some l' /\
     l' ≡ₚ map stored l /\ ascending (map p_sid l')).
Proof. exact what_is_stored_index. Qed.
Print Assumptions C17_what_is_stored.
Example C17_hyps : valid_ser_order sample_order /\ gram_index_ok wasm32 2 sample_index /\
  size (gi_data sample_index) = 2%nat.
Proof. split; [exact sample_order_valid|]. split; [exact sample_index_ok|vm_compute; done]. Qed.

(** C18 *)
Theorem C18_classic_roundtrip : forall P o c cl, valid_ser_order o -> positions (c_products c) ->
  size_ok P (lenN (c_products c)) -> classic_ok P (c_products c) cl ->
  reads_back (enc_classic o) (dec_classic P (stored_container c)) cl (stored_classic cl).
Proof. exact rt_classic. Qed.
Print Assumptions C18_classic_roundtrip.
Theorem C18_what_is_stored : forall cl,
  cl_order (stored_classic cl) = cl_order cl /\
  Forall2 (fun t t' => t_name t' = t_name t /\ t_id t' = t_id t /\ t_ids t' = t_ids t /\
      t_products t' ≡ₚ map stored (t_products t) /\ ascending (map p_sid (t_products t')))
    (cl_tags cl) (cl_tags (stored_classic cl)) /\
  Forall2 (fun c c' => cat_name c' = cat_name c /\ cat_exclusive c' = cat_exclusive c /\
      Forall2 (fun o o' => o_name o' = o_name o /\ o_ids o' = o_ids o /\
          o_content o' ≡ₚ map stored (o_content o) /\ ascending (map p_sid (o_content o')))
        (cat_options c) (cat_options c'))
    (cl_categories cl) (cl_categories (stored_classic cl)) /\
  option_positions (cl_categories (stored_classic cl)).
Proof. exact what_is_stored_classic. Qed.
Print Assumptions C18_what_is_stored.
Example C18_hyps : positions (c_products sample_container) /\ size_ok wasm32 (lenN (c_products sample_container)) /\
  classic_ok wasm32 (c_products sample_container) sample_classic.
Proof. split; [apply sample_container_ok|]. split; [apply sample_container_ok|exact sample_classic_ok]. Qed.

(** C19. Full statement: for every index that can be written,
    [classic_eqb cl (stored_classic cl) = true]. It is false, even for an index built by the
    program from three products. *)
Theorem C19_reload_equal_refuted : exists P o gi raw cats,
  valid_ser_order o /\ gram_index_ok P 2 gi /\
  category_index_build raw (gi_container gi) = Done cats /\
  exists gi' cl', deserialize_all P 2 (serialize_all o gi (Classic cats [] ∅)) = Done (gi', cl') /\
    classic_eqb (Classic cats [] ∅) cl' = false.
Proof. exact reload_not_equal. Qed.
Print Assumptions C19_reload_equal_refuted.
(** Equal when options were numbered category by category, lists are in catalogue order, and no
    description is cut to nothing. *)
Theorem C19_reload_equal_partial : forall cl, option_positions (cl_categories cl) ->
  Forall (fun o => in_order (o_content o) /\ Forall description_survives (o_content o))
    (all_options (cl_categories cl)) ->
  Forall (fun t => in_order (t_products t) /\ Forall description_survives (t_products t)) (cl_tags cl) ->
  classic_eqb cl (stored_classic cl) = true.
Proof. exact classic_reload_equal. Qed.
Print Assumptions C19_reload_equal_partial.
Example C19_hyps : let cl := stored_classic sample_classic in
  option_positions (cl_categories cl) /\
  Forall (fun o => in_order (o_content o) /\ Forall description_survives (o_content o)) (all_options (cl_categories cl)) /\
  Forall (fun t => in_order (t_products t) /\ Forall description_survives (t_products t)) (cl_tags cl).
Proof. exact sample_reload_hyps. Qed.

(** C20 *)
Theorem C20_file_roundtrip : forall P n o gi cl rest, valid_ser_order o -> gram_index_ok P n gi ->
  classic_ok P (c_products (gi_container gi)) cl ->
  deserialize_all P n (serialize_all o gi cl ++ rest) = Done (stored_gram_index gi, stored_classic cl).
Proof. exact file_roundtrip. Qed.
Print Assumptions C20_file_roundtrip.
(** Two readers of different width see the same index. *)
Theorem C20_any_target : forall P Q n o gi cl rest, valid_ser_order o ->
  gram_index_ok P n gi -> classic_ok P (c_products (gi_container gi)) cl ->
  gram_index_ok Q n gi -> classic_ok Q (c_products (gi_container gi)) cl ->
  deserialize_all P n (serialize_all o gi cl ++ rest) = deserialize_all Q n (serialize_all o gi cl).
Proof. exact file_any_target. Qed.
Print Assumptions C20_any_target.
Example C20_hyps : valid_ser_order sample_order /\ gram_index_ok wasm32 2 sample_index /\
  classic_ok wasm32 (c_products (gi_container sample_index)) sample_classic /\
  gram_index_ok host64 2 sample_index /\
  classic_ok host64 (c_products (gi_container sample_index)) sample_classic.
Proof.
  split; [exact sample_order_valid|]. split; [exact sample_index_ok|]. split; [exact sample_classic_ok|].
  split; [exact sample_index_ok64|exact sample_classic_ok64].
Qed.

(** C21 *)
Theorem C21_load_terminates : forall P n bs, deserialize_all P n bs <> Stuck.
Proof. exact load_terminates. Qed.
Print Assumptions C21_load_terminates.
Theorem C21_load_consistent : forall P n bs gi cl, deserialize_all P n bs = Done (gi, cl) ->
  consistent_gram_index n gi /\ consistent_classic (c_products (gi_container gi)) cl.
Proof. exact load_consistent. Qed.
Print Assumptions C21_load_consistent.
Example C21_hyps : exists gi cl,
  deserialize_all wasm32 2 (serialize_all sample_order sample_index sample_classic) = Done (gi, cl) /\
  length (c_products (gi_container gi)) = 3%nat.
Proof. eexists _, _. split; [vm_compute; reflexivity|done]. Qed.

(** C22. Full statement: [forall P n bs, Forall is_byte bs -> deserialize_all P n bs <> Panic].
    It is false. *)
Theorem C22_load_no_panic_refuted : exists P n bs, Forall is_byte bs /\ deserialize_all P n bs = Panic.
Proof. exact load_panics. Qed.
Print Assumptions C22_load_no_panic_refuted.
(** What holds: a written file, with anything appended, does not panic. *)
Theorem C22_load_no_panic_partial : forall P n o gi cl rest, valid_ser_order o -> gram_index_ok P n gi ->
  classic_ok P (c_products (gi_container gi)) cl ->
  deserialize_all P n (serialize_all o gi cl ++ rest) <> Panic.
Proof. exact written_no_panic. Qed.
Print Assumptions C22_load_no_panic_partial.
Example C22_hyps : gram_index_ok wasm32 2 sample_index /\
  classic_ok wasm32 (c_products (gi_container sample_index)) sample_classic /\ valid_ser_order sample_order.
Proof. split; [exact sample_index_ok|]. split; [exact sample_classic_ok|exact sample_order_valid]. Qed.

(** C23 *)
Theorem C23_other_gram_size : forall P n m o gi cl rest, valid_ser_order o -> gram_index_ok P n gi ->
  gi_data gi <> ∅ -> n <> m -> deserialize_all P m (serialize_all o gi cl ++ rest) = Panic.
Proof. exact other_gram_size. Qed.
Print Assumptions C23_other_gram_size.
Example C23_hyps : gram_index_ok wasm32 2 sample_index /\ gi_data sample_index <> ∅ /\ 2%nat <> 3%nat.
Proof. split; [exact sample_index_ok|]. split; [|done]. intros H. apply (f_equal size) in H. vm_compute in H. done. Qed.

(** C68 *)
Theorem C68_numeric_id : forall P p ds, trailing_digits (p_id p) ds ->
  ((length ds <= 19)%nat -> product_get_id P p = Done (digits_value ds)) /\
  (overflow_checks P = false -> product_get_id P p = Done (digits_value ds mod 2 ^ 64)) /\
  (overflow_checks P = true -> (19 < length ds)%nat -> product_get_id P p = Panic).
Proof. exact numeric_id. Qed.
Print Assumptions C68_numeric_id.
Theorem C68_trailing_run_unique : forall s, exists ds, trailing_digits s ds /\
  forall ds', trailing_digits s ds' -> ds' = ds.
Proof. exact trailing_digits_unique. Qed.
Print Assumptions C68_trailing_run_unique.
Example C68_hyps : trailing_digits (p_id sample_p1) [49; 50] /\ digits_value [49; 50] = 12.
Proof. exact sample_trailing. Qed.

(** C69. Full statement: [==] on products is an equivalence; transitivity is false. *)
Theorem C69_product_eq_transitive_refuted : exists p q r,
  product_eqb p q = true /\ product_eqb q r = true /\ product_eqb p r = false.
Proof. exact product_eqb_not_trans. Qed.
Print Assumptions C69_product_eq_transitive_refuted.
Theorem C69_product_eq_partial :
  (forall p, product_eqb p p = true) /\ (forall p q, product_eqb p q = product_eqb q p).
Proof. exact product_eqb_refl_sym. Qed.
Print Assumptions C69_product_eq_partial.
(** Two products are equal when everything but the description agrees, one description is the
    beginning of the other, and both or neither are empty. *)
Theorem C69_product_eq_means : forall p q, valid_str (p_description p) -> valid_str (p_description q) ->
  product_eqb p q = true <->
  ((p_description p = [] <-> p_description q = []) /\
   ((exists t, p_description p = p_description q ++ t) \/
    (exists t, p_description q = p_description p ++ t))) /\
  p_title p = p_title q /\ p_vendor p = p_vendor q /\ p_id p = p_id q /\ p_sid p = p_sid q.
Proof. exact product_eqb_iff. Qed.
Print Assumptions C69_product_eq_means.
Example C69_hyps : valid_str (p_description sample_p0) /\ product_eqb sample_p0 sample_p0 = true /\
  product_eqb sample_p0 sample_p2 = false.
Proof. split; [repeat constructor|split; vm_compute; done]. Qed.

(** C70 *)
Theorem C70_padded_gram : forall P n iter, (1 <= n)%nat ->
  n_gram_with_1_padding P n iter =
    Done (if decide (n - 1 <= length iter)%nat
          then (drop (n - 1) iter, Some (take (n - 1) iter ++ [0])) else ([], None)).
Proof. exact n_gram_padding. Qed.
Print Assumptions C70_padded_gram.
Example C70_hyps : n_gram_with_1_padding wasm32 3 [97; 98; 99; 100] = Done ([99; 100], Some [97; 98; 0]).
Proof. vm_compute. done. Qed.

(** C74. Full statement: on any platform, every list in a loaded index is in ascending order of
    position. False in release builds, where the sum of the stored differences wraps around. *)
Theorem C74_loaded_lists_ascend_refuted : exists P bs gi cl, Forall is_byte bs /\
  deserialize_all P 2 bs = Done (gi, cl) /\
  ~ Forall (fun t => in_order (t_products t)) (cl_tags cl).
Proof. exact load_out_of_order. Qed.
Print Assumptions C74_loaded_lists_ascend_refuted.
Theorem C74_loaded_lists_ascend_partial : forall P n bs gi cl, overflow_checks P = true ->
  deserialize_all P n bs = Done (gi, cl) ->
  (forall g l, gi_data gi !! g = Some l -> in_order l) /\
  Forall (fun o => in_order (o_content o)) (all_options (cl_categories cl)) /\
  Forall (fun t => in_order (t_products t)) (cl_tags cl).
Proof. exact load_in_order. Qed.
Print Assumptions C74_loaded_lists_ascend_partial.
(** Exactly when, without overflow checks: the stored numbers are the differences, an id is the
    sum of those up to it cut to the machine's word, and the list ascends if and only if all of
    them together fit a word. *)
Theorem C74_exactly : forall P bs rest ids, overflow_checks P = false -> dec_seq P bs = Done (rest, ids) ->
  exists ds, dec_vec P KIds (dec_usize P) bs = Done (rest, ds) /\
    ids = map (fun s => s mod 2 ^ usize_bits P) (prefix_sums ds) /\
    (ascending ids <-> sum_N ds < 2 ^ usize_bits P).
Proof. exact seq_exact. Qed.
Print Assumptions C74_exactly.
(** Nothing else goes wrong: any list of numbers reads as such sums. With overflow checks the
    lists that would not ascend panic. *)
Theorem C74_any_numbers : forall P bs rest ds, dec_vec P KIds (dec_usize P) bs = Done (rest, ds) ->
  dec_seq P bs = if overflow_checks P
    then if sum_N ds <? 2 ^ usize_bits P then Done (rest, prefix_sums ds) else Panic
    else Done (rest, map (fun s => s mod 2 ^ usize_bits P) (prefix_sums ds)).
Proof. exact seq_any. Qed.
Print Assumptions C74_any_numbers.
Example C74_wraps :
  dec_vec wasm32 KIds (dec_usize wasm32) (3 :: 5 :: enc_usize (2 ^ 32 - 2) ++ [1]) = Done ([], [5; 2 ^ 32 - 2; 1]) /\
  dec_seq wasm32 (3 :: 5 :: enc_usize (2 ^ 32 - 2) ++ [1]) = Done ([], [5; 3; 4]) /\
  dec_seq checked32 (3 :: 5 :: enc_usize (2 ^ 32 - 2) ++ [1]) = Panic.
Proof. split; [vm_compute; reflexivity|]. split; vm_compute; reflexivity. Qed.
Example C74_hyps : exists gi cl, overflow_checks checked32 = true /\
  deserialize_all checked32 2 (serialize_all sample_order sample_index sample_classic) = Done (gi, cl).
Proof. eexists _, _. split; [done|]. vm_compute. reflexivity. Qed.
