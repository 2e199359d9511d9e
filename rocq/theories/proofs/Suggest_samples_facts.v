(** The concrete cases of P_suggest.v and P_contract.v. *)
From Verif.model Require Import Base F32 Utf8 Prim Coll Data Gram Indexer Nodes Classic Lit Raw Js Lib Access Equal.
From Verif.spec Require Import Spec Data_spec Gram_spec Classic_spec Raw_spec Js_spec Lib_spec End_spec Reorder_spec Samples Raw_samples
  Gram_samples Lib_samples End_samples Suggest_spec Suggest_samples Contract_spec.
From Verif.proofs Require Import Base_facts Suggest_end End_samples_facts Contract_facts.
From Coq Require Import Lia.

Lemma suggest_sample : raw_fits host64 ascii_low sample_raw /\ NoDup (map r_id sample_raw) /\
  index_and_serialize ascii_low sample_parse host64 hash_order no_order sample_order sample_raw = Done sample_file /\
  loads host64 lib_init (InitOp sample_file) /\
  (exists cl, s_classic sample_state = Some cl /\ tag_suggestion sample_state query_sales = Done (TagSuggestion (JSTag cl 0) word_sales) /\
    jt_get_name (JSTag cl 0) = Done word_sale) /\
  answer sample_state three_words (cats_of sample_state) (tags_of sample_state) None [] = Done [1; 2; 0] /\
  answer sample_state three_words (cats_of sample_state) (with_tag sample_state 0) None [] = Done [2; 0].
Proof.
  split; [by apply sample_raw_fits; left|]. split; [apply (bool_decide_unpack _); vm_compute; done|].
  split; [vm_compute; reflexivity|]. split; [vm_compute; reflexivity|]. split; [|split; vm_compute; reflexivity].
  eexists. split; [vm_compute; reflexivity|]. split; vm_compute; reflexivity.
Qed.
Lemma lamp_related : exists t, (cl_tags (tagged two_lamps) : list tag) !! 0%nat = Some t /\
  one_extends word_lampshade (t_name t) /\ lenN (utf8 word_lampshade) < 4096.
Proof.
  eexists. split; [vm_compute; reflexivity|]. split; [|vm_compute; reflexivity].
  right. split; [unfold ascii; apply (bool_decide_unpack _); vm_compute; done|]. split; [vm_compute; lia|]. 
  exists (drop 4 word_lampshade). vm_compute. reflexivity.
Qed.
Lemma hidden_tag gi : tag_positions (cl_tags (tagged two_lamps)) /\
  (exists t, (cl_tags (tagged two_lamps) : list tag) !! 1%nat = Some t /\ t_name t = word_lampshade) /\
  ascii word_lampshade /\ 32 ∉ word_lampshade /\
  tag_suggestion (loaded gi (tagged two_lamps)) word_lampshade = Done (TagSuggestion (JSTag (tagged two_lamps) 0) word_lampshade).
Proof.
  split; [|split; [|split; [|split]]].
  - intros [|[|i]] t H; vm_compute in H; [injection H as <-; reflexivity..|discriminate].
  - eexists. split; vm_compute; reflexivity.
  - unfold ascii. apply (bool_decide_unpack _). vm_compute. done.
  - apply (bool_decide_unpack _). vm_compute. done.
  - vm_compute. reflexivity.
Qed.
Lemma products_apart : exists p q, p ∈ c_products (gi_container sample_index) /\ product_cmp p q = Eq /\ product_eqb p q = false.
Proof.
  exists sample_p0, (Product (p_description sample_p0) [120] (p_vendor sample_p0) (p_id sample_p0) (p_sid sample_p0)).
  split; [vm_compute; by left|]. split; vm_compute; reflexivity.
Qed.
Lemma nodes_apart : node_cmp (weighing f32_one) (weighing S754_nan) = Eq /\ node_cmp (weighing S754_nan) (weighing f32_zero) = Eq /\
  node_cmp (weighing f32_one) (weighing f32_zero) = Gt /\
  node_cmp (weighing f32_one) other_letter = Eq /\ node_eqb (weighing f32_one) other_letter = false /\
  node_eqb (weighing S754_nan) (weighing S754_nan) = false.
Proof. repeat split; vm_compute; reflexivity. Qed.
