(** C136: constructors and accessors. *)
From Verif.model Require Import Base F32 Utf8 Prim Coll Data Gram Indexer Nodes Classic Lit Raw Js Lib Access.
From Verif.spec Require Import Spec Data_spec Js_spec Samples Raw_samples Lib_samples Lib_samples Suggest_samples.
From Verif.proofs Require Import Access_facts Access_samples_facts.

(** C136. Whatever bytes were loaded, [TagIndex::get] finds the tag that has the number asked for, if any
    tag has it. *)
Theorem C136_tags : forall P n bytes gi cl id t, deserialize_all P n bytes = Done (gi, cl) ->
  tags_get (cl_tags cl) id = Some t <-> t ∈ tags_iter (cl_tags cl) /\ tag_get_id t = id.
Proof. exact tags_loaded. Qed.
Print Assumptions C136_tags.
(** A tag handed to JavaScript shows its name and number; one past the end panics when asked. *)
Theorem C136_shown : forall cl id,
  (forall t, tags_get (cl_tags cl) id = Some t ->
     jt_get_name (js_tag_new cl id) = Done (t_name t) /\ jt_get_id (js_tag_new cl id) = Done (tag_get_id t)) /\
  (tags_get (cl_tags cl) id = None -> jt_get_name (js_tag_new cl id) = Panic /\ jt_get_id (js_tag_new cl id) = Panic).
Proof. exact tag_shown. Qed.
Print Assumptions C136_shown.
(** Both ways to a category lead to the one at that position; past the end one gives [None], the other
    panics. *)
Theorem C136_categories : forall (cs : list category) i,
  (forall c, cs !! i = Some c -> categories_get cs (N.of_nat i) = Some c /\ categories_index cs (N.of_nat i) = Done c) /\
  (cs !! i = None -> categories_get cs (N.of_nat i) = None /\ categories_index cs (N.of_nat i) = Panic).
Proof. exact categories_at. Qed.
Print Assumptions C136_categories.
(** A new ranker is empty, and makes one entry of two products exactly if their keys are the same. *)
Theorem C136_ranker : forall o, valid_order o -> rank_export o ranker_new = [].
Proof. exact nothing_ranked. Qed.
Print Assumptions C136_ranker.
Theorem C136_keys : forall p q x y o, valid_order o ->
  length (rank_export o (rank_add (rank_add ranker_new p x) q y)) = 1%nat <->
  string_extract (product_extract p) = string_extract (product_extract q).
Proof. exact ranked_by_id. Qed.
Print Assumptions C136_keys.
Theorem C136_key : forall p q, string_extract (product_extract p) = string_extract (product_extract q) <-> p_id p = p_id q.
Proof. exact keys_are_ids. Qed.
Print Assumptions C136_key.
(** The filters that the constructors make, and that no other are made from JavaScript's objects. *)
Theorem C136_range : forall from to feature fs p, filter_accepts (filter_range from to feature) fs p = true <->
  (~ is_number from /\ ~ is_number to) \/
  exists x, numeric_at fs (N.to_nat (p_sid p)) feature x /\ within from to x.
Proof. exact made_range. Qed.
Print Assumptions C136_range.
Theorem C136_exact : forall v feature fs p, filter_accepts (filter_exactly v feature) fs p = true <->
  (exists s, v = JStr s /\ string_at fs (N.to_nat (p_sid p)) feature s) \/
  (exists x y, v = JNum y /\ numeric_at fs (N.to_nat (p_sid p)) feature x /\ SFeqb x y = true).
Proof. exact made_exact. Qed.
Print Assumptions C136_exact.
Theorem C136_parsed : forall entry f, parse_entry entry = Some f ->
  (exists from to, f = filter_range from to entry.1) \/ (exists v, f = filter_exactly v entry.1).
Proof. exact parsed_made. Qed.
Print Assumptions C136_parsed.
(** What is put into a container is what its products show. *)
Theorem C136_container : forall ps vs fs i p key, ps !! i = Some p ->
  let j := JsProduct (container_new ps vs fs) (N.of_nat i) in
  jp_title j = Done (p_title p) /\ jp_id j = Done (p_id p) /\ jp_description j = Done (p_description p) /\
  forall s, jp_string j key = Done s <->
    exists f, fs_get_feature fs key = Some f /\ feature_get f (p_sid p) = Some (VString s).
Proof. exact container_shows. Qed.
Print Assumptions C136_container.
(** What is put into a classic index is what it holds; what is new is empty. *)
Theorem C136_classic : forall cs ts os o, valid_order o ->
  (forall i, categories_get (cl_categories (classic_new cs ts os)) i = categories_get cs i) /\
  (forall i, tags_get (cl_tags (classic_new cs ts os)) i = tags_get ts i) /\
  (forall key, get_orders (cl_order (classic_new cs ts os)) key = get_orders os key) /\
  (forall key, key ∈ order_options o (cl_order (classic_new cs ts os)) <-> exists ranks, get_orders os key = Some ranks).
Proof. exact classic_holds. Qed.
Print Assumptions C136_classic.
Theorem C136_empty : forall o p key, valid_order o ->
  order_options o orders_new = [] /\ get_orders orders_new key = None /\ fs_get_feature fs_new_empty key = None /\
  fs_get fs_new_empty p key = None.
Proof. exact nothing_held. Qed.
Print Assumptions C136_empty.
(** [partial_cmp] of two trie nodes always answers, even if a weight is not a number, and as [<] on the
    weights does. *)
Theorem C136_nodes : forall a b,
  (node_partial_cmp a b = Some Lt <-> SFltb (n_weight a) (n_weight b) = true) /\
  (node_partial_cmp a b = Some Gt <-> SFltb (n_weight b) (n_weight a) = true) /\
  (node_partial_cmp a b = Some Eq <-> SFltb (n_weight a) (n_weight b) = false /\ SFltb (n_weight b) (n_weight a) = false).
Proof. exact nodes_compared. Qed.
Print Assumptions C136_nodes.
(** A file with two tags: the second can be got, shown, and there is no third; a weight that is not a
    number. *)
Example C136_hyps : match deserialize_all host64 ngram_index_size sample_file with
  | Done (_, cl) => map (fun id => (t_name <$> tags_get (cl_tags cl) id, tag_get_id <$> tags_get (cl_tags cl) id, jt_get_name (js_tag_new cl id))) [0; 1; 2] =
      [(Some word_sale, Some 0, Done word_sale); (Some [110; 101; 119], Some 1, Done [110; 101; 119]); (None, None, Panic)] /\
      length (tags_iter (cl_tags cl)) = 2%nat /\ categories_index (cl_categories cl) 7 = Panic
  | _ => False
  end /\
  node_partial_cmp (weighing S754_nan) (weighing f32_one) = Some Eq /\ node_partial_cmp (weighing f32_zero) (weighing f32_one) = Some Lt.
Proof. exact access_sample. Qed.
