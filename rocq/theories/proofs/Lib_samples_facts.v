(** The concrete cases of P_lib.v and P_conc.v. *)
From Verif.model Require Import Base F32 Utf8 Prim Coll Data Gram Indexer Nodes Classic Lit Raw Js Lib.
From Verif.spec Require Import Spec Data_spec Gram_spec Classic_spec Raw_spec Js_spec Lib_spec Samples Raw_samples Gram_samples Lib_samples.
From Verif.proofs Require Import Base_facts Data_facts File_facts Lib_facts Suggest_facts.

Lemma no_handlers_ok : handlers_ok no_cats no_tags.
Proof. split; intros k Hk; by apply not_elem_of_empty in Hk. Qed.
Lemma plain_search_valid : valid_search_order plain_search /\ valid_search_order other_search.
Proof. repeat split; intros l; simpl; try done; by rewrite (Permutation_rev l) at 2. Qed.
Lemma loads_to bytes gi cl : deserialize_all host64 ngram_index_size bytes = Done (gi, cl) ->
  after [InitOp bytes] = loaded gi cl.
Proof. intros E. unfold after, lib_run. cbn [foldl lib_step]. unfold initialize. by rewrite E. Qed.
Lemma sample_summary : match deserialize_all host64 ngram_index_size sample_file with
  | Done (gi, cl) => (length (c_products (gi_container gi)), get_orders (cl_order cl) s_price_up)
  | _ => (0%nat, None)
  end = (3%nat, Some [1; 0; 2]).
Proof. vm_compute. reflexivity. Qed.
Lemma sample_loads : exists gi cl, deserialize_all host64 ngram_index_size sample_file = Done (gi, cl) /\
  length (c_products (gi_container gi)) = 3%nat /\ get_orders (cl_order cl) s_price_up = Some [1; 0; 2] /\
  after [InitOp sample_file] = loaded gi cl.
Proof.
  pose proof sample_summary as S. destruct (deserialize_all host64 ngram_index_size sample_file) as [[gi cl]| | |] eqn:E; [|done..].
  exists gi, cl. split; [done|]. injection S as S1 S2. split; [done|]. split; [done|]. by apply loads_to.
Qed.
Lemma table_nodup : NoDup [1; 0; 2].
Proof. apply (bool_decide_unpack _). vm_compute. done. Qed.
Lemma sample_ordered : exists gi cl table, deserialize_all host64 ngram_index_size sample_file = Done (gi, cl) /\
  consistent_gram_index ngram_index_size gi /\ get_orders (cl_order cl) s_price_up = Some table /\
  (length (c_products (gi_container gi)) <= length table)%nat /\ NoDup table /\
  valid_search_order plain_search /\ valid_search_order other_search /\ handlers_ok no_cats no_tags.
Proof.
  destruct sample_loads as (gi & cl & E & L & T & _). exists gi, cl, [1; 0; 2]. split; [done|].
  split; [by apply load_consistent in E as [? _]|]. split; [done|]. split; [rewrite L; simpl; lia|].
  split; [exact table_nodup|]. destruct plain_search_valid as [A B]. split; [done|]. split; [done|exact no_handlers_ok].
Qed.
Lemma first_option_summary : match get_categories (after [InitOp sample_file]) with
  | Done h => match (cl_categories (ch_handle h) : list category) with
              | cat :: _ => match cat_options cat with _ :: _ => true | [] => false end
              | [] => false
              end
  | _ => false
  end = true.
Proof. vm_compute. reflexivity. Qed.
Lemma first_option_ok : handlers_ok (with_first_option (after [InitOp sample_file])) no_tags.
Proof.
  split; [|apply no_handlers_ok]. unfold with_first_option, with_option. pose proof first_option_summary as S.
  unfold get_categories in *. destruct (s_classic (after [InitOp sample_file])) as [cl|].
  2: { destruct (lock_unwrap _); done. }
  destruct (lock_unwrap _); [|done..]. cbn in *.
  destruct (cl_categories cl) as [|cat cats] eqn:C; [done|]. destruct (cat_options cat) as [|opt opts] eqn:O; [done|].
  intros key Hk. simpl in Hk. assert (key = (0, 0)) as -> by set_solver.
  exists cat, opt. split; [change (cl_categories cl !! 0%nat = Some cat); by rewrite C|by rewrite O].
Qed.
Lemma sample_filtering : handlers_ok (with_first_option (after [InitOp sample_file])) no_tags /\
  answer (after [InitOp sample_file]) three_words no_cats no_tags None [] = Done [1; 2; 0] /\
  answer (after [InitOp sample_file]) three_words (with_first_option (after [InitOp sample_file])) no_tags None []
    = Done [0].
Proof. split; [exact first_option_ok|]. split; vm_compute; reflexivity. Qed.
Lemma stale_handler :
  let before := after [InitOp sample_file] in
  let st := after [InitOp sample_file; InitOp shuffled_file] in
  option_name before 0 0 = Some lit_red /\ option_name st 1 2 = Some lit_red /\
  answer st word_chair (with_option before 0 0) no_tags None [] = Done [0] /\
  answer st word_chair (with_option st 1 2) no_tags None [] = Done [] /\
  (p_title <$> (c ← (gi_container <$> s_index st); c_products c !! 0%nat)) = Some (r_title raw_chair) /\
  Forall (fun opt => lit_red ∉ ro_values opt) (r_options raw_chair).
Proof.
  do 5 (split; [vm_compute; reflexivity|]).
  repeat constructor. apply (bool_decide_unpack _). vm_compute. done.
Qed.
Lemma sample_suggestion : splits query_lamps [word_red; word_lampe; []; word_lamps] /\
  tag_suggestion (loaded sample_index (tagged three_tags)) query_lamps =
    Done (TagSuggestion (JSTag (tagged three_tags) 2) word_lampe).
Proof. split; [exact (split_space_ok query_lamps)|vm_compute; reflexivity]. Qed.
Lemma danish_not_suggested gi : 3 <= lenN (utf8 danish) /\ splits danish [danish] /\
  (exists t, t ∈ cl_tags (tagged [danish]) /\ t_name t = danish) /\
  tag_suggestion (loaded gi (tagged [danish])) danish = Nope.
Proof.
  split; [vm_compute; done|]. split; [exact (split_space_ok danish)|].
  split; [eexists; split; [left|done]|]. vm_compute. reflexivity.
Qed.
Lemma sample_name : splits word_lamps [word_lamps] /\ Forall (fun c => c < 128) word_lamps /\
  (exists t, t ∈ cl_tags (tagged three_tags) /\ t_name t = word_lamps) /\ 3 <= lenN word_lamps < 2 ^ 21.
Proof.
  split; [exact (split_space_ok word_lamps)|]. split; [repeat constructor|].
  split; [eexists; split; [right; left|done]|]. split; vm_compute; done.
Qed.
