(** C64: two handlers that some searches tell apart and others do not. *)
From Verif.model Require Import Base F32 Utf8 Prim Coll Data Gram Indexer Nodes Classic Lit Raw Js Lib.
From Verif.spec Require Import Spec Data_spec Gram_spec Classic_spec Raw_spec Js_spec Lib_spec Samples Raw_samples
  Gram_samples Lib_samples.
From Verif.proofs Require Import Lib_facts Lib_samples_facts.

Lemma named_option_ok st cat opt name : option_name st cat opt = Some name -> handlers_ok (with_option st cat opt) no_tags.
Proof.
  unfold option_name, with_option. intros H. split; [|apply no_handlers_ok].
  unfold get_categories in *. destruct (lock_unwrap _) as [[]| | |]; cbn [mbind res_bind] in *; [|discriminate..].
  destruct (s_classic st) as [cl|]; cbn [of_opt mbind res_bind] in *; [|discriminate].
  cbn [ch_new ch_handle] in H.
  intros key Hk. cbn [ch_toggle ch_new ch_active toggle_key eo_keys fst] in Hk |- *. 
  assert (key = (cat, opt)) as -> by set_solver.
  destruct ((cl_categories cl : list category) !! N.to_nat cat) as [c|] eqn:C; [|discriminate H]. cbn [mbind option_bind] in H.
  destruct (cat_options c !! N.to_nat opt) as [o|] eqn:O; [|discriminate H].
  exists c, o. by split.
Qed.
Lemma two_handlers :
  let before := after [InitOp sample_file] in
  let st := after [InitOp sample_file; InitOp shuffled_file] in
  handlers_ok (with_option before 0 0) no_tags /\ handlers_ok (with_option st 1 2) no_tags /\
  map (fun cats => map (fun input => answer st input cats no_tags None []) [word_chair; drop 11 three_words])
    [no_cats; with_option before 0 0; with_option st 1 2] = [[Done [0]; Done [1]]; [Done [0]; Done []]; [Done []; Done []]].
Proof.
  cbv zeta. split; [exact (named_option_ok _ _ _ lit_red (proj1 stale_handler))|].
  split; [exact (named_option_ok _ _ _ lit_red (proj1 (proj2 stale_handler)))|]. vm_compute. reflexivity.
Qed.
