(** The sample catalogue's text meets the hypotheses of C124. *)
From Coq Require Import String ZArith Reals Lia Lra ZifyN ZifyBool.
From Flocq Require Import Core.Core IEEE754.BinarySingleNaN.
From Verif.model Require Import Base F32 Utf8 Prim Coll Data Gram Indexer Nodes Classic Lit Raw Js Lib Json Parse.
From Verif.spec Require Import Spec Data_spec Gram_spec Classic_spec Raw_spec Js_spec Lib_spec End_spec Json_spec Parse_spec Text_spec
  Samples Raw_samples Gram_samples Lib_samples End_samples Json_samples Parse_samples Sorted_samples.
From Verif.proofs Require Import Base_facts Float_facts F64_facts Json_facts Json_props Json_end Json_samples_facts Parse_facts Parse_props
  Parse_samples_facts Text_end.
Local Open Scope N_scope.

Lemma in_sample key raw : last_entry sample_entries key raw ->
  (key = lit "lamp" /\ raw = raw_lamp) \/ (key = lit "chair" /\ raw = raw_chair) \/ (key = lit "table" /\ raw = raw_table).
Proof.
  intros H%last_entry_in. unfold sample_entries in H. rewrite !elem_of_cons, elem_of_nil in H.
  destruct H as [H|[H|[H|H]]]; [| | |done]; injection H as -> ->; auto.
Qed.
Lemma sample_ids : ids_differ sample_entries.
Proof.
  intros k r k' r' H H' E. apply in_sample in H. apply in_sample in H'.
  destruct H as [[-> ->]|[[-> ->]|[-> ->]]], H' as [[-> ->]|[[-> ->]|[-> ->]]]; try reflexivity; vm_compute in E; discriminate E.
Qed.
Lemma costs_2 : costs (lit "2") 200.
Proof.
  split; [done|]. exists 2%N, 0%Z. split; [|unfold dec_val, F2R; simpl; lra].
  exists [], (lit "2"), [], [], [], 0%Z. split; [done|]. split; [by left|]. split; [digits|]. split; [constructor|].
  split; [by right|]. split; [done|]. split; [by left|]. done.
Qed.
Lemma costs_half : costs (lit "0.5") 50.
Proof.
  split; [done|]. exists 5%N, (-1)%Z. split; [|unfold dec_val, F2R; simpl; lra]. plain "0"%string "5"%string.
Qed.
Lemma sample_cents : costs_at_most raw_lamp 200 /\ costs_at_most raw_chair 50 /\ costs_at_most raw_table 200.
Proof. split; [|split]; (split; [|done]); [exact costs_2|exact costs_half|exact costs_2]. Qed.
Lemma sample_in_cents : all_in_cents sample_entries.
Proof.
  destruct sample_cents as (H1 & H2 & H3). intros k r H. apply in_sample in H as [[_ ->]|[[_ ->]|[_ ->]]]; by eexists.
Qed.
Lemma sample_text_main : main ascii_low parse_f32 host64 map_order hash_order no_order sample_order (utf8 sample_text) = Done json_file.
Proof. vm_compute. reflexivity. Qed.
Definition json_state : lib_state := lib_run ascii_low true host64 lib_init [InitOp json_file].
Lemma sample_text_answers :
  answer json_state three_words no_cats no_tags None [] = Done [2; 0; 1] /\
  answer json_state three_words no_cats no_tags (Some s_price_up) [] = Done [2; 0; 1] /\
  answer json_state three_words no_cats no_tags (Some s_price_down) [] = Done [0; 1; 2] /\
  answer json_state three_words no_cats no_tags (Some s_alphabetical) from_one = Done [1; 0].
Proof. vm_compute. repeat split; reflexivity. Qed.
Lemma one_val : finite_f64 (f64_of_f32 one_f32) /\ SF2R radix2 (f64_of_f32 one_f32) = 1%R.
Proof. split; [split; vm_compute; reflexivity|]. vm_compute f64_of_f32. simpl. unfold F2R. simpl. lra. Qed.
Lemma one_prop (props : list (rstr * jsval)) a b : map (fun '(k, v) => (k, Some v)) props = [(a, Some b)] -> props = [(a, b)].
Proof. destruct props as [|[k v] [|? ?]]; simpl; intros E; [discriminate E| |discriminate E]. by injection E as -> ->. Qed.
Lemma from_one_clear k : (k = 50 \/ k = 200) -> clear_bounds from_one k.
Proof.
  intros Hk key v props Hin (i & ->). unfold from_one in Hin. apply elem_of_list_singleton in Hin. assert (E : map (fun '(k, v) => (k, Some v)) props = [(s_from, Some (JNum (f64_of_f32 one_f32)))]) by congruence.
    assert (key = s_price) as -> by congruence. clear Hin.
  apply one_prop in E as ->.
  destruct one_val as [F1 V1]. split; intros a Ea; vm_compute in Ea.
  - injection Ea as <-. split; [exact F1|]. change (S754_finite _ _ _) with (f64_of_f32 one_f32). rewrite V1.
    destruct Hk as [-> | ->]; unfold Rabs; destruct (Rcase_abs _); simpl in *; lra.
  - discriminate Ea.
Qed.
Lemma from_one_passes : cents_pass from_one 200 /\ ~ cents_pass from_one 50.
Proof.
  destruct one_val as [F1 V1]. split.
  - intros key v props Hin (i & ->). unfold from_one in Hin. apply elem_of_list_singleton in Hin. assert (E : map (fun '(k, v) => (k, Some v)) props = [(s_from, Some (JNum (f64_of_f32 one_f32)))]) by congruence.
    assert (key = s_price) as -> by congruence. clear Hin.
    apply one_prop in E as ->.
    right. split; [done|]. split; intros a Ea; vm_compute in Ea; [|discriminate Ea]. injection Ea as <-.
    change (S754_finite _ _ _) with (f64_of_f32 one_f32). rewrite V1. simpl. lra.
  - intros H. destruct (H s_price _ [(s_from, JNum (f64_of_f32 one_f32))] ltac:(left) ltac:(by exists 0)) as [[H1 _]|[_ [H1 _]]].
    + apply H1. by eexists.
    + specialize (H1 _ eq_refl). rewrite V1 in H1. simpl in H1. lra.
Qed.
