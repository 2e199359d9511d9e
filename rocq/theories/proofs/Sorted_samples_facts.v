(** The concrete cases for C116 and C117. *)
From Verif.model Require Import Base F32 Utf8 Prim Coll Data Gram Indexer Nodes Classic Lit Raw Js Lib.
From Verif.spec Require Import Spec Data_spec Gram_spec Classic_spec Raw_spec Js_spec Lib_spec End_spec Reorder_spec Choice_spec Sorted_spec
  Samples Raw_samples Gram_samples Lib_samples End_samples Sorted_samples.
From Verif.proofs Require Import Base_facts Lib_samples_facts.
From Verif.proofs Require End_samples_facts.

Lemma sample_before : prices_numeric sample_parse sample_raw /\
  goes_before sample_parse s_price_up raw_chair raw_lamp /\ goes_before sample_parse s_price_down raw_lamp raw_chair /\
  goes_before sample_parse s_alphabetical raw_chair raw_lamp /\ goes_before sample_parse s_alphabetical raw_lamp raw_table /\
  ~ goes_before sample_parse s_price_up raw_lamp raw_table /\ ~ goes_before sample_parse s_price_up raw_table raw_lamp.
Proof.
  assert (P1 : priced sample_parse raw_lamp two_f32) by (vm_compute; reflexivity).
  assert (P2 : priced sample_parse raw_chair half_f32) by (vm_compute; reflexivity).
  assert (P3 : priced sample_parse raw_table two_f32) by (vm_compute; reflexivity).
  assert (L : f32_lt half_f32 two_f32) by (vm_compute; reflexivity).
  assert (NL : ~ f32_lt two_f32 two_f32) by (vm_compute; discriminate).
  split. { repeat constructor; eexists; (split; [eassumption|]); vm_compute; first [discriminate|repeat split; discriminate]. }
  split; [right; exists half_f32, two_f32; split; [done|]; split; [done|]; by left|].
  split; [right; exists two_f32, half_f32; split; [done|]; split; [done|]; by right|].
  split; [left; split; [done|]; apply tb_here; vm_compute; reflexivity|].
  split; [left; split; [done|]; apply tb_here; vm_compute; reflexivity|].
  assert (Same : forall raw x y, priced sample_parse raw x -> priced sample_parse raw y -> x = y).
  { intros raw x y. unfold priced. intros -> [=]. done. }
  split; intros [[E _]|(x1 & x2 & H1 & H2 & [[_ H]|[E _]])]; try (vm_compute in E; discriminate).
  - rewrite (Same _ _ _ H1 P1), (Same _ _ _ H2 P3) in H. done.
  - rewrite (Same _ _ _ H1 P3), (Same _ _ _ H2 P1) in H. done.
Qed.
Lemma sample_filtered : Forall (fun e => exists props, plain_object e.2 props) from_one /\
  let_pass sample_parse from_one raw_lamp /\ ~ let_pass sample_parse from_one raw_chair /\
  answer (after [InitOp sample_file]) three_words no_cats no_tags None [] = Done [1; 2; 0] /\
  answer (after [InitOp sample_file]) three_words no_cats no_tags None from_one = Done [2; 0] /\
  answer (after [InitOp sample_file]) three_words no_cats no_tags (Some s_alphabetical) from_one = Done [0; 2].
Proof.
  set (b := JNum (f64_of_f32 one_f32)).
  assert (O : plain_object (JObj 0 [(s_from, Some b)]) [(s_from, b)]) by (by exists 0).
  assert (U : forall ps, plain_object (JObj 0 [(s_from, Some b)]) ps -> ps = [(s_from, b)]).
  { intros ps (id & E). injection E as _ E. destruct ps as [|[k v] [|]]; try done. simpl in E. by injection E as <- <-. }
  assert (G1 : property [(s_from, b)] s_from = b) by reflexivity. assert (G2 : property [(s_from, b)] s_to = JUndef) by reflexivity.
  split. { constructor; [|constructor]. by exists [(s_from, b)]. }
  split.
  { intros key v ps Hin Hv. apply elem_of_list_singleton in Hin as [= -> ->]. apply U in Hv as ->. right. split; [done|].
    exists two_f32. split; [vm_compute; reflexivity|]. rewrite G1, G2. split; [|discriminate]. intros a [= <-]. vm_compute. reflexivity. }
  split.
  { intros H. destruct (H s_price (JObj 0 [(s_from, Some b)]) [(s_from, b)]) as [[N _]|(_ & x & Hx & Hw & _)]; [left|done| |].
    - apply N. rewrite G1. by eexists.
    - assert (Hx' : priced sample_parse raw_chair half_f32) by (vm_compute; reflexivity). unfold priced in *. rewrite Hx' in Hx. injection Hx as <-.
      specialize (Hw _ G1). vm_compute in Hw. discriminate. }
  vm_compute. repeat split.
Qed.
