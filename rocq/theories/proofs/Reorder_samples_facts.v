(** The concrete cases of P_reorder.v. *)
From Verif.model Require Import Base F32 Utf8 Prim Coll Data Gram Indexer Nodes Classic Lit Raw Js Lib.
From Verif.spec Require Import Spec Data_spec Gram_spec Classic_spec Raw_spec Js_spec Lib_spec End_spec Samples Raw_samples Gram_samples
  Lib_samples End_samples Reorder_spec Reorder_samples.
From Verif.proofs Require Import Base_facts Data_facts File_facts Sample_facts Trie_facts Trie_props Lib_facts Raw_samples_facts Lib_samples_facts
  End_samples_facts Ties_samples_facts Reorder_end.
From Coq Require Import Lia.

Lemma small_fits P input : P = host64 \/ P = wasm32 -> Forall (raw_strings_ok P) input ->
  forallb (fun n => n <=? 104) (raw_counts ascii_low input) = true -> raw_fits P ascii_low input.
Proof.
  intros HP Hs C. split; [done|]. apply Forall_forall. intros n Hn. rewrite forallb_forall in C.
  apply elem_of_list_In, C, N.leb_le in Hn.
  assert (S : n < 2 ^ 56 /\ n <= usize_max host64 /\ n <= 2 ^ 59 - 1 /\ n <= usize_max wasm32 /\ n <= 2 ^ 27 - 1).
  { repeat split; [eapply N.le_lt_trans; [exact Hn|vm_compute; reflexivity]|..];
      (eapply N.le_trans; [exact Hn|]; vm_compute; discriminate). }
  destruct S as (S1 & S2 & S3 & S4 & S5). destruct HP as [->| ->]; (split; [by split|]); intros k; done.
Qed.
Lemma woods_fit P input : P = host64 \/ P = wasm32 -> input = woods \/ input = woods_reversed -> raw_fits P ascii_low input.
Proof.
  intros HP Hi. apply small_fits; [done| |].
  - unfold raw_strings_ok, str_ok, size_ok, valid_str.
    destruct HP as [->| ->], Hi as [->| ->]; apply (bool_decide_unpack _); vm_compute; done.
  - destruct Hi as [->| ->]; vm_compute; reflexivity.
Qed.
Lemma woods_untied n : ~ tied n (map (raw_text ascii_low) woods).
Proof. apply no_tied. vm_compute. reflexivity. Qed.
Lemma woods_hyps : raw_fits host64 ascii_low woods /\ raw_fits wasm32 ascii_low woods_reversed /\
  total_grams (map (raw_text ascii_low) woods) < 2 ^ 32 /\ NoDup (map r_id woods) /\ woods ≡ₚ woods_reversed /\
  ~ tied ngram_index_size (map (raw_text ascii_low) woods).
Proof.
  split; [apply woods_fit; by left|]. split; [apply woods_fit; by right|]. split; [vm_compute; reflexivity|].
  split; [apply (bool_decide_unpack _); vm_compute; done|]. split; [apply Permutation_rev|]. apply woods_untied.
Qed.
Lemma woods_files : index_and_serialize ascii_low sample_parse host64 hash_order no_order sample_order woods = Done woods_file /\
  index_and_serialize ascii_low sample_parse host64 other_order rev_order sample_order woods_reversed = Done woods_other_file /\
  loads host64 lib_init (InitOp woods_file) /\ loads wasm32 lib_init (InitOp woods_other_file).
Proof. split; [vm_compute; reflexivity|]. split; [vm_compute; reflexivity|]. split; vm_compute; reflexivity. Qed.
Lemma chosen_with_option st gi cl a b k v : st = loaded gi cl ->
  chosen_option (with_option st a b) k v <-> option_names cl a b = Some (k, v).
Proof.
  intros E. destruct (with_option_handle st gi cl a b E) as [H1 H2]. unfold chosen_option. rewrite H1. unfold option_names. split.
  - intros (key & cat & opt & Hk & [A B] & <- & <-). rewrite H2 in Hk. apply elem_of_singleton in Hk as ->.
    simpl in A, B. rewrite A. simpl. rewrite B. done.
  - destruct ((cl_categories cl : list category) !! N.to_nat a) as [cat|] eqn:C; [|done]. simpl.
    destruct (cat_options cat !! N.to_nat b) as [opt|] eqn:O; [|done]. simpl. intros [= <- <-].
    exists (a, b), cat, opt. rewrite H2. split; [by apply elem_of_singleton|]. done.
Qed.
Lemma woods_loaded : (exists gi cl, woods_state = loaded gi cl) /\ (exists gi cl, woods_other_state = loaded gi cl).
Proof.
  split.
  - assert (E : match s_index woods_state, s_classic woods_state with
                | Some _, Some _ => negb (s_index_dead woods_state) && negb (s_classic_dead woods_state) | _, _ => false end = true)
      by (vm_compute; reflexivity).
    destruct woods_state as [[gi|] [cl|] [] []]; try discriminate E. by exists gi, cl.
  - assert (E : match s_index woods_other_state, s_classic woods_other_state with
                | Some _, Some _ => negb (s_index_dead woods_other_state) && negb (s_classic_dead woods_other_state) | _, _ => false end = true)
      by (vm_compute; reflexivity).
    destruct woods_other_state as [[gi|] [cl|] [] []]; try discriminate E. by exists gi, cl.
Qed.
Lemma same_names st1 st2 gi1 cl1 gi2 cl2 a b c d : st1 = loaded gi1 cl1 -> st2 = loaded gi2 cl2 ->
  option_names cl1 a b = option_names cl2 c d -> is_Some (option_names cl1 a b) ->
  same_choice (with_option st1 a b) (with_option st2 c d) (tags_of st1) (tags_of st2) /\
  handlers_ok (with_option st1 a b) (tags_of st1) /\ handlers_ok (with_option st2 c d) (tags_of st2).
Proof.
  intros E1 E2 N S. split; [split|split; split].
  - intros k v. rewrite (chosen_with_option _ _ _ _ _ _ _ E1), (chosen_with_option _ _ _ _ _ _ _ E2). by rewrite N.
  - intros t. rewrite E1, E2. split; intros (id & tg & H & _); by apply not_elem_of_empty in H.
  - by apply (with_option_handlers st1 gi1 cl1 a b E1).
  - rewrite E1. intros id H. by apply not_elem_of_empty in H.
  - rewrite N in S. by apply (with_option_handlers st2 gi2 cl2 c d E2).
  - rewrite E2. intros id H. by apply not_elem_of_empty in H.
Qed.
Lemma woods_names : (x ← s_classic woods_state; option_names x 0 0) = (x ← s_classic woods_other_state; option_names x 0 2) /\
  is_Some (x ← s_classic woods_state; option_names x 0 0).
Proof. split; [vm_compute; reflexivity|]. eexists. vm_compute. reflexivity. Qed.
Lemma woods_choice :
  same_choice (with_option woods_state 0 0) (with_option woods_other_state 0 2) (tags_of woods_state) (tags_of woods_other_state) /\
  handlers_ok (with_option woods_state 0 0) (tags_of woods_state) /\
  handlers_ok (with_option woods_other_state 0 2) (tags_of woods_other_state).
Proof.
  destruct woods_loaded as [(gi1 & cl1 & E1) (gi2 & cl2 & E2)]. destruct woods_names as [N S].
  apply (same_names _ _ gi1 cl1 gi2 cl2); [done|done| |].
  - rewrite E1, E2 in N. exact N.
  - rewrite E1 in S. exact S.
Qed.
Lemma woods_found : delivered_ids true plain_search woods_state (with_option woods_state 0 0) = Done [str_one] /\
  delivered_ids false other_search woods_other_state (with_option woods_other_state 0 2) = Done [str_one] /\
  delivered_ids true plain_search woods_state (cats_of woods_state) = Done [str_one; lit_id2] /\
  delivered_ids false other_search woods_other_state (cats_of woods_other_state) = Done [str_one; lit_id2].
Proof. split; [vm_compute; reflexivity|]. split; [vm_compute; reflexivity|]. split; vm_compute; reflexivity. Qed.

(** ** Case and fields *)
Lemma woods_fit_more P input : P = host64 \/ P = wasm32 -> input = woods_upper \/ input = woods_joined -> raw_fits P ascii_low input.
Proof.
  intros HP Hi. apply small_fits; [done| |].
  - unfold raw_strings_ok, str_ok, size_ok, valid_str.
    destruct HP as [->| ->], Hi as [->| ->]; apply (bool_decide_unpack _); vm_compute; done.
  - destruct Hi as [->| ->]; vm_compute; reflexivity.
Qed.
Lemma woods_alike : Forall2 (same_but_case ascii_low) woods woods_upper /\ same_letters ascii_low query_woods query_upper /\
  query_woods <> query_upper /\ Forall2 (fun raw1 raw2 => raw1 <> raw2) woods woods_upper /\
  (forall c, same_letters ascii_low (ascii_low c) [c]).
Proof.
  split; [|split; [|split; [|split]]].
  - unfold same_but_case, same_letters. repeat constructor.
  - vm_compute. reflexivity.
  - discriminate.
  - repeat constructor; discriminate.
  - intros c. unfold same_letters, ascii_low. cbn [map concat app]. f_equal.
    destruct (65 <=? c) eqn:E1, (c <=? 90) eqn:E2; simpl andb; cbv iota; rewrite ?E1, ?E2; try done.
    destruct (c + 32 <=? 90) eqn:E3; [|by rewrite andb_false_r]. lia.
Qed.
Lemma woods_more_files :
  index_and_serialize ascii_low sample_parse host64 hash_order no_order sample_order woods_upper = Done woods_upper_file /\
  index_and_serialize ascii_low sample_parse host64 hash_order no_order sample_order woods_joined = Done woods_joined_file /\
  loads host64 lib_init (InitOp woods_upper_file) /\ loads host64 lib_init (InitOp woods_joined_file).
Proof. split; [vm_compute; reflexivity|]. split; [vm_compute; reflexivity|]. split; vm_compute; reflexivity. Qed.
Lemma woods_views : map (view ascii_low) woods = map (view ascii_low) woods_joined /\ Forall2 (fun raw1 raw2 => raw1 <> raw2) woods woods_joined.
Proof. split; [vm_compute; reflexivity|]. repeat constructor; discriminate. Qed.
Lemma boughs_fields : ~ field_relevant ascii_low query_across (raw_wood lit_boughs lit_green lit_id3).
Proof.
  intros (w & g & field & Hf & Hl & (a & b & Hw) & (q0 & q & m & -> & -> & Hm & _) & Hg).
  assert (a = [] /\ b = []) as [-> ->].
  { apply (f_equal length) in Hw. rewrite !app_length, Hl in Hw. change (length (lower ascii_low query_across)) with 5%nat in Hw.
    unfold ngram_index_size in Hw. destruct a, b; simpl in Hw; try lia. done. }
  rewrite app_nil_r in Hw. vm_compute in Hw. injection Hw as Hq _.
  assert (Hall : Forall (fun field => Forall (fun w => head w <> Some 103) (windows 5 (lower ascii_low field)) /\ 0 ∉ lower ascii_low field)
    [r_description (raw_wood lit_boughs lit_green lit_id3); r_title (raw_wood lit_boughs lit_green lit_id3);
     r_vendor (raw_wood lit_boughs lit_green lit_id3)]) by (apply (bool_decide_unpack _); vm_compute; done).
  rewrite Forall_forall in Hall. destruct (Hall field Hf) as [Hh Hz]. clear Hall Hf. rewrite Forall_forall in Hh.
  apply (Hh (q0 :: m)); [|simpl; by rewrite <- Hq]. apply windows_occurs; [lia| | |done].
  - unfold ngram_index_size in Hl. simpl in *. lia.
  - intros H0. apply Hz. destruct Hg as (c & d & ->). rewrite !elem_of_app. auto.
Qed.
Lemma woods_across : exists p, woods_answer = Done p /\
  exists j, Some j ∈ calls pp_next 1 p /\ jp_id j = Done lit_id3.
Proof.
  assert (E : match woods_answer with Done p => match calls pp_next 1 p with [Some j] => jp_id j | _ => Nope end | _ => Nope end = Done lit_id3)
    by (vm_compute; reflexivity).
  destruct woods_answer as [p| | |]; try discriminate E. exists p. split; [done|].
  destruct (calls pp_next 1 p) as [|[j|] [|]]; try discriminate E. exists j. split; [by apply elem_of_list_singleton|done].
Qed.
Lemma across_fields : exists input bytes query st' p j raw,
  index_and_serialize ascii_low sample_parse host64 hash_order no_order sample_order input = Done bytes /\
  loads host64 lib_init (InitOp bytes) /\ NoDup (map r_id input) /\
  (let st := after [InitOp bytes] in
   search ascii_low true plain_search st query (cats_of st) (tags_of st) None [] = (st', Done p)) /\
  Some j ∈ calls pp_next 1 p /\ raw ∈ input /\ jp_id j = Done (r_id raw) /\ ~ field_relevant ascii_low query raw.
Proof.
  destruct woods_across as (p & Ep & j & Hj & Ej). exists woods, woods_file, query_across. unfold woods_answer in Ep.
  destruct (search ascii_low true plain_search woods_state query_across (cats_of woods_state) (tags_of woods_state) None []) as [st' r] eqn:E.
  simpl in Ep. subst r. exists st', p, j, (raw_wood lit_boughs lit_green lit_id3).
  split; [apply woods_files|]. split; [apply woods_files|]. split; [apply woods_hyps|]. split; [exact E|]. split; [done|].
  split; [do 2 apply elem_of_list_further; apply elem_of_list_here|]. split; [done|]. apply boughs_fields.
Qed.
