(** The concrete cases of P_end.v. *)
From Verif.model Require Import Base F32 Utf8 Prim Coll Data Gram Indexer Nodes Classic Lit Raw Js Lib.
From Verif.spec Require Import Spec Data_spec Gram_spec Classic_spec Raw_spec Js_spec Lib_spec End_spec Samples Raw_samples Gram_samples
  Lib_samples End_samples.
From Verif.proofs Require Import Base_facts Data_facts File_facts Sample_facts Trie_facts Trie_props Lib_facts Raw_samples_facts Lib_samples_facts End_props.

Lemma ascii_low_ok : low_ok ascii_low.
Proof.
  intros c Hc. unfold ascii_low. constructor; [|constructor].
  destruct ((65 <=? c) && (c <=? 90)) eqn:E; [|done]. apply andb_true_iff in E as [E1 E2].
  apply N.leb_le in E1, E2. unfold is_scalar. apply orb_true_iff. left. apply N.ltb_lt. lia.
Qed.
Lemma sample_parse_ok : parse_ok sample_parse.
Proof.
  intros s x. unfold sample_parse. repeat (destruct (decide _); [intros [= <-]; done|]). done.
Qed.
Lemma strings_fit P : P = host64 \/ P = wasm32 -> Forall (raw_strings_ok P) sample_raw.
Proof.
  unfold raw_strings_ok, str_ok, size_ok, valid_str.
  intros [->| ->]; apply (bool_decide_unpack _); vm_compute; done.
Qed.
Lemma counts_fit P : P = host64 \/ P = wasm32 ->
  Forall (fun n => size_ok P n /\ forall k, n <= cap_max P k) (raw_counts ascii_low sample_raw).
Proof.
  assert (C : raw_counts ascii_low sample_raw = [3; 45; 4; 7; 5; 104]) by (vm_compute; reflexivity). rewrite C. clear C.
  assert (S : forall n, n <= 104 -> n < 2 ^ 56 /\ n <= usize_max host64 /\ n <= 2 ^ 59 - 1 /\ n <= usize_max wasm32 /\ n <= 2 ^ 27 - 1).
  { intros n Hn. repeat split; [eapply N.le_lt_trans; [exact Hn|vm_compute; reflexivity]|..];
      (eapply N.le_trans; [exact Hn|]; vm_compute; discriminate). }
  intros HP. apply Forall_forall. intros n Hn.
  assert (n <= 104) as (S1 & S2 & S3 & S4 & S5)%S.
  { revert n Hn. apply Forall_forall. apply (bool_decide_unpack _). vm_compute. done. }
  destruct HP as [->| ->]; (split; [by split|]); intros k; done.
Qed.
Lemma sample_raw_fits P : P = host64 \/ P = wasm32 -> raw_fits P ascii_low sample_raw.
Proof. intros HP. split; [by apply strings_fit|by apply counts_fit]. Qed.
Lemma end_hyps : valid_build_order hash_order /\ valid_ser_order sample_order /\ low_ok ascii_low /\ parse_ok sample_parse /\
  raw_fits host64 ascii_low sample_raw /\ raw_fits wasm32 ascii_low sample_raw /\
  total_grams (map (raw_text ascii_low) sample_raw) < 2 ^ 32 /\ prices_parse sample_parse sample_raw.
Proof.
  split; [apply sample_prices|]. split; [exact sample_order_valid|]. split; [exact ascii_low_ok|]. split; [exact sample_parse_ok|].
  split; [by apply sample_raw_fits; left|]. split; [by apply sample_raw_fits; right|].
  split; [vm_compute; reflexivity|]. apply sample_prices.
Qed.
(** ** Loaded *)
Definition sample_state : lib_state := after [InitOp sample_file].
Lemma sample_indexed : index_and_serialize ascii_low sample_parse host64 hash_order no_order sample_order sample_raw = Done sample_file.
Proof. vm_compute. reflexivity. Qed.
Lemma sample_loading : loads host64 lib_init (InitOp sample_file).
Proof. vm_compute. reflexivity. Qed.
Lemma sample_classic : exists gi cl, sample_state = loaded gi cl.
Proof. destruct sample_loads as (gi & cl & _ & _ & _ & E). by exists gi, cl. Qed.
Lemma with_option_handle st gi cl a b : st = loaded gi cl -> ch_handle (with_option st a b) = cl /\ ch_active (with_option st a b) = {[(a, b)]}.
Proof. intros ->. split; [done|]. unfold with_option. cbn. set_solver. Qed.
Lemma with_option_handlers st gi cl a b : st = loaded gi cl -> is_Some (option_names cl a b) ->
  active_options_exist (with_option st a b) /\ s_classic st = Some (ch_handle (with_option st a b)).
Proof.
  intros E N. destruct (with_option_handle st gi cl a b E) as [H1 H2]. subst st. split.
  - intros key Hk. rewrite H2 in Hk. apply elem_of_singleton in Hk as ->. rewrite H1. unfold option_names in N.
    destruct ((cl_categories cl : list category) !! N.to_nat a) as [cat|] eqn:C; [|by destruct N].
    cbn in N. destruct (cat_options cat !! N.to_nat b) as [opt|] eqn:O; [|by destruct N]. by exists cat, opt.
  - by rewrite H1.
Qed.
Lemma with_tag_handlers st gi cl id t : st = loaded gi cl -> (cl_tags cl : list tag) !! N.to_nat id = Some t -> t_id t = id ->
  active_tags_exist (with_tag st id) /\ s_classic st = Some (th_handle (with_tag st id)).
Proof.
  intros E T Hid. assert (W : with_tag st id = TagHandler cl {[id]} [] ∅).
  { unfold with_tag, tags_of, get_tags, th_toggle, jt_get_id. rewrite E. cbn. rewrite getN_lookup, T. cbn. rewrite Hid.
    unfold toggle_key. cbn. f_equal. set_solver. }
  rewrite W. split.
  - intros k Hk. cbn in Hk. apply elem_of_singleton in Hk as ->. by exists t.
  - by rewrite E.
Qed.
Definition sample_view : option ((rstr * rstr) * (rstr * N)) :=
  match s_classic sample_state with
  | Some cl => x ← option_names cl 0 1; t ← (cl_tags cl : list tag) !! 1%nat; Some (x, (t_name t, t_id t))
  | None => None
  end.
Lemma sample_viewed : sample_view = Some ((lit_colour, lit_blue), (lit_new, 1)).
Proof. vm_compute. reflexivity. Qed.
Lemma view_handlers st gi cl x y : st = loaded gi cl ->
  match s_classic st with
  | Some cl => x ← option_names cl 0 1; t ← (cl_tags cl : list tag) !! 1%nat; Some (x, (t_name t, t_id t))
  | None => None
  end = Some (x, (y, 1)) ->
  handlers_ok (with_option st 0 1) (with_tag st 1) /\ s_classic st = Some (ch_handle (with_option st 0 1)) /\
  s_classic st = Some (th_handle (with_tag st 1)).
Proof.
  intros E V. rewrite E in V. cbn [loaded s_classic] in V.
  destruct (option_names cl 0 1) as [z|] eqn:O; [|discriminate V]. cbn in V.
  destruct ((cl_tags cl : list tag) !! 1%nat) as [t|] eqn:T; [|discriminate V]. cbn in V. injection V as Vx Vt Vi.
  destruct (with_option_handlers st gi cl 0 1 E ltac:(by eexists)) as [A1 A2].
  destruct (with_tag_handlers st gi cl 1 t E T Vi) as [B1 B2]. split; [split; assumption|]. split; assumption.
Qed.
Lemma sample_all : handlers_ok (with_option sample_state 0 1) (with_tag sample_state 1) /\
  s_classic sample_state = Some (ch_handle (with_option sample_state 0 1)) /\
  s_classic sample_state = Some (th_handle (with_tag sample_state 1)).
Proof. destruct sample_classic as (gi & cl & E). exact (view_handlers _ gi cl _ _ E sample_viewed). Qed.
Lemma none_active st gi cl i : st = loaded gi cl ->
  raw_has_options sample_raw (cats_of st) i /\ raw_has_tags sample_raw (tags_of st) i.
Proof.
  intros ->. split; [intros key cat opt Hk; by apply not_elem_of_empty in Hk|intros key t Hk; by apply not_elem_of_empty in Hk].
Qed.
Lemma sample_delivery :
  let st := after [InitOp sample_file] in let cats := with_option st 0 1 in let tags := with_tag st 1 in
  handlers_ok cats tags /\ s_classic st = Some (ch_handle cats) /\ s_classic st = Some (th_handle tags) /\
  answer st three_words cats tags None [] = Done [0] /\ answer st three_words (cats_of st) (tags_of st) None [] = Done [1; 2; 0] /\
  (x ← s_classic st; option_names x 0 1) = Some (lit_colour, lit_blue) /\ (x ← s_classic st; tag_name_at x 1) = Some lit_new.
Proof.
  cbv zeta. fold sample_state. split; [exact (proj1 sample_all)|]. split; [exact (proj1 (proj2 sample_all))|].
  split; [exact (proj2 (proj2 sample_all))|].
  split; [vm_compute; reflexivity|]. split; [vm_compute; reflexivity|]. split; vm_compute; reflexivity.
Qed.

(** ** The chair *)
Lemma first_kept w g : one_correction w g -> head g = head w.
Proof. intros (q0 & q & m & -> & -> & _). done. Qed.
Lemma one_correction_length w g : one_correction w g -> length g = length w.
Proof. intros (q0 & q & m & -> & -> & L & _). simpl. by rewrite L. Qed.
Lemma sample_windows : Forall (fun raw => 0 ∉ raw_text ascii_low raw /\
  Forall (fun g => head g = head word_chair -> g = word_chair) (windows ngram_index_size (raw_text ascii_low raw))) sample_raw.
Proof. apply (bool_decide_unpack _). vm_compute. done. Qed.
Lemma chair_distinctive : distinctive ascii_low sample_raw word_chair.
Proof.
  intros raw g Hr Ho Hc. pose proof sample_windows as S. rewrite Forall_forall in S. destruct (S raw Hr) as [Hz Hw].
  rewrite Forall_forall in Hw. apply Hw; [|by apply first_kept]. apply windows_occurs; [unfold ngram_index_size; lia|..|done].
  - by apply one_correction_length in Hc.
  - intros Hg. apply Hz. destruct Ho as (a & b & ->). rewrite !elem_of_app. auto.
Qed.
Lemma chair_found :
  let st := after [InitOp sample_file] in
  NoDup (map r_id sample_raw) /\ lenN sample_raw <= usize_max host64 /\
  sample_raw !! 1%nat = Some raw_chair /\
  raw_has_options sample_raw (cats_of st) 1 /\ raw_has_tags sample_raw (tags_of st) 1 /\
  length word_chair = ngram_index_size /\ 0 ∉ word_chair /\ occurs word_chair (lower ascii_low three_words) /\
  occurs word_chair (raw_text ascii_low raw_chair) /\
  (forall limit, cutoff_for (lenN sample_raw) limit ->
     total_occurrences word_chair (map (raw_text ascii_low) sample_raw) < limit) /\
  distinctive ascii_low sample_raw word_chair.
Proof.
  cbv zeta. split; [apply (bool_decide_unpack _); vm_compute; done|].
  split; [vm_compute; discriminate|]. split; [done|]. fold sample_state.
  split; [destruct sample_classic as (gi & cl & E); exact (proj1 (none_active _ gi cl 1 E))|].
  split; [destruct sample_classic as (gi & cl & E); exact (proj2 (none_active _ gi cl 1 E))|].
  split; [done|]. split; [apply (bool_decide_unpack _); vm_compute; done|].
  split; [exists (take 5 three_words), (drop 10 three_words); vm_compute; reflexivity|].
  split; [exists [], (drop 5 (raw_text ascii_low raw_chair)); vm_compute; reflexivity|].
  split; [|exact chair_distinctive]. intros limit [Hl _]. rewrite Hl by (vm_compute; discriminate). vm_compute; reflexivity.
Qed.

(** Relevance is not for everyone. *)
Lemma chair_irrelevant : ~ relevant ascii_low sample_raw word_jumpy raw_chair /\
  Forall (fun raw => 0 ∉ raw_text ascii_low raw) sample_raw.
Proof.
  assert (H : Forall (fun raw => 0 ∉ raw_text ascii_low raw) sample_raw) by (apply (bool_decide_unpack _); vm_compute; done).
  split; [|done]. apply disjoint_irrelevant; [done|]. intros c Hc Hr.
  assert (D : Forall (fun c => c ∉ raw_text ascii_low raw_chair) (lower ascii_low word_jumpy))
    by (apply (bool_decide_unpack _); vm_compute; done).
  rewrite Forall_forall in D. by apply (D c).
Qed.
