(** The directory with 128 products. *)
From Verif.model Require Import Base F32 Utf8 Data Gram Indexer Nodes Classic Lit Raw Js Lib Json Disk.
From Verif.spec Require Import Spec Gram_spec Raw_spec Classic_spec Lib_spec Samples Raw_samples Gram_samples Lib_samples Json_spec Json_samples End_spec
  Disk_spec Disk_samples.
From Verif.proofs Require Import Sample_facts Json_props Json_samples_facts Disk_facts End_samples_facts Utf8_facts Reorder_props Json_end.

Lemma dull_main : main ascii_low sample_parse host64 map_order hash_order no_order sample_order (utf8 dull_text) =
  Done (dull_index (utf8 dull_text)).
Proof. vm_compute. reflexivity. Qed.
(** The run fails, the old index is gone, and what is there instead is accepted with an empty order. *)
Lemma dull_broken : (dull_run (Broken dull_kept)).2 = Ended_err /\
  (initialize host64 lib_init (default [] (dull_disk !! out_path))).2 = Done true /\
  exists kept lost, (dull_run (Broken dull_kept)).1 !! out_path = Some kept /\
    dull_index (utf8 dull_text) = kept ++ lost /\ lost <> [] /\ (initialize host64 lib_init kept).2 = Done true /\
    (match s_classic (initialize host64 lib_init kept).1 with
     | Some cl => existsb (fun key => match get_orders (cl_order cl) key with Some [] => true | _ => false end)
                    [s_alphabetical; s_price_up; s_price_down]
     | None => false end) = true.
Proof.
  split; [vm_compute; reflexivity|]. split; [vm_compute; reflexivity|].
  exists (take dull_kept (dull_index (utf8 dull_text))), (drop dull_kept (dull_index (utf8 dull_text))).
  split; [vm_compute; reflexivity|]. split; [by rewrite take_drop|]. split; [vm_compute; discriminate|].
  split; vm_compute; reflexivity.
Qed.
Lemma dull_written : (dull_run Written).2 = Ended_ok /\ (dull_run Not_opened) = (dull_disk, Ended_err) /\
  (run ascii_low sample_parse host64 map_order hash_order no_order sample_order true Written dull_disk) = (dull_disk, Ended_err).
Proof. split; [vm_compute; reflexivity|]. split; vm_compute; reflexivity. Qed.

(** A directory with the sample catalogue, which has few products. *)
Lemma concat_perm {A} (l l' : list (list A)) : l ≡ₚ l' -> concat l ≡ₚ concat l'.
Proof.
  induction 1 as [|x l l' _ IH|x y l|l l' l'' _ IH _ IH']; cbn [concat]; [done|by rewrite IH| |by etrans].
  rewrite !app_assoc. by rewrite (Permutation_app_comm y x).
Qed.
Lemma raw_fits_perm P low l l' : l ≡ₚ l' -> raw_fits P low l -> raw_fits P low l'.
Proof.
  intros H [H1 H2]. split; [by rewrite <- H|].
  assert (raw_counts low l' = raw_counts low l) as ->; [|done]. unfold raw_counts.
  pose proof (Permutation_length H) as E1. pose proof (total_grams_perm _ _ (Permutation_map (raw_text low) H)) as E2.
  pose proof (Permutation_length (concat_perm _ _ (Permutation_map r_tags H))) as E3.
  pose proof (concat_perm _ _ (Permutation_map r_options H)) as HO.
  pose proof (Permutation_length (concat_perm _ _ (Permutation_map (fun o => map (pair (ro_name o)) (ro_values o)) HO))) as E4.
  pose proof (Permutation_length (Permutation_map ro_name HO)) as E5.
  unfold lenN, pair_mentions, category_mentions. rewrite E1, E2, E3, E4, E5. reflexivity.
Qed.
Lemma sample_fitting : fitting ascii_low host64 127 (utf8 sample_text).
Proof.
  intros t entries l Hv E Hc Hs. destruct sample_main as (Hvs & _ & Hf & _).
  apply (utf8_inj _ _ Hvs Hv) in E. subst t.
  assert (entries = sample_entries) as ->.
  { apply read_entries_iff in Hc. pose proof (proj2 (read_entries_iff _ _) sample_catalogue). congruence. }
  pose proof (survivors_distinct sample_entries l sample_distinct Hs) as Hp. symmetry in Hp.
  pose proof (Permutation_map snd Hp) as Hm.
  split; [by eapply raw_fits_perm|]. split.
  - rewrite <- (total_grams_perm _ _ (Permutation_map (raw_text ascii_low) Hm)). vm_compute. reflexivity.
  - rewrite <- (Permutation_length Hp). cbn. lia.
Qed.
Definition sample_run (w : writing) : event := Run host64 map_order hash_order no_order sample_order false w.
Definition sample_days : list event := [Save in_path (utf8 sample_text); sample_run Not_opened; sample_run Written; sample_run (Broken 700)].
Lemma sample_history : Forall possible sample_days /\
  (forall before after file, sample_days = before ++ after ->
     history ascii_low sample_parse before ∅ !! in_path = Some file -> fitting ascii_low host64 127 file) /\
  history ascii_low sample_parse sample_days ∅ !! out_path = Some (take 700 (dull_index (utf8 sample_text))) /\
  history ascii_low sample_parse (take 3 sample_days) ∅ !! out_path = Some (dull_index (utf8 sample_text)).
Proof.
  assert (Hr : forall w, possible (sample_run w)).
  { intros w. split; [apply map_orders_valid|]. split; [apply end_hyps|exact sample_order_valid]. }
  split; [apply Forall_cons; split; [done|]; repeat (apply Forall_cons; split; [apply Hr|]); apply Forall_nil_2|]. split; [|split; vm_compute; reflexivity].
  intros before after file E Hf. assert (file = utf8 sample_text) as ->; [|exact sample_fitting].
  destruct before as [|e before]; [done|]. injection E as <- E.
  assert (forall l d, (forall e, e ∈ l -> exists w, e = sample_run w) ->
    history ascii_low sample_parse l d !! in_path = d !! in_path) as Hh.
  { induction l as [|e l IH]; intros d Hl; [done|]. destruct (Hl e ltac:(left)) as [w ->].
    change (history ascii_low sample_parse (sample_run w :: l) d) with
      (history ascii_low sample_parse l (happens ascii_low sample_parse (sample_run w) d)).
    rewrite IH by (intros e' He'; apply Hl; by right). unfold happens, sample_run. by apply run_others. }
  change (history ascii_low sample_parse (Save in_path (utf8 sample_text) :: before) ∅) with
    (history ascii_low sample_parse before (<[in_path := utf8 sample_text]> ∅)) in Hf.
  rewrite Hh, lookup_insert in Hf; [congruence|]. intros e He.
  assert (He' : e ∈ before ++ after) by (apply elem_of_app; by left). rewrite <- E in He'.
  repeat (apply elem_of_cons in He' as [->|He']; [by eexists|]). by apply elem_of_nil in He'.
Qed.
Lemma sample_history_hyps : low_ok ascii_low /\ parse_ok sample_parse /\ Forall possible sample_days /\
  (forall before after file, sample_days = before ++ after ->
     history ascii_low sample_parse before ∅ !! in_path = Some file -> fitting ascii_low host64 127 file) /\
  history ascii_low sample_parse sample_days ∅ !! out_path = Some (take 700 (dull_index (utf8 sample_text))) /\
  history ascii_low sample_parse (take 3 sample_days) ∅ !! out_path = Some (dull_index (utf8 sample_text)).
Proof. split; [exact ascii_low_ok|]. split; [exact sample_parse_ok|]. exact sample_history. Qed.
