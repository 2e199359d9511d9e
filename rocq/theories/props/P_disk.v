(** C144: the files of the indexer. *)
From Verif.model Require Import Base F32 Utf8 Data Gram Indexer Nodes Classic Lit Raw Js Lib Json Disk.
From Verif.spec Require Import Spec Gram_spec Raw_spec Classic_spec Lib_spec Samples Raw_samples Gram_samples Lib_samples
  Json_spec Json_samples End_spec Disk_spec Disk_samples.
From Verif.proofs Require Import Sample_facts Disk_facts Disk_samples_facts.

(** One would expect a run that fails to leave the index as it was, or at least nothing that passes for
    one. Here a run ends with an error, the old index is gone, and what is in its place lacks its end and
    is accepted all the same. *)
Theorem C144_whole_refuted : (dull_run (Broken dull_kept)).2 = Ended_err /\
  (initialize host64 lib_init (default [] (dull_disk !! out_path))).2 = Done true /\
  exists kept lost, (dull_run (Broken dull_kept)).1 !! out_path = Some kept /\
    dull_index (utf8 dull_text) = kept ++ lost /\ lost <> [] /\ (initialize host64 lib_init kept).2 = Done true /\
    (match s_classic (initialize host64 lib_init kept).1 with
     | Some cl => existsb (fun key => match get_orders (cl_order cl) key with Some [] => true | _ => false end)
                    [s_alphabetical; s_price_up; s_price_down]
     | None => false end) = true.
Proof. exact dull_broken. Qed.
Print Assumptions C144_whole_refuted.
(** All that a failed run can do is to cut the new index short. *)
Theorem C144_left_partial : forall low parse P mo bo ro so fails w d,
  (run low parse P mo bo ro so fails w d).2 <> Ended_ok ->
  (run low parse P mo bo ro so fails w d).1 = d \/
  exists file bytes k, d !! in_path = Some file /\ main low parse P mo bo ro so file = Done bytes /\ w = Broken k /\
    (run low parse P mo bo ro so fails w d).1 = <[out_path := take k bytes]> d.
Proof. exact run_not_ok. Qed.
Print Assumptions C144_left_partial.
(** A panic touches nothing. *)
Theorem C144_panic : forall low parse P mo bo ro so fails w d,
  (run low parse P mo bo ro so fails w d).2 = Ended_panic -> (run low parse P mo bo ro so fails w d).1 = d.
Proof. exact run_panic. Qed.
Print Assumptions C144_panic.
(** Other files are never touched. *)
Theorem C144_others : forall low parse P mo bo ro so fails w d path, path <> out_path ->
  (run low parse P mo bo ro so fails w d).1 !! path = d !! path.
Proof. exact run_others. Qed.
Print Assumptions C144_others.
(** A run that reports success leaves the whole index of the file it read. *)
Theorem C144_ok : forall low parse P mo bo ro so fails w d, (run low parse P mo bo ro so fails w d).2 = Ended_ok ->
  exists file bytes, d !! in_path = Some file /\ main low parse P mo bo ro so file = Done bytes /\
    (run low parse P mo bo ro so fails w d).1 !! out_path = Some bytes.
Proof. exact run_ok. Qed.
Print Assumptions C144_ok.
Theorem C144_ok_iff : forall low parse P mo bo ro so fails w d,
  (run low parse P mo bo ro so fails w d).2 = Ended_ok <->
  fails = false /\ w = Written /\
  exists file bytes, d !! in_path = Some file /\ main low parse P mo bo ro so file = Done bytes.
Proof. exact run_ok_iff. Qed.
Print Assumptions C144_ok_iff.
(** Every run ends, whatever is on the disk. *)
Theorem C144_ends : forall low parse P mo bo ro so fails w d, valid_order mo -> valid_build_order bo ->
  (run low parse P mo bo ro so fails w d).2 <> Never_ends.
Proof. exact run_ends. Qed.
Print Assumptions C144_ends.
(** Whatever was saved and run, the index is what it was at first, or the start of one produced since. *)
Theorem C144_history : forall low parse es d, Forall possible es ->
  history low parse es d !! out_path = d !! out_path \/
  exists bytes k, produced low parse es d bytes /\ history low parse es d !! out_path = Some (take k bytes).
Proof. exact history_out. Qed.
Print Assumptions C144_history.
(** While there are fewer than 128 products, an index that was cut short is always noticed: it makes
    [initialize] panic, and the library stays as it was. *)
Theorem C144_few : forall low parse Q es d contents, low_ok low -> parse_ok parse -> Forall possible es ->
  d !! out_path = None ->
  (forall before after file, es = before ++ after -> history low parse before d !! in_path = Some file ->
    fitting low Q 127 file) ->
  history low parse es d !! out_path = Some contents ->
  produced low parse es d contents \/ forall st, initialize Q st contents = (st, Panic).
Proof. exact history_few. Qed.
Print Assumptions C144_few.
Example C144_hyps : low_ok ascii_low /\ parse_ok sample_parse /\ Forall possible sample_days /\
  (forall before after file, sample_days = before ++ after ->
     history ascii_low sample_parse before ∅ !! in_path = Some file -> fitting ascii_low host64 127 file) /\
  history ascii_low sample_parse sample_days ∅ !! out_path = Some (take 700 (dull_index (utf8 sample_text))) /\
  history ascii_low sample_parse (take 3 sample_days) ∅ !! out_path = Some (dull_index (utf8 sample_text)).
Proof. exact sample_history_hyps. Qed.
Example C144_runs : (dull_run Written).2 = Ended_ok /\ (dull_run Not_opened) = (dull_disk, Ended_err) /\
  (run ascii_low sample_parse host64 map_order hash_order no_order sample_order true Written dull_disk) = (dull_disk, Ended_err).
Proof. exact dull_written. Qed.
