(** Examples for C105 and C106. *)
From Verif.model Require Import Base F32 Utf8 Prim Coll Data Gram Indexer Nodes Classic Lit Raw Js Lib Memory.
From Verif.spec Require Import Spec Data_spec Cost_spec Samples Raw_samples Gram_samples Lib_samples Memory_spec.
From Verif.proofs Require Import Memory_facts Memory_props.

(** The file of three products: how many nodes and boxes, and what the first product refers to. *)
Definition sizes (M : memory) : nat * nat := (length (m_nodes M), length (m_super M)).
Lemma sample_loaded : exists c v, (mdeserialize_all host64 ngram_index_size sample_file memory_init).2 = Done c /\
  deserialize_all host64 ngram_index_size sample_file = Done v /\
  match mdeserialize_all host64 ngram_index_size sample_file memory_init with (M, _) => shows_all M c v end.
Proof.
  pose proof (load_shows host64 ngram_index_size sample_file memory_init) as (M & r & E & _ & S).
  assert (match deserialize_all host64 ngram_index_size sample_file with Done _ => true | _ => false end = true) as F
    by (vm_compute; reflexivity).
  destruct (deserialize_all host64 ngram_index_size sample_file) as [v| | |]; try discriminate F.
  destruct r as [c| | |]; try contradiction. exists c, v. rewrite E. split; [reflexivity|]. split; [reflexivity|exact S].
Qed.
Lemma sample_sizes : map (fun k => sizes (load_all host64 (replicate k sample_file) memory_init)) [0; 1; 2; 3]%nat =
  [(0, 0); (154, 2); (308, 4); (462, 6)]%nat.
Proof. vm_compute. reflexivity. Qed.
(** A file cut short is refused, and what was read of it stays. *)
Lemma cut_sizes : exists r, mdeserialize_all host64 ngram_index_size (take 200 sample_file) memory_init = r /\
  match r.2 with Nope => true | _ => false end = true /\ sizes r.1 = (9, 2)%nat.
Proof. eexists. split; [reflexivity|]. split; vm_compute; reflexivity. Qed.
Lemma once_and_twice : Nat.ltb (length (m_nodes (load_all host64 [sample_file] memory_init)))
  (length (m_nodes (load_all host64 [sample_file; sample_file] memory_init))) = true.
Proof. vm_compute. reflexivity. Qed.
Lemma reload_grows : exists P file,
  (length (m_nodes (load_all P [file] memory_init)) < length (m_nodes (load_all P [file; file] memory_init)))%nat.
Proof. exists host64, sample_file. apply Nat.ltb_lt. exact once_and_twice. Qed.
