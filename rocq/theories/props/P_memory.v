(** C105 and C106: the two arenas of src/lib.rs:32-33, what references into them show, and how
    much they hold. *)
From Verif.model Require Import Base F32 Utf8 Prim Coll Data Gram Indexer Nodes Classic Lit Raw Js Lib Memory.
From Verif.spec Require Import Spec Data_spec Cost_spec Samples Raw_samples Gram_samples Lib_samples Memory_spec.
From Verif.proofs Require Import Memory_facts Memory_props Memory_samples_facts.

(** C105. Loading bytes into any memory ends as the decoder on values does, every reference
    it made shows the value, and whatever was in memory is still there. *)
Theorem C105_load : forall P n input M, exists M' r, mdeserialize_all P n input M = (M', r) /\ grows M M' /\
  same_end (shows_all M') r (deserialize_all P n input).
Proof. exact load_shows. Qed.
Print Assumptions C105_load.
(** The references go on showing it, whatever is loaded later. *)
Theorem C105_stable : forall P files M c v, shows_all M c v -> shows_all (load_all P files M) c v.
Proof. exact shows_later. Qed.
Print Assumptions C105_stable.
(** They show nothing else. *)
Theorem C105_unique : forall M c v v', shows_all M c v -> shows_all M c v' -> v = v'.
Proof. exact shows_all_unique. Qed.
Print Assumptions C105_unique.
Example C105_hyps : exists c v, (mdeserialize_all host64 ngram_index_size sample_file memory_init).2 = Done c /\
  deserialize_all host64 ngram_index_size sample_file = Done v /\
  match mdeserialize_all host64 ngram_index_size sample_file memory_init with (M, _) => shows_all M c v end.
Proof. exact sample_loaded. Qed.
(** Freezing the trie of the indexer into the arena. *)
Theorem C105_freeze : forall o h fuel M a parent, exists M' r, mimmutalize o h fuel a parent M = (M', r) /\ grows M M' /\
  same_end (shows_node M') r (immutalize o h fuel a parent).
Proof. exact freeze_shows. Qed.
Print Assumptions C105_freeze.

(** C106: loading again should need no more memory than loading once; it does. *)
Theorem C106_reload_refuted : exists P file,
  (length (m_nodes (load_all P [file] memory_init)) < length (m_nodes (load_all P [file; file] memory_init)))%nat.
Proof. exact reload_grows. Qed.
Print Assumptions C106_reload_refuted.
(** Every load of a file that was written adds the whole trie again. *)
Theorem C106_reload_partial : forall P o gi cl M k, valid_ser_order o -> gram_index_ok P ngram_index_size gi ->
  classic_ok P (c_products (gi_container gi)) cl ->
  length (m_nodes (load_all P (replicate k (serialize_all o gi cl)) M)) = (length (m_nodes M) + k * trie_nodes (gi_roots gi))%nat /\
  length (m_super (load_all P (replicate k (serialize_all o gi cl)) M)) = (length (m_super M) + 2 * k)%nat.
Proof. exact loads_hold. Qed.
Print Assumptions C106_reload_partial.
(** Whatever the bytes: two boxes, and at least the nodes of the trie. *)
Theorem C106_any_file : forall P n input M v, deserialize_all P n input = Done v ->
  exists M' c, mdeserialize_all P n input M = (M', Done c) /\
    length (m_super M') = (length (m_super M) + 2)%nat /\
    (length (m_nodes M) + trie_nodes (gi_roots v.1) <= length (m_nodes M'))%nat.
Proof. exact load_adds. Qed.
Print Assumptions C106_any_file.
(** Nothing is ever given back. *)
Theorem C106_never_shrinks : forall P files M, grows M (load_all P files M).
Proof. exact loads_grow. Qed.
Print Assumptions C106_never_shrinks.
(** Not even what a refused file left behind. *)
Example C106_refused : exists r, mdeserialize_all host64 ngram_index_size (take 200 sample_file) memory_init = r /\
  match r.2 with Nope => true | _ => false end = true /\ sizes r.1 = (9, 2)%nat.
Proof. exact cut_sizes. Qed.
Example C106_hyps : map (fun k => sizes (load_all host64 (replicate k sample_file) memory_init)) [0; 1; 2; 3]%nat =
  [(0, 0); (154, 2); (308, 4); (462, 6)]%nat.
Proof. exact sample_sizes. Qed.
