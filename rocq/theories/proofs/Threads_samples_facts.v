(** The concrete threads, checked. *)
From Verif.model Require Import Base F32 Utf8 Prim Coll Data Gram Indexer Nodes Classic Lit Raw Js Lib Threads.
From Verif.spec Require Import Spec Data_spec Js_spec Lib_spec Samples Raw_samples Gram_samples Lib_samples Threads_spec Threads_samples.
From Verif.proofs Require Import Base_facts Lib_samples_facts End_samples_facts Threads_facts Threads_props.

Lemma asks_script rs r : asks (script rs) r <-> r ∈ rs.
Proof.
  split; [intros [h Hh]; by eapply elem_of_list_lookup_2|]. intros [i Hi]%elem_of_list_lookup.
  exists (replicate i (ACategories Nope)). unfold script. by rewrite replicate_length.
Qed.
Lemma script_ends rs h : (length rs <= length h)%nat -> script rs h = None.
Proof. apply lookup_ge_None_2. Qed.
Lemma by_price_proper : proper by_price.
Proof. split; [apply plain_search_valid|apply no_handlers_ok]. Qed.
Lemma any_order_proper : proper any_order.
Proof. split; [apply plain_search_valid|apply no_handlers_ok]. Qed.

Definition done_bytes (x : res (list N)) : bool := match x with Done _ => true | _ => false end.
Lemma file_of_indexed input : done_bytes (index_and_serialize ascii_low sample_parse host64 hash_order no_order sample_order input) = true ->
  from_indexer (RInitialize (file_of input)).
Proof. intros H. exists input. unfold file_of. by destruct (index_and_serialize _ _ _ _ _ _ _). Qed.
Lemma clash_proper c r : c ∈ clash -> asks c r -> proper r /\ from_indexer r.
Proof.
  intros [->|[->|[]%elem_of_nil]%elem_of_cons]%elem_of_cons Ha; apply asks_script in Ha.
  - apply elem_of_cons in Ha as [->|Ha]; [split; [exact Logic.I|]; apply file_of_indexed; vm_compute; reflexivity|].
    apply elem_of_cons in Ha as [->|Ha]; [split; [exact Logic.I|]; apply file_of_indexed; vm_compute; reflexivity|].
    apply elem_of_list_singleton in Ha as ->. split; [apply any_order_proper|exact Logic.I].
  - apply elem_of_list_singleton in Ha as ->. split; [apply by_price_proper|exact Logic.I].
Qed.
Lemma clash_shown : (shown_at clash_run 12, shown_at clash_run 20, shown_at clash_run 24) =
  (Some (false, false, [[Done []]; []]), Some (true, true, [[Done []]; [Panic]]), Some (true, true, [[Done []; Panic]; [Panic]])).
Proof. vm_compute. reflexivity. Qed.
Lemma clash_poisons : exists clients ws t w,
  (forall c r, c ∈ clients -> asks c r -> proper r /\ from_indexer r) /\
  execution ascii_low host64 clients ws /\ ws !! t = Some w /\ both_poisoned (wo_state w).
Proof.
  assert (E : (fun w => (s_index_dead (wo_state w), s_classic_dead (wo_state w))) <$> clash_run !! 20%nat = Some (true, true)) by (vm_compute; reflexivity).
  destruct (clash_run !! 20%nat) as [w|] eqn:Hw; [|discriminate E]. injection E as E1 E2.
  exists clash, clash_run, 20%nat, w. split; [exact clash_proper|]. split; [apply trace_execution|]. split; [exact Hw|]. exact (conj E1 E2).
Qed.

Definition sized (n : nat) (bytes : list N) : bool :=
  match deserialize_all host64 ngram_index_size bytes with
  | Done (gi, cl) => (length (c_products (gi_container gi)) =? n)%nat &&
      forallb (fun kt => length kt.2 =? n)%nat (map_to_list (cl_order cl))
  | _ => true
  end.
Lemma sized_spec n bytes : sized n bytes = true -> file_of_size host64 n (RInitialize bytes).
Proof.
  unfold sized. intros H gi cl E. rewrite E in H. apply andb_true_iff in H as [H1%Nat.eqb_eq H2]. split; [done|].
  intros key table Hk. unfold get_orders, order_index in Hk. apply elem_of_map_to_list in Hk. rewrite forallb_forall in H2. apply elem_of_list_In in Hk. apply H2 in Hk.
  by apply Nat.eqb_eq in Hk.
Qed.
Lemma reload_proper c r : c ∈ reload -> asks c r -> proper r /\ file_of_size host64 3 r.
Proof.
  intros [->|[->|[]%elem_of_nil]%elem_of_cons]%elem_of_cons Ha; apply asks_script in Ha.
  - apply elem_of_cons in Ha as [->|Ha]; [split; [exact Logic.I|]; apply sized_spec; vm_compute; reflexivity|].
    apply elem_of_cons in Ha as [->|Ha]; [split; [exact Logic.I|]; apply sized_spec; vm_compute; reflexivity|].
    apply elem_of_list_singleton in Ha as ->. split; [apply any_order_proper|exact Logic.I].
  - apply elem_of_list_singleton in Ha as ->. split; [apply by_price_proper|exact Logic.I].
Qed.
Lemma reload_shown : (shown_at reload_run 12, shown_at reload_run 20, shown_at reload_run 24) =
  (Some (false, false, [[Done []]; []]), Some (false, false, [[Done []]; [Done [1; 0; 2]]]),
   Some (false, false, [[Done []; Done []]; [Done [1; 0; 2]]])).
Proof. vm_compute. reflexivity. Qed.
Lemma reload_execution : execution ascii_low host64 reload reload_run.
Proof. apply trace_execution. Qed.
Lemma clash_execution : execution ascii_low host64 clash clash_run.
Proof. apply trace_execution. Qed.
Lemma clash_ends c h : c ∈ clash -> (3 <= length h)%nat -> c h = None.
Proof. intros [->|[->|[]%elem_of_nil]%elem_of_cons]%elem_of_cons L; apply script_ends; cbn [length]; lia. Qed.
