(** C130: comparisons and what Rust asks of them. *)
From Verif.model Require Import Base F32 Utf8 Prim Coll Data Gram Indexer Nodes Classic Lit Raw Js Lib Access Equal.
From Verif.spec Require Import Spec Data_spec Samples Contract_spec Suggest_samples.
From Verif.proofs Require Import Contract_facts Suggest_samples_facts.

(** C130, as expected, would say that [Eq] and [Ord] of products and of trie nodes keep the contracts of
    these traits. Products of two catalogues do not: they may be neither smaller nor greater than one
    another and differ. *)
Theorem C130_products_refuted : exists p q, p ∈ c_products (gi_container sample_index) /\ product_cmp p q = Eq /\ product_eqb p q = false.
Proof. exact products_apart. Qed.
Print Assumptions C130_products_refuted.
(** All is kept among the products of one catalogue; and comparing any products is a total preorder. *)
Theorem C130_products_partial : forall ps, positions ps -> ord_contract (fun p => p ∈ ps) product_eqb product_cmp product_partial_cmp.
Proof. exact products_contract. Qed.
Print Assumptions C130_products_partial.
Theorem C130_all_products : cmp_contract (fun _ => True) product_cmp.
Proof. exact products_cmp. Qed.
Print Assumptions C130_all_products.
(** Nodes do not: a weight that is not a number is equal to all others under [cmp], and to none, not even
    itself, under [==]; and nodes of the same weight differ. *)
Theorem C130_nodes_refuted :
  node_cmp (weighing f32_one) (weighing S754_nan) = Eq /\ node_cmp (weighing S754_nan) (weighing f32_zero) = Eq /\
  node_cmp (weighing f32_one) (weighing f32_zero) = Gt /\
  node_cmp (weighing f32_one) other_letter = Eq /\ node_eqb (weighing f32_one) other_letter = false /\
  node_eqb (weighing S754_nan) (weighing S754_nan) = false.
Proof. exact nodes_apart. Qed.
Print Assumptions C130_nodes_refuted.
(** Exactly: sorting by [cmp] may rely on it if and only if all weights are numbers, or no two nodes are
    ordered at all. *)
Theorem C130_nodes_partial : forall l, Forall (fun a => valid_f32 (n_weight a)) l ->
  cmp_contract (fun a => a ∈ l) node_cmp <->
  Forall (fun a => is_nan (n_weight a) = false) l \/ (forall a b, a ∈ l -> b ∈ l -> node_cmp a b = Eq).
Proof. exact nodes_contract. Qed.
Print Assumptions C130_nodes_partial.
Example C130_hyps : positions (c_products (gi_container sample_index)) /\ Forall (fun a => valid_f32 (n_weight a)) [weighing f32_one; other_letter].
Proof.
  split; [|by repeat constructor].
  intros [|[|[|[|i]]]] p H; vm_compute in H; (discriminate || (injection H as <-; vm_compute; reflexivity)).
Qed.
