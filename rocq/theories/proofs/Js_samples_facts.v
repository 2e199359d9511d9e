(** The samples of the handler theorems. *)
From Verif.model Require Import Base F32 Utf8 Prim Coll Data Gram Indexer Nodes Classic Lit Raw Js.
From Verif.spec Require Import Spec Data_spec Classic_spec Raw_spec Js_spec Samples Gram_samples Raw_samples Js_samples.
From Verif.proofs Require Import Base_facts Raw_facts Raw_props Js_facts Trie_props Sample_facts.

Lemma sample_ops_ok cl a b : tag_positions (cl_tags cl) -> (cl_tags cl : list tag) !! 0%nat = Some a -> (cl_tags cl : list tag) !! 1%nat = Some b ->
  Forall tag_op_ok (sample_tag_ops cl) /\ Forall (own_tag cl) (sample_tag_ops cl).
Proof.
  intros P A B. assert (H0 : tag_handle_ok (JSTag cl 0)) by (split; [exact P|by exists a]).
  assert (H1 : tag_handle_ok (JSTag cl 1)) by (split; [exact P|by exists b]).
  split; repeat constructor; try done; try (by exists a); by exists b.
Qed.
Lemma sample_tags_toggled : match optimize sample_parse hash_order sample_raw with
  | Done (c, cl) =>
    match tag_run (th_new cl) (sample_tag_ops cl) with
    | Done h => map (th_is_valid id h) (c_products c)
    | _ => []
    end
  | _ => []
  end = [Done true; Done false; Done true] /\
  (forall c cl, optimize sample_parse hash_order sample_raw = Done (c, cl) ->
     Forall tag_op_ok (sample_tag_ops cl) /\ Forall (own_tag cl) (sample_tag_ops cl)).
Proof.
  split; [vm_compute; reflexivity|]. intros c cl E.
  assert (L : match optimize sample_parse hash_order sample_raw with
    | Done (_, cl) => length (cl_tags cl) | _ => 0%nat end = 2%nat) by (vm_compute; reflexivity).
  rewrite E in L. destruct (lookup_lt_is_Some_2 (cl_tags cl) 0) as [a A]; [rewrite L; lia|].
  destruct (lookup_lt_is_Some_2 (cl_tags cl) 1) as [b B]; [rewrite L; lia|].
  apply (sample_ops_ok cl a b); [|done..].
  apply (optimize_tags _ _ _ _ _ (fun l => reflexivity _) E).
Qed.
Lemma sample_toggles : map (toggles eo_keys sample_cat_ops) [(0, 0); (0, 1); (1, 0)] = [2; 1; 0]%nat /\
  (forall c cl, optimize sample_parse hash_order sample_raw = Done (c, cl) -> Forall tag_op_ok (sample_tag_ops cl)).
Proof. split; [vm_compute; reflexivity|]. intros c cl E. by apply (proj2 sample_tags_toggled c cl). Qed.
