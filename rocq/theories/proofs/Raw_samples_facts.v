(** Counterexamples about raw catalogues, and the samples. *)
From Verif.model Require Import Base F32 Utf8 Prim Coll Data Gram Indexer Nodes Classic Lit Raw Js Lib.
From Verif.spec Require Import Spec Data_spec Classic_spec Gram_spec Raw_spec Samples Gram_samples Raw_samples.
From Verif.proofs Require Import Base_facts Raw_facts Raw_props.

Lemma nan_disorder parse o : parse str_two = Some two_f32 -> parse str_nan = Some S754_nan -> parse str_one = Some one_f32 ->
  exists c cl ranks, optimize parse o nan_raw = Done (c, cl) /\ get_orders (cl_order cl) s_price_up = Some ranks /\
    nan_raw !! 0%nat = Some (raw_plain str_two []) /\ nan_raw !! 2%nat = Some (raw_plain str_one []) /\
    f32_lt one_f32 two_f32 /\ ranks !! 0%nat = Some 0 /\ ranks !! 2%nat = Some 2.
Proof.
  intros H2 Hn H1. rewrite (optimize_same_prices parse sample_parse).
  2: { repeat constructor; simpl; [by rewrite H2|by rewrite Hn|by rewrite H1]. }
  assert (E : match optimize sample_parse o nan_raw with
              | Done (_, cl) => get_orders (cl_order cl) s_price_up | _ => None end = Some [0; 1; 2])
    by (vm_compute; reflexivity).
  destruct (optimize sample_parse o nan_raw) as [[c cl]| | |]; [|done..].
  exists c, cl, [0; 1; 2]. done.
Qed.
Lemma image_shift parse o : parse str_one = Some one_f32 ->
  exists c cl, optimize parse o imageless_raw = Done (c, cl) /\
    imageless_raw !! 0%nat = Some (raw_plain str_one []) /\ jp_string (JsProduct c 0) s_image_url = Done pic /\
    imageless_raw !! 1%nat = Some (raw_plain str_one [pic]) /\ jp_string (JsProduct c 1) s_image_url = Nope.
Proof.
  intros H1. rewrite (optimize_same_prices parse sample_parse).
  2: { repeat constructor; simpl; by rewrite H1. }
  assert (E : match optimize sample_parse o imageless_raw with
              | Done (c, _) => (jp_string (JsProduct c 0) s_image_url, jp_string (JsProduct c 1) s_image_url)
              | _ => (Panic, Panic) end = (Done pic, Nope))
    by (vm_compute; reflexivity).
  destruct (optimize sample_parse o imageless_raw) as [[c cl]| | |]; [|done..].
  injection E as E1 E2. exists c, cl. done.
Qed.
From Verif.proofs Require Import Order_facts F64_facts Sample_facts Trie_props.
Lemma sample_keys : total_cmp str_cmp /\ positions (c_products sample_container) /\
  Forall2 (fun p k => Done (p_title p) = Done k) (c_products sample_container)
    (map p_title (c_products sample_container)).
Proof.
  split; [exact str_cmp_total|]. split; [|apply title_keys].
  intros [|[|[|i]]] p; intros [= <-]; done.
Qed.
Lemma sample_prices : valid_build_order hash_order /\ prices_parse sample_parse sample_raw /\
  ~ prices_parse sample_parse unpriced_raw /\
  total_grams (map (raw_text (fun x => [x])) sample_raw) = 45.
Proof.
  split; [exact hash_order_valid|]. split; [repeat constructor; eexists; vm_compute; reflexivity|]. split.
  - intros H. apply Forall_inv_tail, Forall_inv in H as [x H]. vm_compute in H. done.
  - vm_compute; reflexivity.
Qed.
Lemma f32_widening x : valid_f32 x -> same_value x (f64_of_f32 x).
Proof. intros H. by apply f64_of_f32_exact. Qed.
