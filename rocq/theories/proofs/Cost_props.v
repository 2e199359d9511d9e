(** Bounds on calls, sizes and depths of indexes. *)
From Verif.model Require Import Base F32 Utf8 Prim Coll Data Gram Indexer Nodes Classic Raw Js Lib.
From Verif.spec Require Import Spec Data_spec Gram_spec Samples Gram_samples Cost_spec Cost_samples.
From Verif.proofs Require Import Base_facts Sort_facts Prim_facts Prim_codec Coll_facts Data_facts File_facts Sample_facts
  Indexer_facts Trie_facts Search_facts Search_more Trie_props Search_props Cost_facts Size_facts Length_facts.
From Coq Require Import Arith ZifyBool ZifyNat ZifyN.
From Verif.spec Require Import Cost_spec.
Ltac Zify.zify_post_hook ::= Z.div_mod_to_equations.

(** ** Searching one window *)
Lemma counted_gram_value n gi q : (n <= 764)%nat ->
  search_gram n gi q = Done (value (counted_search_gram n gi q)).
Proof.
  intros Hn. unfold search_gram, counted_search_gram. destruct q as [|q0 q]; [done|].
  destruct (gi_roots gi !! q0) as [root|]; [|done].
  assert (n / 3 <= 255)%nat as E%Nat.leb_le by lia. rewrite E.
  by rewrite counted_value.
Qed.
Lemma counted_gram_depth n gi q : (1 <= n)%nat -> (depth (counted_search_gram n gi q) <= n + n / 3)%nat.
Proof.
  intros Hn. unfold counted_search_gram. destruct q as [|q0 q]; [cbn; lia|].
  destruct (gi_roots gi !! q0) as [root|]; [|cbn; lia].
  etrans; [apply counted_depth|]. lia.
Qed.
Lemma counted_gram_wide B n gi q : (1 <= n)%nat ->
  (forall g root, gi_roots gi !! g = Some root -> wide B root) ->
  (calls (counted_search_gram n gi q) <= n * (n * (2 * B + 2)) ^ (n / 3))%nat.
Proof.
  intros Hn Hw. unfold counted_search_gram. destruct q as [|q0 q]; [cbn; lia|].
  destruct (gi_roots gi !! q0) as [root|] eqn:E; [|cbn; lia].
  etrans; [apply (counted_calls n (n / 3) B (n - 1) (n / 3)); [lia|lia|by eapply Hw|done]|].
  destruct (n / 3)%nat as [|d]; [cbn; lia|]. rewrite calls_bound_pow. replace (S (n - 1)) with n by lia.
  cbn [Nat.pow]. apply Nat.eq_le_incl. ring.
Qed.
(** The windows that a query is searched for. *)
Lemma sum_bound (f : list N -> nat) m l : (forall x, f x <= m)%nat -> (list_sum (map f l) <= length l * m)%nat.
Proof. intros H. unfold list_sum. induction l as [|x l IH]; cbn [map foldr length]; [lia|]. specialize (H x). lia. Qed.

Section built.
Context (P : platform) (n : nat) (o : build_order) (source : list (product * list N)) (pc : container)
  (gi : gram_index).
Context (Hn : (1 <= n)%nat) (Ho : valid_build_order o)
  (Hlim : total_grams (map snd source) < 2 ^ 32) (H : index_from P n o source pc = Done gi).

(** C95 *)
Lemma gram_calls q :
  (calls (counted_search_gram n gi q) <= n * (n * (2 * length (alphabet (map snd source)) + 2)) ^ (n / 3))%nat.
Proof. apply counted_gram_wide; [done|]. intros g root Hg. by eapply root_wide. Qed.
Lemma query_calls input :
  (list_sum (map (fun w => calls (counted_search_gram n gi w)) (windows n input)) <=
   length input * (n * (n * (2 * length (alphabet (map snd source)) + 2)) ^ (n / 3)))%nat.
Proof.
  etrans; [apply sum_bound; intros w; apply gram_calls|]. unfold windows. rewrite map_length, seq_length. done.
Qed.
(** C94 *)
Lemma down_calls L k nd cw pi input ch child : (1 <= calls (down n L k nd cw pi input ch child))%nat.
Proof.
  unfold down. destruct k as [|k]; [destruct input; cbn; lia|]. rewrite counted_search_S, calls_call. lia.
Qed.
Lemma filter_one (l : list node) g : NoDup (map n_item l) ->
  (length l <= 1 + length (filter (fun c => Some (n_item c) <> Some g) l))%nat.
Proof.
  induction l as [|c l IH]; cbn [map]; [intros; cbn; lia|]. intros [Hc Hnd]%NoDup_cons.
  destruct (decide (n_item c = g)) as [<-|Hd].
  - rewrite filter_cons_False by (intros Hne; by apply Hne). cbn [length]. rewrite filter_all; [lia|].
    apply Forall_forall. intros d Hd [= E]. apply Hc. rewrite <- E. by apply elem_of_list_fmap_1.
  - rewrite filter_cons_True by congruence. cbn [length]. specialize (IH Hnd). lia.
Qed.
Lemma calls_fold_least (L : nat) k input nd ch cw pi : forall l acc,
  (calls acc + 2 * length l <= calls (foldl (step_child n L k input nd ch cw pi) acc l))%nat.
Proof.
  induction l as [|child l IH]; intros acc; cbn [foldl length]; [lia|].
  etrans; [|apply IH]. unfold step_child. rewrite !calls_then, calls_free.
  pose proof (down_calls L k nd cw pi (tail input) (S ch) child). pose proof (down_calls L k nd cw pi input (S (S ch)) child). lia.
Qed.
Lemma every_child_tried q0 q root : (3 <= n)%nat -> gi_roots gi !! q0 = Some root ->
  (length (n_children root) < calls (counted_search_gram n gi (q0 :: q)))%nat.
Proof.
  intros Hn3 Hr. unfold counted_search_gram. rewrite Hr.
  assert (at_path (gi_roots gi) [q0] root) as Hp by (exists q0, [], root; repeat split; [done|constructor]).
  destruct (trie_children P n o source pc gi Hn Ho Hlim H _ _ Hp) as [Hnd _].
  destruct (n - 1)%nat as [|k] eqn:En; [lia|].
  generalize (q0 :: replicate (S k) 0). intros pi.
  rewrite counted_search_S, calls_call, calls_then.
  assert (1 <= n / 3)%nat as Hl by (apply Nat.div_le_lower_bound; lia).
  destruct (Nat.ltb_spec 0 (n / 3)) as [_|]; [|lia].
  rewrite calls_then.
  pose proof (calls_fold_least (n / 3) k q root 0 f32_one pi (others root q)
    (free (value (step_first n (n / 3) k q root 0 f32_one pi)))) as Hf.
  rewrite calls_free in Hf.
  assert (Hf' : (length (n_children root) <= calls (step_first n (n / 3) k q root 0 f32_one pi) + length (others root q))%nat).
  { unfold step_first, others. destruct (entered root q) as [child|] eqn:E.
    - pose proof (down_calls (n / 3) k root f32_one pi (tail q) 0 child).
      pose proof (filter_one (n_children root) (n_item child) Hnd). cbn [fmap option_fmap option_map]. lia.
    - rewrite calls_free. rewrite filter_all; [cbn; lia|]. apply Forall_forall. done. }
  lia.
Qed.
End built.

(** ** Loaded tries *)
Lemma dec_node_count P : forall fuel input rest nd, dec_node_fuel P fuel input = Done (rest, nd) ->
  (6 * node_count nd + length rest <= length input)%nat.
Proof.
  induction fuel as [|fuel IH]; intros input rest nd Hd; [done|]. cbn [dec_node_fuel] in Hd.
  inv_bind Hd. destruct x as [i1 item]. inv_bind Hd. destruct x as [i2 w].
  inv_bind Hd. destruct x as [i3 l]. injection Hd as <- <-.
  apply dec_char_eats in E as (p1 & -> & H1). apply dec_f32_eats in E0 as (p2 & -> & H2).
  rewrite !app_length. cbn [node_count].
  unfold dec_vec in E1. inv_bind E1. destruct x as [mid len]. inv_bind E1.
  apply dec_usize_eats in E as (p3 & -> & H3). rewrite app_length.
  apply (rep_N_inv _ (fun i '(inp, out) => (6 * list_sum (map node_count out) + length inp <= length mid)%nat)) in E1; [lia| |].
  - cbn. lia.
  - intros i [inp out] [inp' out'] Hi Hinv Hf. inv_bind Hf. destruct x0 as [ni item'].
    injection Hf as <- <-. rewrite map_app, list_sum_app. cbn [map]. unfold list_sum at 2. cbn [foldr].
    apply IH in E. lia.
Qed.
Lemma list_max_sum l : (list_max l <= list_sum l)%nat.
Proof. unfold list_max, list_sum. induction l as [|x l IH]; cbn [foldr]; lia. Qed.
Lemma depth_count nd : (node_depth nd <= node_count nd)%nat.
Proof.
  induction nd as [item weight children IH] using node_ind'. cbn [node_depth node_count].
  etrans; [|apply le_n_S, list_sum_le; intros x Hx; rewrite Forall_forall in IH; by apply IH].
  apply le_n_S, list_max_sum.
Qed.
Lemma loaded_depth P n bytes gi cl g nd : deserialize_all P n bytes = Done (gi, cl) ->
  gi_roots gi !! g = Some nd -> (6 * node_depth nd <= length bytes)%nat.
Proof.
  unfold deserialize_all, dec_gram_index. intros Hd Hg. inv_bind Hd. destruct x as [i1 gi'].
  inv_bind E. destruct x as [i2 c]. inv_bind E. destruct x as [i3 roots]. inv_bind E. destruct x as [i4 data]. injection E as <- <-.
  inv_bind Hd. destruct x as [i5 cl']. injection Hd as <- <-. cbn [gi_roots] in Hg.
  apply dec_container_inv in E0 as [_ (p0 & -> & _)]. rewrite app_length.
  unfold dec_map in E1. inv_bind E1. destruct x as [mid len]. inv_bind E1.
  apply dec_usize_eats in E0 as (p3 & -> & _). rewrite app_length in *.
  apply (rep_N_inv _ (fun i '(inp, out) => (length inp <= length mid)%nat /\
    map_Forall (fun _ nd => (6 * node_depth nd <= length mid)%nat) out)) in E1.
  - destruct E1 as [_ E1]. specialize (E1 _ _ Hg). cbn in E1. lia.
  - split; [done|]. apply map_Forall_empty.
  - intros i [inp out] [inp' out'] Hi [Hinv Hall] Hf. inv_bind Hf. destruct x0 as [ni key].
    inv_bind Hf. destruct x0 as [ni' nd']. injection Hf as <- <-.
    apply dec_char_eats in E0 as (p1 & -> & _). rewrite app_length in Hinv.
    apply dec_node_count in E4. pose proof (depth_count nd'). split; [lia|].
    apply map_Forall_insert_2; [lia|done].
Qed.

(** ** Tries of any depth *)
Lemma branch_depth d : node_depth (branch d) = S d.
Proof. induction d as [|d IH]; [done|]. cbn [branch node_depth map list_max foldr]. rewrite IH. lia. Qed.
Lemma branch_ok d : node_ok wasm32 (branch d).
Proof.
  induction d as [|d IH]; cbn [branch].
  - constructor; [vm_compute; done|vm_compute; done|split; vm_compute; done|constructor].
  - constructor; [vm_compute; done|vm_compute; done| |by constructor]. change (lenN [branch d]) with 1. split; vm_compute; done.
Qed.
Lemma branch_length d : length (enc_node (branch d)) = (6 * S d)%nat.
Proof.
  induction d as [|d IH]; [vm_compute; done|]. cbn [branch]. cbn [enc_node map concat]. rewrite !app_length, IH.
  change (length (enc_char 97)) with 1%nat. change (length (enc_f32 f32_one)) with 4%nat.
  change (length (enc_usize (lenN [branch d]))) with 1%nat. cbn [length]. lia.
Qed.
Lemma branch_index_ok n d : (n <= 764)%nat -> gram_index_ok wasm32 n (branch_index d).
Proof.
  intros Hn. split; [|split; [|split; [|split; [|split]]]].
  - split; [|split; [|split; [|split; [|split]]]]; [| |split; vm_compute; done|done|constructor|vm_compute; done].
    + exists []. split; [exact (vm_inserts_are [])|split; [constructor|split; split; vm_compute; done]].
    + split; [split; vm_compute; done|]. intros key f Hk. unfold branch_index in Hk. cbn [gi_container c_features] in Hk. unfold feature_set in Hk. by rewrite lookup_empty in Hk.
  - split; vm_compute; done.
  - intros c nd Hc. unfold branch_index in Hc. cbn [gi_roots] in Hc. apply lookup_singleton_Some in Hc as [<- <-].
    split; [done|apply branch_ok].
  - split; vm_compute; done.
  - unfold size_ok, usize_max. change (usize_bits wasm32) with 32. lia.
  - intros g l Hg. unfold branch_index in Hg. cbn [gi_data] in Hg. by rewrite lookup_empty in Hg.
Qed.
Lemma empty_classic_ok ps : classic_ok wasm32 ps (Classic [] [] ∅).
Proof.
  split; [split; vm_compute; done|]. split; [constructor|]. split; [split; vm_compute; done|]. split; [constructor|].
  split; [done|]. split; [split; vm_compute; done|]. intros key ranks Hk. cbn [cl_order] in Hk. unfold order_index in Hk. by rewrite lookup_empty in Hk.
Qed.
Lemma branch_loads n d : (n <= 764)%nat ->
  exists bytes gi cl nd, length bytes = (15 + 6 * d)%nat /\
    deserialize_all wasm32 n bytes = Done (gi, cl) /\ gi_roots gi !! 97 = Some nd /\ node_depth nd = S d.
Proof.
  intros Hn. exists (branch_file d), (stored_gram_index (branch_index d)), (stored_classic (Classic [] [] ∅)), (branch d). split; [|split; [|split; [|apply branch_depth]]].
  - unfold branch_file. rewrite serialize_all_length by exact sample_order_valid.
    assert (root_bytes (map_to_list (gi_roots (branch_index d))) = 1 + 6 * S d)%nat as ->.
    { unfold branch_index. cbn [gi_roots]. rewrite insert_empty, map_to_list_singleton. unfold root_bytes, list_sum.
      cbn [map foldr]. rewrite branch_length. change (length (enc_char 97)) with 1%nat. lia. }
    change (length (enc_container no_order no_order (gi_container (branch_index d)))) with 3%nat.
    change (length (enc_usize (N.of_nat (size (gi_roots (branch_index d)))))) with 1%nat.
    change (length (enc_map no_order (enc_array enc_char) enc_product_refs (gi_data (branch_index d)))) with 1%nat.
    change (length (enc_categories (cl_categories (Classic [] [] ∅)))) with 1%nat.
    change (length (enc_tags (cl_tags (Classic [] [] ∅)))) with 1%nat.
    change (length (enc_orders no_order (cl_order (Classic [] [] ∅)))) with 1%nat. lia.
  - rewrite <- (app_nil_r (branch_file d)). unfold branch_file.
    apply (file_roundtrip wasm32 n sample_order (branch_index d) (Classic [] [] ∅) []); [exact sample_order_valid|by apply branch_index_ok|apply empty_classic_ok].
  - apply lookup_insert.
Qed.
