(** C131: the benchmarks and the tables of index sizes. *)
From Coq Require Import Reals Lra Lia ZArith String.
From Flocq Require Import Core IEEE754.BinarySingleNaN Relative.
From Coq Require Import SpecFloat.
From Verif.model Require Import Base F32 Utf8 Prim Coll Data Gram Indexer Nodes Classic Lit Raw Js Lib Tests Bench.
From Verif.spec Require Import Spec Data_spec Gram_spec Classic_spec Raw_spec Bench_spec.
From Verif.proofs Require Import Base_facts Float_facts Raw_facts Raw_props Search_props Trie_props Outcome_facts Length_facts.
#[local] Instance prec32_gt : Prec_gt_0 prec32 := eq_refl.
#[local] Instance prec32_lt : Prec_lt_emax prec32 emax32 := eq_refl.
Local Open Scope N_scope.

(** ** Thousands *)
Lemma kilobytes_close out : lenN out < 2 ^ 24 -> thousands (kilobytes out) (lenN out).
Proof.
  intros L. unfold thousands, kilobytes. generalize dependent (lenN out). intros v L.
  destruct (N.eq_dec v 0) as [->|Nv].
  { assert (Z0 : f32_div (f32_of_N 0) (f32_of_N 1000) = S754_zero false) by (vm_compute; reflexivity). rewrite Z0.
    change (Z.of_N 0) with 0%Z. cbn [SF2R]. rewrite Rabs_pos_eq by lra. lra. }
  assert (V1 : (1 <= IZR (Z.of_N v))%R) by (apply IZR_le; lia).
  assert (V2 : (IZR (Z.of_N v) <= 16777216)%R) by (apply IZR_le; lia).
  destruct (of_N_val v) as (Vv & Fv & _); [lia|]. rewrite rnd32_int in Vv by lia.
  destruct (of_N_val 1000) as (Vk & Fk & _); [lia|]. rewrite rnd32_int in Vk by lia.
  set (x := (IZR (Z.of_N v) / 1000)%R).
  assert (X1 : (/ 1024 <= x)%R) by (unfold x; lra). assert (X2 : (x <= 16777216)%R) by (unfold x; lra).
  assert (E : (Rabs (rnd32 x - x) <= x / 16777216)%R).
  { pose proof (relative_error_N_FLT radix2 (-149) 24 ltac:(done) (fun t => negb (Z.even t)) x) as E.
    rewrite (Rabs_pos_eq x) in E by lra.
    assert (B : (bpow radix2 (-149 + 24 - 1) <= x)%R).
    { apply (Rle_trans _ (bpow radix2 (-10))); [by apply bpow_le|]. simpl. lra. }
    specialize (E B). replace (/ 2 * bpow radix2 (- (24) + 1) * x)%R with (x / 16777216)%R in E by (simpl; lra).
    exact E. }
  destruct (div_val prec32 emax32 _ _ (f32_of_N v) (f32_of_N 1000)) as (Eq & F & _);
    [apply f32_of_N_valid|apply f32_of_N_valid|done|rewrite Vk; simpl; lra| |].
  { rewrite Vv, Vk. change (Z.of_N 1000) with 1000%Z. fold x.
    apply (Rle_lt_trans _ (bpow radix2 26)); [|by apply bpow_lt].
    apply Rabs_le. apply Rabs_le_inv in E. change (bpow radix2 26) with 67108864%R. lra. }
  rewrite Vv, Vk in Eq. change (Z.of_N 1000) with 1000%Z in Eq. fold x in Eq.
  unfold val in Eq. change (SFdiv prec32 emax32) with f32_div in Eq. by rewrite Eq.
Qed.

(** ** What is built *)
Section bench.
Context (low : N -> list N) (parse : rstr -> option f32) (P : platform) (bo : build_order).
Context (Hbo : valid_build_order bo).
Local Open Scope nat_scope.

Lemma make_index_done n input : (1 <= n)%nat -> (total_grams (map (raw_text low) input) < 2 ^ 32)%N -> prices_parse parse input ->
  exists x, make_index low parse P bo n input = Done x.
Proof.
  intros Hn Hg Hp. apply (optimize_iff _ bo) in Hp as [[c cl] E]. unfold make_index. rewrite E.
  cbn [mbind res_bind]. apply optimize_products in E as [D W]. rewrite <- (raw_grams low _ _ D) in Hg.
  destruct (index_total P n bo _ c Hn Hbo Hg) as [gi ->]. cbn [mbind res_bind]. eauto.
Qed.
(** The size is that of the file that the indexer would write. *)
Lemma make_index_file n input gi cl ro so : (1 <= n <= 764)%nat -> make_index low parse P bo n input = Done (gi, cl) ->
  index_and_serialize_with_n low parse P n bo ro so input = Done (serialize_all so gi cl).
Proof.
  intros Hn. unfold make_index, index_and_serialize_with_n.
  destruct (optimize parse bo input) as [[c cl']| | |]; try done. cbn [mbind res_bind].
  destruct (index_from P n bo _ c) as [gi'| | |]; try done. cbn [mbind res_bind]. intros [= -> ->].
  destruct (search_total n ro gi (lower low s_kunst) Hn) as [r ->]. done.
Qed.
Lemma take_chosen (shuffle : order_of raw_product) k input : valid_order shuffle ->
  chosen_from input (Nat.min k (length input)) (take k (shuffle input)).
Proof.
  intros Hs. split; [rewrite take_length, (Permutation_length (Hs input)); lia|].
  exists (drop k (shuffle input)). rewrite take_drop. apply Hs.
Qed.
Lemma chosen_ok input k chosen : chosen_from input k chosen -> prices_parse parse input ->
  (total_grams (map (raw_text low) input) < 2 ^ 32)%N ->
  prices_parse parse chosen /\ (total_grams (map (raw_text low) chosen) < 2 ^ 32)%N.
Proof.
  intros (_ & rest & Pm) Hp Hg. split.
  - unfold prices_parse in *. rewrite <- Pm in Hp. by apply Forall_app in Hp as [? _].
  - assert (Q : total_grams (map (raw_text low) (chosen ++ rest)) = total_grams (map (raw_text low) input)).
    { unfold total_grams. clear -Pm. induction Pm; cbn [map sum_N foldr] in *; try lia. unfold sum_N in *. cbn. lia. }
    rewrite map_app in Q. unfold total_grams in *. rewrite map_app in Q.
    assert (A : forall l k, (sum_N (l ++ k) = sum_N l + sum_N k)%N).
    { clear. induction l as [|x l IH]; intros k; [done|]. unfold sum_N in *. cbn. rewrite IH. lia. }
    rewrite A in Q. lia.
Qed.
Context (input : list raw_product) (Hp : prices_parse parse input) (Hg : (total_grams (map (raw_text low) input) < 2 ^ 32)%N).

Lemma bench_finish ro so (shuffle : order_of raw_product) : valid_order shuffle ->
  (exists gi, test_index_generation low parse P bo input = Done gi) /\
  (forall n, (1 <= n <= 764)%nat -> exists r, bench_gram_search low parse P bo ro n input = Done r) /\
  (forall name len, (name, len) ∈ query_len_benches -> exists r, bench_len_search low parse P bo ro len input = Done r) /\
  (forall n, (1 <= n)%nat -> exists gi, bench_indexing low parse P bo n input = Done gi) /\
  (forall amount, exists gi, bench_amount low parse P bo shuffle amount input = Done gi) /\
  (exists rows, index_size_by_ngram low parse P bo so input = Done rows) /\
  (forall shuffles, Forall valid_order shuffles -> exists rows, index_size_pr_product low parse P bo so shuffles input = Done rows).
Proof.
  intros Hs.
  assert (M : forall n, (1 <= n)%nat -> exists gi cl, make_index low parse P bo n input = Done (gi, cl)).
  { intros n Hn. destruct (make_index_done n input Hn Hg Hp) as [[gi cl] E]. eauto. }
  assert (T : forall n k (sh : order_of raw_product), valid_order sh -> (1 <= n)%nat ->
    exists gi cl, make_index low parse P bo n (take k (sh input)) = Done (gi, cl)).
  { intros n k sh V Hn. destruct (chosen_ok _ _ _ (take_chosen sh k input V) Hp Hg) as [Hp' Hg'].
    destruct (make_index_done n _ Hn Hg' Hp') as [[gi cl] E]. eauto. }
  unfold test_index_generation, bench_gram_search, bench_len_search, bench_indexing, bench_amount.
  repeat split.
  - destruct (M 5) as (gi & cl & ->); [lia|]. cbn [mbind res_bind]. eauto.
  - intros n Hn. destruct (M n) as (gi & cl & ->); [lia|]. cbn [mbind res_bind]. by apply search_total.
  - intros name len Hin.
    assert (Q : exists q, slice_to bench_query len = Done q).
    { apply (elem_of_list_fmap_1 snd) in Hin. cbn [snd] in Hin.
      change (len ∈ [3; 5; 7; 10; 15; 20; 25; 34]%N) in Hin.
      repeat (apply elem_of_cons in Hin as [->|Hin]; [eexists; vm_compute; reflexivity|]). by apply elem_of_nil in Hin. }
    destruct Q as [q ->]. cbn [mbind res_bind]. destruct (M 3) as (gi & cl & ->); [lia|]. cbn [mbind res_bind].
    apply search_total. lia.
  - intros n Hn. destruct (M n Hn) as (gi & cl & ->). cbn [mbind res_bind]. eauto.
  - intros k. destruct (T 3 k shuffle Hs) as (gi & cl & ->); [lia|]. cbn [mbind res_bind]. eauto.
  - unfold index_size_by_ngram. apply mapR_total. intros n Hn. unfold ngram_row.
    destruct (M n) as (gi & cl & ->); [|cbn [mbind res_bind]; eauto].
    repeat (apply elem_of_cons in Hn as [->|Hn]; [lia|]). by apply elem_of_nil in Hn.
  - intros shuffles Hsh. unfold index_size_pr_product. apply mapR_total. intros [sh k] Hin. unfold product_row.
    apply elem_of_zip_l in Hin. rewrite Forall_forall in Hsh. destruct (T 5 k sh (Hsh _ Hin)) as (gi & cl & ->); [lia|].
    cbn [mbind res_bind]. eauto.
Qed.
End bench.

(** ** The rows *)
Lemma ngram_rows low parse P bo so input rows : index_size_by_ngram low parse P bo so input = Done rows ->
  Forall2 (fun n '(label, kb) => label = N.of_nat n /\
    forall ro, exists bytes, index_and_serialize_with_n low parse P n bo ro so input = Done bytes /\
      (lenN bytes < 2 ^ 24 -> thousands kb (lenN bytes)))
    [2; 3; 4; 5; 6; 7; 8; 9]%nat rows.
Proof.
  unfold index_size_by_ngram. intros H. apply mapR_Done in H.
  assert (B : Forall (fun n => (1 <= n <= 764)%nat) [2; 3; 4; 5; 6; 7; 8; 9]%nat) by (repeat constructor; lia).
  revert B H. generalize [2; 3; 4; 5; 6; 7; 8; 9]%nat. intros l B H.
  induction H as [|n [label kb] l rows E H IH]; [done|]. apply Forall_cons in B as [Bn B]. constructor; [|by apply IH].
  unfold ngram_row in E. destruct (make_index low parse P bo n input) as [[gi cl]| | |] eqn:M; try done.
  cbn [mbind res_bind] in E. injection E as <- <-. split; [done|]. intros ro.
  exists (serialize_all so gi cl). split; [by apply make_index_file|]. apply kilobytes_close.
Qed.
Lemma product_rows low parse P bo so shuffles input rows : Forall valid_order shuffles -> length shuffles = 8%nat ->
  index_size_pr_product low parse P bo so shuffles input = Done rows ->
  Forall2 (fun k '(label, kb) => exists chosen, chosen_from input (Nat.min k (length input)) chosen /\ label = lenN chosen /\
    forall ro, exists bytes, index_and_serialize low parse P bo ro so chosen = Done bytes /\
      (lenN bytes < 2 ^ 24 -> thousands kb (lenN bytes)))
    [1; 5; 10; 20; 40; 80; 160; 320]%nat rows.
Proof.
  unfold index_size_pr_product. intros V L H. apply mapR_Done in H.
  assert (L' : length shuffles = length [1; 5; 10; 20; 40; 80; 160; 320]%nat) by done.
  revert V L' H. clear L. generalize [1; 5; 10; 20; 40; 80; 160; 320]%nat. intros l V. revert l rows.
  induction V as [|sh shuffles Vs V IH]; intros [|k l] rows L' H; try done.
  - by apply Forall2_nil_inv_l in H as ->.
  - cbn [zip zip_with] in H. apply Forall2_cons_inv_l in H as ([label kb] & rows' & E & H & ->).
    constructor; [|apply IH; [by injection L'|done]].
    unfold product_row in E. destruct (make_index low parse P bo 5 (take k (sh input))) as [[gi cl]| | |] eqn:M; try done.
    cbn [mbind res_bind] in E. injection E as <- <-. exists (take k (sh input)). split; [by apply take_chosen|]. split; [done|].
    intros ro. exists (serialize_all so gi cl). split; [apply make_index_file; [unfold ngram_index_size; lia|done]|]. apply kilobytes_close.
Qed.
(** ** Names *)
Lemma amounts_named input name k : (name, k) ∈ amount_benches input ->
  name = lit "c160_products" \/ name = lit "all_products" /\ k = length input \/ named name = N.of_nat k.
Proof.
  unfold amount_benches. intros H.
  repeat (apply elem_of_cons in H as [[= -> ->]|H]; [(by left) || (right; left; by split) || (right; right; vm_compute; reflexivity)|]).
  by apply elem_of_nil in H.
Qed.
Lemma lens_named name len : (name, len) ∈ query_len_benches -> named name = len /\
  exists q, slice_to bench_query len = Done q /\ (N.of_nat (length q) = len <-> len <= 20).
Proof.
  unfold query_len_benches. intros H.
  repeat (apply elem_of_cons in H as [[= -> ->]|H]; [split; [vm_compute; reflexivity|]; eexists; split; [vm_compute; reflexivity|]; cbn; lia|]).
  by apply elem_of_nil in H.
Qed.
(** ** Runs *)
Lemma ngram_rows_same low parse P bo1 bo2 so1 so2 input rows1 rows2 :
  valid_build_order bo1 -> valid_build_order bo2 -> valid_ser_order so1 -> valid_ser_order so2 ->
  index_size_by_ngram low parse P bo1 so1 input = Done rows1 -> index_size_by_ngram low parse P bo2 so2 input = Done rows2 ->
  rows1 = rows2.
Proof.
  intros B1 B2 S1 S2 H1 H2. unfold index_size_by_ngram in *. apply mapR_Done in H1, H2.
  assert (B : Forall (fun n => (1 <= n <= 764)%nat) [2; 3; 4; 5; 6; 7; 8; 9]%nat) by (repeat constructor; lia).
  revert B H1 H2. generalize [2; 3; 4; 5; 6; 7; 8; 9]%nat. intros l B H1. revert rows2.
  induction H1 as [|n row l rows1 E1 H1 IH]; intros rows2 H2; [by apply Forall2_nil_inv_l in H2 as ->|].
  apply Forall_cons in B as [Bn B]. apply Forall2_cons_inv_l in H2 as (row2 & rows2' & E2 & H2 & ->).
  f_equal; [|by apply IH]. unfold ngram_row in E1, E2.
  destruct (make_index low parse P bo1 n input) as [[gi1 cl1]| | |] eqn:M1; try done.
  destruct (make_index low parse P bo2 n input) as [[gi2 cl2]| | |] eqn:M2; try done.
  cbn [mbind res_bind] in E1, E2. injection E1 as <-. injection E2 as <-. f_equal. unfold kilobytes, lenN.
  rewrite (file_length low parse P n bo1 bo2 (fun l => l) (fun l => l) so1 so2 input (serialize_all so1 gi1 cl1) (serialize_all so2 gi2 cl2)
    B1 B2 S1 S2); [done|by apply make_index_file|by apply make_index_file].
Qed.
Lemma names_differ :
  (forall input, (lit "c160_products", 180%nat) ∈ amount_benches input) /\ named (lit "c160_products") = 160 /\
  exists name len q, (name, len) ∈ query_len_benches /\ named name = 25 /\ slice_to bench_query len = Done q /\ length q = 24%nat.
Proof.
  split; [intros input; unfold amount_benches; repeat (apply elem_of_cons; (left; reflexivity) || right)|].
  split; [vm_compute; reflexivity|]. exists (lit "c25_chars_search"), 25. eexists.
  split; [unfold query_len_benches; do 6 right; left|]. split; [vm_compute; reflexivity|].
  split; [vm_compute; reflexivity|reflexivity].
Qed.
Lemma csv_text show_f32 first rows : size_csv show_f32 first rows =
  ((first ++ lit ";size_in_kb" ++ [10]) ++ concat (map (fun '(label, kb) => show label ++ lit ";" ++ show_f32 kb ++ [10]) rows))%list.
Proof.
  unfold size_csv.
  assert (G : forall rows a, fold_left (fun csv '(label, kb) => (csv ++ show label ++ [59] ++ show_f32 kb ++ [10])%list) rows a =
    (a ++ concat (map (fun '(label, kb) => show label ++ lit ";" ++ show_f32 kb ++ [10]) rows))%list).
  { clear. induction rows as [|[label kb] rows IH]; intros a; [by rewrite app_nil_r|]. cbn [fold_left map concat].
    rewrite IH, <- !app_assoc. done. }
  rewrite G. done.
Qed.
