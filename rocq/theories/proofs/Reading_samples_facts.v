(** The concrete cases of P_reading.v. *)
From Verif.model Require Import Base F32 Utf8 Prim Coll Data Gram Indexer Lit.
From Verif.spec Require Import Spec Data_spec Gram_spec Choice_spec Reading_spec Samples Gram_samples Reading_samples.
From Verif.proofs Require Import Base_facts.
From Coq Require Import Lia.

Lemma in_texts_iff texts g : in_texts texts g <-> in_texts_b texts g = true.
Proof.
  unfold in_texts, in_texts_b. rewrite existsb_exists. split.
  - intros (t & Ht & u & v & ->). exists (u ++ g ++ v). split; [by apply elem_of_list_In|].
    apply existsb_exists. exists (length u). split.
    + apply elem_of_list_In, elem_of_seq. rewrite !app_length. lia.
    + apply bool_decide_eq_true. by rewrite drop_app, take_app.
  - intros (t & Ht & H). apply existsb_exists in H as (i & _ & H). apply bool_decide_eq_true in H.
    exists t. split; [by apply elem_of_list_In|]. exists (take i t), (drop (length g) (drop i t)).
    rewrite <- H at 1. by rewrite take_drop, take_drop.
Qed.
Lemma followers_iff texts w g : g ∈ followers texts w <-> in_texts texts (w ++ [g]).
Proof.
  unfold followers. rewrite elem_of_list_In, filter_In, <- elem_of_list_In, elem_of_remove_dups, in_texts_iff.
  split; [by intros [_ H]|]. intros H. split; [|done]. apply in_texts_iff in H as (t & Ht & u & v & ->).
  apply elem_of_list_In, in_concat. exists (u ++ (w ++ [g]) ++ v). split; [by apply elem_of_list_In|].
  apply in_app_iff. right. apply in_app_iff. left. apply in_app_iff. right. by left.
Qed.
Lemma readings_complete n texts w fresh q c x r : reading n texts w fresh q c x r ->
  forall fuel, (n - length w + length q < fuel)%nat -> (length w <= n)%nat -> r ∈ readings fuel n texts w fresh q c x.
Proof.
  assert (Hsnoc : forall (v : list N) g, length (v ++ [g]) = S (length v)) by (intros; rewrite app_length; simpl; lia).
  assert (Htail : forall l : list N, (length (tail l) <= length l)%nat) by (intros [|]; simpl; lia).
  assert (Hother : forall w q y, in_texts texts (w ++ [y]) -> head q <> Some y ->
    y ∈ List.filter (fun y => negb (bool_decide (head q = Some y))) (followers texts w)).
  { intros v l y Hin Hne. apply elem_of_list_In, filter_In. split; [by apply elem_of_list_In, followers_iff|].
    by rewrite bool_decide_eq_false_2. }
  assert (Hconcat : forall {A B} (f : A -> list B) l a b, a ∈ l -> b ∈ f a -> b ∈ concat (map f l)).
  { intros A B f l a b Ha Hb. apply elem_of_list_In, in_concat. exists (f a). split; [|by apply elem_of_list_In].
    apply in_map. by apply elem_of_list_In. }
  induction 1 as [w fresh q c x Hl|w fresh g q c x r Hl Hin _ IH|w fresh y q c x r Hl Hlt Hin Hne _ IH|w fresh y q c x r Hl Hlt Hin Hne _ IH|w z g q c x r Hl Hlt Hin _ IH];
    intros [|fuel] Hf Hlw; try lia; cbn [readings].
  - rewrite (proj2 (Nat.eqb_eq _ _) Hl). left.
  - rewrite (proj2 (Nat.eqb_neq _ _)) by lia. apply elem_of_app. left.
    rewrite (proj1 (in_texts_iff _ _) Hin). apply IH; rewrite Hsnoc; simpl in *; lia.
  - rewrite (proj2 (Nat.eqb_neq _ _)) by lia. apply elem_of_app. right. rewrite (proj2 (Nat.ltb_lt _ _)) by done.
    apply elem_of_app. left. eapply Hconcat; [by apply Hother|]. apply elem_of_app. left.
    apply IH; rewrite Hsnoc; specialize (Htail q); simpl in *; lia.
  - rewrite (proj2 (Nat.eqb_neq _ _)) by lia. apply elem_of_app. right. rewrite (proj2 (Nat.ltb_lt _ _)) by done.
    apply elem_of_app. left. eapply Hconcat; [by apply Hother|]. apply elem_of_app. right.
    apply IH; rewrite Hsnoc; simpl in *; lia.
  - rewrite (proj2 (Nat.eqb_neq _ _)) by lia. apply elem_of_app. right. rewrite (proj2 (Nat.ltb_lt _ _)) by done.
    apply elem_of_app. right. rewrite removelast_last. cbn [andb].
    rewrite (proj1 (in_texts_iff _ _) Hin). rewrite Hsnoc in Hl, Hf, Hlw. simpl in Hf. apply IH; rewrite Hsnoc; lia.
Qed.
Lemma readings_sound n texts r : forall fuel w fresh q c x, r ∈ readings fuel n texts w fresh q c x ->
  (length w <= n)%nat -> w <> [] -> reading n texts w fresh q c x r.
Proof.
  assert (Hsnoc : forall (v : list N) g, length (v ++ [g]) = S (length v)) by (intros; rewrite app_length; simpl; lia).
  assert (Hap : forall (v : list N) g, v ++ [g] <> []) by (by intros [|]).
  induction fuel as [|fuel IH]; intros w fresh q c x Hr Hlw Hw; [by apply elem_of_nil in Hr|]. cbn [readings] in Hr.
  destruct (Nat.eqb_spec (length w) n) as [E|E].
  { apply elem_of_list_singleton in Hr as ->. by apply read_end. }
  apply elem_of_app in Hr as [Hr|Hr].
  - destruct q as [|g q]; [by apply elem_of_nil in Hr|].
    destruct (in_texts_b texts (w ++ [g])) eqn:Hin; [|by apply elem_of_nil in Hr]. apply in_texts_iff in Hin.
    apply IH in Hr; [|rewrite Hsnoc; lia|apply Hap]. apply read_keep; [lia|done|done].
  - destruct (Nat.ltb_spec c (n / 3)) as [Hlt|]; [|by apply elem_of_nil in Hr].
    apply elem_of_app in Hr as [Hr|Hr].
    + apply elem_of_list_In, in_concat in Hr as (l & Hl & Hr). apply in_map_iff in Hl as (y & <- & Hy).
      apply filter_In in Hy as [Hy Hne]. apply elem_of_list_In, followers_iff in Hy.
      apply negb_true_iff, bool_decide_eq_false in Hne.
      apply elem_of_list_In, elem_of_app in Hr as [Hr|Hr]; (apply IH in Hr; [|rewrite Hsnoc; lia|apply Hap]).
      * apply read_replace with y; [lia|done..].
      * apply read_insert with y; [lia|done..].
    + destruct q as [|g q]; [by apply elem_of_nil in Hr|].
      destruct fresh; cbn [andb] in Hr; [|by apply elem_of_nil in Hr].
      destruct (in_texts_b texts (removelast w ++ [g])) eqn:Hin; [|by apply elem_of_nil in Hr]. apply in_texts_iff in Hin.
      destruct (exists_last Hw) as (w' & z & ->). rewrite removelast_last in Hin, Hr. rewrite Hsnoc in Hlw, E.
      apply IH in Hr; [|rewrite Hsnoc; lia|apply Hap]. apply read_skip; [rewrite Hsnoc; lia|done..].
Qed.
Lemma all_readings_iff n texts q r : (1 <= n)%nat -> reading_of n texts q r <-> r ∈ all_readings n texts q.
Proof.
  intros Hn. split.
  - intros (q0 & q' & -> & Hin & Hr). unfold all_readings. rewrite (proj1 (in_texts_iff _ _) Hin).
    apply readings_complete; [done|simpl; lia..].
  - destruct q as [|q0 q']; [by intros ?%elem_of_nil|]. unfold all_readings.
    destruct (in_texts_b texts [q0]) eqn:Hin; [|by intros ?%elem_of_nil]. intros Hr.
    exists q0, q'. split; [done|]. split; [by apply in_texts_iff|].
    eapply readings_sound; [exact Hr|simpl; lia|done].
Qed.
Lemma clearly_surest_sound n texts q r : (1 <= n)%nat -> clearly_surest_b n texts q r = true -> clearly_surest n texts q r.
Proof.
  intros Hn. unfold clearly_surest_b. destruct r as [r|].
  - rewrite !andb_true_iff, forallb_forall, existsb_exists. intros [[H1 (r0 & Hr0 & ->%bool_decide_eq_true)] Hall].
    apply elem_of_list_In in Hr0. split; [split|].
    + by apply all_readings_iff.
    + intros r' Hr'%all_readings_iff; [|done]. specialize (Hall r' (proj1 (elem_of_list_In _ _) Hr')).
      apply orb_true_iff in Hall as [->%bool_decide_eq_true|Hlt]; [done|].
      unfold f32_le. unfold SFltb in Hlt. unfold SFleb. by destruct (SFcompare _ _) as [[]|].
    + intros r0 r' [= <-] Hr'%all_readings_iff Hne; [|done]. specialize (Hall r' (proj1 (elem_of_list_In _ _) Hr')).
      apply orb_true_iff in Hall as [->%bool_decide_eq_true|Hlt]; done.
  - destruct (all_readings n texts q) as [|r' l] eqn:E; [|done]. intros _. split; [|done].
    intros r' Hr'%all_readings_iff; [|done]. rewrite E in Hr'. by apply elem_of_nil in Hr'.
Qed.

Lemma mostly_x_readings :
  clearly_surest 6 (map snd mostly_x) axbcde (Some (abcdef, three_quarters)) /\
  clearly_surest 6 (map snd mostly_x) (rev axbcde) None.
Proof. split; (apply clearly_surest_sound; [lia|vm_compute; reflexivity]). Qed.
Lemma unlikely_match : exists gi, index_from wasm32 6 hash_order mostly_x (plain_container mostly_x) = Done gi /\
  search_gram 6 gi axbcde = Done (Some (abcdef, three_quarters)) /\
  f32_lt (likelihood (map snd mostly_x) abcdef) three_quarters.
Proof.
  destruct mostly_x_index as [gi| | |] eqn:E; try (vm_compute in E; discriminate).
  exists gi. split; [exact E|]. split; [|vm_compute; reflexivity].
  assert (S : (gi ← mostly_x_index; search_gram 6 gi axbcde) = Done (Some (abcdef, three_quarters))) by (vm_compute; reflexivity).
  rewrite E in S. exact S.
Qed.
