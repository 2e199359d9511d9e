(** C127: what a search finds when products were added. *)
From Verif.model Require Import Base F32 Utf8 Prim Coll Data Gram Indexer.
From Verif.spec Require Import Spec Data_spec Gram_spec Choice_spec Reorder_spec Reading_spec Growth_spec.
From Verif.proofs Require Import Base_facts Sort_facts Float_facts Cutoff_facts File_facts Indexer_facts Trie_facts Search_facts
  Search_more Trie_props Search_props Ties_props Reorder_props End_props Choice_props Reading_props Typing_props.
From Coq Require Import Lia.

Section texts.
Context (n : nat) (texts extra : list (list N)).

Lemma occurs_head g w t : occurs (g :: w) t -> g ∈ t.
Proof. intros (u & v & ->). rewrite elem_of_app. right. left. Qed.
Lemma occurrences_none g w t : g ∉ t -> occurrences (g :: w) t = 0.
Proof.
  induction t as [|x t IH]; intros H; [done|]. apply not_elem_of_cons in H as [Hne H]. cbn [occurrences].
  rewrite bool_decide_eq_false_2, IH by (done || (intros [k E]; by injection E)). done.
Qed.
Lemma total_none g w l : (forall t, t ∈ l -> g ∉ t) -> total_occurrences (g :: w) l = 0.
Proof.
  unfold total_occurrences. induction l as [|t l IH]; intros H; [done|]. cbn.
  rewrite (occurrences_none g w t) by (apply H; left). apply IH. intros t' Ht'. apply H. by right.
Qed.
Lemma total_app w a b : total_occurrences w (a ++ b) = total_occurrences w a + total_occurrences w b.
Proof.
  unfold total_occurrences. rewrite map_app. induction a as [|t a IH]; [done|]. cbn [map app sum_N foldr] in *.
  unfold sum_N in *. cbn [foldr]. rewrite IH. lia.
Qed.

Context (g0 : N) (Hno : forall t, t ∈ extra -> g0 ∉ t).

Lemma total_same w : total_occurrences (g0 :: w) (texts ++ extra) = total_occurrences (g0 :: w) texts.
Proof. rewrite total_app, (total_none g0 w extra) by done. lia. Qed.
Lemma share_same w g : share (texts ++ extra) (g0 :: w) g = share texts (g0 :: w) g.
Proof. unfold share. cbn [app]. by rewrite !total_same. Qed.
Lemma in_texts_same w : in_texts (texts ++ extra) (g0 :: w) <-> in_texts texts (g0 :: w).
Proof.
  split; intros (t & Ht & Hoc).
  - apply elem_of_app in Ht as [Ht|Ht]; [by exists t|]. exfalso. by eapply (Hno t Ht), occurs_head.
  - exists t. split; [|done]. apply elem_of_app. by left.
Qed.
(** What was read begins with [g0], and that gram is not given up any more. *)
Lemma reading_same w fresh q c x r texts1 texts2 :
  (forall v, in_texts texts1 (g0 :: v) -> in_texts texts2 (g0 :: v)) ->
  (forall v g, share texts1 (g0 :: v) g = share texts2 (g0 :: v) g) ->
  reading n texts1 w fresh q c x r -> head w = Some g0 -> (fresh = true -> (2 <= length w)%nat) ->
  reading n texts2 w fresh q c x r.
Proof.
  intros HI HS.
  induction 1 as [w fresh q c x L|w fresh g q c x r L I _ IH|w fresh y q c x r L C I E _ IH|w fresh y q c x r L C I E _ IH|w z g q c x r L C I _ IH];
    intros Hd Hf.
  - by apply read_end.
  - destruct w as [|g1 w]; [done|]. injection Hd as ->. cbn [app] in *.
    apply read_keep; [done|by apply HI|]. rewrite <- HS. apply IH; [done|]. intros _. simpl. rewrite app_length. simpl. lia.
  - destruct w as [|g1 w]; [done|]. injection Hd as ->. cbn [app] in *.
    eapply read_replace; [done|done|by apply HI|done|]. rewrite <- HS. apply IH; [done|]. intros _. simpl. rewrite app_length. simpl. lia.
  - destruct w as [|g1 w]; [done|]. injection Hd as ->. cbn [app] in *.
    eapply read_insert; [done|done|by apply HI|done|]. rewrite <- HS. apply IH; [done|]. intros _. simpl. rewrite app_length. simpl. lia.
  - destruct w as [|g1 w]; [specialize (Hf eq_refl); simpl in Hf; lia|]. injection Hd as ->.
    apply read_skip; [done|done|by apply HI|]. by apply IH.
Qed.
Lemma reading_of_same q r : head q = Some g0 -> reading_of n (texts ++ extra) q r <-> reading_of n texts q r.
Proof.
  intros Hd. split; intros (q0 & q' & -> & I & R); injection Hd as ->; exists g0, q'; (split; [done|]).
  - split; [by apply in_texts_same|]. eapply reading_same; [| |exact R|done|done].
    + intros v. apply in_texts_same.
    + intros v g. apply share_same.
  - split; [by apply in_texts_same|]. eapply reading_same; [| |exact R|done|done].
    + intros v. apply in_texts_same.
    + intros v g. symmetry. apply share_same.
Qed.
Lemma clearly_same q r : head q = Some g0 -> clearly_surest n texts q r -> clearly_surest n (texts ++ extra) q r.
Proof.
  intros Hd [S C]. split.
  - destruct r as [r|]; simpl in *.
    + destruct S as [R S]. split; [by apply reading_of_same|]. intros r' R'. apply S. by apply reading_of_same.
    + intros r' R'. apply (S r'). by apply reading_of_same.
  - intros r0 r' E R' Hne. eapply C; [done| |done]. by apply reading_of_same.
Qed.
End texts.
Lemma in_texts_perm a b g : a ≡ₚ b -> in_texts a g -> in_texts b g.
Proof. intros E (t & Ht & Hoc). exists t. by rewrite <- E. Qed.
Lemma share_perm a b w g : a ≡ₚ b -> share a w g = share b w g.
Proof. intros E. unfold share. by rewrite !(total_occurrences_perm _ a b). Qed.
Lemma reading_perm n a b w fresh q c x r : a ≡ₚ b -> reading n a w fresh q c x r -> reading n b w fresh q c x r.
Proof.
  intros E. induction 1 as [w fresh q c x L|w fresh g q c x r L I _ IH|w fresh y q c x r L C I Ne _ IH|w fresh y q c x r L C I Ne _ IH|w z g q c x r L C I _ IH].
  - by apply read_end.
  - apply read_keep; [done|by eapply in_texts_perm|]. by rewrite <- (share_perm a).
  - eapply read_replace; [done|done|by eapply in_texts_perm|done|]. by rewrite <- (share_perm a).
  - eapply read_insert; [done|done|by eapply in_texts_perm|done|]. by rewrite <- (share_perm a).
  - apply read_skip; [done|done|by eapply in_texts_perm|done].
Qed.
Lemma reading_of_perm n a b q r : a ≡ₚ b -> reading_of n a q r -> reading_of n b q r.
Proof.
  intros E (q0 & q' & -> & I & R). exists q0, q'. split; [done|]. split; [by eapply in_texts_perm|by eapply reading_perm].
Qed.
Lemma clearly_perm n a b q r : a ≡ₚ b -> clearly_surest n a q r -> clearly_surest n b q r.
Proof.
  intros E [S C]. split.
  - destruct r as [r|]; simpl in *.
    + destruct S as [R S]. split; [by eapply reading_of_perm|]. intros r' R'. apply S. by eapply reading_of_perm; [|exact R'].
    + intros r' R'. apply (S r'). by eapply reading_of_perm; [|exact R'].
  - intros r0 r' Er R' Hne. eapply C; [done| |done]. by eapply reading_of_perm; [|exact R'].
Qed.

(** ** Windows *)
Lemma reading_extends n texts w fresh q c x r : reading n texts w fresh q c x r -> w <> [] -> 
  (fresh = true -> (2 <= length w)%nat) -> head r.1 = head w /\ length r.1 = n /\ (in_texts texts w -> in_texts texts r.1).
Proof.
  induction 1 as [w fresh q c x L|w fresh g q c x r L I _ IH|w fresh y q c x r L C I Ne _ IH|w fresh y q c x r L C I Ne _ IH|w z g q c x r L C I _ IH];
    intros Hw Hf.
  - done.
  - destruct w as [|g1 w]; [done|]. destruct IH as (A & B & D); [done|intros _; simpl; rewrite app_length; simpl; lia|]. rewrite A. auto.
  - destruct w as [|g1 w]; [done|]. destruct IH as (A & B & D); [done|intros _; simpl; rewrite app_length; simpl; lia|]. rewrite A. auto.
  - destruct w as [|g1 w]; [done|]. destruct IH as (A & B & D); [done|intros _; simpl; rewrite app_length; simpl; lia|]. rewrite A. auto.
  - destruct w as [|g1 w]; [specialize (Hf eq_refl); simpl in Hf; lia|]. destruct IH as (A & B & D); [done|done|]. rewrite A. auto.
Qed.
Lemma reading_of_head n texts q r : reading_of n texts q r -> head r.1 = head q /\ length r.1 = n /\ in_texts texts r.1.
Proof.
  intros (q0 & q' & -> & I & R). apply reading_extends in R as (A & B & D); [|done|done]. rewrite A. auto.
Qed.
Lemma window_head n t w g : w ∈ windows n t -> head w = Some g -> g <> 0 -> g ∈ t.
Proof.
  unfold windows. intros (j & -> & Hj)%elem_of_list_fmap Hd Hg. unfold window in Hd.
  assert (Hin : g ∈ replicate n 0 ++ t).
  { destruct (take n (drop (S j) (replicate n 0 ++ t))) as [|g1 l] eqn:E; [done|]. injection Hd as ->.
    rewrite <- (take_drop (S j) (replicate n 0 ++ t)), elem_of_app. right.
    rewrite <- (take_drop n (drop (S j) (replicate n 0 ++ t))), E. left. }
  apply elem_of_app in Hin as [Hin|Hin]; [|done]. apply elem_of_replicate in Hin as [-> _]. done.
Qed.
Lemma count_none n t g g0 : head g = Some g0 -> g0 <> 0 -> g0 ∉ t -> filter (fun w => w = g) (windows n t) = [].
Proof.
  intros Hd Hg Hno. apply filter_none. intros w Hw ->. apply Hno. by eapply window_head.
Qed.
Lemma uses_app n a b g : uses n (a ++ b) g = uses n a g + uses n b g.
Proof. unfold uses, lenN. rewrite map_app, concat_app, filter_app, app_length. lia. Qed.
Lemma uses_perm n a b g : a ≡ₚ b -> uses n a g = uses n b g.
Proof.
  intros E. unfold uses, lenN. f_equal. apply Permutation_length. 
  by rewrite (concat_perm _ _ (Permutation_map (windows n) E)).
Qed.
Lemma uses_none n l g g0 : head g = Some g0 -> g0 <> 0 -> (forall t, t ∈ l -> g0 ∉ t) -> uses n l g = 0.
Proof.
  intros Hd Hg Hno. induction l as [|t l IH]; [done|]. change (t :: l) with ([t] ++ l). rewrite uses_app, IH.
  - unfold uses. cbn [map concat]. rewrite app_nil_r, (count_none n t g g0); [done|done|done|apply Hno; left].
  - intros t' Ht'. apply Hno. by right.
Qed.

(** ** Points *)
Inductive sub : list f32 -> list f32 -> Prop :=
| sub_nil k : sub [] k
| sub_keep x l k : sub l k -> sub (x :: l) (x :: k)
| sub_drop x l k : sub l k -> sub l (x :: k).
Lemma sub_refl l : sub l l.
Proof. induction l; by constructor. Qed.
Lemma sub_app l1 k1 l2 k2 : sub l1 k1 -> sub l2 k2 -> sub (l1 ++ l2) (k1 ++ k2).
Proof.
  intros S1 S2. induction S1 as [k|x l k _ IH|x l k _ IH]; simpl.
  - induction k as [|y k IH]; [done|]. by apply sub_drop.
  - by apply sub_keep.
  - by apply sub_drop.
Qed.
Lemma sub_sum l k : sub l k -> Forall nonneg k -> forall x y, nonneg x -> nonneg y -> f32_le x y ->
  f32_le (foldl f32_add x l) (foldl f32_add y k).
Proof.
  induction 1 as [k|z l k _ IH|z l k _ IH]; intros F x y Nx Ny L; cbn [foldl].
  - eapply f32_le_trans; [apply Nx|apply Ny|by apply sum_nonneg|done|by apply sum_ge].
  - apply Forall_cons in F as [Nz F]. destruct Nx as [Nx Px], Ny as [Ny Py], Nz as [Nz Pz]. apply IH; [done| | |].
    + by destruct (f32_add_nonneg x z) as (N & _ & _ & P).
    + by destruct (f32_add_nonneg y z) as (N & _ & _ & P).
    + by apply Typing_facts.f32_add_mono.
  - apply Forall_cons in F as [Nz F]. destruct Nx as [Nx Px], Ny as [Ny Py], Nz as [Nz Pz].
    destruct (f32_add_nonneg y z) as (N & M & _ & P); [done..|].
    apply IH; [done|done|done|]. by eapply f32_le_trans; [apply Nx|apply Ny|apply N|..].
Qed.
Lemma sub_forall (Q : f32 -> Prop) l k : sub l k -> Forall Q k -> Forall Q l.
Proof.
  induction 1 as [k|z l k _ IH|z l k _ IH]; intros F; [constructor|..].
  - apply Forall_cons in F as [Nz F]. constructor; auto.
  - apply Forall_cons in F as [Nz F]. auto.
Qed.
Lemma sub_total l k c r : sub l k -> Forall nonneg k -> l = c :: r ->
  exists c' r', k = c' :: r' /\ f32_le (foldl f32_add c r) (foldl f32_add c' r').
Proof.
  intros S F E. revert c r E. induction S as [k|z l k S IH|z l k S IH]; intros c r E; [done|..].
  - injection E as -> ->. exists c, k. split; [done|]. apply Forall_cons in F as [Nz F]. apply sub_sum; try done. apply f32_le_refl, Nz.
  - apply Forall_cons in F as [Nz F]. destruct (IH F c r E) as (c' & r' & -> & L). exists z, (c' :: r'). split; [done|].
    pose proof (sub_forall _ _ _ S F) as Fl. rewrite E in Fl. apply Forall_cons in Fl as [Nc0 Fr].
    apply Forall_cons in F as [Nc F]. cbn [foldl].
    destruct (f32_add_nonneg z c') as (N & _ & M & P); [apply Nz|apply Nc|apply Nz|apply Nc|].
    assert (A : nonneg (f32_add z c')) by done.
    eapply f32_le_trans; [apply (sum_nonneg r c Nc0 Fr)|apply (sum_nonneg r' c' Nc F)|apply (sum_nonneg r' _ A F)|exact L|].
    by apply sum_mono.
Qed.
Lemma points_sub n texts1 texts2 limit1 limit2 choice1 choice2 input t :
  (forall w, w ∈ windows n input -> choice1 w = choice2 w) ->
  (forall w g c, w ∈ windows n input -> choice1 w = Some (g, c) -> uses n texts1 g < limit1 -> uses n texts2 g < limit2) ->
  sub (points n texts1 limit1 choice1 input t) (points n texts2 limit2 choice2 input t).
Proof.
  unfold points. induction (windows n input) as [|w l IH]; intros HC HU; [constructor|]. cbn [map concat]. apply sub_app.
  - rewrite <- (HC w) by left. destruct (choice1 w) as [[g c]|] eqn:E; [|apply sub_refl].
    case_bool_decide as U1; [|constructor]. rewrite bool_decide_eq_true_2; [apply sub_refl|]. eapply HU; [left|done|done].
  - apply IH.
    + intros w' Hw'. apply HC. by right.
    + intros w' g c Hw'. apply HU. by right.
Qed.
Lemma points_nonneg n texts limit choice input t : (forall w g c, w ∈ windows n input -> choice w = Some (g, c) -> nonneg c) ->
  Forall nonneg (points n texts limit choice input t).
Proof.
  unfold points. induction (windows n input) as [|w l IH]; intros HC; [constructor|]. cbn [map concat]. apply Forall_app. split.
  - destruct (choice w) as [[g c]|] eqn:E; [|constructor]. case_bool_decide; [|constructor]. apply Forall_replicate. eapply HC; [left|done].
  - apply IH. intros w' g c Hw'. apply HC. by right.
Qed.
Lemma windows_length n t w : w ∈ windows n t -> length w = n.
Proof.
  unfold windows. intros (j & -> & Hj%elem_of_seq)%elem_of_list_fmap. unfold window.
  rewrite take_length, drop_length, app_length, replicate_length. lia.
Qed.
Lemma cutoff_grows a b la lb : cutoff_for a la -> cutoff_for b lb -> b <= 5242880 -> a <= b -> la <= lb.
Proof. intros [Ha _] [Hb _] Hle Hab. rewrite Ha, Hb by lia. apply N.div_le_mono; lia. Qed.

Lemma labelled_in s id t : (id, t) ∈ labelled s <-> exists p, p_id p = id /\ (p, t) ∈ s.
Proof.
  unfold labelled. rewrite elem_of_list_fmap. split.
  - intros ([p t'] & [= -> ->] & H). by exists p.
  - intros (p & <- & H). by exists (p, t).
Qed.
Lemma labelled_ids s : map fst (labelled s) = map (fun x => p_id x.1) s.
Proof. unfold labelled. rewrite map_map. apply map_ext. by intros []. Qed.

Lemma grown_search P1 P2 n o1 o2 s1 s2 extra pc1 pc2 gi1 gi2 : (1 <= n <= 764)%nat ->
  valid_build_order o1 -> valid_build_order o2 -> total_grams (map snd s2) < 2 ^ 32 ->
  index_from P1 n o1 s1 pc1 = Done gi1 -> index_from P2 n o2 s2 pc2 = Done gi2 ->
  lenN (c_products pc1) <= lenN (c_products pc2) -> lenN (c_products pc2) <= 5242880 ->
  lenN (c_products pc1) <= usize_max P1 -> lenN (c_products pc2) <= usize_max P2 ->
  NoDup (map (fun s => p_id s.1) s2) -> labelled s2 ≡ₚ labelled s1 ++ labelled extra ->
  (forall t, t ∈ map snd s1 -> 0 ∉ t) ->
  forall os1 os2 input res1 res2, valid_order os1 -> valid_order os2 ->
  (forall t, t ∈ map snd extra -> strange n input t) -> unequivocal n (map snd s1) input ->
  gram_search n os1 gi1 input = Done res1 -> gram_search n os2 gi2 input = Done res2 ->
  (forall id x, (id, x) ∈ scores res1 -> exists y, (id, y) ∈ scores res2 /\ f32_le x y) /\
  (forall id y, (id, y) ∈ scores res2 -> id ∈ map fst (labelled s1)).
Proof.
  intros Hn Ho1 Ho2 Hlim2 I1 I2 Hle Hmax HP1 HP2 ND2 Hperm H0 os1 os2 input res1 res2 V1 V2 Hstr Hun G1 G2.
  assert (Ht : map snd s2 ≡ₚ map snd s1 ++ map snd extra).
  { rewrite <- (labelled_texts s2), <- (labelled_texts s1), <- (labelled_texts extra), Hperm. by rewrite map_app. }
  assert (Hlim1 : total_grams (map snd s1) < 2 ^ 32).
  { rewrite (total_grams_perm _ _ Ht) in Hlim2. unfold total_grams in *. rewrite map_app in Hlim2.
    assert (A : forall a b, sum_N (a ++ b) = sum_N a + sum_N b).
    { intros a b. unfold sum_N. induction a as [|x a IH]; [done|]. cbn [app foldr]. rewrite IH. lia. }
    rewrite A in Hlim2. lia. }
  assert (ND1 : NoDup (map (fun s => p_id s.1) s1)).
  { rewrite <- labelled_ids in ND2 |- *. rewrite (Permutation_map fst Hperm), map_app in ND2. by apply NoDup_app in ND2 as [? _]. }
  destruct (search_from_readings P1 n o1 s1 pc1 gi1 Hn Ho1 Hlim1 I1 ltac:(lia) HP1 ND1 os1 input res1 V1 G1)
    as (limit1 & choice1 & L1 & S1 & C1 & _ & _ & R1).
  destruct (search_from_readings P2 n o2 s2 pc2 gi2 Hn Ho2 Hlim2 I2 ltac:(lia) HP2 ND2 os2 input res2 V2 G2)
    as (limit2 & choice2 & L2 & S2 & C2 & _ & _ & R2).
  assert (Hlimit : limit1 <= limit2) by (by eapply cutoff_grows).
  assert (Hhead : forall w, w ∈ windows n input -> exists g, head w = Some g).
  { intros w Hw. apply windows_length in Hw. destruct w as [|g w]; [simpl in Hw; lia|]. by exists g. }
  assert (HC : forall w, w ∈ windows n input -> choice1 w = choice2 w).
  { intros w Hw. destruct (Hun w Hw) as (r & Hr). destruct (Hhead w Hw) as (g & Hg).
    assert (Hlw : length w = n) by by eapply windows_length.
    rewrite (C1 w r Hlw Hr). symmetry. apply C2; [done|]. apply (clearly_perm n (map snd s1 ++ map snd extra)); [by symmetry|].
    apply (clearly_same n (map snd s1) (map snd extra) g); [|done|done]. intros t Ht'. by eapply (Hstr t Ht' w). }
  assert (Hchosen : forall w g c, w ∈ windows n input -> choice1 w = Some (g, c) ->
    exists g0, head g = Some g0 /\ g0 <> 0 /\ (forall t, t ∈ map snd extra -> g0 ∉ t) /\ nonneg c).
  { intros w g c Hw E. destruct (Hhead w Hw) as (g0 & Hg). exists g0.
    assert (Hlw : length w = n) by by eapply windows_length.
    pose proof (S1 w Hlw) as S. rewrite E in S. destruct S as [S _].
    assert (U : f32_unit c) by (eapply (reading_of_unit P1 n o1 s1 pc1 gi1) with (r := (g, c)); eauto; lia). apply reading_of_head in S as (A & _ & B). simpl in *.
    split; [by rewrite A|]. split.
    - intros ->. destruct B as (t & Hin & Hoc). rewrite Hg in A. destruct g as [|g1 g]; [done|]. injection A as ->.
      by eapply (H0 t Hin), occurs_head.
    - split; [|by apply unit_nonneg]. intros t Ht'. by eapply (Hstr t Ht' w). }
  assert (HU : forall w g c, w ∈ windows n input -> choice1 w = Some (g, c) -> uses n (map snd s2) g = uses n (map snd s1) g).
  { intros w g c Hw E. destruct (Hchosen w g c Hw E) as (g0 & Hd & Hg0 & Hno & _).
    rewrite (uses_perm n _ _ g Ht), uses_app, (uses_none n (map snd extra) g g0); [lia|done..]. }
  assert (Hsub : forall t, sub (points n (map snd s1) limit1 choice1 input t) (points n (map snd s2) limit2 choice2 input t)).
  { intros t. apply points_sub; [done|]. intros w g c Hw E U. rewrite (HU w g c Hw E). lia. }
  assert (Hnn : forall t, Forall nonneg (points n (map snd s2) limit2 choice2 input t)).
  { intros t. apply points_nonneg. intros w g c Hw E. rewrite <- HC in E by done. by destruct (Hchosen w g c Hw E) as (_ & _ & _ & _ & ?). }
  split.
  - intros id x Hx. unfold scores in Hx. apply elem_of_list_fmap in Hx as ([p x'] & [= -> ->] & Hx).
    apply R1 in Hx as (t & c & rest & Hp & Ept & ->).
    destruct (sub_total _ _ c rest (Hsub t) (Hnn t) Ept) as (c' & rest' & E' & L).
    assert (Hl : (p_id p, t) ∈ labelled s2).
    { rewrite Hperm, elem_of_app. left. apply labelled_in. by exists p. }
    apply labelled_in in Hl as (p' & Ep & Hp').
    exists (foldl f32_add c' rest'). split; [|done]. unfold scores. apply elem_of_list_fmap. exists (p', foldl f32_add c' rest').
    split; [by rewrite <- Ep|]. apply R2. by exists t, c', rest'.
  - intros id y Hy. unfold scores in Hy. apply elem_of_list_fmap in Hy as ([p y'] & [= -> ->] & Hy).
    apply R2 in Hy as (t & c & rest & Hp & Ept & _).
    assert (Hl : (p_id p, t) ∈ labelled s2) by (apply labelled_in; by exists p).
    rewrite Hperm, elem_of_app in Hl. destruct Hl as [Hl|Hl].
    + apply elem_of_list_fmap. by exists (p_id p, t).
    + exfalso. apply labelled_in in Hl as (p' & _ & Hp').
      assert (Hte : t ∈ map snd extra) by (apply elem_of_list_fmap; by exists (p', t)).
      assert (Z : points n (map snd s2) limit2 choice2 input t = []).
      { unfold points. assert (A : forall l, (forall w, w ∈ l -> w ∈ windows n input) -> concat (map (fun w =>
          match choice2 w with
          | Some (g, c) => if bool_decide (uses n (map snd s2) g < limit2) then replicate (length (filter (fun w' => w' = g) (windows n t))) c else []
          | None => [] end) l) = []); [|by apply A].
        intros l. induction l as [|w l IH]; intros Hl; [done|]. cbn [map concat]. rewrite IH by (intros w' Hw'; apply Hl; by right).
        rewrite app_nil_r. destruct (choice2 w) as [[g c1]|] eqn:E; [|done]. rewrite <- HC in E by (apply Hl; left).
        destruct (Hchosen w g c1 (Hl w ltac:(left)) E) as (g0 & Hd & Hg0 & Hno & _).
        rewrite (count_none n t g g0 Hd Hg0 (Hno t Hte)). by case_bool_decide. }
      by rewrite Z in Ept.
Qed.
