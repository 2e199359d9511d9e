(** C137: which of two products comes first. *)
From Coq Require Import Reals Lra String.
From Flocq Require Import Core IEEE754.BinarySingleNaN.
From Verif.model Require Import Base F32 Utf8 Prim Coll Data Gram Indexer Nodes Classic Lit Raw Js Lib.
From Verif.spec Require Import Spec Data_spec Gram_spec Classic_spec Raw_spec Js_spec Lib_spec End_spec Choice_spec Reorder_spec Reading_spec.
From Verif.spec Require Import Samples Gram_samples Rank_samples.
From Verif.proofs Require Import Base_facts Float_facts Cutoff_facts Indexer_facts Trie_facts Search_facts Search_more Trie_props Search_props
  Choice_props Choice_end Reading_props Typing_facts Growth_facts.
From Coq Require Import Lia.
Local Open Scope list_scope.
Local Open Scope N_scope.

(** ** Sums of many numbers up to one *)
Lemma of_N_small k : k <= 2 ^ 24 -> f32_number (f32_of_N k) /\ key32 (f32_of_N k) = IZR (Z.of_N k).
Proof.
  intros H. split; [apply of_N_number; lia|]. rewrite of_N_key by lia.
  destruct (decide (k = 2 ^ 24)) as [->|]; [|apply rnd32_int; lia].
  change (IZR (Z.of_N (2 ^ 24))) with (bpow radix2 24). apply round_generic; [apply _|]. apply generic_format_bpow.
  unfold SpecFloat.fexp, prec32, emax32, SpecFloat.emin. lia.
Qed.
Lemma of_N_mono a b : a <= b -> b <= 2 ^ 24 -> f32_le (f32_of_N a) (f32_of_N b).
Proof.
  intros H1 H2. destruct (of_N_small a) as [Na Ka]; [lia|]. destruct (of_N_small b) as [Nb Kb]; [lia|].
  apply f32_le_key; [done..|]. rewrite Ka, Kb. apply IZR_le. lia.
Qed.
Lemma add_small x c k : nonneg x -> f32_unit c -> k <= 2 ^ 24 -> f32_le x (f32_of_N k) ->
  f32_le (f32_add x c) (f32_of_N (N.min (k + 1) (2 ^ 24))).
Proof.
  intros [Nx Px] U Hk L. destruct (of_N_small k Hk) as [Nk Kk].
  destruct (of_N_small (N.min (k + 1) (2 ^ 24))) as [Nm Km]; [lia|].
  pose proof (unit_nonneg c U) as [Nc Pc]. destruct U as (_ & _ & Uc).
  destruct (f32_add_nonneg x c) as (Ns & _); [done..|].
  apply f32_le_key in L; [|done..]. apply f32_le_key in Px; [|done..]. apply f32_le_key in Pc; [|done..]. apply f32_le_key in Uc; [|done..].
  rewrite key_zero, ?key_one in *. apply f32_le_key; [done..|]. rewrite sum_key by done. rewrite Km.
  eapply Rle_trans; [apply Rmin_l|]. eapply Rle_trans; [apply (rnd32_le _ (IZR (Z.of_N (k + 1))))|].
  { rewrite Kk in L. rewrite N2Z.inj_add, plus_IZR. change (Z.of_N 1) with 1%Z. lra. }
  destruct (decide (k = 2 ^ 24)) as [->|].
  - rewrite N.min_r by lia. rewrite <- of_N_key by lia. rewrite <- (proj2 (of_N_small (2 ^ 24) ltac:(lia))).
    apply f32_le_key; [by apply of_N_number..|]. vm_compute. reflexivity.
  - rewrite <- of_N_key by lia. rewrite (proj2 (of_N_small (k + 1) ltac:(lia))). apply IZR_le. lia.
Qed.
Lemma sum_small l : Forall f32_unit l -> forall x k, nonneg x -> k <= 2 ^ 24 -> f32_le x (f32_of_N k) ->
  f32_le (foldl f32_add x l) (f32_of_N (N.min (k + lenN l) (2 ^ 24))).
Proof.
  induction 1 as [|c l U F IH]; intros x k Nx Hk L; cbn [foldl].
  - rewrite N.add_0_r, N.min_l by done. done.
  - pose proof (add_small x c k Nx U Hk L) as L1. pose proof (unit_nonneg c U) as [Nc Pc]. destruct Nx as [Nx Px].
    destruct (f32_add_nonneg x c) as (Ns & _ & _ & Ps); [done..|].
    specialize (IH (f32_add x c) (N.min (k + 1) (2 ^ 24)) (conj Ns Ps) ltac:(lia) L1).
    replace (N.min (k + lenN (c :: l)) (2 ^ 24)) with (N.min (N.min (k + 1) (2 ^ 24) + lenN l) (2 ^ 24)); [done|].
    rewrite lenN_cons. lia.
Qed.
Lemma total_small c rest : Forall f32_unit (c :: rest) -> f32_le (foldl f32_add c rest) (f32_of_N (N.min (lenN (c :: rest)) (2 ^ 24))).
Proof.
  intros [U F]%Forall_cons. rewrite lenN_cons, N.add_comm. rewrite N.add_comm. apply sum_small; [done|by apply unit_nonneg|lia|].
  change (f32_of_N 1) with f32_one. apply U.
Qed.

(** ** Points *)
Lemma count_uses n g t : uses n [t] g = lenN (filter (fun w => w = g) (windows n t)).
Proof. unfold uses. cbn [map concat]. by rewrite app_nil_r. Qed.
Lemma sub_replicate a b c : (a <= b)%nat -> sub (replicate a c) (replicate b c).
Proof.
  revert b. induction a as [|a IH]; intros b H; [constructor|]. destruct b as [|b]; [lia|]. cbn [replicate]. constructor. apply IH. lia.
Qed.
Lemma points_more n texts limit choice input ta tb :
  (forall w g c, w ∈ windows n input -> choice w = Some (g, c) -> uses n [tb] g <= uses n [ta] g) ->
  sub (points n texts limit choice input tb) (points n texts limit choice input ta).
Proof.
  unfold points. induction (windows n input) as [|w l IH]; intros H; [constructor|]. cbn [map concat]. apply sub_app.
  - destruct (choice w) as [[g c]|] eqn:E; [|constructor]. case_bool_decide; [|constructor]. apply sub_replicate.
    pose proof (H w g c ltac:(left) E) as L. rewrite !count_uses in L. unfold lenN in L. lia.
  - apply IH. intros w' g c Hw'. apply H. by right.
Qed.
Lemma points_length n texts limit choice input t : lenN (points n texts limit choice input t) <= lenN input * lenN t.
Proof.
  unfold points.
  assert (A : forall l, lenN (concat (map (fun w => match choice w with
    | Some (g, c) => if bool_decide (uses n texts g < limit) then replicate (length (filter (fun w' => w' = g) (windows n t))) c else []
    | None => [] end) l)) <= lenN l * lenN t).
  { induction l as [|w l IH]; [cbn [map concat]; unfold lenN; simpl; lia|]. cbn [map concat]. rewrite lenN_app, lenN_cons.
    assert (B : lenN (match choice w with
      | Some (g, c) => if bool_decide (uses n texts g < limit) then replicate (length (filter (fun w' => w' = g) (windows n t))) c else []
      | None => [] end) <= lenN t).
    { destruct (choice w) as [[g c]|]; [|unfold lenN; simpl; lia]. case_bool_decide; [|unfold lenN; simpl; lia].
      unfold lenN. rewrite replicate_length. pose proof (filter_length (fun w' => w' = g) (windows n t)) as L.
      unfold windows in L at 2. rewrite map_length, seq_length in L. lia. }
    lia. }
  specialize (A (windows n input)). replace (lenN (windows n input)) with (lenN input) in A; [done|].
  unfold lenN, windows. by rewrite map_length, seq_length.
Qed.
Lemma points_unit n texts limit choice input t : (forall w g c, w ∈ windows n input -> choice w = Some (g, c) -> f32_unit c) ->
  Forall f32_unit (points n texts limit choice input t).
Proof.
  unfold points. induction (windows n input) as [|w l IH]; intros HC; [constructor|]. cbn [map concat]. apply Forall_app. split.
  - destruct (choice w) as [[g c]|] eqn:E; [|constructor]. case_bool_decide; [|constructor]. apply Forall_replicate. eapply HC; [left|done].
  - apply IH. intros w' g c Hw'. apply HC. by right.
Qed.

(** ** Texts in texts *)
Lemma occurrences_in w s t : w <> [] -> occurs s t -> occurrences w s <= occurrences w t.
Proof.
  intros Hw (u & v & ->). etransitivity; [apply (occurrences_app w s v Hw)|]. generalize (s ++ v). intros x. clear s v.
  induction u as [|g u IH]; [done|]. cbn [app occurrences]. case_bool_decide; lia.
Qed.
Lemma uses_in n g s t : (1 <= n)%nat -> length g = n -> 0 ∉ g -> occurs s t -> uses n [s] g <= uses n [t] g.
Proof.
  intros Hn Hl Hz Ho. rewrite !count_uses, !windows_occurrences by done. apply occurrences_in; [|done]. intros ->. simpl in Hl. lia.
Qed.

(** ** Searches *)
Section built.
Context (P : platform) (n : nat) (o : build_order) (source : list (product * list N)) (pc : container) (gi : gram_index).
Hypothesis (Hn : (1 <= n <= 764)%nat) (Ho : valid_build_order o) (Hlim : total_grams (map snd source) < 2 ^ 32)
  (HI : index_from P n o source pc = Done gi) (Hs : lenN (c_products pc) < 2 ^ 64) (HP : lenN (c_products pc) <= usize_max P)
  (ND : NoDup (map (fun s => p_id s.1) source)).
Lemma same_product p t t' : (p, t) ∈ source -> (p, t') ∈ source -> t = t'.
Proof.
  intros H H'. apply elem_of_list_lookup_1 in H as (i & Hi), H' as (j & Hj).
  assert (i = j) as ->; [|congruence].
  eapply (NoDup_lookup _ i j (p_id p) ND); rewrite list_lookup_fmap; [by rewrite Hi|by rewrite Hj].
Qed.
Lemma ranks_by os input res : valid_order os -> gram_search n os gi input = Done res ->
  exists limit choice, (forall w g c, w ∈ windows n input -> choice w = Some (g, c) ->
      f32_unit c /\ length g = n /\ in_texts (map snd source) g) /\
    forall p x, (p, x) ∈ res <-> exists t c rest, (p, t) ∈ source /\
      points n (map snd source) limit choice input t = c :: rest /\ x = foldl f32_add c rest.
Proof.
  intros V G. destruct (search_from_readings P n o source pc gi Hn Ho Hlim HI Hs HP ND os input res V G)
    as (limit & choice & _ & S & _ & _ & _ & R). exists limit, choice. split; [|done].
  intros w g c Hw E. assert (Hlw : length w = n) by by eapply windows_length.
  pose proof (S w Hlw) as S'. rewrite E in S'. destruct S' as [S' _].
  split; [|apply reading_of_head in S' as (_ & A & B); done].
  eapply (reading_of_unit P n o source pc gi) with (r := (g, c)); eauto; lia.
Qed.
Lemma ranked_by_counts os input res pa ta pb tb y : valid_order os -> gram_search n os gi input = Done res ->
  (pa, ta) ∈ source -> (pb, tb) ∈ source ->
  (forall g, length g = n -> in_texts (map snd source) g -> uses n [tb] g <= uses n [ta] g) ->
  (pb, y) ∈ res -> exists x, (pa, x) ∈ res /\ f32_le y x.
Proof.
  intros V G Ha Hb HU Hy. destruct (ranks_by os input res V G) as (limit & choice & HC & R).
  destruct (proj1 (R _ _) Hy) as (t & c & rest & Ht & Ep & ->). rewrite (same_product _ _ _ Ht Hb) in Ep.
  destruct (sub_total (points n (map snd source) limit choice input tb) (points n (map snd source) limit choice input ta) c rest)
    as (c' & rest' & E & L); [| |done|].
  - apply points_more. intros w g c1 Hw E. destruct (HC w g c1 Hw E) as (_ & A & B). by apply HU.
  - apply points_nonneg. intros w g c1 Hw E. destruct (HC w g c1 Hw E) as (U & _). by apply unit_nonneg.
  - exists (foldl f32_add c' rest'). split; [|done]. apply R. by exists ta, c', rest'.
Qed.
Lemma longer_ranked os input res pa ta pb tb y : valid_order os -> gram_search n os gi input = Done res ->
  (pa, ta) ∈ source -> (pb, tb) ∈ source -> Forall (fun t => 0 ∉ t) (map snd source) -> occurs tb ta ->
  (pb, y) ∈ res -> exists x, (pa, x) ∈ res /\ f32_le y x.
Proof.
  intros V G Ha Hb Hz Hoc Hy. eapply ranked_by_counts; try done. intros g Hg (t & Ht & u & v & E).
  apply uses_in; [lia|done| |done]. intros H0. rewrite Forall_forall in Hz. apply (Hz t Ht). rewrite E, !elem_of_app. auto.
Qed.
Lemma alike_ranked os input res pa pb t y : valid_order os -> gram_search n os gi input = Done res ->
  (pa, t) ∈ source -> (pb, t) ∈ source -> (pb, y) ∈ res -> (pa, y) ∈ res.
Proof.
  intros V G Ha Hb Hy. destruct (ranks_by os input res V G) as (limit & choice & HC & R).
  destruct (proj1 (R _ _) Hy) as (t' & c & rest & Ht & Ep & ->). rewrite (same_product _ _ _ Ht Hb) in Ep. apply R. by exists t, c, rest.
Qed.
Lemma confidence_bounded os input res p t x : valid_order os -> gram_search n os gi input = Done res ->
  (p, t) ∈ source -> (p, x) ∈ res -> f32_le x (f32_of_N (N.min (lenN input * lenN t) (2 ^ 24))).
Proof.
  intros V G Ht Hx. destruct (ranks_by os input res V G) as (limit & choice & HC & R).
  destruct (proj1 (R _ _) Hx) as (t' & c & rest & Ht' & Ep & ->). rewrite (same_product _ _ _ Ht' Ht) in Ep.
  assert (U : Forall f32_unit (c :: rest)).
  { rewrite <- Ep. apply points_unit. intros w g c1 Hw E. by destruct (HC w g c1 Hw E). }
  pose proof (points_length n (map snd source) limit choice input t) as L. rewrite Ep in L.
  eapply f32_le_trans; [| | |by apply total_small|apply of_N_mono; lia].
  - apply Forall_cons in U as [U F]. apply (sum_nonneg rest c); [by apply unit_nonneg|]. eapply Forall_impl; [exact F|]. apply unit_nonneg.
  - apply of_N_small. lia.
  - apply of_N_small. lia.
Qed.
End built.

Lemma typed_second : exists gi res x y,
  index_from wasm32 5 hash_order oranges (plain_container oranges) = Done gi /\
  gram_search 5 no_order gi typed_orange = Done res /\ res = [(plain_product 1, x); (plain_product 0, y)] /\
  f32_lt y x /\ oranges !! 0%nat = Some (plain_product 0, typed_orange) /\
  (forall t, (plain_product 1, t) ∈ oranges -> ~ occurs typed_orange t).
Proof.
  eexists _, _, _, _. split; [vm_compute; reflexivity|]. split; [vm_compute; reflexivity|]. split; [reflexivity|].
  split; [vm_compute; reflexivity|]. split; [reflexivity|]. intros t Ht Hoc.
  assert (Forall (fun s => s.1 = plain_product 1 -> occurrences typed_orange s.2 = 0) oranges) as F by (apply (bool_decide_unpack _); vm_compute; done).
  rewrite Forall_forall in F. specialize (F _ Ht eq_refl). apply occurrences_pos in Hoc; [|done]. simpl in F. lia.
Qed.
Lemma longer_first : Forall (fun t => 0 ∉ t) (map snd longer_texts) /\ NoDup (map (fun s => p_id s.1) longer_texts) /\
  (exists ta tb, longer_texts !! 1%nat = Some (plain_product 1, ta) /\ longer_texts !! 0%nat = Some (plain_product 0, tb) /\ occurs tb ta) /\
  exists gi res, index_from wasm32 5 hash_order longer_texts (plain_container longer_texts) = Done gi /\
    gram_search 5 no_order gi typed_orange = Done res /\ length res = 2%nat.
Proof.
  split; [apply (bool_decide_unpack _); vm_compute; done|]. split; [apply (bool_decide_unpack _); vm_compute; done|]. split.
  - eexists _, _. split; [reflexivity|]. split; [reflexivity|]. exists (lit "an "%string), (lit " lamp"%string). reflexivity.
  - eexists _, _. split; [vm_compute; reflexivity|]. split; vm_compute; reflexivity.
Qed.
