(** Arrays of a fixed size in JSON texts. *)
From Coq Require Import String Lia ZifyBool ZifyN.
From Verif.model Require Import Base F32 Utf8 Prim Coll Data Gram Indexer Nodes Classic Lit Raw Js Lib Json Serde_array.
From Verif.spec Require Import Json_spec Serde_array_spec.
From Verif.proofs Require Import Json_facts Json_props.
Local Open Scope N_scope.

(** ** Reading *)
Section reading.
  Context {A : Type} (de : tree -> option A).
  Lemma visit_loop n : forall l acc,
    rep_nat n (fun '(seq, data) =>
      '(seq, item) ← next_element de seq;
      match item with
      | Some val => Done (seq, (data ++ [val])%list)
      | None => Nope
      end) (l, acc) =
    if Nat.leb n (List.length l) then
      match mapM de (take n l) with Some xs => Done (drop n l, (acc ++ xs)%list) | None => Nope end
    else Nope.
  Proof.
    induction n as [|n IH]; intros l acc.
    - change (Done (l, acc) = Done (l, (acc ++ [])%list)). by rewrite (app_nil_r acc).
    - destruct l as [|v l]; [done|].
      cbn [rep_nat next_element of_opt]. cbn [List.length Nat.leb take mapM].
      destruct (de v) as [x|] eqn:E; cbn [of_opt mbind res_bind option_bind].
      + rewrite IH. destruct (Nat.leb n (List.length l)) eqn:Hn; [|done].
        destruct (mapM de (take n l)) as [xs|] eqn:E2; cbn.
        * by rewrite <- app_assoc.
        * done.
      + by destruct (Nat.leb n (List.length l)).
  Qed.
  Lemma array_deserialize_eq n v : array_deserialize de n v =
    match v with
    | TArr l => if Nat.eqb (List.length l) n then of_opt (mapM de l) else Nope
    | _ => Nope
    end.
  Proof.
    destruct v as [| | | |l|]; try done. unfold array_deserialize, visit_seq. rewrite visit_loop.
    destruct (Nat.leb n (List.length l)) eqn:Hn.
    - apply Nat.leb_le in Hn. destruct (mapM de (take n l)) as [xs|] eqn:E; cbn [mbind res_bind].
      + cbn [app]. assert (Hxs : List.length xs = n).
        { apply mapM_Some_1 in E. apply Forall2_length in E. rewrite <- E, take_length. lia. }
        unfold try_into. rewrite Hxs, Nat.eqb_refl.
        destruct (Nat.eqb (List.length l) n) eqn:Hl.
        * apply Nat.eqb_eq in Hl. rewrite drop_ge by lia. rewrite take_ge in E by lia. by rewrite E.
        * apply Nat.eqb_neq in Hl. destruct (drop n l) eqn:Hd; [|done].
          apply (f_equal List.length) in Hd. rewrite drop_length in Hd. cbn in Hd. lia.
      + destruct (Nat.eqb (List.length l) n) eqn:Hl; [|done].
        apply Nat.eqb_eq in Hl. rewrite take_ge in E by lia. by rewrite E.
    - apply Nat.leb_gt in Hn. destruct (Nat.eqb (List.length l) n) eqn:Hl; [|done].
      apply Nat.eqb_eq in Hl. lia.
  Qed.
End reading.

Lemma stands_for_digits s v : stands_for s v ->
  Forall digit s /\ fold_left (fun a c => a * 10 + (c - 48)) s 0 = v.
Proof.
  induction 1 as [|s v d _ [IH1 IH2] Hd]; [done|]. split.
  - apply Forall_app. split; [done|]. constructor; [unfold digit; lia|done].
  - rewrite fold_left_app. cbn [fold_left]. rewrite IH2. lia.
Qed.
Lemma digits_stand_for s : Forall digit s -> stands_for s (fold_left (fun a c => a * 10 + (c - 48)) s 0).
Proof.
  induction s as [|c s IH] using rev_ind; intros H; [constructor|].
  apply Forall_app in H as [H Hc]. apply Forall_cons in Hc as [Hc _]. unfold digit in Hc.
  rewrite fold_left_app. cbn [fold_left].
  replace (fold_left (fun a c0 => a * 10 + (c0 - 48)) s 0 * 10 + (c - 48))
    with (10 * fold_left (fun a c0 => a * 10 + (c0 - 48)) s 0 + (c - 48)) by lia.
  replace [c] with [48 + (c - 48)] by (f_equal; lia).
  constructor; [by apply IH|lia].
Qed.
Lemma forallb_digits s : forallb is_digit s = true <-> Forall digit s.
Proof.
  induction s as [|c s IH]; [done|]. cbn. rewrite andb_true_iff, is_digit_true, IH.
  split; [intros []; by constructor|]. intros H. by apply Forall_cons in H.
Qed.
Lemma de_u8_iff v b : de_u8 v = Some b <-> is_byte b v.
Proof.
  unfold is_byte. split.
  - destruct v as [| |s| | |]; try done. cbn. destruct (forallb is_digit s) eqn:E; [|done].
    destruct (_ <=? 255) eqn:E2; [|done]. intros [= <-]. apply forallb_digits in E.
    exists s. split; [done|]. split; [by apply digits_stand_for|lia].
  - intros (s & -> & Hs & Hb). apply stands_for_digits in Hs as [Hd Hv]. unfold de_u8.
    apply forallb_digits in Hd. rewrite Hd, Hv. by rewrite (proj2 (N.leb_le _ _) Hb).
Qed.

Lemma of_opt_Done {A} (o : option A) a : of_opt o = Done a <-> o = Some a.
Proof. destruct o; cbn; split; congruence. Qed.
Lemma read_arr_iff n t data : read_arr n t = Done data <-> describes_array t data /\ List.length data = n.
Proof.
  unfold read_arr, describes_array. split.
  - destruct (read_json t) as [v|] eqn:Et; [|done]. apply json_iff in Et. cbn [of_opt mbind res_bind].
    destruct (de_struct [lit "arr"] v) as [l|] eqn:El; [|done]. apply de_struct_iff in El. cbn [of_opt mbind res_bind].
    destruct l as [|a [|]]; try done. rewrite array_deserialize_eq. destruct a as [| | | |l|]; try done.
    destruct (Nat.eqb (List.length l) n) eqn:En; [|done]. apply Nat.eqb_eq in En.
    intros H%of_opt_Done. apply mapM_Some_1 in H. split.
    + exists v, (TArr l). split; [done|]. split; [done|]. exists l. split; [done|].
      apply Forall2_flip. eapply Forall2_impl; [exact H|]. intros x y Hxy. by apply de_u8_iff.
    + rewrite <- En. symmetry. by eapply Forall2_length.
  - intros [(v & a & Ht & Hf & (vs & -> & Hvs)) Hn]. apply json_iff in Ht. apply de_struct_iff in Hf.
    rewrite Ht. cbn [of_opt mbind res_bind]. rewrite Hf. cbn [of_opt mbind res_bind].
    rewrite array_deserialize_eq. rewrite <- (Forall2_length _ _ _ Hvs), Hn, Nat.eqb_refl.
    apply of_opt_Done. apply mapM_Some_2. apply Forall2_flip. eapply Forall2_impl; [exact Hvs|].
    intros x y Hxy. by apply de_u8_iff.
Qed.
Lemma read_arr_total n t : (exists data, read_arr n t = Done data) \/ read_arr n t = Nope.
Proof.
  unfold read_arr. destruct (read_json t) as [v|]; [|by right]. cbn [of_opt mbind res_bind].
  destruct (de_struct [lit "arr"] v) as [l|]; [|by right]. cbn [of_opt mbind res_bind].
  destruct l as [|a [|]]; try by right. rewrite array_deserialize_eq. destruct a as [| | | |l|]; try by right.
  destruct (Nat.eqb (List.length l) n); [|by right]. destruct (mapM de_u8 l); [left; eauto|by right].
Qed.

(** ** Writing *)
Lemma show_u8_stands b : b <= 255 -> stands_for (show_u8 b) b /\ number_text (show_u8 b).
Proof.
  intros Hb.
  assert (H : stands_for (show_u8 b) b /\ digits (show_u8 b) /\ (head (show_u8 b) = Some 48 -> show_u8 b = [48])).
  { unfold show_u8, digits, digit. destruct (b <? 10) eqn:E1; [|destruct (b <? 100) eqn:E2].
    - split_and!; [|done|constructor; [lia|done]|cbn; intros [= H]; by replace (48 + b) with 48 by lia].
      change [48 + b] with ([] ++ [48 + b])%list. replace b with (10 * 0 + b) at 2 by lia.
      constructor; [constructor|lia].
    - pose proof (N.div_mod' b 10). pose proof (N.mod_lt b 10 ltac:(lia)).
      split_and!; [|done|repeat constructor; lia|cbn; intros [= H']; lia].
      change [48 + b / 10; 48 + b mod 10] with ([48 + b / 10] ++ [48 + b mod 10])%list.
      replace b with (10 * (b / 10) + b mod 10) at 3 by lia. constructor; [|lia].
      change [48 + b / 10] with ([] ++ [48 + b / 10])%list.
      replace (b / 10) with (10 * 0 + b / 10) at 2 by lia. constructor; [constructor|lia].
    - pose proof (N.div_mod' b 10). pose proof (N.mod_lt b 10 ltac:(lia)).
      pose proof (N.div_mod' (b / 10) 10). pose proof (N.mod_lt (b / 10) 10 ltac:(lia)).
      assert (Hdd : b / 100 = b / 10 / 10) by (rewrite N.div_div by lia; done).
      split_and!; [|done|repeat constructor; lia|cbn; intros [= H']; lia].
      change [48 + b / 100; 48 + (b / 10) mod 10; 48 + b mod 10]
        with (([] ++ [48 + b / 100]) ++ [48 + (b / 10) mod 10] ++ [48 + b mod 10])%list.
      rewrite app_assoc.
      replace b with (10 * (10 * (10 * 0 + b / 100) + (b / 10) mod 10) + b mod 10) at 4 by lia.
      repeat (constructor; [|lia]). constructor. }
  destruct H as (H1 & H2 & H3). split; [done|].
  exists [], (show_u8 b), [], []. rewrite !app_nil_r. split_and!; auto.
Qed.

(** The elements, with commas between them. *)
Fixpoint commas (l : list rstr) : rstr :=
  match l with
  | [] => []
  | [x] => x
  | x :: l' => (x ++ lit "," ++ commas l')%list
  end.
Lemma elements_rest {A} (show : A -> rstr) l : forall out,
  fold_left (fun s item => serialize_element s (show item)) l (out, Rest) =
  ((out ++ match l with [] => [] | _ => lit "," ++ commas (map show l) end)%list, Rest).
Proof.
  induction l as [|x l IH]; intros out; [cbn; by rewrite app_nil_r|].
  cbn [fold_left serialize_element]. rewrite IH. f_equal. rewrite <- !app_assoc. f_equal. f_equal.
  destruct l; cbn [map commas]; [by rewrite app_nil_r|done].
Qed.
Lemma array_serialize_eq {A} (show : A -> rstr) data :
  array_serialize show (List.length data) data = (lit "[" ++ commas (map show data) ++ lit "]")%list.
Proof.
  unfold array_serialize, serialize_tuple. destruct data as [|x data]; [done|].
  replace (N.of_nat (List.length (x :: data)) =? 0) with false by (cbn; lia).
  cbn [fold_left serialize_element]. rewrite elements_rest. cbn [serialize_end]. rewrite <- !app_assoc. f_equal.
  cbn [app]. destruct data; cbn [map commas]; [done|]. by rewrite <- !app_assoc.
Qed.
Lemma items_commas data : Forall (fun b => b <= 255) data -> data <> [] ->
  items_text (map (fun b => TNum (show_u8 b)) data) (commas (map show_u8 data)).
Proof.
  induction data as [|b data IH]; intros H Hne; [done|]. apply Forall_cons in H as [Hb H].
  destruct (show_u8_stands b Hb) as [_ Hn]. destruct data as [|b' data].
  - cbn [map commas]. rewrite <- (app_nil_r (show_u8 b)) at 2. apply (it_last [] _ _ []); [constructor|by constructor|constructor].
  - change (commas (map show_u8 (b :: b' :: data)))
      with ([] ++ show_u8 b ++ [] ++ [44] ++ commas (map show_u8 (b' :: data)))%list.
    cbn [map]. apply it_more; [constructor|by constructor|constructor|by apply IH].
Qed.
Lemma write_arr_describes data : Forall (fun b => b <= 255) data ->
  describes_array (write_arr (List.length data) data) data.
Proof.
  intros H. set (a := TArr (map (fun b => TNum (show_u8 b)) data)).
  exists (TObj [(map Plain (lit "arr"), a)]), a. split_and!.
  - exists [], (write_arr (List.length data) data), []. rewrite app_nil_r. split_and!; [done|constructor| |constructor].
    unfold write_arr. rewrite array_serialize_eq.
    change (value_text (TObj [(map Plain (lit "arr"), a)])
      ([123] ++ ([34] ++ lit "arr" ++ [34] ++ [58] ++ ([91] ++ commas (map show_u8 data) ++ [93])) ++ [125])%list).
    apply vt_object.
    replace ([34] ++ lit "arr" ++ [34] ++ [58] ++ ([91] ++ commas (map show_u8 data) ++ [93]))%list
      with ([] ++ [34] ++ lit "arr" ++ [34] ++ [] ++ [58] ++ [] ++ ([91] ++ commas (map show_u8 data) ++ [93]) ++ [])%list
      by (by rewrite app_nil_r).
    apply mt_last; [constructor| |constructor|constructor| |constructor].
    + do 3 (apply st_plain; [by vm_compute|by vm_compute|by vm_compute|]). constructor.
    + unfold a. destruct data as [|b data]; [apply (vt_empty_array []); constructor|].
      apply vt_array. by apply items_commas.
  - left. exists [(map Plain (lit "arr"), a)]. split; [done|]. split.
    + constructor; [|done]. exists (lit "arr"). apply verbatim_means. done.
    + constructor; [|done]. exists [], (map Plain (lit "arr")), []. split; [done|]. split; [|constructor].
      apply verbatim_means. done.
  - exists (map (fun b => TNum (show_u8 b)) data). split; [done|].
    apply Forall2_fmap_r. apply Forall_Forall2_diag. eapply Forall_impl; [exact H|].
    intros b Hb. exists (show_u8 b). split; [done|]. split; [by apply show_u8_stands|done].
Qed.
Lemma describes_unique t data data' : describes_array t data -> describes_array t data' -> data = data'.
Proof.
  intros H H'. pose proof (proj2 (read_arr_iff (List.length data) t data) (conj H eq_refl)) as E.
  assert (List.length data' = List.length data) as Hl.
  { destruct H as (v & a & Hv & Hf & (vs & Ha & Hvs)). destruct H' as (v' & a' & Hv' & Hf' & (vs' & Ha' & Hvs')).
    pose proof (json_unique _ _ _ Hv Hv'). subst v'. apply de_struct_iff in Hf. apply de_struct_iff in Hf'.
    rewrite Hf in Hf'. injection Hf' as <-. rewrite Ha in Ha'. injection Ha' as <-.
    rewrite (Forall2_length _ _ _ Hvs), (Forall2_length _ _ _ Hvs'). done. }
  pose proof (proj2 (read_arr_iff (List.length data) t data') (conj H' Hl)) as E'. congruence.
Qed.
Lemma arr_roundtrip data : Forall (fun b => b <= 255) data ->
  read_arr (List.length data) (write_arr (List.length data) data) = Done data.
Proof. intros H. apply read_arr_iff. split; [by apply write_arr_describes|done]. Qed.
Lemma arr_other_size data n : Forall (fun b => b <= 255) data -> n <> List.length data ->
  read_arr n (write_arr (List.length data) data) = Nope.
Proof.
  intros H Hn. destruct (read_arr_total n (write_arr (List.length data) data)) as [[data' E]|E]; [|done].
  apply read_arr_iff in E as [E Hl]. pose proof (describes_unique _ _ _ E (write_arr_describes _ H)). subst data'.
  by rewrite Hl in Hn.
Qed.

(** ** Samples *)
Lemma spaced_sample : read_arr 5 spaced_text = Done some_bytes /\
  write_arr 5 some_bytes = lit "{""arr"":[0,7,42,100,255]}" /\
  read_arr 2 (lit "{""arr"":[1,256]}") = Nope /\ read_arr 2 (lit "{""arr"":[1,2.0]}") = Nope.
Proof. vm_compute. done. Qed.
Lemma some_bytes_fit : Forall (fun b => b <= 255) some_bytes /\ List.length some_bytes = 5%nat /\
  describes_array spaced_text some_bytes.
Proof.
  split; [|split; [done|]].
  - unfold some_bytes. repeat constructor; lia.
  - exact (proj1 (proj1 (read_arr_iff 5 _ _) (proj1 spaced_sample))).
Qed.
