(** C74: what a stored list of ids reads back as when the differences add up to more than a
    machine word holds. *)
From Verif.model Require Import Base F32 Utf8 Prim Coll.
From Verif.spec Require Import Spec Data_spec Gram_spec Seq_spec.
From Verif.proofs Require Import Base_facts Prim_codec Data_more Indexer_facts.

Lemma sums_snoc ds d : prefix_sums (ds ++ [d]) = prefix_sums ds ++ [sum_N ds + d].
Proof.
  unfold prefix_sums. rewrite app_length. simpl. rewrite seq_app, map_app. simpl. f_equal.
  - apply map_ext_in. intros k Hk. apply in_seq in Hk. rewrite take_app_le by lia. done.
  - rewrite take_ge by (rewrite app_length; simpl; lia). f_equal. rewrite sum_N_app. simpl. lia.
Qed.

Definition prev_of (M : N) (ds : list N) : option N :=
  match ds with [] => None | _ => Some (sum_N ds mod M) end.
Definition seq_step (P : platform) : list N * list N * option N -> res (list N * list N * option N) :=
  fun '(input, output, previous) =>
    '(new_input, parsed) ← dec_usize P input;
    item ← match previous with
           | Some p => add_bits P (usize_bits P) parsed p
           | None => Done parsed
           end;
    Done (new_input, output ++ [item], Some item).
Definition vec_step (P : platform) : list N * list N -> res (list N * list N) :=
  fun '(input, out) => '(new_input, item) ← dec_usize P input; Done (new_input, out ++ [item]).
Definition wrapped (M : N) (ds : list N) : list N := map (fun s => s mod M) (prefix_sums ds).

Lemma wrapped_snoc M ds d : wrapped M (ds ++ [d]) = wrapped M ds ++ [(sum_N ds + d) mod M].
Proof. unfold wrapped. by rewrite sums_snoc, map_app. Qed.
Lemma prev_snoc M ds d : prev_of M (ds ++ [d]) = Some ((sum_N ds + d) mod M).
Proof.
  assert (sum_N (ds ++ [d]) = sum_N ds + d) as E by (rewrite sum_N_app; simpl; lia).
  rewrite <- E. by destruct ds.
Qed.
Lemma usize_lt P i r v : dec_usize P i = Done (r, v) -> v < 2 ^ usize_bits P.
Proof.
  intros [_ H]%dec_usize_inv. unfold usize_max in H. pose proof (N.pow_nonzero 2 (usize_bits P)). lia.
Qed.

Lemma seq_step_spec P inp ds : overflow_checks P = false ->
  seq_step P (inp, wrapped (2 ^ usize_bits P) ds, prev_of (2 ^ usize_bits P) ds) =
  '(inp', ds') ← vec_step P (inp, ds);
  Done (inp', wrapped (2 ^ usize_bits P) ds', prev_of (2 ^ usize_bits P) ds').
Proof.
  intros HP. unfold seq_step, vec_step. destruct (dec_usize P inp) as [[r v]| | |] eqn:E; [|done..].
  cbn [mbind res_bind]. apply usize_lt in E. set (M := 2 ^ usize_bits P) in *.
  rewrite wrapped_snoc, prev_snoc.
  assert (M0 : M <> 0) by (subst M; by apply N.pow_nonzero).
  destruct ds as [|d ds].
  - cbn [prev_of mbind res_bind]. change (sum_N []) with 0. by rewrite N.add_0_l, N.mod_small.
  - cbn [prev_of]. unfold add_bits. rewrite HP. fold M.
    assert ((sum_N (d :: ds) + v) mod M = (v + sum_N (d :: ds) mod M) mod M) as ->.
    { rewrite N.add_comm. rewrite N.add_mod_idemp_r; done. }
    destruct (N.ltb_spec (v + sum_N (d :: ds) mod M) M); [|done].
    cbn [mbind res_bind]. rewrite (N.mod_small (v + _)); done.
Qed.
Lemma seq_loop P k inp ds : overflow_checks P = false ->
  rep_nat k (seq_step P) (inp, wrapped (2 ^ usize_bits P) ds, prev_of (2 ^ usize_bits P) ds) =
  '(inp', ds') ← rep_nat k (vec_step P) (inp, ds);
  Done (inp', wrapped (2 ^ usize_bits P) ds', prev_of (2 ^ usize_bits P) ds').
Proof.
  intros HP. revert inp ds. induction k as [|k IH]; intros inp ds; [done|].
  cbn [rep_nat]. rewrite (seq_step_spec P inp ds HP).
  destruct (vec_step P (inp, ds)) as [[i' d']| | |]; [|done..]. cbn [mbind res_bind]. apply IH.
Qed.
Lemma seq_wraps P bs : overflow_checks P = false ->
  dec_seq P bs = '(rest, ds) ← dec_vec P KIds (dec_usize P) bs;
                 Done (rest, map (fun s => s mod 2 ^ usize_bits P) (prefix_sums ds)).
Proof.
  intros HP. unfold dec_seq, dec_vec. destruct (dec_usize P bs) as [[i len]| | |]; [|done..].
  cbn [mbind res_bind]. destruct (with_capacity P KIds len); [|done..]. cbn [mbind res_bind].
  rewrite !rep_N_nat. pose proof (seq_loop P (N.to_nat len) i [] HP) as L.
  change (wrapped (2 ^ usize_bits P) []) with (@nil N) in L. change (prev_of (2 ^ usize_bits P) []) with (@None N) in L.
  unfold seq_step, vec_step in L. rewrite L.
  match goal with |- context[rep_nat ?n ?f ?s] => destruct (rep_nat n f s) as [[i' d']| | |] end; done.
Qed.

(** ** With overflow checks *)
Lemma seq_step_checked P inp ds : overflow_checks P = true -> sum_N ds < 2 ^ usize_bits P ->
  seq_step P (inp, prefix_sums ds, prev_of (2 ^ usize_bits P) ds) =
  '(inp', ds') ← vec_step P (inp, ds);
  if sum_N ds' <? 2 ^ usize_bits P then Done (inp', prefix_sums ds', prev_of (2 ^ usize_bits P) ds') else Panic.
Proof.
  intros HP Hs. unfold seq_step, vec_step. destruct (dec_usize P inp) as [[r v]| | |] eqn:E; [|done..].
  cbn [mbind res_bind]. apply usize_lt in E. set (M := 2 ^ usize_bits P) in *.
  rewrite sums_snoc, prev_snoc, sum_N_app. change (sum_N [v]) with (v + 0). rewrite N.add_0_r.
  destruct ds as [|d ds].
  - cbn [prev_of mbind res_bind]. change (sum_N []) with 0. rewrite N.add_0_l.
    rewrite (proj2 (N.ltb_lt _ _)) by done. by rewrite N.mod_small.
  - cbn [prev_of]. unfold add_bits. rewrite HP. fold M. rewrite (N.mod_small (sum_N (d :: ds)) M) by done.
    rewrite (N.add_comm (sum_N (d :: ds)) v).
    destruct (N.ltb_spec (v + sum_N (d :: ds)) M); [|done]. cbn [mbind res_bind]. by rewrite N.mod_small.
Qed.
Lemma vec_loop_sum P k inp ds i' ds' : rep_nat k (vec_step P) (inp, ds) = Done (i', ds') -> sum_N ds <= sum_N ds'.
Proof.
  revert inp ds. induction k as [|k IH]; intros inp ds; cbn [rep_nat].
  { by intros [= -> ->]. }
  cbv beta iota delta [vec_step]. fold (vec_step P).
  destruct (dec_usize P inp) as [[r v]| | |]; cbn [mbind res_bind]; [|discriminate..].
  intros H%IH. rewrite sum_N_app in H. lia.
Qed.
Lemma seq_loop_checked P k inp ds i' ds' : overflow_checks P = true -> sum_N ds < 2 ^ usize_bits P ->
  rep_nat k (vec_step P) (inp, ds) = Done (i', ds') ->
  rep_nat k (seq_step P) (inp, prefix_sums ds, prev_of (2 ^ usize_bits P) ds) =
  if sum_N ds' <? 2 ^ usize_bits P then Done (i', prefix_sums ds', prev_of (2 ^ usize_bits P) ds') else Panic.
Proof.
  intros HP. revert inp ds. induction k as [|k IH]; intros inp ds Hs.
  { cbn [rep_nat]. intros [= -> ->]. by rewrite (proj2 (N.ltb_lt _ _)). }
  cbn [rep_nat]. rewrite (seq_step_checked P inp ds HP Hs).
  destruct (vec_step P (inp, ds)) as [[i2 d2]| | |] eqn:V; [|done..]. cbn [mbind res_bind]. intros H.
  destruct (N.ltb_spec (sum_N d2) (2 ^ usize_bits P)) as [L|L]; [by apply IH|].
  apply vec_loop_sum in H. by rewrite (proj2 (N.ltb_ge _ _)) by lia.
Qed.
Lemma seq_checked P bs rest ds : overflow_checks P = true ->
  dec_vec P KIds (dec_usize P) bs = Done (rest, ds) ->
  dec_seq P bs = if sum_N ds <? 2 ^ usize_bits P then Done (rest, prefix_sums ds) else Panic.
Proof.
  intros HP. unfold dec_seq, dec_vec. destruct (dec_usize P bs) as [[i len]| | |]; [|done..].
  cbn [mbind res_bind]. destruct (with_capacity P KIds len); [|done..]. cbn [mbind res_bind].
  rewrite !rep_N_nat. intros H.
  assert (Z : sum_N [] < 2 ^ usize_bits P).
  { change (sum_N []) with 0. pose proof (N.pow_nonzero 2 (usize_bits P)). lia. }
  pose proof (seq_loop_checked P (N.to_nat len) i [] rest ds HP Z H) as L.
  change (prefix_sums []) with (@nil N) in L. change (prev_of (2 ^ usize_bits P) []) with (@None N) in L.
  unfold seq_step in L. rewrite L. destruct (_ <? _); done.
Qed.

(** ** When the list ascends *)
Lemma vec_numbers P k inp ds i' ds' : rep_nat k (vec_step P) (inp, ds) = Done (i', ds') ->
  Forall (fun d => d < 2 ^ usize_bits P) ds -> Forall (fun d => d < 2 ^ usize_bits P) ds'.
Proof.
  revert inp ds. induction k as [|k IH]; intros inp ds; cbn [rep_nat].
  { by intros [= -> ->]. }
  cbv beta iota delta [vec_step]. fold (vec_step P).
  destruct (dec_usize P inp) as [[r v]| | |] eqn:E; cbn [mbind res_bind]; [|discriminate..].
  intros H F. apply (IH _ _ H). apply Forall_app. split; [done|]. constructor; [|constructor]. by eapply usize_lt.
Qed.
Lemma dec_vec_numbers P bs rest ds : dec_vec P KIds (dec_usize P) bs = Done (rest, ds) ->
  Forall (fun d => d < 2 ^ usize_bits P) ds.
Proof.
  unfold dec_vec. destruct (dec_usize P bs) as [[i len]| | |]; [|done..].
  cbn [mbind res_bind]. destruct (with_capacity P KIds len); [|done..]. cbn [mbind res_bind].
  rewrite rep_N_nat. intros H. eapply vec_numbers; [exact H|constructor].
Qed.
Lemma ascending_app_inv l x : ascending (l ++ [x]) -> ascending l /\ Forall (fun y => y <= x) l.
Proof.
  induction l as [|y l IH]; simpl; [done|]. intros [H1 H2]. apply IH in H2 as [H2 H3].
  apply Forall_app in H1 as [H1 H4]. inversion H4; subst. split; [done|]. by constructor.
Qed.
Lemma sums_le ds : Forall (fun s => s <= sum_N ds) (prefix_sums ds).
Proof.
  induction ds as [|d ds IH] using rev_ind; [constructor|]. rewrite sums_snoc, sum_N_app.
  change (sum_N [d]) with (d + 0). apply Forall_app. split; [|constructor; [lia|constructor]].
  eapply Forall_impl; [exact IH|]. simpl. intros; lia.
Qed.
Lemma sums_ascend ds : ascending (prefix_sums ds).
Proof.
  induction ds as [|d ds IH] using rev_ind; [done|]. rewrite sums_snoc. apply ascending_snoc; [done|].
  eapply Forall_impl; [apply sums_le|]. simpl. intros; lia.
Qed.
Lemma wrapped_small M ds : sum_N ds < M -> wrapped M ds = prefix_sums ds.
Proof.
  intros H. unfold wrapped. rewrite <- (map_id (prefix_sums ds)) at 2. apply map_ext_in. intros s Hs.
  apply elem_of_list_In in Hs. pose proof (proj1 (Forall_forall _ _) (sums_le ds) s Hs). apply N.mod_small. simpl in *. lia.
Qed.
Lemma wrapped_ascends M ds : M <> 0 -> Forall (fun d => d < M) ds -> ascending (wrapped M ds) <-> sum_N ds < M.
Proof.
  intros M0 F. split.
  2: { intros H. rewrite wrapped_small by done. apply sums_ascend. }
  induction ds as [|d ds IH] using rev_ind; [intros _; change (sum_N []) with 0; lia|].
  apply Forall_app in F as [F1 F2]. inversion F2 as [|? ? Fd _]; subst.
  rewrite wrapped_snoc. intros [A B]%ascending_app_inv. specialize (IH F1 A).
  rewrite sum_N_app. change (sum_N [d]) with (d + 0). rewrite N.add_0_r.
  destruct (N.ltb_spec (sum_N ds + d) M) as [?|G]; [done|]. exfalso.
  destruct ds as [|d0 ds'] using rev_ind; [change (sum_N []) with 0 in *; lia|]. clear IHds'.
  rewrite wrapped_snoc in B. apply Forall_app in B as [_ B]. inversion B as [|? ? B1 _]; subst.
  assert (sum_N (ds' ++ [d0]) = sum_N ds' + d0) as E by (rewrite sum_N_app; simpl; lia).
  rewrite <- E, (N.mod_small (sum_N (ds' ++ [d0]))) in B1 by done.
  rewrite (N.mod_eq (_ + d)) in B1 by done.
  assert ((sum_N (ds' ++ [d0]) + d) / M = 1) as Q.
  { symmetry. apply (N.div_unique _ _ _ (sum_N (ds' ++ [d0]) + d - M)); lia. }
  rewrite Q in B1. lia.
Qed.
Lemma seq_exact P bs rest ids : overflow_checks P = false -> dec_seq P bs = Done (rest, ids) ->
  exists ds, dec_vec P KIds (dec_usize P) bs = Done (rest, ds) /\
    ids = map (fun s => s mod 2 ^ usize_bits P) (prefix_sums ds) /\
    (ascending ids <-> sum_N ds < 2 ^ usize_bits P).
Proof.
  intros HP H. rewrite (seq_wraps P bs HP) in H.
  destruct (dec_vec P KIds (dec_usize P) bs) as [[r ds]| | |] eqn:E; [|done..]. cbn [mbind res_bind] in H.
  injection H as -> <-. exists ds. split; [done|]. split; [done|].
  apply wrapped_ascends; [by apply N.pow_nonzero|]. by eapply dec_vec_numbers.
Qed.
Lemma seq_any P bs rest ds : dec_vec P KIds (dec_usize P) bs = Done (rest, ds) ->
  dec_seq P bs = if overflow_checks P
    then if sum_N ds <? 2 ^ usize_bits P then Done (rest, prefix_sums ds) else Panic
    else Done (rest, map (fun s => s mod 2 ^ usize_bits P) (prefix_sums ds)).
Proof.
  intros H. destruct (overflow_checks P) eqn:HP; [by apply seq_checked|]. by rewrite (seq_wraps P bs HP), H.
Qed.
