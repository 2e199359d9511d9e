(** What was loaded can be written again, and loads as it was. *)
From Verif.model Require Import Base F32 Utf8 Prim Coll Data Gram Nodes Classic Lib.
From Verif.spec Require Import Spec Data_spec.
From Verif.proofs Require Import Base_facts Prim_facts Prim_codec Coll_facts Data_facts Sort_facts Data_more File_facts Sample_facts.
From Coq Require Import Lia.

Lemma done_same {A} (x y : A) : Done x = Done y -> x = y.
Proof. by intros [= ->]. Qed.
Lemma pair_inj {A B} (a a' : A) (b b' : B) : (a, b) = (a', b') -> a = a' /\ b = b'.
Proof. by intros [= -> ->]. Qed.

(** ** Storing twice *)
Lemma stored_idem p : stored (stored p) = stored p.
Proof. unfold stored at 1. unfold stored at 6. f_equal. apply limit_idem. Qed.
Lemma stored_refs_idem l : stored_refs (stored_refs l) = stored_refs l.
Proof.
  unfold stored_refs at 1. rewrite sort_in_order.
  - unfold stored_refs. rewrite map_map. apply map_ext. intros p. apply stored_idem.
  - unfold in_order. apply stored_refs_in_order.
Qed.
Lemma stored_container_idem c : stored_container (stored_container c) = stored_container c.
Proof. unfold stored_container. cbn. f_equal. rewrite map_map. apply map_ext. intros p. apply stored_idem. Qed.
Lemma stored_gram_index_idem gi : stored_gram_index (stored_gram_index gi) = stored_gram_index gi.
Proof.
  unfold stored_gram_index. cbn [gi_roots gi_data gi_container]. rewrite stored_container_idem. f_equal.
  rewrite <- map_fmap_compose. apply map_fmap_ext. intros g l _. apply stored_refs_idem.
Qed.
Lemma stored_options_idem os : forall next, stored_options next (stored_options next os) = stored_options next os.
Proof. induction os as [|o os IH]; intros next; simpl; [done|]. by rewrite stored_refs_idem, IH. Qed.
Lemma stored_options_length os : forall next, length (stored_options next os) = length os.
Proof. induction os as [|o os IH]; intros next; simpl; [done|]. by rewrite IH. Qed.
Lemma stored_categories_idem cs : forall next, stored_categories next (stored_categories next cs) = stored_categories next cs.
Proof.
  induction cs as [|c cs IH]; intros next; simpl; [done|]. unfold lenN. rewrite stored_options_length, stored_options_idem, IH. done.
Qed.
Lemma stored_classic_idem cl : stored_classic (stored_classic cl) = stored_classic cl.
Proof.
  unfold stored_classic. cbn [cl_categories cl_tags cl_order]. rewrite stored_categories_idem. f_equal.
  rewrite map_map. apply map_ext. intros t. unfold stored_tag at 1. unfold stored_tag at 5. f_equal. apply stored_refs_idem.
Qed.

(** ** Storable again *)
Lemma refs_ok_stored P ps l : refs_ok P ps l -> refs_ok P (map stored ps) (stored_refs l).
Proof.
  intros (H1 & H2 & H3). assert (L : lenN (stored_refs l) = lenN l).
  { unfold lenN. by rewrite (stored_refs_perm l), map_length. }
  unfold refs_ok. rewrite L. split; [|done]. rewrite stored_refs_perm. apply Forall_fmap.
  eapply Forall_impl; [exact H1|]. intros p Hp. simpl. by apply elem_of_list_fmap_1.
Qed.
Lemma sids_stored l : sids (stored_refs l) = sids l.
Proof.
  rewrite <- (stored_refs_ids l). unfold sids, stored_refs. by rewrite map_map.
Qed.
Lemma gram_index_ok_stored P n gi : gram_index_ok P n gi -> gram_index_ok P n (stored_gram_index gi).
Proof.
  intros ((H1 & H2 & H3 & H4 & H5 & H6) & H7 & H8 & H9 & H10 & H11). split; [|split; [|split; [|split; [|split]]]].
  - unfold container_ok. cbn. unfold lenN. rewrite map_length. split; [done|]. split; [done|]. split; [done|]. split; [|split; [|done]].
    + intros i p Hi. rewrite <- (list_lookup_fmap stored) in Hi || idtac. apply list_lookup_fmap_inv in Hi as (q & -> & Hq). simpl. by apply H4.
    + apply Forall_fmap. eapply Forall_impl; [exact H5|]. intros p (Q1 & Q2 & Q3 & Q4 & Q5). repeat split; try done; try apply Q2; try apply Q3; try apply Q5.
      by apply limit_valid.
  - done.
  - done.
  - cbn. by rewrite map_size_fmap.
  - done.
  - intros g l Hg. cbn in Hg. rewrite lookup_fmap in Hg. apply fmap_Some in Hg as (l0 & Hl0 & ->).
    destruct (H11 _ _ Hl0) as (Q1 & Q2 & Q3). split; [done|]. split; [done|]. by apply refs_ok_stored.
Qed.
Lemma stored_options_ok P ps os : Forall (option_ok P ps) os -> forall next, Forall (option_ok P (map stored ps)) (stored_options next os).
Proof.
  induction 1 as [|o os (Q1 & Q2 & Q3) _ IH]; intros next; simpl; constructor; [|apply IH].
  split; [done|]. split; [by apply refs_ok_stored|]. etransitivity; [exact Q3|]. symmetry. apply sids_stored.
Qed.
Lemma stored_categories_ok P ps cs : Forall (category_ok P ps) cs -> forall next, Forall (category_ok P (map stored ps)) (stored_categories next cs).
Proof.
  induction 1 as [|c cs (Q1 & Q2 & Q3) _ IH]; intros next; simpl; constructor; [|apply IH].
  split; [done|]. cbn. unfold lenN in *. rewrite stored_options_length. split; [done|]. by apply stored_options_ok.
Qed.
Lemma stored_categories_length cs : forall next, length (stored_categories next cs) = length cs.
Proof. induction cs as [|c cs IH]; intros next; simpl; [done|]. by rewrite IH. Qed.
Lemma classic_ok_stored P ps cl : classic_ok P ps cl -> classic_ok P (map stored ps) (stored_classic cl).
Proof.
  intros (H1 & H2 & H3 & H4 & H5 & H6). unfold classic_ok, stored_classic. cbn [cl_categories cl_tags cl_order]. unfold lenN in *.
  rewrite stored_categories_length, map_length. split; [done|]. split; [by apply stored_categories_ok|]. split; [done|].
  split; [|split; [|done]].
  - apply Forall_fmap. eapply Forall_impl; [exact H4|]. intros t (Q1 & Q2 & Q3). split; [done|]. split; [by apply refs_ok_stored|].
    etransitivity; [exact Q3|]. symmetry. apply sids_stored.
  - intros i t Hi. apply list_lookup_fmap_inv in Hi as (t0 & -> & Ht0). cbn. by apply H5.
Qed.

(** A loaded file can be written again, in any order, and loads as before. *)
Lemma written_again P Q n o o' gi cl rest gi' cl' rest' : valid_ser_order o -> valid_ser_order o' ->
  gram_index_ok P n gi -> classic_ok P (c_products (gi_container gi)) cl ->
  gram_index_ok Q n gi -> classic_ok Q (c_products (gi_container gi)) cl ->
  deserialize_all P n (serialize_all o gi cl ++ rest) = Done (gi', cl') ->
  deserialize_all Q n (serialize_all o' gi' cl' ++ rest') = Done (gi', cl').
Proof.
  intros Ho Ho' Hg Hc Hg' Hc' E. rewrite (file_roundtrip P n o gi cl rest Ho Hg Hc) in E. injection E as <- <-.
  rewrite (file_roundtrip Q n o' (stored_gram_index gi) (stored_classic cl) rest' Ho').
  - by rewrite stored_gram_index_idem, stored_classic_idem.
  - by apply gram_index_ok_stored.
  - by apply classic_ok_stored.
Qed.

(** Files say where they end, and no two contents have the same file. *)
Lemma file_unique P n o o' gi gi' cl cl' rest rest' : valid_ser_order o -> valid_ser_order o' ->
  gram_index_ok P n gi -> classic_ok P (c_products (gi_container gi)) cl ->
  gram_index_ok P n gi' -> classic_ok P (c_products (gi_container gi')) cl' ->
  serialize_all o gi cl ++ rest = serialize_all o' gi' cl' ++ rest' ->
  rest = rest' /\ stored_gram_index gi = stored_gram_index gi' /\ stored_classic cl = stored_classic cl'.
Proof.
  intros Ho Ho' Hg Hc Hg' Hc' E. unfold serialize_all in E. rewrite <- !app_assoc in E.
  pose proof (rt_gram_index P n o gi Ho Hg (enc_classic o cl ++ rest)) as R.
  rewrite E, (rt_gram_index P n o' gi' Ho' Hg') in R. apply done_same in R. apply pair_inj in R as [R1 R2].
  destruct Hg as ((_ & _ & Hs & Hpos & _) & _). destruct Hg' as ((_ & _ & Hs' & Hpos' & _) & _).
  pose proof (rt_classic P o (gi_container gi) cl Ho Hpos Hs Hc rest) as Rc. rewrite <- R1 in Rc.
  assert (Ec : stored_container (gi_container gi) = stored_container (gi_container gi')).
  { apply (f_equal gi_container) in R2. by symmetry. }
  rewrite Ec, (rt_classic P o' (gi_container gi') cl' Ho' Hpos' Hs' Hc' rest') in Rc. apply done_same, pair_inj in Rc as [<- Rc]. done.
Qed.
