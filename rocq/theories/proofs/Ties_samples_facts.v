(** Texts with and without ties. *)
From Verif.model Require Import Base F32 Utf8 Prim Coll Data Gram Indexer Lit.
From Verif.spec Require Import Spec Data_spec Gram_spec Samples Gram_samples.
From Coq Require Import Lia.

Definition infixes (t : list N) : list (list N) :=
  concat (map (fun i => map (fun k => take k (drop i t)) (seq 0 (S (length t)))) (seq 0 (S (length t)))).
Lemma occurs_infixes w t : occurs w t -> w ∈ infixes t.
Proof.
  intros (u & v & ->). unfold infixes. apply elem_of_list_In, in_concat.
  exists (map (fun k => take k (drop (length u) (u ++ w ++ v))) (seq 0 (S (length (u ++ w ++ v))))). split.
  - apply in_map_iff. exists (length u). split; [done|]. apply in_seq. rewrite app_length. lia.
  - apply in_map_iff. exists (length w). split; [by rewrite drop_app, take_app|]. apply in_seq. rewrite !app_length. lia.
Qed.
Definition all_infixes (texts : list (list N)) : list (list N) := concat (map infixes texts).
Lemma in_all_infixes w t texts : t ∈ texts -> occurs w t -> w ∈ all_infixes texts.
Proof.
  intros Ht Hw. unfold all_infixes. apply elem_of_list_In, in_concat. exists (infixes t).
  split; [by apply in_map, elem_of_list_In|]. by apply elem_of_list_In, occurs_infixes.
Qed.
Definition tie_pair (texts : list (list N)) (a b : list N) : bool :=
  bool_decide (removelast a = removelast b) && negb (bool_decide (a = b)) && negb (bool_decide (removelast a = [])) &&
  match f32_cmp (share texts (removelast a) (List.last a 0)) (share texts (removelast a) (List.last b 0)) with
  | Some Eq => true | _ => false end.
Lemma tied_pair n texts : tied n texts -> existsb (fun a => existsb (tie_pair texts a) (all_infixes texts)) (all_infixes texts) = true.
Proof.
  intros (w & x & y & t1 & t2 & Hne & _ & Hxy & H1 & O1 & H2 & O2 & E). apply existsb_exists. exists (w ++ [x]).
  split; [apply elem_of_list_In; exact (in_all_infixes _ _ _ H1 O1)|]. apply existsb_exists. exists (w ++ [y]).
  split; [apply elem_of_list_In; exact (in_all_infixes _ _ _ H2 O2)|]. unfold tie_pair. rewrite !removelast_last, !last_last.
  rewrite bool_decide_eq_true_2 by done. rewrite bool_decide_eq_false_2 by (intros Ew; by apply app_inj_tail in Ew as [_ ?]).
  rewrite bool_decide_eq_false_2 by done. by rewrite E.
Qed.
Lemma no_tied n texts :
  existsb (fun a => existsb (tie_pair texts a) (all_infixes texts)) (all_infixes texts) = false -> ~ tied n texts.
Proof. intros E H%tied_pair. congruence. Qed.
Lemma tied_samples : tied 5 (map snd twins) /\ ~ tied 5 (map snd lookalikes) /\
  total_grams (map snd twins) < 2 ^ 32 /\ total_grams (map snd lookalikes) < 2 ^ 32.
Proof.
  split; [|split; [|by vm_compute]].
  - exists [97; 98; 99; 100], 101, 102, [97; 98; 99; 100; 101], [97; 98; 99; 100; 102].
    split; [done|]. split; [simpl; lia|]. split; [done|]. split; [left|].
    split; [by exists [], []|]. split; [right; left|]. split; [by exists [], []|]. vm_compute. reflexivity.
  - apply no_tied. vm_compute. reflexivity.
Qed.
