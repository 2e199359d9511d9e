(** C126: strings between JavaScript and Rust. *)
From Verif.model Require Import Base F32 Utf8 Prim Coll Data Gram Nodes Classic Lib Border Lit.
From Verif.spec Require Import Spec Border_spec Shown_spec Lib_spec Lib_samples.
From Verif.proofs Require Import Border_facts Shown_facts Lib_samples_facts.

(** C126. The bytes that arrive for a JavaScript string are UTF-8, whatever the string is. *)
Theorem C126_arrives : forall u, units u -> exists s, valid_str s /\ pass_string u = utf8 s /\ utf8_decode (pass_string u) = Some s.
Proof.
  exact (fun u U => ex_intro _ (scalar_points u) (conj (proj2 (passed_in u U)) (conj (pass_string_bytes u) (proj1 (passed_in u U))))).
Qed.
Print Assumptions C126_arrives.
(** A JavaScript string comes back with U+FFFD for every lone surrogate and is otherwise the same; so
    exactly the strings without any come back. *)
Theorem C126_there_and_back : forall u, units u -> exists v, get_string (pass_string u) = Some v /\ mended u v.
Proof. exact in_out. Qed.
Print Assumptions C126_there_and_back.
Theorem C126_same : forall u, units u -> get_string (pass_string u) = Some u <-> well_formed u.
Proof. exact in_out_same. Qed.
Print Assumptions C126_same.
(** The string for Rust chars spells them, and when it is passed back the same chars arrive. *)
Theorem C126_back_and_there : forall s, valid_str s ->
  exists u, get_string (utf8 s) = Some u /\ spells u s /\ pass_string u = utf8 s.
Proof. exact out_in. Qed.
Print Assumptions C126_back_and_there.
(** JavaScript tells them apart as Rust does. *)
Theorem C126_equal : forall s t, valid_str s -> valid_str t -> get_string (utf8 s) = get_string (utf8 t) <-> s = t.
Proof. exact same_units. Qed.
Print Assumptions C126_equal.
(** An A, a lone surrogate and a face; spelling the face. *)
Example C126_hyps : units [65; 55357; 55357; 56832] /\ lone_at [65; 55357; 55357; 56832] 1 /\ valid_str [65; 128512] /\
  get_string (pass_string [65; 55357; 55357; 56832]) = Some [65; 65533; 55357; 56832] /\
  pass_string [65; 55357; 56832] = [65; 240; 159; 152; 128] /\ spells [65; 55357; 56832] [65; 128512].
Proof.
  split; [repeat constructor|]. split.
  { left. split; [exists 55357; split; [reflexivity|split; [discriminate|reflexivity]]|]. intros (x & [= <-] & [H _]). apply H. reflexivity. }
  split; [repeat constructor|]. split; [vm_compute; reflexivity|]. split; [vm_compute; reflexivity|].
  constructor; [reflexivity..|]. apply (spells_pair 55357 56832 [] []); [split; [discriminate|reflexivity]..|]. constructor.
Qed.

(** All that a loaded file has to show, from any bytes, arrives in JavaScript and may be passed back. *)
Theorem C126_shown : forall P n bs gi cl s, deserialize_all P n bs = Done (gi, cl) -> shown gi cl s ->
  exists u, get_string (utf8 s) = Some u /\ spells u s /\ pass_string u = utf8 s.
Proof. exact shown_passes. Qed.
Print Assumptions C126_shown.
Example C126_shows : exists gi cl, deserialize_all Spec.host64 ngram_index_size sample_file = Done (gi, cl) /\ shown gi cl s_price_up.
Proof.
  exact (match Lib_samples_facts.sample_loads with
         | ex_intro _ gi (ex_intro _ cl (conj E (conj _ (conj Ho _)))) =>
           ex_intro _ gi (ex_intro _ cl (conj E (shown_order gi cl s_price_up _ Ho)))
         end).
Qed.
