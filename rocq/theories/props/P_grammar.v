(** C121: what the loader does with any bytes. *)
From Verif.model Require Import Base F32 Utf8 Prim Coll Data Gram Nodes Classic Lib.
From Verif.spec Require Import Spec Grammar_spec.
From Verif.proofs Require Import Grammar_facts.

(** Numbers, from any bytes. *)
Theorem C121_number : forall bs rest v, Forall is_byte bs -> dec_u64 bs = Done (rest, v) <-> number bs rest v.
Proof. exact (fun bs rest v Hb => iff_sym (number_iff bs rest v Hb)). Qed.
Print Assumptions C121_number.
Example C121_numbers : number [172; 2; 7] [7] 300 /\ number [172] [] 44 /\
  number [255; 255; 255; 255; 255; 255; 255; 255; 5; 1; 9] [9] (6 * 2 ^ 56 - 1 + 2 ^ 63).
Proof.
  split; [|split]; (apply dec_number; [repeat constructor|vm_compute; reflexivity]).
Qed.

(** The grammar says which files are read, which are rejected, and which make the loader panic. *)
Theorem C121_fate : forall P n bs, Forall is_byte bs ->
  ((exists index, deserialize_all P n bs = Done index) <-> exists rest v, fares P (file_form P n) bs (Reads rest v)) /\
  (deserialize_all P n bs = Nope <-> fares P (file_form P n) bs Rejected) /\
  (deserialize_all P n bs = Panic <-> exists rest why, fares P (file_form P n) bs (Falls rest why)).
Proof. exact file_fate. Qed.
Print Assumptions C121_fate.
(** It says one thing about every file. *)
Theorem C121_one_fate : forall P n bs, Forall is_byte bs -> exists r, fares P (file_form P n) bs r /\
  forall r', fares P (file_form P n) bs r' -> r' = r.
Proof. exact file_has_fate. Qed.
Print Assumptions C121_one_fate.
(** So there are four reasons for a panic, and the reason given is in the file. *)
Theorem C121_causes : forall P n bs, Forall is_byte bs -> deserialize_all P n bs = Panic ->
  exists rest why, fares P (file_form P n) bs (Falls rest why) /\ suffix_of rest bs /\
  match why with
  | Beyond_end len => lenN rest < len
  | No_room k count => cap_max P k < count
  | Wrong_size count => count <> N.of_nat n
  | Overflows a b => overflow_checks P = true /\ 2 ^ usize_bits P <= a + b
  end.
Proof. exact load_causes. Qed.
Print Assumptions C121_causes.
(** One vendor whose name of five bytes has one byte; eight empty lists; nothing. *)
Example C121_files : fares host64 (file_form host64 3) [1; 5; 65] (Falls [65] (Beyond_end 5)) /\
  deserialize_all host64 3 [1; 5; 65] = Panic /\
  (exists index, deserialize_all host64 3 [0; 0; 0; 0; 0; 0; 0; 0] = Done index) /\
  deserialize_all host64 3 [] = Nope.
Proof.
  split; [exact short_text_falls|]. split; [vm_compute; reflexivity|]. split; [|vm_compute; reflexivity].
  eexists. vm_compute. reflexivity.
Qed.
