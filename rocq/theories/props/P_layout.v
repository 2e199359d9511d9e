(** C143: what is written, byte for byte. *)
From Coq Require Import String.
From Verif.model Require Import Base F32 Utf8 Coll Data Gram Nodes Classic Lit Lib.
From Verif.spec Require Import Spec Data_spec Samples Layout_spec.
From Verif.proofs Require Import Sample_facts Layout_facts Layout_bytes.
Local Open Scope N_scope.
Local Open Scope list_scope.

(** The files that may be written for an index are those with its layout, and no others. *)
Theorem C143_layout : forall gi cl bs,
  file_written gi cl bs <-> exists o, valid_ser_order o /\ serialize_all o gi cl = bs.
Proof. exact file_layout. Qed.
Print Assumptions C143_layout.
(** They consist of bytes. *)
Theorem C143_bytes : forall P n o gi cl, valid_ser_order o -> gram_index_ok P n gi ->
  classic_ok P (c_products (gi_container gi)) cl -> Forall is_byte (serialize_all o gi cl).
Proof. exact bytes_file. Qed.
Print Assumptions C143_bytes.
Example C143_parts : numeral 300 [172; 2] /\ ~ numeral 300 [172; 130; 0] /\ float_bytes half_f32 [63; 0; 0; 0] /\
  ids_written [300; 3; 5; 3] [4; 3; 0; 2; 167; 2] /\
  category_written (Category (lit "Size"%string) [sample_option (lit "L"%string) 0 [sample_p2; sample_p0]] true)
    [1; 4; 83; 105; 122; 101; 1; 1; 76; 2; 0; 2].
Proof.
  split; [apply numeral_enc; reflexivity|]. split; [intros H; apply numeral_enc in H; discriminate|].
  split; [apply float_enc; reflexivity|]. split; [apply ids_enc; reflexivity|apply category_enc; reflexivity].
Qed.
Example C143_hyps : valid_ser_order sample_order /\ gram_index_ok wasm32 2 sample_index /\
  classic_ok wasm32 (c_products (gi_container sample_index)) sample_classic /\
  file_written sample_index sample_classic (serialize_all sample_order sample_index sample_classic) /\
  ~ file_written sample_index sample_classic (0 :: serialize_all sample_order sample_index sample_classic).
Proof.
  split; [exact sample_order_valid|]. split; [exact sample_index_ok|]. split; [exact sample_classic_ok|].
  split; [apply file_layout; exists sample_order; split; [exact sample_order_valid|reflexivity]|exact not_shifted].
Qed.
