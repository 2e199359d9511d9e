(** Examples for C104. *)
From Verif.model Require Import Base F32 Utf8 Prim Coll Data Gram Indexer Nodes Classic Lit Raw Js Lib.
From Verif.spec Require Import Spec Data_spec Gram_spec Raw_spec Outcome_spec Samples Raw_samples Lib_samples Outcome_samples.
From Verif.proofs Require Import Base_facts.
From Coq Require Import Lia ZifyN.

Lemma endless_length : lenN endless_text = 2 ^ 32.
Proof. unfold lenN, endless_text. rewrite replicate_length. apply N2Nat.id. Qed.
Lemma ascii_low_length l : lenN (concat (map ascii_low l)) = lenN l.
Proof. unfold lenN. f_equal. induction l as [|c l IH]; [done|]. simpl. by rewrite IH. Qed.
Local Opaque endless_text.
Lemma endless_overflows : overflows checked32 [endless_text] /\ ~ overflows host64 [endless_text].
Proof.
  split; [|by intros [? _]]. split; [done|]. unfold total_grams. cbn [map sum_N foldr]. rewrite endless_length. unfold sum_N. cbn [foldr]. lia.
Qed.
Lemma titled_length t price : lenN (raw_text ascii_low (RawProduct [] [] t [] [] [] price [])) = lenN t.
Proof. unfold raw_text. cbn [r_description r_title r_vendor app]. by rewrite app_nil_r, ascii_low_length. Qed.
Lemma long_overflows P low raw : overflow_checks P = true -> lenN (raw_text low raw) = 2 ^ 32 -> overflows P (map (raw_text low) [raw]).
Proof. intros HP H. split; [done|]. unfold total_grams, sum_N. cbn [map foldr]. rewrite H. lia. Qed.
Lemma endless_raw_overflows : prices_parse sample_parse [endless_raw] /\
  overflows checked32 (map (raw_text ascii_low) [endless_raw]).
Proof.
  split.
  - constructor; [|constructor]. change (exists x, sample_parse str_two = Some x). eexists. vm_compute. reflexivity.
  - exact (long_overflows checked32 ascii_low endless_raw eq_refl (eq_trans (titled_length endless_text str_two) endless_length)).
Qed.
Lemma sample_raw_fits : prices_parse sample_parse sample_raw /\ ~ overflows checked32 (map (raw_text ascii_low) sample_raw) /\
  ~ overflows host64 (map (raw_text ascii_low) sample_raw).
Proof.
  split; [|split].
  - repeat constructor; eexists; vm_compute; reflexivity.
  - intros [_ H]. vm_compute in H. by apply H.
  - by intros [H _].
Qed.
