(** C134 in the library, and the concrete cases. *)
From Verif.model Require Import Base F32 Utf8 Prim Coll Data Gram Indexer Nodes Classic Lit Raw Js Lib.
From Verif.spec Require Import Spec Data_spec Gram_spec Classic_spec Raw_spec Js_spec Lib_spec End_spec Reorder_spec Choice_spec
  Slip_spec Samples Raw_samples Gram_samples Lib_samples Choice_samples Typing_samples Slip_samples.
From Verif.proofs Require Import Base_facts Search_props Choice_props Choice_end Choice_samples_facts Slip_facts.
From Coq Require Import Lia.

Lemma then_none_elem {A} (l : list A) i x : l !! i = Some x -> Some x ∈ then_none (length l) l.
Proof.
  intros H. unfold then_none. apply elem_of_list_fmap. exists i. split; [done|]. apply elem_of_seq.
  apply lookup_lt_Some in H. lia.
Qed.
Lemma slip_delivered low parse P Q bo ro so input :
  valid_build_order bo -> valid_ser_order so -> low_ok low -> parse_ok parse ->
  raw_fits Q low input -> total_grams (map (raw_text low) input) < 2 ^ 32 -> NoDup (map r_id input) ->
  lenN input <= usize_max P ->
  forall u ops1 bytes ops2, index_and_serialize low parse P bo ro so input = Done bytes ->
  let st := lib_run low u Q lib_init ops1 in
  loads Q st (InitOp bytes) -> no_loads low u Q (lib_step low u Q st (InitOp bytes)) ops2 ->
  forall o query categories tags order entries st' p raw w q,
  let st1 := lib_run low u Q lib_init (ops1 ++ InitOp bytes :: ops2) in
  valid_search_order o -> handlers_ok categories tags ->
  s_classic st1 = Some (ch_handle categories) -> s_classic st1 = Some (th_handle tags) ->
  search low u o st1 query categories tags order entries = (st', Done p) ->
  Forall (fun e => exists props, plain_object e.2 props) entries ->
  raw ∈ input -> suits categories tags raw -> let_pass parse entries raw ->
  occurs w (raw_text low raw) -> slip ngram_index_size w q -> occurs q (lower low query) ->
  (forall limit, cutoff_for (lenN input) limit ->
     unmistakable ngram_index_size (map (raw_text low) input) limit (raw_text low raw) q) ->
  exists n j, Some j ∈ calls pp_next n p /\ delivers parse raw j.
Proof.
  intros Hbo Hso Hlow Hparse Hfit Hlim ND HP u ops1 bytes ops2 E st L NL o query categories tags order entries st' p raw w q st1
    Ho Hok C1 C2 S Hplain Hin Hsuit Hlet Hw Hs Hq U.
  destruct (answered_with low parse P Q bo ro so input Hbo Hso Hlow Hparse Hfit Hlim ND HP u ops1 bytes ops2 E L NL
    o query categories tags order entries st' p Ho Hok C1 C2 S Hplain)
    as (limit & choice & answer & js & Hl & Hc & _ & [_ A] & _ & Calls & F2).
  destruct (slip_points ngram_index_size (map (raw_text low) input) limit choice (lower low query) (raw_text low raw) w q)
    as (c & rest & Ep); [unfold ngram_index_size; lia|done|done| |done|done|by apply U|].
  { apply elem_of_list_fmap. by exists raw. }
  assert (M : (raw, foldl f32_add c rest) ∈ answer).
  { apply A. split; [done|]. split; [done|]. by exists c, rest. }
  apply elem_of_list_lookup in M as [i Hi]. destruct (Forall2_lookup_l _ _ _ _ _ F2 Hi) as (j & Hj & D).
  exists (length js), j. split; [|done]. rewrite Calls. by eapply then_none_elem.
Qed.

Lemma unmistakable_sound n texts limit t q : unmistakable_b n texts limit t q = true -> unmistakable n texts limit t q.
Proof.
  unfold unmistakable_b. rewrite forallb_forall. intros H v g Hv Ho Hg.
  assert (Hp : In v (pieces n q)). { apply elem_of_list_In. rewrite <- Hv. by apply occurs_pieces. }
  specialize (H v Hp). rewrite bool_decide_eq_true_2 in H by done. cbn [negb orb] in H.
  rewrite forallb_forall in H. assert (Lg : length g = n) by (destruct Hg as [S _]; apply similar_length in S; lia).
  apply candidates_iff, elem_of_list_In in Hg. specialize (H g Hg).
  apply andb_true_iff in H as [H1 H2%bool_decide_eq_true]. split; [|done].
  apply existsb_exists in H1 as (g' & H1 & ->%bool_decide_eq_true). apply elem_of_list_In in H1.
  apply occurs_pieces. by rewrite Lg.
Qed.
Lemma five_cutoff limit : cutoff_for 5 limit -> limit = 4.
Proof. intros [H _]. exact (H ltac:(lia)). Qed.
Lemma three_cutoff limit : cutoff_for 3 limit -> limit = 2.
Proof. intros [H _]. exact (H ltac:(lia)). Qed.
Lemma letters_slips : Forall (fun '(w, q) => slip 5 w q /\ occurs w (lit_alphabet) /\
    forall limit, cutoff_for (lenN (c_products (plain_container letters))) limit ->
      unmistakable 5 (map snd letters) limit lit_alphabet q) slips.
Proof.
  unfold slips. repeat apply Forall_cons_2; [..|apply Forall_nil_2];
    (split; [|split; [|intros limit Hl; rewrite (five_cutoff limit Hl); apply unmistakable_sound; vm_compute; reflexivity]]).
  - apply (slip_wrong 5 [98; 99] 100 120 [101; 102; 103]). vm_compute. lia.
  - apply occurs_pieces. apply (bool_decide_unpack _). vm_compute. exact Logic.I.
  - apply (slip_left_out 5 [97; 98; 99] 100 [101; 102]). vm_compute. lia.
  - apply occurs_pieces. apply (bool_decide_unpack _). vm_compute. exact Logic.I.
  - apply (slip_too_many 5 [97; 98; 99; 100] 120 [101; 102; 103; 104]). vm_compute. lia.
  - apply occurs_pieces. apply (bool_decide_unpack _). vm_compute. exact Logic.I.
  - apply (slip_swapped 5 [97; 98] 99 100 [101; 102; 103; 104]). vm_compute. lia.
  - apply occurs_pieces. apply (bool_decide_unpack _). vm_compute. exact Logic.I.
Qed.
Lemma letters_found : exists gi, index_from wasm32 5 hash_order letters (plain_container letters) = Done gi /\
  map (found gi) (map snd slips) = [Done [0]; Done [0]; Done [0]; Done [0]] /\
  map (found gi) hopeless = [Done []; Done []; Done []; Done []].
Proof. eexists. split; [vm_compute; reflexivity|]. split; vm_compute; reflexivity. Qed.
Lemma legs_slip : slip ngram_index_size four_legs fuor_legs /\ occurs four_legs (raw_text ascii_low raw_table) /\
  (forall limit, cutoff_for (lenN sample_raw) limit ->
     unmistakable ngram_index_size (map (raw_text ascii_low) sample_raw) limit (raw_text ascii_low raw_table) fuor_legs) /\
  answer (after [InitOp sample_file]) fuor_legs no_cats no_tags None [] = Done [2].
Proof.
  split; [|split; [|split]].
  - apply (slip_swapped 5 [102] 111 117 [114; 32; 108; 101; 103; 115]). vm_compute. lia.
  - apply occurs_pieces. apply (bool_decide_unpack _). vm_compute. exact Logic.I.
  - intros limit Hl. rewrite (three_cutoff limit Hl). apply unmistakable_sound. vm_compute. reflexivity.
  - vm_compute. reflexivity.
Qed.
