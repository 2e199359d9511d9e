(** Runs of the indexer and what they leave behind. *)
From Verif.model Require Import Base F32 Utf8 Prim Coll Data Gram Indexer Nodes Classic Lit Raw Js Lib Json Disk.
From Verif.spec Require Import Spec Data_spec Gram_spec Classic_spec Raw_spec Js_spec Lib_spec End_spec Json_spec Outcome_spec Disk_spec.
From Verif.proofs Require Import Codec_lemmas Json_props Outcome_props Trunc_props.

Section facts.
  Context (low : N -> list N) (parse : rstr -> option f32).
  Notation run := (run low parse).
  Notation main := (main low parse).
  Notation history := (history low parse).
  Notation produced := (produced low parse).

  Lemma main_shape P mo bo ro so file : valid_order mo ->
    main P mo bo ro so file = Nope \/
    exists t entries l, file = utf8 t /\ valid_str t /\ is_catalogue verbatim entries t /\ survivors entries l /\
      main P mo bo ro so file = index_and_serialize low parse P bo ro so (map snd l).
  Proof.
    intros Hmo. unfold Json.main. destruct (utf8_decode file) as [t|] eqn:E; [|by left]. cbn [of_opt mbind res_bind].
    apply utf8_decode_iff in E as [Hv ->].
    destruct (read_entries t) as [entries|] eqn:R.
    - right. apply read_entries_iff in R. destruct (index_accepts low parse P mo bo ro so t entries Hmo R) as (l & Hs & El).
      exists t, entries, l. done.
    - left. apply index_rejects. intros entries H. apply read_entries_iff in H. congruence.
  Qed.
  Lemma run_ends P mo bo ro so fails w d : valid_order mo -> valid_build_order bo ->
    (run P mo bo ro so fails w d).2 <> Never_ends.
  Proof.
    intros Hmo Hbo. unfold Disk.run. destruct (fs_read fails d in_path) as [file|]; [|done].
    destruct (main_shape P mo bo ro so file Hmo) as [->|(t & entries & l & _ & _ & _ & _ & ->)]; [done|].
    assert (index_and_serialize low parse P bo ro so (map snd l) <> Stuck).
    { destruct (file_outcomes low parse P bo ro so Hbo ngram_index_size (map snd l) ltac:(unfold ngram_index_size; lia)) as [H1 H2].
      assert (D1 : Decision (prices_parse parse (map snd l))) by (unfold prices_parse; apply _).
      assert (D2 : Decision (overflows P (map (raw_text low) (map snd l)))) by (unfold overflows; apply _).
      unfold index_and_serialize. destruct D1 as [D1|D1]; [destruct D2 as [D2|D2]|].
      - by rewrite H2 by (by right).
      - destruct (H1 (conj D1 D2)) as [b ->]. done.
      - by rewrite H2 by (by left). }
    destruct (index_and_serialize low parse P bo ro so (map snd l)); try done.
    destruct (fs_write w d out_path a) as [d' ok]. by destruct ok.
  Qed.

  (** Nothing but the index is written. *)
  Lemma run_others P mo bo ro so fails w d path : path <> out_path -> (run P mo bo ro so fails w d).1 !! path = d !! path.
  Proof.
    intros Hp. unfold Disk.run. destruct (fs_read fails d in_path) as [file|]; [|done].
    destruct (main P mo bo ro so file); try done. destruct w; cbn [fs_write fst]; try done; by rewrite (lookup_insert_ne).
  Qed.
  (** What a run that went well leaves. *)
  Lemma run_ok P mo bo ro so fails w d : (run P mo bo ro so fails w d).2 = Ended_ok ->
    exists file bytes, d !! in_path = Some file /\ main P mo bo ro so file = Done bytes /\
      (run P mo bo ro so fails w d).1 !! out_path = Some bytes.
  Proof.
    unfold Disk.run, fs_read. destruct fails; [done|]. destruct (d !! in_path) as [file|]; [|done].
    destruct (main P mo bo ro so file) as [bytes| | |] eqn:E; try done. destruct w; try done. intros _. cbn [fs_write fst].
    exists file, bytes. split; [done|]. split; [done|]. by rewrite (lookup_insert).
  Qed.
  (** When it goes well. *)
  Lemma run_ok_iff P mo bo ro so fails w d : (run P mo bo ro so fails w d).2 = Ended_ok <->
    fails = false /\ w = Written /\ exists file bytes, d !! in_path = Some file /\ main P mo bo ro so file = Done bytes.
  Proof.
    unfold Disk.run, fs_read. split.
    - destruct fails; [done|]. destruct (d !! in_path) as [file|]; [|done].
      destruct (main P mo bo ro so file) as [bytes| | |] eqn:E; try done. destruct w; try done. intros _.
      split; [done|]. split; [done|]. by exists file, bytes.
    - intros (-> & -> & file & bytes & -> & E). cbn. by rewrite E.
  Qed.
  (** What a run leaves that did not. *)
  Lemma run_not_ok P mo bo ro so fails w d : (run P mo bo ro so fails w d).2 <> Ended_ok ->
    (run P mo bo ro so fails w d).1 = d \/
    exists file bytes k, d !! in_path = Some file /\ main P mo bo ro so file = Done bytes /\ w = Broken k /\
      (run P mo bo ro so fails w d).1 = <[out_path := take k bytes]> d.
  Proof.
    unfold Disk.run, fs_read. destruct fails; [by left|]. destruct (d !! in_path) as [file|]; [|by left].
    destruct (main P mo bo ro so file) as [bytes| | |] eqn:E; try by left.
    destruct w as [| |k]; [done|by left|]. intros _. right. by exists file, bytes, k.
  Qed.
  Lemma run_panic P mo bo ro so fails w d : (run P mo bo ro so fails w d).2 = Ended_panic -> (run P mo bo ro so fails w d).1 = d.
  Proof.
    intros H. destruct (run_not_ok P mo bo ro so fails w d) as [?|(file & bytes & k & Hf & Hm & -> & _)]; [by rewrite H|done|].
    exfalso. revert H. unfold Disk.run, fs_read. destruct fails; [done|]. by rewrite Hf, Hm.
  Qed.

  (** ** Histories *)
  Lemma history_snoc es e d : history (es ++ [e]) d = happens low parse e (history es d).
  Proof. unfold Disk_spec.history. by rewrite foldl_app. Qed.
  Lemma produced_snoc es e d bytes : produced es d bytes -> produced (es ++ [e]) d bytes.
  Proof.
    intros (before & P & mo & bo & ro & so & fails & w & after & file & -> & Hf & Hm).
    exists before, P, mo, bo, ro, so, fails, w, (after ++ [e]), file. split; [by rewrite <- app_assoc|done].
  Qed.
  Lemma history_out es d : Forall possible es ->
    history es d !! out_path = d !! out_path \/
    exists bytes k, produced es d bytes /\ history es d !! out_path = Some (take k bytes).
  Proof.
    induction es as [|e es IH] using rev_ind; intros F; [by left|]. apply Forall_app in F as [F Fe]. inversion Fe as [|? ? He _]; subst.
    rewrite history_snoc. specialize (IH F).
    assert (Hsame : happens low parse e (history es d) !! out_path = history es d !! out_path ->
      happens low parse e (history es d) !! out_path = d !! out_path \/
      exists bytes k, produced (es ++ [e]) d bytes /\ happens low parse e (history es d) !! out_path = Some (take k bytes)).
    { intros ->. destruct IH as [IH|(bytes & k & Hp & IH)]; [by left|]. right. exists bytes, k. split; [by apply produced_snoc|done]. }
    destruct e as [path contents|P mo bo ro so fails w]; cbn [happens] in *.
    - apply Hsame. by rewrite (lookup_insert_ne).
    - assert (Hnew : forall file bytes k, history es d !! in_path = Some file -> main P mo bo ro so file = Done bytes ->
        (run P mo bo ro so fails w (history es d)).1 !! out_path = Some (take k bytes) ->
        (run P mo bo ro so fails w (history es d)).1 !! out_path = d !! out_path \/
        exists bytes k, produced (es ++ [Run P mo bo ro so fails w]) d bytes /\
          (run P mo bo ro so fails w (history es d)).1 !! out_path = Some (take k bytes)).
      { intros file bytes k Hf Hm Ho. right. exists bytes, k. split; [|done].
        by exists es, P, mo, bo, ro, so, fails, w, [], file. }
      destruct ((run P mo bo ro so fails w (history es d)).2) eqn:E.
      + destruct (run_ok _ _ _ _ _ _ _ _ E) as (file & bytes & Hf & Hm & Ho).
        apply (Hnew file bytes (length bytes)); [done|done|]. by rewrite firstn_all.
      + destruct (run_not_ok P mo bo ro so fails w (history es d)) as [Hd|(file & bytes & k & Hf & Hm & _ & Hd)]; [by rewrite E| |].
        * apply Hsame. by rewrite Hd.
        * apply (Hnew file bytes k); [done|done|]. rewrite Hd. by rewrite (lookup_insert).
      + apply Hsame. by rewrite (run_panic _ _ _ _ _ _ _ _ E).
      + by destruct (run_ends P mo bo ro so fails w (history es d) (proj1 He) (proj1 (proj2 He))).
  Qed.

  (** With few products, what is left is not accepted unless it is whole. *)
  Lemma history_few Q es d contents : low_ok low -> parse_ok parse -> Forall possible es -> d !! out_path = None ->
    (forall before after file, es = before ++ after -> history before d !! in_path = Some file -> fitting low Q 127 file) ->
    history es d !! out_path = Some contents ->
    produced es d contents \/ forall st, initialize Q st contents = (st, Panic).
  Proof.
    intros Hl Hp F Hd Hfit Hc. destruct (history_out es d F) as [H|(bytes & k & Hb & H)]; [congruence|].
    rewrite H in Hc. injection Hc as <-. destruct (decide (drop k bytes = [])) as [E|E].
    { left. replace (take k bytes) with bytes; [done|]. rewrite <- (take_drop k bytes) at 1. by rewrite E, app_nil_r. }
    right. intros st. destruct Hb as (before & P & mo & bo & ro & so & fails & w & after & file & -> & Hf & Hm).
    assert (possible (Run P mo bo ro so fails w)) as (Hmo & Hbo & Hso).
    { rewrite Forall_forall in F. apply F. rewrite elem_of_app, elem_of_cons. auto. }
    specialize (Hfit before _ file eq_refl Hf).
    destruct (main_shape P mo bo ro so file Hmo) as [Hn|(t & entries & l & Ef & Hv & Hi & Hs & Em)]; [congruence|].
    destruct (Hfit t entries l Hv Ef Hi Hs) as (H1 & H2 & H3). rewrite Em in Hm.
    eapply (few_not_accepted low parse P Q bo ro so (map snd l) Hbo Hso Hl Hp H1 H2 bytes (take k bytes) (drop k bytes) st);
      [rewrite map_length; lia|done|by rewrite take_drop|done].
  Qed.
End facts.
