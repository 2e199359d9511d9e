(** The concrete cases of P_json.v. *)
From Coq Require Import String.
From Verif.model Require Import Base F32 Utf8 Prim Coll Data Gram Indexer Nodes Classic Lit Raw Js Lib Json.
From Verif.spec Require Import Spec Data_spec Gram_spec Classic_spec Raw_spec Js_spec Lib_spec End_spec Samples Raw_samples
  Gram_samples Lib_samples End_samples Json_spec Json_samples.
From Verif.proofs Require Import Raw_samples_facts End_samples_facts Json_facts Json_props Json_more Json_end.
Local Open Scope N_scope.

Lemma sample_catalogue : is_catalogue verbatim sample_entries sample_text.
Proof. apply read_entries_iff. vm_compute. reflexivity. Qed.
Lemma twice_catalogue : is_catalogue verbatim twice_entries twice_text.
Proof. apply read_entries_iff. vm_compute. reflexivity. Qed.
Lemma priceless_catalogue : is_catalogue verbatim priceless_entries priceless_text.
Proof. apply read_entries_iff. vm_compute. reflexivity. Qed.
Lemma quoted_description_catalogue : is_catalogue verbatim quoted_description_entries quoted_description_text.
Proof. apply read_entries_iff. vm_compute. reflexivity. Qed.
Lemma quoted_catalogue : is_catalogue means quoted_entries quoted_text.
Proof.
  destruct (read_json quoted_text) as [v|] eqn:E; [|vm_compute in E; done].
  vm_compute in E. injection E as <-.
  eexists. split.
  { apply json_iff. vm_compute. reflexivity. }
  constructor; [|constructor]. split; [apply decode_pieces_iff; vm_compute; reflexivity|].
  unfold is_product. do 8 eexists. split; [apply de_struct_iff; vm_compute; reflexivity|].
  split_and!; try (apply de_string_iff; vm_compute; reflexivity).
  - exists []. split; [done|constructor].
  - exists []. split; [done|constructor].
  - apply de_price_iff. vm_compute. reflexivity.
  - exists []. split; [done|constructor].
Qed.
Lemma quoted_needs : lit "12"" vinyl" ∈ borrowed (titled [] (lit "12"" vinyl")) /\ needs_escape (lit "12"" vinyl").
Proof.
  split; [by left|]. exists 34. split; [|by right; left]. apply (bool_decide_unpack _). vm_compute. exact Logic.I.
Qed.
Lemma quoted_rejected : is_catalogue means quoted_entries quoted_text /\
  forall low parse P mo bo ro so, index low parse P mo bo ro so quoted_text = Nope.
Proof.
  split; [exact quoted_catalogue|]. intros.
  eapply index_rejects_escapes; [exact quoted_catalogue|by left|apply quoted_needs..].
Qed.
Lemma no_catalogue_broken : ~ (exists v, json_text broken_text v).
Proof. intros [v H]. apply json_iff in H. vm_compute in H. done. Qed.
Lemma other_json : (exists v, json_text other_text v) /\ forall how entries, ~ is_catalogue how entries other_text.
Proof.
  assert (E : json_text other_text (TArr [TNum (lit "1"); TNum (lit "2")])) by (apply json_iff; vm_compute; reflexivity).
  split; [eexists; exact E|]. intros how entries (members & H & _). pose proof (json_unique _ _ _ E H). done.
Qed.
Lemma twice_survivors : survivors twice_entries [(lit "k", titled [] (lit "Second"))].
Proof.
  split; [apply NoDup_singleton|]. intros key raw. rewrite elem_of_list_singleton. split.
  - intros [= -> ->]. exists [(lit "k", titled [] (lit "First"))], []. split; [done|by apply not_elem_of_nil].
  - intros (a & b & E & H). destruct a as [|x a]; [|destruct a as [|y a]].
    + injection E as <- <- <-. exfalso. apply H. by left.
    + injection E as _ <- <- _. done.
    + by destruct a.
Qed.
Lemma first_lost : titled [] (lit "First") ∉ map snd [(lit "k", titled [] (lit "Second"))].
Proof. intros H. apply elem_of_list_singleton in H. done. Qed.
Lemma map_orders_valid : valid_order map_order /\ valid_order map_order_rev.
Proof. split; intros l; [done|]. unfold map_order_rev. by rewrite <- Permutation_rev. Qed.
Lemma twice_lost : is_catalogue verbatim twice_entries twice_text /\
  (lit "k", titled [] (lit "First")) ∈ twice_entries /\
  exists l, survivors twice_entries l /\ titled [] (lit "First") ∉ map snd l /\
    forall low parse P mo bo ro so, valid_order mo ->
      index low parse P mo bo ro so twice_text = index_and_serialize low parse P bo ro so (map snd l).
Proof.
  split; [exact twice_catalogue|]. split; [by left|]. eexists. split; [exact twice_survivors|]. split; [exact first_lost|].
  intros low parse P mo bo ro so Hmo.
  destruct (index_accepts low parse P mo bo ro so _ _ Hmo twice_catalogue) as (l & Hl & ->).
  pose proof (survivors_perm _ _ _ twice_survivors Hl) as Hp. apply Permutation_singleton_l in Hp as ->. done.
Qed.
Lemma priceless_panics : is_catalogue verbatim priceless_entries priceless_text /\
  index ascii_low sample_parse host64 map_order hash_order no_order sample_order priceless_text = Panic.
Proof. split; [exact priceless_catalogue|]. vm_compute. reflexivity. Qed.
Lemma sample_distinct : NoDup (map fst sample_entries).
Proof. apply (bool_decide_unpack _). vm_compute. exact Logic.I. Qed.
Lemma sample_outcome : is_catalogue verbatim sample_entries sample_text /\ survivors sample_entries sample_entries /\
  total_grams (map (raw_text ascii_low) (map snd sample_entries)) < 2 ^ 32 /\
  prices_parse sample_parse (map snd sample_entries).
Proof.
  split; [exact sample_catalogue|]. split.
  - split; [exact sample_distinct|]. intros key raw. split; [|apply last_entry_in]. intros H.
    apply elem_of_list_split in H as (a & b & E). exists a, b. split; [done|].
    pose proof sample_distinct as Hn. rewrite E, map_app in Hn. apply NoDup_app in Hn as (_ & _ & Hn).
    by apply NoDup_cons in Hn as [Hn _].
  - split; [vm_compute; reflexivity|]. apply sample_prices.
Qed.
Lemma priceless_outcome : survivors priceless_entries priceless_entries /\
  ~ prices_parse sample_parse (map snd priceless_entries).
Proof.
  split.
  - split; [apply NoDup_singleton|]. intros key raw. split; [|apply last_entry_in].
    intros H. apply elem_of_list_singleton in H as [= -> ->]. exists [], []. split; [done|by apply not_elem_of_nil].
  - intros H. apply Forall_cons_1 in H as [[x H] _]. vm_compute in H. done.
Qed.
Lemma file_differs : is_catalogue verbatim sample_entries sample_text /\ NoDup (map fst sample_entries) /\
  valid_order map_order /\ valid_order map_order_rev /\
  exists a b, index ascii_low sample_parse host64 map_order hash_order no_order sample_order sample_text = Done a /\
    index ascii_low sample_parse host64 map_order_rev hash_order no_order sample_order sample_text = Done b /\ a <> b.
Proof.
  split; [exact sample_catalogue|]. split; [exact sample_distinct|]. split; [apply map_orders_valid|].
  split; [apply map_orders_valid|]. do 2 eexists. split; [vm_compute; reflexivity|]. split; [vm_compute; reflexivity|].
  intros E. apply (f_equal (firstn 60)) in E. vm_compute in E. discriminate E.
Qed.
Definition json_file : list N :=
  match index ascii_low sample_parse host64 map_order hash_order no_order sample_order sample_text with
  | Done bytes => bytes | _ => [] end.
Lemma sample_main : valid_str sample_text /\ is_catalogue means sample_entries sample_text /\
  raw_fits host64 ascii_low (map snd sample_entries) /\ raw_fits wasm32 ascii_low (map snd sample_entries) /\
  main ascii_low sample_parse host64 map_order hash_order no_order sample_order (utf8 sample_text) = Done json_file /\
  loads host64 lib_init (InitOp json_file) /\ loads wasm32 lib_init (InitOp json_file).
Proof.
  split; [unfold valid_str; apply (bool_decide_unpack _); vm_compute; exact Logic.I|].
  split; [apply is_catalogue_weaken, sample_catalogue|].
  split; [by apply (sample_raw_fits host64); left|]. split; [by apply (sample_raw_fits wasm32); right|].
  split; [vm_compute; reflexivity|]. split; vm_compute; reflexivity.
Qed.
Lemma same_products low parse P mo mo' bo ro so t entries : valid_order mo -> valid_order mo' ->
  is_catalogue verbatim entries t -> exists l l', survivors entries l /\ l ≡ₚ l' /\
    index low parse P mo bo ro so t = index_and_serialize low parse P bo ro so (map snd l) /\
    index low parse P mo' bo ro so t = index_and_serialize low parse P bo ro so (map snd l').
Proof.
  intros H H' Ht.
  destruct (index_accepts low parse P mo bo ro so _ _ H Ht) as (l & Hl & E).
  destruct (index_accepts low parse P mo' bo ro so _ _ H' Ht) as (l' & Hl' & E').
  exists l, l'. split_and!; [done|by eapply survivors_perm|done|done].
Qed.
Lemma twice_indexed : exists t entries e (l : list (rstr * raw_product)), is_catalogue verbatim entries t /\ e ∈ entries /\
  e.2 ∉ map snd l /\ forall low parse P mo bo ro so, valid_order mo ->
    index low parse P mo bo ro so t = index_and_serialize low parse P bo ro so (map snd l).
Proof.
  destruct twice_lost as (H1 & H2 & l & _ & H3 & H4). by exists twice_text, twice_entries, (lit "k", titled [] (lit "First")), l.
Qed.
