(** C80 to C85: the way from a JSON text to the file, src/lib.rs:243-252 and src/main.rs:11-23.
    [low] is [char::to_lowercase], [parse] is [str::parse::<f32>], [mo] is the order of the map
    of products. *)
From Coq Require Import String.
From Verif.model Require Import Base F32 Utf8 Prim Coll Data Gram Indexer Nodes Classic Lit Raw Js Lib Json.
From Verif.spec Require Import Spec Data_spec Gram_spec Classic_spec Raw_spec Js_spec Lib_spec End_spec Samples Raw_samples
  Gram_samples Lib_samples End_samples Json_spec Json_samples.
From Verif.proofs Require Import Json_facts Json_props Json_more Json_end Json_samples_facts.
Local Open Scope N_scope.

(** C80: the grammar of RFC 8259, for texts of any size and depth. *)
Theorem C80_reads_json : forall t v, read_json t = Some v <-> json_text t v.
Proof. exact json_iff. Qed.
Print Assumptions C80_reads_json.
Theorem C80_unambiguous : forall t v v', json_text t v -> json_text t v' -> v = v'.
Proof. exact json_unique. Qed.
Print Assumptions C80_unambiguous.
Example C80_json : (exists v, json_text other_text v) /\ ~ (exists v, json_text broken_text v).
Proof. split; [exact (proj1 other_json)|exact no_catalogue_broken]. Qed.

(** C81: not every text that describes a catalogue is accepted. *)
Theorem C81_accepts_refuted : exists t entries, is_catalogue means entries t /\
  forall low parse P mo bo ro so, index low parse P mo bo ro so t = Nope.
Proof. exact (ex_intro _ quoted_text (ex_intro _ quoted_entries quoted_rejected)). Qed.
Print Assumptions C81_accepts_refuted.
(** One string anywhere that cannot be written without an escape is enough. *)
Theorem C81_rejects_escapes : forall low parse P mo bo ro so t entries e s,
  is_catalogue means entries t -> e ∈ entries -> s ∈ borrowed e.2 -> needs_escape s ->
  index low parse P mo bo ro so t = Nope.
Proof. exact index_rejects_escapes. Qed.
Print Assumptions C81_rejects_escapes.
Example C81_escapes : is_catalogue means quoted_entries quoted_text /\
  lit "12"" vinyl" ∈ borrowed (titled [] (lit "12"" vinyl")) /\ needs_escape (lit "12"" vinyl").
Proof. exact (conj quoted_catalogue quoted_needs). Qed.
(** Other texts are rejected without a panic. *)
Theorem C81_rejects : forall low parse P mo bo ro so t, (forall entries, ~ is_catalogue verbatim entries t) ->
  index low parse P mo bo ro so t = Nope.
Proof. exact index_rejects. Qed.
Print Assumptions C81_rejects.
Example C81_rejected : forall entries, ~ is_catalogue verbatim entries other_text.
Proof. exact (proj2 other_json verbatim). Qed.
(** Which catalogues can be written so that they are accepted. *)
Theorem C81_writable : forall entries,
  Forall (fun e => Forall (fun s => ~ needs_escape s) (borrowed e.2)) entries <->
  exists t, is_catalogue verbatim entries t.
Proof. exact catalogue_writable. Qed.
Print Assumptions C81_writable.
Theorem C81_determined : forall t entries entries',
  is_catalogue means entries t -> is_catalogue means entries' t -> entries = entries'.
Proof. intros t entries entries'. exact (is_catalogue_unique entries entries' t). Qed.
Print Assumptions C81_determined.
Theorem C81_special : forall entries t, is_catalogue verbatim entries t -> is_catalogue means entries t.
Proof. exact is_catalogue_weaken. Qed.
Print Assumptions C81_special.
Example C81_texts : is_catalogue verbatim sample_entries sample_text /\
  is_catalogue verbatim quoted_description_entries quoted_description_text.
Proof. exact (conj sample_catalogue quoted_description_catalogue). Qed.

(** C82: not every described product is indexed. *)
Theorem C82_complete_refuted : exists t entries e (l : list (rstr * raw_product)), is_catalogue verbatim entries t /\ e ∈ entries /\
  e.2 ∉ map snd l /\ forall low parse P mo bo ro so, valid_order mo ->
    index low parse P mo bo ro so t = index_and_serialize low parse P bo ro so (map snd l).
Proof. exact twice_indexed. Qed.
Print Assumptions C82_complete_refuted.
(** The last of each key is. *)
Theorem C82_survivors : forall low parse P mo bo ro so t entries, valid_order mo -> is_catalogue verbatim entries t ->
  exists l, survivors entries l /\
    index low parse P mo bo ro so t = index_and_serialize low parse P bo ro so (map snd l).
Proof. exact index_accepts. Qed.
Print Assumptions C82_survivors.
Theorem C82_distinct : forall entries l, NoDup (map fst entries) -> survivors entries l -> l ≡ₚ entries.
Proof. exact survivors_distinct. Qed.
Print Assumptions C82_distinct.
Example C82_hyps : valid_order map_order /\ is_catalogue verbatim sample_entries sample_text /\
  NoDup (map fst sample_entries) /\ survivors sample_entries sample_entries.
Proof. exact (conj (proj1 map_orders_valid) (conj sample_catalogue (conj sample_distinct (proj1 (proj2 sample_outcome))))). Qed.

(** C83: an accepted text can make [index] panic. *)
Theorem C83_no_panic_refuted : exists low parse P mo bo ro so t entries,
  is_catalogue verbatim entries t /\ index low parse P mo bo ro so t = Panic.
Proof.
  exact (ex_intro _ ascii_low (ex_intro _ sample_parse (ex_intro _ host64 (ex_intro _ map_order (ex_intro _ hash_order
    (ex_intro _ no_order (ex_intro _ sample_order (ex_intro _ priceless_text (ex_intro _ priceless_entries
    priceless_panics))))))))).
Qed.
Print Assumptions C83_no_panic_refuted.
(** Exactly if a price among the survivors is unreadable. *)
Theorem C83_outcome : forall low parse P mo bo ro so, valid_order mo -> valid_build_order bo -> forall t entries l,
  is_catalogue verbatim entries t -> survivors entries l ->
  total_grams (map (raw_text low) (map snd l)) < 2 ^ 32 ->
  (prices_parse parse (map snd l) -> exists bytes, index low parse P mo bo ro so t = Done bytes) /\
  (~ prices_parse parse (map snd l) -> index low parse P mo bo ro so t = Panic).
Proof. exact accepted_outcome. Qed.
Print Assumptions C83_outcome.
Example C83_done : is_catalogue verbatim sample_entries sample_text /\ survivors sample_entries sample_entries /\
  total_grams (map (raw_text ascii_low) (map snd sample_entries)) < 2 ^ 32 /\
  prices_parse sample_parse (map snd sample_entries).
Proof. exact sample_outcome. Qed.
Example C83_panic : is_catalogue verbatim priceless_entries priceless_text /\
  survivors priceless_entries priceless_entries /\ ~ prices_parse sample_parse (map snd priceless_entries).
Proof. exact (conj priceless_catalogue priceless_outcome). Qed.
(** The indexing program reads UTF-8 and does the same. *)
Theorem C83_main : forall low parse P mo bo ro so file t, valid_str t -> file = utf8 t ->
  main low parse P mo bo ro so file = index low parse P mo bo ro so t.
Proof. exact main_text. Qed.
Print Assumptions C83_main.
Theorem C83_main_other : forall low parse P mo bo ro so file, ~ (exists t, valid_str t /\ file = utf8 t) ->
  main low parse P mo bo ro so file = Nope.
Proof. exact main_other. Qed.
Print Assumptions C83_main_other.

(** C84: the file is not determined by the text, even with distinct keys and all other orders
    the same. *)
Theorem C84_same_file_refuted : exists low parse P bo ro so t entries mo mo',
  is_catalogue verbatim entries t /\ NoDup (map fst entries) /\ valid_order mo /\ valid_order mo' /\
  exists a b, index low parse P mo bo ro so t = Done a /\ index low parse P mo' bo ro so t = Done b /\ a <> b.
Proof.
  exact (ex_intro _ ascii_low (ex_intro _ sample_parse (ex_intro _ host64 (ex_intro _ hash_order
    (ex_intro _ no_order (ex_intro _ sample_order (ex_intro _ sample_text (ex_intro _ sample_entries
    (ex_intro _ map_order (ex_intro _ map_order_rev file_differs)))))))))).
Qed.
Print Assumptions C84_same_file_refuted.
(** Two runs index the same products in two orders. *)
Theorem C84_same_products : forall low parse P mo mo' bo ro so t entries, valid_order mo -> valid_order mo' ->
  is_catalogue verbatim entries t -> exists l l', survivors entries l /\ l ≡ₚ l' /\
    index low parse P mo bo ro so t = index_and_serialize low parse P bo ro so (map snd l) /\
    index low parse P mo' bo ro so t = index_and_serialize low parse P bo ro so (map snd l').
Proof. exact same_products. Qed.
Print Assumptions C84_same_products.
Example C84_hyps : valid_order map_order /\ valid_order map_order_rev.
Proof. exact map_orders_valid. Qed.

(** C85: from the bytes of the JSON file to any product delivered by any search on the loaded
    file; the file is built on the platform [P] and loaded on [Q]. *)
Theorem C85_delivered : forall low parse P Q mo bo ro so file t entries,
  valid_order mo -> valid_build_order bo -> valid_ser_order so -> low_ok low -> parse_ok parse ->
  valid_str t -> file = utf8 t -> is_catalogue means entries t ->
  raw_fits Q low (map snd entries) -> total_grams (map (raw_text low) (map snd entries)) < 2 ^ 32 ->
  forall u ops1 bytes ops2, main low parse P mo bo ro so file = Done bytes ->
  let st := lib_run low u Q lib_init ops1 in
  loads Q st (InitOp bytes) -> no_loads low u Q (lib_step low u Q st (InitOp bytes)) ops2 ->
  forall o query categories tags order filters st' p n j,
  let st1 := lib_run low u Q lib_init (ops1 ++ InitOp bytes :: ops2) in
  valid_search_order o -> handlers_ok categories tags ->
  s_classic st1 = Some (ch_handle categories) -> s_classic st1 = Some (th_handle tags) ->
  search low u o st1 query categories tags order filters = (st', Done p) ->
  Some j ∈ calls pp_next n p ->
  exists l key raw, survivors entries l /\ l !! N.to_nat (jp_sid j) = Some (key, raw) /\
    last_entry entries key raw /\ delivers parse raw j /\ relevant low (map snd l) query raw /\
    raw_has_options (map snd l) categories (N.to_nat (jp_sid j)) /\
    raw_has_tags (map snd l) tags (N.to_nat (jp_sid j)).
Proof. exact text_delivered. Qed.
Print Assumptions C85_delivered.
Example C85_hyps : valid_str sample_text /\ is_catalogue means sample_entries sample_text /\
  raw_fits host64 ascii_low (map snd sample_entries) /\ raw_fits wasm32 ascii_low (map snd sample_entries) /\
  main ascii_low sample_parse host64 map_order hash_order no_order sample_order (utf8 sample_text) = Done json_file /\
  loads host64 lib_init (InitOp json_file) /\ loads wasm32 lib_init (InitOp json_file).
Proof. exact sample_main. Qed.
