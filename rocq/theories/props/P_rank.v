(** C137: which of two products comes first. *)
From Coq Require Import String.
From Verif.model Require Import Base F32 Utf8 Prim Coll Data Gram Indexer Nodes Classic Lit Raw Js Lib.
From Verif.spec Require Import Spec Data_spec Gram_spec Classic_spec Raw_spec Js_spec Lib_spec End_spec Choice_spec Reorder_spec
  Samples Raw_samples Gram_samples Lib_samples End_samples Rank_samples Bench_samples.
From Verif.proofs Require Import Rank_facts Rank_end.
Local Open Scope list_scope.

(** C137, as expected, would say that a product whose text is the query comes before one whose text
    does not even have the query in it. Not so: the other is counted once for each repetition. *)
Theorem C137_typed_first_refuted : exists gi res x y,
  index_from wasm32 5 hash_order oranges (plain_container oranges) = Done gi /\
  gram_search 5 no_order gi typed_orange = Done res /\ res = [(plain_product 1, x); (plain_product 0, y)] /\
  f32_lt y x /\ oranges !! 0%nat = Some (plain_product 0, typed_orange) /\
  (forall t, (plain_product 1, t) ∈ oranges -> ~ occurs typed_orange t).
Proof. exact typed_second. Qed.
Print Assumptions C137_typed_first_refuted.

(** What holds: a product comes no later (at worst with the same confidence) than another if each
    window of the texts is found in its text at least as often as in the other's. *)
Theorem C137_more_partial : forall P n o source pc gi, (1 <= n <= 764)%nat -> valid_build_order o ->
  total_grams (map snd source) < 2 ^ 32 -> index_from P n o source pc = Done gi ->
  lenN (c_products pc) < 2 ^ 64 -> lenN (c_products pc) <= usize_max P ->
  NoDup (map (fun s => p_id s.1) source) ->
  forall os input res pa ta pb tb y, valid_order os -> gram_search n os gi input = Done res ->
  (pa, ta) ∈ source -> (pb, tb) ∈ source ->
  (forall g, length g = n -> in_texts (map snd source) g -> uses n [tb] g <= uses n [ta] g) ->
  (pb, y) ∈ res -> exists x, (pa, x) ∈ res /\ f32_le y x.
Proof. exact ranked_by_counts. Qed.
Print Assumptions C137_more_partial.
(** So it does if its text has all of the other's text in it, ... *)
Theorem C137_longer : forall P n o source pc gi, (1 <= n <= 764)%nat -> valid_build_order o ->
  total_grams (map snd source) < 2 ^ 32 -> index_from P n o source pc = Done gi ->
  lenN (c_products pc) < 2 ^ 64 -> lenN (c_products pc) <= usize_max P ->
  NoDup (map (fun s => p_id s.1) source) ->
  forall os input res pa ta pb tb y, valid_order os -> gram_search n os gi input = Done res ->
  (pa, ta) ∈ source -> (pb, tb) ∈ source -> Forall (fun t => 0 ∉ t) (map snd source) -> occurs tb ta ->
  (pb, y) ∈ res -> exists x, (pa, x) ∈ res /\ f32_le y x.
Proof. exact longer_ranked. Qed.
Print Assumptions C137_longer.
Example C137_hyps : Forall (fun t => 0 ∉ t) (map snd longer_texts) /\ NoDup (map (fun s => p_id s.1) longer_texts) /\
  (exists ta tb, longer_texts !! 1%nat = Some (plain_product 1, ta) /\ longer_texts !! 0%nat = Some (plain_product 0, tb) /\ occurs tb ta) /\
  exists gi res, index_from wasm32 5 hash_order longer_texts (plain_container longer_texts) = Done gi /\
    gram_search 5 no_order gi typed_orange = Done res /\ length res = 2%nat.
Proof. exact longer_first. Qed.
(** ... and products with the same text are found with the same confidence. *)
Theorem C137_alike : forall P n o source pc gi, (1 <= n <= 764)%nat -> valid_build_order o ->
  total_grams (map snd source) < 2 ^ 32 -> index_from P n o source pc = Done gi ->
  lenN (c_products pc) < 2 ^ 64 -> lenN (c_products pc) <= usize_max P ->
  NoDup (map (fun s => p_id s.1) source) ->
  forall os input res pa pb t y, valid_order os -> gram_search n os gi input = Done res ->
  (pa, t) ∈ source -> (pb, t) ∈ source -> (pb, y) ∈ res -> (pa, y) ∈ res.
Proof. exact alike_ranked. Qed.
Print Assumptions C137_alike.
(** Confidences do not exceed the number of places of the query times that of the text, nor 2^24,
    where the sum of numbers up to one gets stuck. *)
Theorem C137_bounded : forall P n o source pc gi, (1 <= n <= 764)%nat -> valid_build_order o ->
  total_grams (map snd source) < 2 ^ 32 -> index_from P n o source pc = Done gi ->
  lenN (c_products pc) < 2 ^ 64 -> lenN (c_products pc) <= usize_max P ->
  NoDup (map (fun s => p_id s.1) source) ->
  forall os input res p t x, valid_order os -> gram_search n os gi input = Done res ->
  (p, t) ∈ source -> (p, x) ∈ res -> f32_le x (f32_of_N (N.min (lenN input * lenN t) (2 ^ 24))).
Proof. exact confidence_bounded. Qed.
Print Assumptions C137_bounded.

(** From the catalogue to what the browser is handed, by a search without order: [answer] lists the
    products handed over with their confidences. The hypotheses are met as in C73_hyps. *)
Theorem C137_delivered : forall low parse P Q bo ro so input,
  valid_build_order bo -> valid_ser_order so -> low_ok low -> parse_ok parse ->
  raw_fits Q low input -> total_grams (map (raw_text low) input) < 2 ^ 32 -> NoDup (map r_id input) ->
  lenN input <= usize_max P -> Forall (fun raw => 0 ∉ raw_text low raw) input ->
  forall u ops1 bytes ops2, index_and_serialize low parse P bo ro so input = Done bytes ->
  let st := lib_run low u Q lib_init ops1 in
  loads Q st (InitOp bytes) -> no_loads low u Q (lib_step low u Q st (InitOp bytes)) ops2 ->
  forall o query categories tags entries st' p,
  let st1 := lib_run low u Q lib_init (ops1 ++ InitOp bytes :: ops2) in
  valid_search_order o -> handlers_ok categories tags ->
  s_classic st1 = Some (ch_handle categories) -> s_classic st1 = Some (th_handle tags) ->
  search low u o st1 query categories tags None entries = (st', Done p) ->
  Forall (fun e => exists props, plain_object e.2 props) entries ->
  exists (answer : list (raw_product * f32)) js, NoDup (map fst answer) /\ falling (map snd answer) /\
    (forall n, calls pp_next n p = then_none n js) /\ Forall2 (fun '(raw, _) j => delivers parse raw j) answer js /\
    (forall a b y, a ∈ input -> suits categories tags a -> let_pass parse entries a ->
       occurs (raw_text low b) (raw_text low a) -> (b, y) ∈ answer -> exists x, (a, x) ∈ answer /\ f32_le y x).
Proof. exact delivered_rank. Qed.
Print Assumptions C137_delivered.
Example C137_raw : occurs (raw_text ascii_low orange) (raw_text ascii_low (titled (lit "4") (lit "en Orang lampe"))).
Proof. exists (lit "en "), (lit " lampe"). vm_compute. reflexivity. Qed.
