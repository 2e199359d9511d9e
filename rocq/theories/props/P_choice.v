(** C110, C111, C112: what a search answers, said of the texts alone: neither a trie nor posting
    lists nor files occur in what is claimed. *)
From Verif.model Require Import Base F32 Utf8 Prim Coll Data Gram Indexer Nodes Classic Lit Raw Js Lib.
From Verif.spec Require Import Spec Data_spec Gram_spec Classic_spec Raw_spec Js_spec Lib_spec End_spec Reorder_spec Choice_spec
  Samples Raw_samples Gram_samples Lib_samples End_samples Reorder_samples Choice_samples.
From Verif.proofs Require Import Choice_props Choice_end Choice_samples_facts Example_facts.

(** C110. The window that the index matches with a typed window is the likeliest of the windows
    of the texts that are similar to it, and nothing is matched if none is similar. *)
Theorem C110_choice : forall P n o source pc gi, (1 <= n <= 5)%nat -> valid_build_order o ->
  total_grams (map snd source) < 2 ^ 32 -> index_from P n o source pc = Done gi ->
  forall q, length q = n ->
  (exists r, search_gram n gi q = Done r /\ likeliest n (map snd source) q r) /\
  (forall r, clearly_likeliest n (map snd source) q r -> search_gram n gi q = Done r).
Proof. exact chosen_from_texts. Qed.
Print Assumptions C110_choice.
(** "abcdf" is the choice for "abcde", though the texts have that, too; "bbcde" has none. *)
Example C110_hyps : clearly_likeliest 5 lookalike_texts abcde (with_likelihood lookalike_texts (Some abcdf)) /\
  candidate_for 5 lookalike_texts abcde abcde /\
  clearly_likeliest 5 lookalike_texts [98; 98; 99; 100; 101] (with_likelihood lookalike_texts None).
Proof. exact lookalikes_choice. Qed.

(** C111. A search finds each text that scores points, with the sum of its points, best first. *)
Theorem C111_search : forall P n o source pc gi, (1 <= n <= 5)%nat -> valid_build_order o ->
  total_grams (map snd source) < 2 ^ 32 -> index_from P n o source pc = Done gi ->
  lenN (c_products pc) < 2 ^ 64 -> lenN (c_products pc) <= usize_max P ->
  NoDup (map (fun s => p_id s.1) source) ->
  forall os input res, valid_order os -> gram_search n os gi input = Done res ->
  exists limit choice, cutoff_for (lenN (c_products pc)) limit /\
  (forall w, length w = n -> likeliest n (map snd source) w (choice w)) /\
  (forall w r, length w = n -> clearly_likeliest n (map snd source) w r -> choice w = r) /\
  NoDup (map fst res) /\ ranked res /\
  forall p x, (p, x) ∈ res <->
    exists t c rest, (p, t) ∈ source /\
      points n (map snd source) limit choice input t = c :: rest /\ x = foldl f32_add c rest.
Proof. exact search_from_texts_any. Qed.
Print Assumptions C111_search.
Example C111_hyps : NoDup (map (fun s => p_id s.1) lookalikes) /\
  lenN (c_products (plain_container lookalikes)) = 5 /\
  exists gi res, index_from wasm32 5 hash_order lookalikes (plain_container lookalikes) = Done gi /\
    gram_search 5 no_order gi abcdx = Done res /\ map (fun r => p_id r.1) res = [[49]; [50]].
Proof. exact lookalikes_distinct. Qed.

(** C112. The same from the raw catalogue to what the browser is handed: whatever was done
    before, after the catalogue's file was loaded a search answers with the products that score
    points and have all that is switched on, each once, and best first if no other order is
    asked for. *)
Theorem C112_answer : forall low parse P Q bo ro so input,
  valid_build_order bo -> valid_ser_order so -> low_ok low -> parse_ok parse ->
  raw_fits Q low input -> total_grams (map (raw_text low) input) < 2 ^ 32 -> NoDup (map r_id input) ->
  lenN input <= usize_max P ->
  forall u ops1 bytes ops2, index_and_serialize low parse P bo ro so input = Done bytes ->
  let st := lib_run low u Q lib_init ops1 in
  loads Q st (InitOp bytes) -> no_loads low u Q (lib_step low u Q st (InitOp bytes)) ops2 ->
  forall o query categories tags order st' p,
  let st1 := lib_run low u Q lib_init (ops1 ++ InitOp bytes :: ops2) in
  valid_search_order o -> handlers_ok categories tags ->
  s_classic st1 = Some (ch_handle categories) -> s_classic st1 = Some (th_handle tags) ->
  search low u o st1 query categories tags order [] = (st', Done p) ->
  exists limit choice answer js, cutoff_for (lenN input) limit /\
    (forall w, length w = ngram_index_size -> likeliest ngram_index_size (map (raw_text low) input) w (choice w)) /\
    (forall w r, length w = ngram_index_size ->
       clearly_likeliest ngram_index_size (map (raw_text low) input) w r -> choice w = r) /\
    answers ngram_index_size limit choice low input query categories tags answer /\
    (order = None -> falling (map snd answer)) /\
    (forall n, calls pp_next n p = then_none n js) /\
    Forall2 (fun '(raw, _) j => delivers parse raw j) answer js.
Proof. exact answered. Qed.
Print Assumptions C112_answer.
(** For the misspelled "plank mitra" every choice is clear, and the points tell what is found:
    the plank, by "plank" and, from "lank " on, by "lankz", then "Mitre", by "mitra". *)
Example C112_hyps :
  (forall w, w ∈ windows ngram_index_size (lower ascii_low query_typo) ->
     clearly_likeliest ngram_index_size wood_texts w (with_likelihood wood_texts (wood_choice w))) /\
  map (points ngram_index_size wood_texts (4 * lenN woods / 5) (fun w => with_likelihood wood_texts (wood_choice w))
         (lower ascii_low query_typo)) wood_texts = [[f32_one; f32_one]; [f32_one]; []].
Proof. exact wood_points. Qed.
Example C112_found : match search ascii_low true plain_search woods_state query_typo (cats_of woods_state) (tags_of woods_state) None [] with
  | (_, Done p) => pp_export p = [0; 1]
  | _ => False
  end.
Proof. exact wood_found. Qed.
