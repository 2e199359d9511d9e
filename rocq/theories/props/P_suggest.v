(** C128, C129: what is suggested for a word, and what choosing it does. *)
From Verif.model Require Import Base F32 Utf8 Prim Coll Data Gram Indexer Nodes Classic Lit Raw Js Lib Access.
From Verif.spec Require Import Spec Data_spec Gram_spec Classic_spec Raw_spec Js_spec Lib_spec End_spec Reorder_spec Samples Raw_samples
  Gram_samples Lib_samples End_samples Suggest_spec Suggest_samples.
From Verif.proofs Require Import Suggest_end Suggest_samples_facts.

(** C128. Whatever bytes were loaded: the name of a suggested tag can be asked for; the input that is
    given back is a word of the query, and similar to that name; choosing the tag never panics and
    switches on that tag alone. *)
Theorem C128_usable : forall P bytes gi cl query r, deserialize_all P ngram_index_size bytes = Done (gi, cl) ->
  tag_suggestion (loaded gi cl) query = Done r ->
  exists t id ws, tag_at cl id t /\ ts_get_tag r = JSTag cl id /\ t_id t = id /\
    jt_get_name (ts_get_tag r) = Done (t_name t) /\
    splits query ws /\ ts_get_input r ∈ ws /\
    (shorter (ts_get_input r, t) < 2 ^ 21 -> similar (ts_get_input r, t)) /\
    th_toggle (th_new cl) (ts_get_tag r) = Done (TagHandler cl {[id]} [] ∅, []).
Proof. exact suggestion_usable. Qed.
Print Assumptions C128_usable.
(** With the file of a catalogue: some product has the tag, and a search with the tag chosen delivers
    those of the products delivered without it that have the tag in the catalogue. *)
Theorem C128_chosen : forall low parse P Q bo ro so input,
  valid_build_order bo -> valid_ser_order so -> low_ok low -> parse_ok parse -> raw_fits Q low input ->
  total_grams (map (raw_text low) input) < 2 ^ 32 -> NoDup (map r_id input) ->
  forall u ops1 bytes ops2, index_and_serialize low parse P bo ro so input = Done bytes ->
  let st := lib_run low u Q lib_init ops1 in
  loads Q st (InitOp bytes) -> no_loads low u Q (lib_step low u Q st (InitOp bytes)) ops2 ->
  let st1 := lib_run low u Q lib_init (ops1 ++ InitOp bytes :: ops2) in
  forall query r, tag_suggestion st1 query = Done r ->
  exists cl name h, s_classic st1 = Some cl /\ jt_get_name (ts_get_tag r) = Done name /\
    (exists raw, raw ∈ input /\ name ∈ r_tags raw) /\
    th_toggle (th_new cl) (ts_get_tag r) = Done (h, []) /\
    forall o text categories order st2 st3 p p', valid_search_order o -> active_options_exist categories ->
      s_classic st1 = Some (ch_handle categories) ->
      search low u o st1 text categories (th_new cl) order [] = (st2, Done p) ->
      search low u o st1 text categories h order [] = (st3, Done p') ->
      forall id, delivered p' id <-> delivered p id /\ exists raw, raw ∈ input /\ r_id raw = id /\ name ∈ r_tags raw.
Proof. exact suggestion_delivers. Qed.
Print Assumptions C128_chosen.
(** "sales lamp" suggests the tag "sale" for the word "sales"; of three products found, two have it. *)
Example C128_hyps : raw_fits host64 ascii_low sample_raw /\ NoDup (map r_id sample_raw) /\
  index_and_serialize ascii_low sample_parse host64 hash_order no_order sample_order sample_raw = Done sample_file /\
  loads host64 lib_init (InitOp sample_file) /\
  (exists cl, s_classic sample_state = Some cl /\ tag_suggestion sample_state query_sales = Done (TagSuggestion (JSTag cl 0) word_sales) /\
    jt_get_name (JSTag cl 0) = Done word_sale) /\
  answer sample_state three_words (cats_of sample_state) (tags_of sample_state) None [] = Done [1; 2; 0] /\
  answer sample_state three_words (cats_of sample_state) (with_tag sample_state 0) None [] = Done [2; 0].
Proof. exact suggest_sample. Qed.

(** C129, as expected, would say that typing a tag's name suggests that tag. It is not so: the tag
    "lamp" comes first and hides "lampshade". *)
Theorem C129_own_name_refuted : forall gi, tag_positions (cl_tags (tagged two_lamps)) /\
  (exists t, (cl_tags (tagged two_lamps) : list tag) !! 1%nat = Some t /\ t_name t = word_lampshade) /\
  ascii word_lampshade /\ 32 ∉ word_lampshade /\
  tag_suggestion (loaded gi (tagged two_lamps)) word_lampshade = Done (TagSuggestion (JSTag (tagged two_lamps) 0) word_lampshade).
Proof. exact hidden_tag. Qed.
Print Assumptions C129_own_name_refuted.
(** Exactly: it is suggested unless, for an earlier tag, one of the names begins with the other. *)
Theorem C129_own_name_partial : forall gi cl i t, tag_positions (cl_tags cl) -> (cl_tags cl : list tag) !! i = Some t ->
  ascii (t_name t) -> (3 <= length (t_name t))%nat -> lenN (t_name t) < 4096 -> 32 ∉ t_name t ->
  tag_suggestion (loaded gi cl) (t_name t) = Done (TagSuggestion (JSTag cl (t_id t)) (t_name t)) <->
  forall j t', (j < i)%nat -> (cl_tags cl : list tag) !! j = Some t' -> ~ one_extends (t_name t) (t_name t').
Proof. exact name_suggests. Qed.
Print Assumptions C129_own_name_partial.
(** A word, spelled as a tag begins or beginning as a tag is spelled, suggests the first such tag. *)
Theorem C129_beginning : forall gi cl w i t, 32 ∉ w -> lenN (utf8 w) < 4096 -> (cl_tags cl : list tag) !! i = Some t ->
  one_extends w (t_name t) ->
  exists j t', (j <= i)%nat /\ first_related w (cl_tags cl) j t' /\
    tag_suggestion (loaded gi cl) w = Done (TagSuggestion (JSTag cl (t_id t')) w).
Proof. exact beginning_suggests. Qed.
Print Assumptions C129_beginning.
Example C129_hyps : exists t, (cl_tags (tagged two_lamps) : list tag) !! 0%nat = Some t /\
  one_extends word_lampshade (t_name t) /\ lenN (utf8 word_lampshade) < 4096.
Proof. exact lamp_related. Qed.
