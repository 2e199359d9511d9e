(** C47-C51, C53-C57, C60: filters, handlers, iterators and results. *)
From Verif.model Require Import Base F32 Utf8 Prim Coll Data Gram Indexer Nodes Classic Lit Raw Js.
From Verif.spec Require Import Spec Data_spec Classic_spec Raw_spec Js_spec Samples Gram_samples Raw_samples Js_samples.
From Verif.proofs Require Import F64_facts Js_facts Raw_samples_facts Js_samples_facts.

(** C47: after any history of calls, for the options toggled an odd number of times. *)
Theorem C47_category_filter : forall parse bo input c cl handle ops o p i,
  optimize parse bo input = Done (c, cl) -> same_classic cl handle -> Forall (cat_op_ok handle) ops ->
  valid_order o -> p_sid p = N.of_nat i -> (i < length input)%nat ->
  exists b, ch_is_valid o (cat_run (ch_new handle) ops) p = Done b /\
    (b = true <-> forall key cat opt, Nat.odd (toggles eo_keys ops key) = true -> option_at handle key cat opt ->
       lists_option (map r_options input) i (cat_name cat) (o_name opt)).
Proof. exact category_history. Qed.
Print Assumptions C47_category_filter.
(** Blue (category 0, option 1) is on, Red was switched on and off. *)
Example C47_hyps : match optimize sample_parse hash_order sample_raw with
  | Done (c, cl) => map (ch_is_valid id (cat_run (ch_new cl) sample_cat_ops)) (c_products c)
  | _ => []
  end = [Done true; Done false; Done true] /\
  match optimize sample_parse hash_order sample_raw with
  | Done (c, cl) => map (fun op => match op with Toggle item =>
      match (cl_categories cl : list category) !! N.to_nat (eo_keys item).1 with
      | Some cat => bool_decide (is_Some (cat_options cat !! N.to_nat (eo_keys item).2))
      | None => false
      end | _ => true end) sample_cat_ops
  | _ => []
  end = map (fun _ => true) sample_cat_ops.
Proof. split; vm_compute; reflexivity. Qed.

(** C48 *)
Theorem C48_tag_filter : forall parse bo input c cl handle ops h o p i,
  optimize parse bo input = Done (c, cl) -> valid_order (bo_tags bo) -> same_classic cl handle ->
  Forall tag_op_ok ops -> Forall (own_tag handle) ops -> tag_run (th_new handle) ops = Done h ->
  valid_order o -> p_sid p = N.of_nat i -> (i < length input)%nat ->
  exists b, th_is_valid o h p = Done b /\
    (b = true <-> forall id t, Nat.odd (toggles jt_index ops id) = true -> tag_at handle id t ->
       lists_tag (map r_tags input) i (t_name t)).
Proof. exact tag_history. Qed.
Print Assumptions C48_tag_filter.
Example C48_hyps : match optimize sample_parse hash_order sample_raw with
  | Done (c, cl) =>
    match tag_run (th_new cl) (sample_tag_ops cl) with
    | Done h => map (th_is_valid id h) (c_products c)
    | _ => []
    end
  | _ => []
  end = [Done true; Done false; Done true] /\
  (forall c cl, optimize sample_parse hash_order sample_raw = Done (c, cl) ->
     Forall tag_op_ok (sample_tag_ops cl) /\ Forall (own_tag cl) (sample_tag_ops cl)).
Proof. exact sample_tags_toggled. Qed.

(** C49 *)
Theorem C49_range : forall from to feature fs p,
  filter_accepts (FeatureFilter (Range from to) feature) fs p = true <->
  (~ is_number from /\ ~ is_number to) \/
  exists x, numeric_at fs (N.to_nat (p_sid p)) feature x /\ within from to x.
Proof. exact range_filter. Qed.
Print Assumptions C49_range.
(** Comparing the widened numbers is comparing the stored ones. *)
Theorem C49_exact_floats : forall x y, valid_f32 x -> valid_f32 y ->
  f64_le (f64_of_f32 x) (f64_of_f32 y) = SFleb x y.
Proof. exact f64_of_f32_le. Qed.
Print Assumptions C49_exact_floats.
Theorem C49_exact_integers : forall m n, m < 2 ^ 32 -> n < 2 ^ 32 ->
  SFcompare (f64_of_u32 m) (f64_of_u32 n) = Some (m ?= n).
Proof. exact f64_of_u32_compare. Qed.
Print Assumptions C49_exact_integers.
Example C49_hyps :
  map (fun bounds => filter_accepts (FeatureFilter (Range bounds.1 bounds.2) s_price) sample_prices_table
         (sample_at 1))
    [(JNum (f64_of_f32 half_f32), JNum (f64_of_f32 half_f32)); (JNum (f64_of_f32 one_f32), JUndef);
     (JUndef, JNum (f64_of_f32 one_f32)); (JUndef, JStr s_price); (JNum S754_nan, JUndef)]
  = [true; false; true; true; false] /\
  filter_accepts (FeatureFilter (Range JUndef (JNum (f64_of_u32 1))) s_price) sample_prices_table (sample_at 7) = false.
Proof. split; vm_compute; reflexivity. Qed.

(** C50: every product passes [{feature: {exact: v}}]. *)
Theorem C50_exact_refuted : exists feature v fs p,
  string_at fs (N.to_nat (p_sid p)) feature s_to /\ v = JStr s_from /\ s_from <> s_to /\
  exists f, parse_filters [(feature, JObj 0 [(s_exact, Some v)])] = Some [f] /\ filter_accepts f fs p = true.
Proof. exact exact_kept. Qed.
Print Assumptions C50_exact_refuted.
Theorem C50_exact_ignored : forall v identity feature fs p,
  exists f, parse_entry (feature, JObj identity [(s_exact, Some v)]) = Some f /\ filter_accepts f fs p = true.
Proof. exact exact_ignored. Qed.
Print Assumptions C50_exact_ignored.
(** What holds: an exact filter, once made, selects by equality. Missing: [parse_entry] makes
    one only if reading [from] or [to] throws. *)
Theorem C50_exact_partial : forall v feature fs p,
  filter_accepts (FeatureFilter (Exact v) feature) fs p = true <->
  (exists s, v = JStr s /\ string_at fs (N.to_nat (p_sid p)) feature s) \/
  (exists x y, v = JNum y /\ numeric_at fs (N.to_nat (p_sid p)) feature x /\ SFeqb x y = true).
Proof. exact exact_filter. Qed.
Print Assumptions C50_exact_partial.
(** Exactly which filter an entry of the argument makes. *)
Theorem C50_made : forall entry f, parse_entry entry = Some f <-> stands_for entry f.
Proof. exact entry_stands_for. Qed.
Print Assumptions C50_made.
Example C50_hyps : parse_entry (s_price, JObj 0 [(s_from, None); (s_exact, Some (JStr s_to))])
    = Some (FeatureFilter (Exact (JStr s_to)) s_price) /\
  map (fun v => filter_accepts (FeatureFilter (Exact v) s_price) sample_prices_table (sample_at 1))
    [JNum (f64_of_f32 half_f32); JNum (f64_of_f32 one_f32); JStr s_price; JUndef] = [true; false; false; false].
Proof. split; vm_compute; reflexivity. Qed.

(** C51: the rest, about [search], is in P_lib.v. *)
Theorem C51_malformed : forall entries,
  (exists feature v, (feature, v) ∈ entries /\ forall identity props, v <> JObj identity props) ->
  parse_filters entries = None.
Proof. exact parse_none. Qed.
Print Assumptions C51_malformed.
Theorem C51_in_order : forall entries props, Forall2 (fun '(_, v) ps => plain_object v ps) entries props ->
  parse_filters entries = Some (zip_with (fun '(feature, _) ps =>
    FeatureFilter (Range (property ps s_from) (property ps s_to)) feature) entries props).
Proof. exact parse_plains. Qed.
Print Assumptions C51_in_order.
Theorem C51_exactly : forall entries fs, parse_filters entries = Some fs <-> Forall2 stands_for entries fs.
Proof. exact filters_stand_for. Qed.
Print Assumptions C51_exactly.
Example C51_hyps : plain_object (JObj 3 [(s_to, Some (JNum f32_one)); (s_exact, Some JNull)]) [(s_to, JNum f32_one); (s_exact, JNull)] /\
  (s_price, JStr s_to) ∈ [(s_from, JObj 0 []); (s_price, JStr s_to)].
Proof. split; [by exists 3|right; left]. Qed.

(** C53 *)
Theorem C53_options : forall cl ops item,
  ch_get_status (cat_run (ch_new cl) ops) item = Nat.odd (toggles eo_keys ops (eo_keys item)).
Proof. exact cat_parity. Qed.
Print Assumptions C53_options.
Theorem C53_tags_run : forall h ops, Forall tag_op_ok ops -> exists h', tag_run h ops = Done h'.
Proof. exact tag_run_done. Qed.
Print Assumptions C53_tags_run.
Theorem C53_tags : forall cl ops h t, Forall tag_op_ok ops -> tag_run (th_new cl) ops = Done h ->
  th_get_status h t = Nat.odd (toggles jt_index ops (jt_index t)).
Proof. exact tag_parity. Qed.
Print Assumptions C53_tags.
(** From any state: the status flips exactly with an odd number of toggles. *)
Theorem C53_options_from : forall h ops item,
  ch_get_status (cat_run h ops) item = xorb (ch_get_status h item) (Nat.odd (toggles eo_keys ops (eo_keys item))).
Proof. exact cat_status. Qed.
Print Assumptions C53_options_from.
Example C53_hyps : map (toggles eo_keys sample_cat_ops) [(0, 0); (0, 1); (1, 0)] = [2; 1; 0]%nat /\
  (forall c cl, optimize sample_parse hash_order sample_raw = Done (c, cl) -> Forall tag_op_ok (sample_tag_ops cl)).
Proof. exact sample_toggles. Qed.

(** C54 *)
Theorem C54_option_calls : forall cl ops item h' cs, ch_toggle (cat_run (ch_new cl) ops) item = (h', cs) ->
  exists specific s,
    cs = map (fun f => (f, s)) (specific ++ general_observers ops) /\
    specific ≡ₚ registered eo_keys [] ops (eo_keys item) /\
    (no_removal eo_keys ops (eo_keys item) -> specific = registered eo_keys [] ops (eo_keys item)) /\
    ch_get_status h' item = s /\
    s = negb (ch_get_status (cat_run (ch_new cl) ops) item).
Proof. exact cat_calls. Qed.
Print Assumptions C54_option_calls.
Theorem C54_tag_calls : forall cl ops h t, Forall tag_op_ok ops -> tag_run (th_new cl) ops = Done h -> tag_handle_ok t ->
  exists h' specific s,
    th_toggle h t = Done (h', map (fun f => (f, s)) (specific ++ general_observers ops)) /\
    specific ≡ₚ registered jt_index [] ops (jt_index t) /\
    (no_removal jt_index ops (jt_index t) -> specific = registered jt_index [] ops (jt_index t)) /\
    th_get_status h' t = s /\
    s = negb (th_get_status h t).
Proof. exact tag_calls. Qed.
Print Assumptions C54_tag_calls.
Example C54_hyps : (ch_toggle (cat_run (ch_new sample_classic) sample_cat_ops) (ExportOption [] 0 1)).2
    = [(7, false); (9, false); (5, false); (6, false)] /\
  registered eo_keys [] sample_cat_ops (0, 1) = [7; 9] /\ general_observers sample_cat_ops = [5; 6].
Proof. repeat split; vm_compute; reflexivity. Qed.

(** C55 *)
Theorem C55_option_listener : forall h item f item',
  let h' := ch_remove_option h item f in
  ch_active h' = ch_active h /\ ch_general h' = ch_general h /\ ch_handle h' = ch_handle h /\
  (eo_keys item' <> eo_keys item -> ch_option h' !! eo_keys item' = ch_option h !! eo_keys item') /\
  (f ∈ default [] (ch_option h !! eo_keys item) ->
     default [] (ch_option h !! eo_keys item) ≡ₚ f :: default [] (ch_option h' !! eo_keys item)) /\
  (f ∉ default [] (ch_option h !! eo_keys item) -> h' = h).
Proof. exact cat_removal. Qed.
Print Assumptions C55_option_listener.
Theorem C55_tag_listener : forall h t f t' h', tag_handle_ok t -> th_remove_tag h t f = Done h' ->
  th_active h' = th_active h /\ th_general h' = th_general h /\ th_handle h' = th_handle h /\
  (jt_index t' <> jt_index t -> th_tag h' !! jt_index t' = th_tag h !! jt_index t') /\
  (f ∈ default [] (th_tag h !! jt_index t) ->
     default [] (th_tag h !! jt_index t) ≡ₚ f :: default [] (th_tag h' !! jt_index t)) /\
  (f ∉ default [] (th_tag h !! jt_index t) -> h' = h).
Proof. exact tag_removal. Qed.
Print Assumptions C55_tag_listener.
(** The last registration takes the place of the removed one. *)
Example C55_hyps : ch_option (ch_remove_option
    (cat_run (ch_new sample_classic) (map (AddFor (ExportOption [] 0 1)) [7; 8; 7; 9])) (ExportOption [] 0 1) 7) !! (0, 1)
  = Some [9; 8; 7].
Proof. vm_compute; reflexivity. Qed.

(** C56 *)
Theorem C56_categories : forall h n, calls ci_next n (ch_iter h) =
  then_none n (imap (fun i _ => OptIter (ch_handle h) (N.of_nat i) 0) (cl_categories (ch_handle h))).
Proof. exact category_calls. Qed.
Print Assumptions C56_categories.
Theorem C56_options : forall cl c cat n, (cl_categories cl : list category) !! c = Some cat ->
  calls oi_next n (OptIter cl (N.of_nat c) 0) =
  then_none n (imap (fun i o => ExportOption (o_name o) (N.of_nat c) (N.of_nat i)) (cat_options cat)).
Proof. exact option_calls. Qed.
Print Assumptions C56_options.
Theorem C56_option_keys : forall cl c cat i opt,
  (cl_categories cl : list category) !! c = Some cat -> cat_options cat !! i = Some opt ->
  oi_name (OptIter cl (N.of_nat c) 0) = Done (cat_name cat) /\
  option_at cl (eo_keys (ExportOption (o_name opt) (N.of_nat c) (N.of_nat i))) cat opt.
Proof. exact iterator_keys. Qed.
Print Assumptions C56_option_keys.
Theorem C56_tags : forall h n, calls ti_next n (th_tags h) =
  then_none n (imap (fun i _ => JSTag (th_handle h) (N.of_nat i)) (cl_tags (th_handle h))).
Proof. exact tag_iter_calls. Qed.
Print Assumptions C56_tags.
Theorem C56_tag_keys : forall cl i t, (cl_tags cl : list tag) !! i = Some t ->
  jt_get_name (JSTag cl (N.of_nat i)) = Done (t_name t) /\
  tag_at cl (jt_index (JSTag cl (N.of_nat i))) t /\
  (tag_positions (cl_tags cl) -> tag_handle_ok (JSTag cl (N.of_nat i))).
Proof. exact iterator_tags. Qed.
Print Assumptions C56_tag_keys.
Example C56_hyps : match optimize sample_parse hash_order sample_raw with
  | Done (_, cl) => (map (fun r => bool_decide (is_Some r)) (calls ci_next 4 (ch_iter (ch_new cl))),
                     map (fun r => eo_keys <$> r) (calls oi_next 5 (OptIter cl 0 0)),
                     map (fun r => jt_index <$> r) (calls ti_next 3 (th_tags (th_new cl))))
  | _ => ([], [], [])
  end = ([true; true; false; false], [Some (0, 0); Some (0, 1); Some (0, 2); None; None], [Some 0; Some 1; None]).
Proof. vm_compute; reflexivity. Qed.

(** C57: that search delivers such positions is in P_lib.v. *)
Theorem C57_results : forall c ids n, Forall (fun sid => N.to_nat sid < length (c_products c))%nat ids ->
  calls pp_next n (pp_new c ids) = then_none n (map (JsProduct c) ids) /\
  forall sid, sid ∈ ids -> exists p, c_products c !! N.to_nat sid = Some p /\ jp_product (JsProduct c sid) = Done p.
Proof. exact producer_answers. Qed.
Print Assumptions C57_results.
Example C57_hyps : match optimize sample_parse hash_order sample_raw with
  | Done (c, _) => map (fun r => jp_sid <$> r) (calls pp_next 5 (pp_new c [2; 0; 2]))
  | _ => []
  end = [Some 2; Some 0; Some 2; None; None].
Proof. vm_compute; reflexivity. Qed.

(** C60 *)
Theorem C60_numeric : forall j p key, jp_product j = Done p ->
  match jp_numeric j key with
  | Done x => numeric_at (c_features (jp_container j)) (N.to_nat (p_sid p)) key x
  | Nope => forall x, ~ numeric_at (c_features (jp_container j)) (N.to_nat (p_sid p)) key x
  | _ => False
  end.
Proof. exact numeric_accessor. Qed.
Print Assumptions C60_numeric.
Theorem C60_string : forall j p key, jp_product j = Done p ->
  match jp_string j key with
  | Done s => string_at (c_features (jp_container j)) (N.to_nat (p_sid p)) key s
  | Nope => forall s, ~ string_at (c_features (jp_container j)) (N.to_nat (p_sid p)) key s
  | _ => False
  end.
Proof. exact string_accessor. Qed.
Print Assumptions C60_string.
Example C60_hyps : match optimize sample_parse hash_order sample_raw with
  | Done (c, _) => [bool_decide (is_Some (match jp_numeric (JsProduct c 1) s_price with Done x => Some x | _ => None end));
                    bool_decide (is_Some (match jp_numeric (JsProduct c 1) s_image_url with Done x => Some x | _ => None end));
                    bool_decide (is_Some (match jp_string (JsProduct c 1) s_image_url with Done x => Some x | _ => None end));
                    bool_decide (is_Some (match jp_string (JsProduct c 1) s_price with Done x => Some x | _ => None end))]
  | _ => []
  end = [true; false; true; false].
Proof. vm_compute; reflexivity. Qed.
