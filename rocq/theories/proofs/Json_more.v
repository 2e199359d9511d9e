(** Which catalogues can be written so that they are read, and which cannot. *)
From Coq Require Import String Lia ZifyBool ZifyN.
From Verif.model Require Import Base F32 Utf8 Prim Coll Data Gram Indexer Nodes Classic Lit Raw Js Lib Json.
From Verif.spec Require Import Json_spec.
From Verif.proofs Require Import Json_facts Json_props.
Local Open Scope N_scope.

(** ** Trees of texts *)
Definition wf_piece (p : piece) : Prop :=
  match p with
  | Plain c => 32 <= c /\ c <> 34 /\ c <> 92
  | Esc e => e ∈ lit """\/bfnrt"
  | Hex n => n < 65536
  end.
Inductive wf_tree : tree -> Prop :=
| wf_null : wf_tree TNull
| wf_bool b : wf_tree (TBool b)
| wf_num s : number_text s -> wf_tree (TNum s)
| wf_str ps : Forall wf_piece ps -> wf_tree (TStr ps)
| wf_arr l : Forall wf_tree l -> wf_tree (TArr l)
| wf_obj l : Forall (fun m => Forall wf_piece m.1 /\ wf_tree m.2) l -> wf_tree (TObj l).

Lemma hex_digit_lt c v : hex_digit c v -> v < 16.
Proof. unfold hex_digit. lia. Qed.
Lemma string_text_wf ps s : string_text ps s -> Forall wf_piece ps.
Proof.
  induction 1 as [|c ps s H1 H2 H3 _ IH|e ps s He _ IH|a b c d va vb vc vd ps s Ha Hb Hc Hd _ IH];
    constructor; try done.
  cbn. apply hex_digit_lt in Ha, Hb, Hc, Hd. lia.
Qed.
Lemma text_wf : (forall v s, value_text v s -> wf_tree v) /\
  (forall l s, items_text l s -> Forall wf_tree l) /\
  (forall l s, members_text l s -> Forall (fun m => Forall wf_piece m.1 /\ wf_tree m.2) l).
Proof.
  apply text_ind; intros; try (by constructor).
  - constructor. by eapply string_text_wf.
  - constructor; [|done]. split; [by eapply string_text_wf|done].
  - constructor; [|done]. split; [by eapply string_text_wf|done].
Qed.
Lemma json_text_wf t v : json_text t v -> wf_tree v.
Proof. intros (w1 & s & w2 & _ & _ & H & _). by apply text_wf in H. Qed.

(** ** Every such tree can be written *)
Lemma hex_char v : v < 16 -> exists c, hex_digit c v.
Proof.
  intros H. unfold hex_digit. destruct (N.le_gt_cases v 9).
  - exists (v + 48). lia.
  - exists (v + 55). lia.
Qed.
Lemma wf_string_text ps : Forall wf_piece ps -> exists s, string_text ps s.
Proof.
  induction 1 as [|p ps Hp _ [s IH]]; [exists []; constructor|]. destruct p as [c|e|n]; cbn in Hp.
  - exists (c :: s). destruct Hp as (? & ? & ?). by constructor.
  - exists (92 :: e :: s). by constructor.
  - destruct (hex_char (n / 4096)) as [a Ha]; [apply N.div_lt_upper_bound; lia|].
    destruct (hex_char (n / 256 mod 16)) as [b Hb]; [by apply N.mod_lt|].
    destruct (hex_char (n / 16 mod 16)) as [c Hc]; [by apply N.mod_lt|].
    destruct (hex_char (n mod 16)) as [d Hd]; [by apply N.mod_lt|].
    exists (92 :: 117 :: a :: b :: c :: d :: s).
    replace n with (n / 4096 * 4096 + (n / 256 mod 16) * 256 + (n / 16 mod 16) * 16 + n mod 16) at 1.
    + by constructor.
    + pose proof (N.div_mod n 16 ltac:(lia)) as E1. pose proof (N.div_mod (n / 16) 16 ltac:(lia)) as E2.
      pose proof (N.div_mod (n / 256) 16 ltac:(lia)) as E3.
      rewrite N.div_div in E2 by lia. change (16 * 16) with 256 in E2.
      rewrite N.div_div in E3 by lia. change (256 * 16) with 4096 in E3. lia.
Qed.
Lemma wf_value_text : forall v, wf_tree v -> exists s, value_text v s.
Proof.
  fix IH 1. intros v H. destruct v as [|b|s|ps|l|l].
  - eexists. constructor.
  - destruct b; eexists; constructor.
  - exists s. constructor. by inversion H.
  - inversion H as [| | |? Hps| |]; subst. apply wf_string_text in Hps as [s Hs]. eexists. by constructor.
  - assert (Hl : Forall wf_tree l) by (by inversion H). clear H.
    assert (E : l = [] \/ exists s, items_text l s).
    { revert l Hl. fix IHl 1. intros [|x l] Hl; [by left|right]. apply Forall_cons_1 in Hl as [Hx Hl].
      apply IH in Hx as [s Hs]. apply IHl in Hl as [->|[s' Hs']].
      - exists ([] ++ s ++ []). constructor; [constructor|done|constructor].
      - exists ([] ++ s ++ [] ++ [44] ++ s'). constructor; [constructor|done|constructor|done]. }
    destruct E as [->|[s Hs]]; [exists ([91] ++ [] ++ [93]); constructor; constructor|].
    eexists. by constructor.
  - assert (Hl : Forall (fun m => Forall wf_piece m.1 /\ wf_tree m.2) l) by (by inversion H). clear H.
    assert (E : l = [] \/ exists s, members_text l s).
    { revert l Hl. fix IHl 1. intros [|[k x] l] Hl; [by left|right]. apply Forall_cons_1 in Hl as [[Hk Hx] Hl].
      cbn in Hk, Hx. apply wf_string_text in Hk as [ks Hks].
      apply IH in Hx as [s Hs]. apply IHl in Hl as [->|[s' Hs']].
      - exists ([] ++ [34] ++ ks ++ [34] ++ [] ++ [58] ++ [] ++ s ++ []).
        constructor; try done; constructor.
      - exists ([] ++ [34] ++ ks ++ [34] ++ [] ++ [58] ++ [] ++ s ++ [] ++ [44] ++ s').
        constructor; try done; constructor. }
    destruct E as [->|[s Hs]]; [exists ([123] ++ [] ++ [125]); constructor; constructor|].
    eexists. by constructor.
Qed.

(** ** Strings that need escapes *)
Definition plain_char (c : N) : Prop := 32 <= c /\ c <> 34 /\ c <> 92.
Global Instance plain_char_dec c : Decision (plain_char c).
Proof. unfold plain_char. apply _. Defined.
Lemma no_escape s : ~ needs_escape s <-> Forall plain_char s.
Proof.
  unfold needs_escape, plain_char. rewrite Forall_forall. split.
  - intros H c Hc. destruct (decide (plain_char c)) as [|Hn]; [done|]. exfalso. apply H. exists c.
    split; [done|]. unfold plain_char in Hn. lia.
  - intros H (c & Hc & Hn). apply H in Hc. lia.
Qed.
Lemma verbatim_no_escape s v : is_string verbatim s v -> wf_tree v -> ~ needs_escape s.
Proof.
  intros (ps & -> & ->) H. inversion H as [| | |? Hps| |]; subst. apply no_escape.
  rewrite Forall_map in Hps. eapply Forall_impl; [exact Hps|]. done.
Qed.
Lemma has_fields_wf names vs v : has_fields names vs v -> wf_tree v -> Forall wf_tree vs.
Proof.
  intros [(members & -> & _ & HF)|(-> & _)] H.
  - inversion H as [| | | | |? Hm]; subst. clear H.
    induction HF as [|n w names vs (a & ps & b & -> & _) _ IH]; constructor; [|done].
    apply Forall_app in Hm as [_ Hm]. apply Forall_cons_1 in Hm as [[_ Hm] _]. done.
  - by inversion H.
Qed.
Lemma array_wf {A} (Q : A -> tree -> Prop) (R : A -> Prop) l v :
  is_array Q l v -> wf_tree v -> (forall x w, Q x w -> wf_tree w -> R x) -> Forall R l.
Proof.
  intros (vs & -> & HF) H HR. inversion H as [| | | |? Hl|]; subst. clear H.
  induction HF as [|x w l vs Hx _ IH]; [constructor|]. apply Forall_cons_1 in Hl as [Hw Hl].
  constructor; [by eapply HR|auto].
Qed.
Lemma product_no_escape raw v : is_product verbatim raw v -> wf_tree v ->
  Forall (fun s => ~ needs_escape s) (borrowed raw).
Proof.
  intros (d & ts & t & n & i & os & p & ms & Hf & _ & Hts & Ht & Hn & Hi & Hos & _ & Hms) H.
  pose proof (has_fields_wf _ _ _ Hf H) as Hw.
  repeat match type of Hw with Forall _ (_ :: _) => apply Forall_cons_1 in Hw as [? Hw] end.
  unfold borrowed. rewrite !Forall_app. split_and!.
  - repeat constructor; by eapply verbatim_no_escape.
  - eapply array_wf; [exact Hts|done|]. apply verbatim_no_escape.
  - eapply array_wf; [exact Hms|done|]. intros url w (u & Hu & Hs) Hw'.
    pose proof (has_fields_wf _ _ _ Hu Hw') as Hw2. apply Forall_cons_1 in Hw2 as [Hw2 _].
    by eapply verbatim_no_escape.
  - apply Forall_concat, Forall_map. eapply array_wf; [exact Hos|done|].
    intros o w (nm & vs & Ho & Hnm & Hvs) Hw'. pose proof (has_fields_wf _ _ _ Ho Hw') as Hw2.
    apply Forall_cons_1 in Hw2 as [Hw2 Hw3]. apply Forall_cons_1 in Hw3 as [Hw3 _].
    constructor; [by eapply verbatim_no_escape|]. eapply array_wf; [exact Hvs|done|]. apply verbatim_no_escape.
Qed.
Lemma catalogue_no_escape entries t : is_catalogue verbatim entries t ->
  Forall (fun e => Forall (fun s => ~ needs_escape s) (borrowed e.2)) entries.
Proof.
  intros (members & Ht & HF). apply json_text_wf in Ht. inversion Ht as [| | | | |? Hm]; subst. clear Ht.
  induction HF as [|e m es ms [_ Hp] _ IH]; [constructor|]. apply Forall_cons_1 in Hm as [[_ Hw] Hm].
  constructor; [by eapply product_no_escape|auto].
Qed.

(** Reading verbatim is a special case; what is read is determined. *)
Lemma is_string_weaken s v : is_string verbatim s v -> is_string means s v.
Proof. intros (ps & -> & H). exists ps. split; [done|by apply verbatim_means]. Qed.
Lemma is_string_unique s s' v : is_string means s v -> is_string means s' v -> s = s'.
Proof. intros (ps & -> & H) (ps' & [= <-] & H'). by eapply means_unique. Qed.
Lemma is_array_weaken {A} (Q R : A -> tree -> Prop) l v : (forall x w, Q x w -> R x w) ->
  is_array Q l v -> is_array R l v.
Proof. intros H (vs & -> & HF). exists vs. split; [done|]. eapply Forall2_impl; [exact HF|done]. Qed.
Lemma is_array_unique {A} (Q : A -> tree -> Prop) l l' v :
  (forall x x' w, Q x w -> Q x' w -> x = x') -> is_array Q l v -> is_array Q l' v -> l = l'.
Proof.
  intros H (vs & -> & HF) (vs' & [= <-] & HF'). revert l' HF'.
  induction HF as [|x w l vs Hx _ IH]; intros l' HF'; inversion HF'; subst; [done|].
  f_equal; [by eapply H|by apply IH].
Qed.
Lemma has_member_unique members name v v' : has_member members name v -> has_member members name v' -> v = v'.
Proof. rewrite <- !de_field_iff. congruence. Qed.
Lemma has_fields_unique names vs vs' v : has_fields names vs v -> has_fields names vs' v -> vs = vs'.
Proof. rewrite <- !de_struct_iff. congruence. Qed.
Lemma is_product_weaken raw v : is_product verbatim raw v -> is_product means raw v.
Proof.
  intros (d & ts & t & n & i & os & p & ms & Hf & Hd & Hts & Ht & Hn & Hi & Hos & Hp & Hms).
  exists d, ts, t, n, i, os, p, ms. split_and!; try done; try (by apply is_string_weaken).
  - eapply is_array_weaken; [|exact Hts]. apply is_string_weaken.
  - eapply is_array_weaken; [|exact Hos]. intros o w (nm & vs & Ho & Hnm & Hvs). exists nm, vs.
    split_and!; [done|by apply is_string_weaken|]. eapply is_array_weaken; [|exact Hvs]. apply is_string_weaken.
  - eapply is_array_weaken; [|exact Hms]. intros u w (x & Hx & Hu). exists x. split; [done|by apply is_string_weaken].
Qed.
Lemma is_amount_unique s s' v : is_amount s v -> is_amount s' v -> s = s'.
Proof. rewrite <- !de_amount_iff. congruence. Qed.
Lemma is_price_unique s s' v : is_price s v -> is_price s' v -> s = s'.
Proof. rewrite <- !de_price_iff. congruence. Qed.
Lemma is_product_unique raw raw' v : is_product means raw v -> is_product means raw' v -> raw = raw'.
Proof.
  intros (d & ts & t & n & i & os & p & ms & Hf & Hd & Hts & Ht & Hn & Hi & Hos & Hp & Hms)
    (d' & ts' & t' & n' & i' & os' & p' & ms' & Hf' & Hd' & Hts' & Ht' & Hn' & Hi' & Hos' & Hp' & Hms').
  pose proof (has_fields_unique _ _ _ _ Hf Hf') as [= <- <- <- <- <- <- <- <-].
  destruct raw as [rd rts rt rn ri ros rp rms], raw' as [rd' rts' rt' rn' ri' ros' rp' rms']. cbn in *.
  f_equal; try (by eapply is_string_unique); try (by eapply is_price_unique).
  - eapply is_array_unique; [|exact Hts|exact Hts']. apply is_string_unique.
  - eapply is_array_unique; [|exact Hos|exact Hos'].
    intros o o' w (nm & vs & Ho & Hnm & Hvs) (nm' & vs' & Ho' & Hnm' & Hvs').
    pose proof (has_fields_unique _ _ _ _ Ho Ho') as [= <- <-].
    destruct o as [o1 o2], o' as [o1' o2']. cbn in *. f_equal; [by eapply is_string_unique|].
    eapply is_array_unique; [|exact Hvs|exact Hvs']. apply is_string_unique.
  - eapply is_array_unique; [|exact Hms|exact Hms']. intros u u' w (x & Hx & Hu) (x' & Hx' & Hu').
    pose proof (has_fields_unique _ _ _ _ Hx Hx') as [= <-]. by eapply is_string_unique.
Qed.
Lemma is_catalogue_weaken entries t : is_catalogue verbatim entries t -> is_catalogue means entries t.
Proof.
  intros (members & Ht & HF). exists members. split; [done|]. eapply Forall2_impl; [exact HF|].
  intros e m [? ?]. split; [done|by apply is_product_weaken].
Qed.
Lemma is_catalogue_unique entries entries' t : is_catalogue means entries t -> is_catalogue means entries' t ->
  entries = entries'.
Proof.
  intros (members & Ht & HF) (members' & Ht' & HF'). pose proof (json_unique _ _ _ Ht Ht') as [= <-].
  clear Ht Ht'. revert entries' HF'.
  induction HF as [|[k p] m es ms [Hk Hp] _ IH]; intros es' HF'; inversion HF' as [|[k' p'] ? ? ? [Hk' Hp']]; subst;
    [done|]. cbn in *. f_equal; [|by apply IH].
  f_equal; [by eapply means_unique|by eapply is_product_unique].
Qed.
Lemma index_rejects_escapes low parse P mo bo ro so t entries e s :
  is_catalogue means entries t -> e ∈ entries -> s ∈ borrowed e.2 -> needs_escape s ->
  index low parse P mo bo ro so t = Nope.
Proof.
  intros Hc He Hs Hn. apply index_rejects. intros entries' Hc'.
  assert (entries = entries') as <-
    by (eapply is_catalogue_unique; [exact Hc|by apply is_catalogue_weaken]).
  apply catalogue_no_escape in Hc'. rewrite Forall_forall in Hc'. specialize (Hc' _ He).
  rewrite Forall_forall in Hc'. by apply (Hc' _ Hs).
Qed.

(** ** Writing a catalogue *)
Definition safe_pieces (s : rstr) : list piece := map (fun c => if decide (plain_char c) then Plain c else Hex c) s.
Lemma safe_means s : means (safe_pieces s) s.
Proof.
  induction s as [|c s IH]; cbn; [constructor|]. destruct (decide (plain_char c)) as [H|H]; constructor; try done.
  unfold plain_char in H. lia.
Qed.
Lemma safe_wf s : Forall wf_piece (safe_pieces s).
Proof.
  apply Forall_map, Forall_forall. intros c _. cbn. destruct (decide (plain_char c)) as [H|H]; [done|].
  unfold plain_char in H. cbn. lia.
Qed.
Definition plain_key (s : string) : list piece := map Plain (lit s).
Definition write_string (s : rstr) : tree := TStr (safe_pieces s).
Definition write_amount (s : rstr) : tree :=
  TObj [(plain_key "amount", write_string s); (plain_key "currencyCode", write_string [])].
Definition write_price (s : rstr) : tree :=
  TObj [(plain_key "min", write_amount s); (plain_key "max", write_amount s)].
Definition write_media (s : rstr) : tree := TObj [(plain_key "url", TStr (map Plain s))].
Definition write_option (o : raw_option) : tree :=
  TObj [(plain_key "name", TStr (map Plain (ro_name o)));
        (plain_key "values", TArr (map (fun s => TStr (map Plain s)) (ro_values o)))].
Definition write_product (raw : raw_product) : tree :=
  TObj [(plain_key "description", write_string (r_description raw));
        (plain_key "tags", TArr (map (fun s => TStr (map Plain s)) (r_tags raw)));
        (plain_key "title", TStr (map Plain (r_title raw)));
        (plain_key "vendor", TStr (map Plain (r_vendor raw)));
        (plain_key "id", TStr (map Plain (r_id raw)));
        (plain_key "options", TArr (map write_option (r_options raw)));
        (plain_key "price", write_price (r_price_min_amount raw));
        (plain_key "media", TArr (map write_media (r_media raw)))].
Lemma write_string_is s : is_string means s (write_string s).
Proof. exists (safe_pieces s). split; [done|apply safe_means]. Qed.
Lemma plain_is s : is_string verbatim s (TStr (map Plain s)).
Proof. by exists (map Plain s). Qed.
Lemma map_is_array {A} (Q : A -> tree -> Prop) f l : (forall x, Q x (f x)) -> is_array Q l (TArr (map f l)).
Proof. intros H. exists (map f l). split; [done|]. apply Forall2_fmap_r. by apply Forall_Forall2_diag, Forall_true. Qed.
Lemma write_amount_is s : is_amount s (write_amount s).
Proof.
  exists (write_string s), (write_string []), []. split_and!; [|apply write_string_is..].
  unfold write_amount. generalize (write_string s), (write_string []). intros a c. apply de_struct_iff.
  vm_compute. done.
Qed.
Lemma write_price_is s : is_price s (write_price s).
Proof.
  exists (write_amount s), (write_amount s), s. split_and!; [|apply write_amount_is..].
  unfold write_price. generalize (write_amount s). intros a. apply de_struct_iff. vm_compute. done.
Qed.
Lemma write_media_is s : is_media verbatim s (write_media s).
Proof.
  exists (TStr (map Plain s)). split; [|apply plain_is].
  unfold write_media. generalize (TStr (map Plain s)). intros a. apply de_struct_iff. vm_compute. done.
Qed.
Lemma option_fields (n vs : tree) : has_fields (map lit ["name"; "values"]%string) [n; vs]
  (TObj [(plain_key "name", n); (plain_key "values", vs)]).
Proof. apply de_struct_iff. vm_compute. done. Qed.
Lemma write_option_is o : is_option verbatim o (write_option o).
Proof.
  unfold is_option, write_option. do 2 eexists. split; [apply option_fields|].
  split; [apply plain_is|apply map_is_array; apply plain_is].
Qed.
Lemma product_fields (d ts t n i os p ms : tree) :
  has_fields (map lit ["description"; "tags"; "title"; "vendor"; "id"; "options"; "price"; "media"]%string)
    [d; ts; t; n; i; os; p; ms]
    (TObj [(plain_key "description", d); (plain_key "tags", ts); (plain_key "title", t);
           (plain_key "vendor", n); (plain_key "id", i); (plain_key "options", os);
           (plain_key "price", p); (plain_key "media", ms)]).
Proof. apply de_struct_iff. vm_compute. done. Qed.
Lemma write_product_is raw : is_product verbatim raw (write_product raw).
Proof.
  unfold is_product, write_product.
  do 8 eexists. split; [apply product_fields|]. split_and!.
  - apply write_string_is.
  - apply map_is_array. apply plain_is.
  - apply plain_is.
  - apply plain_is.
  - apply plain_is.
  - apply map_is_array. apply write_option_is.
  - apply write_price_is.
  - apply map_is_array. apply write_media_is.
Qed.

Lemma plain_key_wf s : Forall plain_char (lit s) -> Forall wf_piece (plain_key s).
Proof. intros H. apply Forall_map. eapply Forall_impl; [exact H|]. done. Qed.
Ltac key := cbn [fst]; apply plain_key_wf; apply (bool_decide_unpack _); vm_compute; exact Logic.I.
Ltac members := repeat (apply Forall_cons_2; [split; [key|cbn [snd]]|]); try apply Forall_nil_2.
Lemma write_string_wf s : wf_tree (write_string s).
Proof. constructor. apply safe_wf. Qed.
Lemma plain_wf s : ~ needs_escape s -> wf_tree (TStr (map Plain s)).
Proof. rewrite no_escape. intros H. constructor. apply Forall_map. eapply Forall_impl; [exact H|]. done. Qed.
Lemma write_amount_wf s : wf_tree (write_amount s).
Proof. constructor. members; apply write_string_wf. Qed.
Lemma write_price_wf s : wf_tree (write_price s).
Proof. constructor. members; apply write_amount_wf. Qed.
Lemma write_media_wf s : ~ needs_escape s -> wf_tree (write_media s).
Proof. intros H. constructor. members. by apply plain_wf. Qed.
Lemma write_option_wf o : ~ needs_escape (ro_name o) -> Forall (fun s => ~ needs_escape s) (ro_values o) ->
  wf_tree (write_option o).
Proof.
  intros H1 H2. constructor. members.
  - by apply plain_wf.
  - constructor. apply Forall_map. eapply Forall_impl; [exact H2|]. apply plain_wf.
Qed.
Lemma write_product_wf raw : Forall (fun s => ~ needs_escape s) (borrowed raw) -> wf_tree (write_product raw).
Proof.
  unfold borrowed. rewrite !Forall_app. intros (H1 & Hts & Hms & Hos).
  apply Forall_cons_1 in H1 as [Ht H1]. apply Forall_cons_1 in H1 as [Hn H1]. apply Forall_cons_1 in H1 as [Hi _].
  constructor. members.
  - apply write_string_wf.
  - constructor. apply Forall_map. eapply Forall_impl; [exact Hts|]. apply plain_wf.
  - by apply plain_wf.
  - by apply plain_wf.
  - by apply plain_wf.
  - constructor. apply Forall_map. induction (r_options raw) as [|o os IH]; [constructor|].
    cbn in Hos. apply Forall_cons_1 in Hos as [Ho1 Hos]. apply Forall_app in Hos as [Ho2 Hos].
    constructor; [by apply write_option_wf|by apply IH].
  - apply write_price_wf.
  - constructor. apply Forall_map. eapply Forall_impl; [exact Hms|]. apply write_media_wf.
Qed.
Lemma catalogue_writable entries :
  Forall (fun e => Forall (fun s => ~ needs_escape s) (borrowed e.2)) entries <->
  exists t, is_catalogue verbatim entries t.
Proof.
  split; [|intros [t H]; by eapply catalogue_no_escape].
  intros H. pose (members := map (fun e : rstr * raw_product => (safe_pieces e.1, write_product e.2)) entries).
  destruct (wf_value_text (TObj members)) as [s Hs].
  { constructor. apply Forall_map. eapply Forall_impl; [exact H|]. intros e He. cbn.
    split; [apply safe_wf|by apply write_product_wf]. }
  exists s, members. split.
  - exists [], s, []. split_and!; [by rewrite app_nil_r|constructor|done|constructor].
  - apply Forall2_fmap_r. apply Forall_Forall2_diag, Forall_true. intros [k raw]. cbn.
    split; [apply safe_means|apply write_product_is].
Qed.
