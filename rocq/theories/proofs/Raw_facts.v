(** Facts about building the catalogue from raw products (model/Raw.v). *)
From Verif.model Require Import Base F32 Utf8 Prim Coll Data Gram Indexer Nodes Classic Lit Raw.
From Verif.spec Require Import Spec Data_spec Classic_spec Raw_spec.
From Verif.proofs Require Import Base_facts Sort_facts Data_facts Classic_facts Order_facts.

Lemma cmp_opp_lt c : reverse_ord c = Lt <-> c = Gt.
Proof. by destruct c. Qed.
Lemma total_cmp_reverse {A} (cmp : A -> A -> comparison) : total_cmp cmp -> total_cmp (fun x y => reverse_ord (cmp x y)).
Proof.
  intros [R S T]. split.
  - intros x. by rewrite R.
  - intros x y. rewrite S. by destruct (cmp x y).
  - intros x y z H1 H2. assert (cmp z x <> Gt) as H.
    { apply (T _ y); rewrite S; [by destruct (cmp y z)|by destruct (cmp x y)]. }
    rewrite S in H. by destruct (cmp x z).
Qed.
Lemma rank_table_ext {T} (b b' : T -> T -> Prop) keys ranks : (forall x y, x ∈ keys -> y ∈ keys -> b x y <-> b' x y) ->
  rank_table b keys ranks -> rank_table b' keys ranks.
Proof.
  intros E [P R]. split; [done|]. intros i j x y ri rj Hx Hy Hi Hj. rewrite (R i j x y ri rj) by done.
  rewrite !E by by eapply elem_of_list_lookup_2. done.
Qed.

Section raw.
Context (parse : rstr -> option f32).

Lemma price_not_image : s_price <> s_image_url.
Proof. done. Qed.

(** The columns after a prefix of the catalogue. *)
Definition columns (fs : feature_set) (prices : list f32) (images : list rstr) : Prop :=
  fs !! s_price = FFloat <$> nonempty prices /\ fs !! s_image_url = FString <$> nonempty images /\
  forall key, key <> s_price -> key <> s_image_url -> fs !! key = None.

Lemma nonempty_snoc {A} (l : list A) x : nonempty (l ++ [x]) = Some (l ++ [x]).
Proof. by destruct l. Qed.
Lemma columns_set_price fs prices images prices' : prices' <> [] -> columns fs prices images ->
  columns (<[s_price := FFloat prices']> fs) prices' images.
Proof.
  intros N (P & I & O). split; [|split].
  - etrans; [apply (lookup_insert (M := gmap rstr))|]. by destruct prices'.
  - etrans; [apply (lookup_insert_ne (M := gmap rstr)); done|]. done.
  - intros key ??. etrans; [apply (lookup_insert_ne (M := gmap rstr)); done|]. by apply O.
Qed.
Lemma columns_set_image fs prices images images' : images' <> [] -> columns fs prices images ->
  columns (<[s_image_url := FString images']> fs) prices images'.
Proof.
  intros N (P & I & O). split; [|split].
  - etrans; [apply (lookup_insert_ne (M := gmap rstr)); done|]. done.
  - etrans; [apply (lookup_insert (M := gmap rstr))|]. by destruct images'.
  - intros key ??. etrans; [apply (lookup_insert_ne (M := gmap rstr)); done|]. by apply O.
Qed.
Lemma snoc_not_nil {A} (l : list A) x : l ++ [x] <> [].
Proof. by destruct l. Qed.
Lemma columns_price fs prices images x : columns fs prices images ->
  exists fs', fs_add_float fs s_price x = Done fs' /\ columns fs' (prices ++ [x]) images.
Proof.
  intros C. pose proof C as (P & _ & _). unfold fs_add_float. rewrite P. exists (<[s_price := FFloat (prices ++ [x])]> fs).
  split; [by destruct prices|]. eapply columns_set_price; [apply snoc_not_nil|done].
Qed.
Lemma columns_image fs prices images x : columns fs prices images ->
  exists fs', fs_add_string fs s_image_url x = Done fs' /\ columns fs' prices (images ++ [x]).
Proof.
  intros C. pose proof C as (_ & I & _). unfold fs_add_string. rewrite I. exists (<[s_image_url := FString (images ++ [x])]> fs).
  split; [by destruct images|]. eapply columns_set_image; [apply snoc_not_nil|done].
Qed.

(** What the loop has built from the raw products read so far. *)
Definition loop_state (vm : vendor_manager) (input : list raw_product) (prices : list f32) (st : opt_state) : Prop :=
  os_i st = lenN input /\ Forall2 describes input (os_products st) /\ positions (os_products st) /\
  Forall (fun p => vm_tags vm !! v_name (p_vendor p) = Some (p_vendor p)) (os_products st) /\
  columns (os_features st) prices (first_images input) /\
  os_options st = map r_options input /\ os_tags st = map r_tags input.

Lemma positions_snoc ps p : positions ps -> p_sid p = lenN ps -> positions (ps ++ [p]).
Proof.
  intros W E i q H. apply lookup_app_Some in H as [H|[L H]]; [by apply W|].
  apply list_lookup_singleton_Some in H as [H <-]. rewrite E. unfold lenN. f_equal. lia.
Qed.
Lemma first_images_app l k : first_images (l ++ k) = first_images l ++ first_images k.
Proof. apply omap_app. Qed.

Lemma step_done vm input prices st raw x v :
  loop_state vm input prices st -> priced parse raw x -> vm_tags vm !! r_vendor raw = Some v -> v_name v = r_vendor raw ->
  exists st', optimize_step parse vm st raw = Done st' /\ loop_state vm (input ++ [raw]) (prices ++ [x]) st'.
Proof.
  intros (Ei & D & W & V & C & Eo & Et) Hx Hv En.
  unfold optimize_step, to_intermediate. rewrite Hx. cbn [unwrap mbind res_bind im_vendor im_other_string im_other_numeric].
  unfold vm_get. rewrite Hv. cbn [unwrap mbind res_bind].
  assert (L : length (os_products st) = length input) by (symmetry; by eapply Forall2_length).
  assert (S : exists fs', foldM (fun fs '(key, value) => fs_add_string fs key value)
      (match r_media raw with [] => [] | url :: _ => [(s_image_url, url)] end) (os_features st) = Done fs' /\
      columns fs' prices (first_images (input ++ [raw]))).
  { rewrite first_images_app. unfold first_images at 2. simpl. destruct (r_media raw) as [|url media]; simpl.
    - rewrite app_nil_r. eauto.
    - destruct (columns_image _ _ _ url C) as (fs' & -> & C'). simpl. eauto. }
  destruct S as (fs & -> & C'). cbn [mbind res_bind foldM].
  destruct (columns_price _ _ _ x C') as (fs' & -> & C''). cbn [mbind res_bind].
  eexists. split; [done|]. unfold loop_state; simpl. split; [|split; [|split; [|split; [|split; [|split]]]]].
  - rewrite Ei. unfold lenN. rewrite app_length. simpl. lia.
  - apply Forall2_app; [done|]. constructor; [|constructor]. unfold describes. simpl. done.
  - apply positions_snoc; [done|]. simpl. rewrite Ei. unfold lenN. by rewrite L.
  - apply Forall_app. split; [done|]. constructor; [|constructor]. simpl. by rewrite En.
  - done.
  - rewrite map_app. by rewrite Eo.
  - rewrite map_app. by rewrite Et.
Qed.

Lemma loop_done vm input : (forall raw, raw ∈ input -> exists v, vm_tags vm !! r_vendor raw = Some v /\ v_name v = r_vendor raw) ->
  forall prices done_input done_prices st, loop_state vm done_input done_prices st ->
  Forall2 (priced parse) input prices ->
  exists st', foldM (optimize_step parse vm) input st = Done st' /\ loop_state vm (done_input ++ input) (done_prices ++ prices) st'.
Proof.
  induction input as [|raw input IH]; intros Hv prices di dp st L H; inversion H; subst.
  - simpl. rewrite !app_nil_r. eauto.
  - cbn [foldM]. destruct (Hv raw) as (v & Hv1 & Hv2); [left|].
    edestruct step_done as (st1 & -> & L1); [exact L|eassumption|exact Hv1|exact Hv2|]. cbn [mbind res_bind].
    edestruct IH as (st2 & -> & L2); [intros; apply Hv; by right|exact L1|eassumption|].
    rewrite <- !app_assoc in L2. eauto.
Qed.
Lemma loop_panic vm input : (forall raw, raw ∈ input -> exists v, vm_tags vm !! r_vendor raw = Some v /\ v_name v = r_vendor raw) ->
  forall di dp st, loop_state vm di dp st -> ~ prices_parse parse input ->
  foldM (optimize_step parse vm) input st = Panic.
Proof.
  induction input as [|raw input IH]; intros Hv di dp st L H.
  - destruct H. constructor.
  - cbn [foldM]. destruct (Hv raw) as (v & Hv1 & Hv2); [left|].
    destruct (parse (r_price_min_amount raw)) as [x|] eqn:E.
    + edestruct step_done as (st1 & -> & L1); [exact L|exact E|exact Hv1|exact Hv2|]. cbn [mbind res_bind].
      eapply IH; [intros; apply Hv; by right|exact L1|]. intros C. apply H. constructor; [by exists x|done].
    + unfold optimize_step, to_intermediate. by rewrite E.
Qed.

Definition raw_vendors (input : list raw_product) : vendor_manager :=
  foldl (fun vm p => vm_insert vm (r_vendor p)) vm_new input.
Lemma raw_vendors_are input : vendors_are (first_seen (map r_vendor input)) (raw_vendors input).
Proof.
  assert (E : forall vm, foldl (fun vm p => vm_insert vm (r_vendor p)) vm input = foldl vm_insert vm (map r_vendor input)).
  { induction input as [|raw input IH]; intros vm; [done|]. cbn [foldl map]. apply IH. }
  unfold raw_vendors. rewrite E. apply vm_inserts_are.
Qed.
Lemma raw_vendors_get input raw : raw ∈ input -> exists v, vm_tags (raw_vendors input) !! r_vendor raw = Some v /\ v_name v = r_vendor raw.
Proof.
  intros H. destruct (raw_vendors_are input) as (_ & _ & T).
  assert (r_vendor raw ∈ first_seen (map r_vendor input)) as Hin.
  { rewrite first_seen_elem. by apply elem_of_list_fmap_1. }
  apply elem_of_list_lookup in Hin as [i Hi].
  exists (Vendor (r_vendor raw) (N.of_nat i)). split; [|done]. apply T. split; [|done].
  apply elem_of_list_lookup. exists i. unfold numbered. rewrite list_lookup_imap. by rewrite Hi.
Qed.
Lemma loop_start vm : loop_state vm [] [] (OptState 0 [] ∅ [] []).
Proof.
  repeat split; try done; try constructor.
Qed.
Lemma prices_listed input : prices_parse parse input <-> exists prices, Forall2 (priced parse) input prices.
Proof.
  split.
  - intros H. induction H as [|raw input [x Hx] _ [prices IH]]; [by exists []|]. exists (x :: prices). by constructor.
  - intros [prices H]. induction H; constructor; eauto.
Qed.

(** The whole of [optimize]. *)
Lemma price_keys c prices : c_features c !! s_price = FFloat <$> nonempty prices -> positions (c_products c) ->
  length prices = length (c_products c) ->
  Forall2 (fun p k => price_maker p (c_features c) = Done k) (c_products c) prices.
Proof.
  intros F W L. apply Forall2_same_length_lookup_2; [done|].
  intros i p x Hp Hx. unfold price_maker, fs_get. rewrite F.
  assert (E : nonempty prices = Some prices) by by destruct prices. rewrite E. cbn [fmap option_fmap option_map mbind option_bind].
  rewrite (W _ _ Hp). rewrite getN_of_nat. rewrite Hx. done.
Qed.

Lemma title_keys ps : Forall2 (fun p k => Done (p_title p) = Done k) ps (map p_title ps).
Proof. induction ps; by constructor. Qed.

Lemma optimize_done o input prices : Forall2 (priced parse) input prices ->
  exists c cl, optimize parse o input = Done (c, cl) /\
    Forall2 describes input (c_products c) /\ positions (c_products c) /\
    c_vendors c = raw_vendors input /\
    Forall (fun p => vm_tags (c_vendors c) !! v_name (p_vendor p) = Some (p_vendor p)) (c_products c) /\
    columns (c_features c) prices (first_images input) /\
    category_index_build (map r_options input) c = Done (cl_categories cl) /\
    tag_index_build (bo_tags o) (map r_tags input) c = Done (cl_tags cl) /\
    exists oa ou, order_add_custom_cmp ∅ c (fun p _ => Done (p_title p)) (fun a b => unwrap_or_equal (Some (str_cmp a b))) s_alphabetical = Done oa /\
      order_add_custom_cmp oa c price_maker (fun a b => unwrap_or_equal (f32_cmp a b)) s_price_up = Done ou /\
      order_add_custom_cmp ou c price_maker (fun a b => reverse_ord (unwrap_or_equal (f32_cmp a b))) s_price_down = Done (cl_order cl).
Proof.
  intros H. unfold optimize. fold (raw_vendors input).
  destruct (loop_done (raw_vendors input) input (raw_vendors_get input) prices [] [] _ (loop_start _) H)
    as (st & E & Ei & D & W & V & C & Eo & Et).
  rewrite E. cbn [mbind res_bind]. simpl app in *. rewrite Eo, Et.
  set (c := Container (os_products st) (raw_vendors input) (os_features st)).
  assert (L : length input = length (c_products c)) by by eapply Forall2_length.
  assert (Lp : length prices = length (c_products c)) by (rewrite <- L; symmetry; by eapply Forall2_length).
  destruct (tags_build_total (bo_tags o) (map r_tags input) c) as [tags Etags]; [by rewrite map_length|].
  rewrite Etags. cbn [mbind res_bind]. unfold order_add.
  destruct (order_add_any ∅ c (fun p _ => Done (p_title p)) (fun a b => unwrap_or_equal (Some (str_cmp a b)))
              s_alphabetical (map p_title (c_products c)) W) as (ra & Ea & _).
  { apply title_keys. }
  rewrite Ea. cbn [mbind res_bind].
  assert (K : Forall2 (fun p k => price_maker p (c_features c) = Done k) (c_products c) prices).
  { apply price_keys; [apply C|done..]. }
  destruct (order_add_any (<[s_alphabetical:=ra]> ∅) c price_maker (fun a b => unwrap_or_equal (f32_cmp a b))
              s_price_up prices W K) as (ru & Eu & _).
  rewrite Eu. cbn [mbind res_bind].
  destruct (order_add_any (<[s_price_up:=ru]> (<[s_alphabetical:=ra]> ∅)) c price_maker
              (fun a b => reverse_ord (unwrap_or_equal (f32_cmp a b))) s_price_down prices W K) as (rd & Ed & _).
  rewrite Ed. cbn [mbind res_bind].
  destruct (categories_build_total (map r_options input) c) as [cats Ecats]; [done|by rewrite map_length|].
  rewrite Ecats. cbn [mbind res_bind].
  eexists c, (Classic cats tags _). split; [done|]. do 7 (split; [done|]). eexists _, _. done.
Qed.
Lemma optimize_panic o input : ~ prices_parse parse input -> optimize parse o input = Panic.
Proof.
  intros H. unfold optimize. fold (raw_vendors input).
  by rewrite (loop_panic (raw_vendors input) input (raw_vendors_get input) [] [] _ (loop_start _) H).
Qed.

(** ** Consequences *)
Lemma prices_dec input : prices_parse parse input \/ ~ prices_parse parse input.
Proof.
  unfold prices_parse. induction input as [|raw input [IH|IH]]; [left; constructor|..].
  - destruct (parse (r_price_min_amount raw)) as [x|] eqn:E.
    + left. constructor; [by exists x|done].
    + right. intros H. apply Forall_cons in H as [[x Hx] _]. unfold priced in Hx. congruence.
  - right. intros H. apply Forall_cons in H as [_ H]. done.
Qed.
Lemma optimize_iff o input : (exists out, optimize parse o input = Done out) <-> prices_parse parse input.
Proof.
  split.
  - intros [out E]. destruct (prices_dec input) as [H|H]; [done|]. by rewrite optimize_panic in E.
  - intros (prices & H)%prices_listed. destruct (optimize_done o input prices H) as (c & cl & E & _). eauto.
Qed.
(** Everything known about a catalogue that was built. *)
Lemma optimize_inv o input c cl : optimize parse o input = Done (c, cl) ->
  exists prices, Forall2 (priced parse) input prices /\
    Forall2 describes input (c_products c) /\ positions (c_products c) /\
    c_vendors c = raw_vendors input /\
    Forall (fun p => vm_tags (c_vendors c) !! v_name (p_vendor p) = Some (p_vendor p)) (c_products c) /\
    columns (c_features c) prices (first_images input) /\
    category_index_build (map r_options input) c = Done (cl_categories cl) /\
    tag_index_build (bo_tags o) (map r_tags input) c = Done (cl_tags cl) /\
    exists oa ou, order_add_custom_cmp ∅ c (fun p _ => Done (p_title p)) (fun a b => unwrap_or_equal (Some (str_cmp a b))) s_alphabetical = Done oa /\
      order_add_custom_cmp oa c price_maker (fun a b => unwrap_or_equal (f32_cmp a b)) s_price_up = Done ou /\
      order_add_custom_cmp ou c price_maker (fun a b => reverse_ord (unwrap_or_equal (f32_cmp a b))) s_price_down = Done (cl_order cl).
Proof.
  intros E. assert (H : prices_parse parse input) by (apply (optimize_iff o); eauto).
  apply prices_listed in H as [prices H]. exists prices. split; [done|].
  destruct (optimize_done o input prices H) as (c' & cl' & E' & R). rewrite E in E'. injection E' as <- <-. done.
Qed.
Lemma priced_fun input prices prices' : Forall2 (priced parse) input prices -> Forall2 (priced parse) input prices' -> prices = prices'.
Proof.
  intros H. revert prices'. induction H as [|raw x input prices Hx _ IH]; intros prices' H'; inversion H' as [|? x' ? prices'' Hx' T]; subst; [done|].
  unfold priced in *. f_equal; [congruence|by apply IH].
Qed.

(** C71 *)
Lemma optimize_products o input c cl : optimize parse o input = Done (c, cl) ->
  Forall2 describes input (c_products c) /\ positions (c_products c).
Proof. intros (prices & _ & D & W & _)%optimize_inv. done. Qed.

(** C44 and the permutation part of C43 *)
Lemma optimize_orders_perm o input c cl : optimize parse o input = Done (c, cl) ->
  exists a u d, cl_order cl = <[s_price_down := d]> (<[s_price_up := u]> (<[s_alphabetical := a]> ∅)) /\
    Forall (fun ranks => ranks ≡ₚ map N.of_nat (seq 0 (length input))) [a; u; d].
Proof.
  intros (prices & H & D & W & _ & _ & C & _ & _ & oa & ou & Ea & Eu & Ed)%optimize_inv.
  assert (L : length input = length (c_products c)) by by eapply Forall2_length.
  assert (Lp : length prices = length input) by (symmetry; by eapply Forall2_length).
  destruct (order_add_any ∅ c (fun p _ => Done (p_title p)) (fun a b => unwrap_or_equal (Some (str_cmp a b)))
              s_alphabetical (map p_title (c_products c)) W (title_keys _)) as (ra & Ea' & Pa & _).
  rewrite Ea in Ea'. injection Ea' as ->.
  assert (K : Forall2 (fun p k => price_maker p (c_features c) = Done k) (c_products c) prices).
  { apply price_keys; [apply C|done|lia]. }
  edestruct (order_add_any (T := f32)) as (ru & Eu' & Pu & _); [exact W|exact K|]. rewrite Eu in Eu'. injection Eu' as ->.
  edestruct (order_add_any (T := f32)) as (rd & Ed' & Pd & _); [exact W|exact K|]. rewrite Ed in Ed'. injection Ed' as Ed'.
  exists ra, ru, rd. split; [done|]. rewrite map_length, <- L in Pa. rewrite Lp in Pu, Pd.
  repeat (constructor; [done|]). constructor.
Qed.
End raw.
