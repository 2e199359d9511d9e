(** From JSON values to catalogues. *)
From Coq Require Import String Lia ZifyBool ZifyN.
From Verif.model Require Import Base F32 Utf8 Prim Coll Data Gram Indexer Nodes Classic Lit Raw Js Lib Json.
From Verif.spec Require Import Json_spec.
From Verif.proofs Require Import Json_facts.
Local Open Scope N_scope.

(** ** Strings *)
Lemma decode_pieces_means ps s : decode_pieces ps = Some s -> means ps s.
Proof.
  revert s. induction ps as [ps IH] using (induction_ltof1 _ (@List.length piece)). unfold ltof in IH.
  intros s H. destruct ps as [|[c|e|n] ps]; cbn [decode_pieces] in H.
  - injection H as <-. constructor.
  - destruct (decode_pieces ps) as [s'|] eqn:E; [|done]. injection H as <-. constructor.
    apply IH; [cbn; lia|done].
  - destruct (escape_meaning e) as [c|] eqn:Ee; [|done].
    destruct (decode_pieces ps) as [s'|] eqn:E; [|done]. injection H as <-. constructor.
    + by apply escape_meaning_Some.
    + apply IH; [cbn; lia|done].
  - destruct ((55296 <=? n) && (n <=? 56319)) eqn:E1.
    + destruct ps as [|[| |m] ps]; try done. destruct ((56320 <=? m) && (m <=? 57343)) eqn:E2; [|done].
      destruct (decode_pieces ps) as [s'|] eqn:E; [|done]. cbn [mbind option_bind] in H. injection H as <-.
      replace ((n - 55296) * 1024 + (m - 56320) + 65536) with (65536 + (n - 55296) * 1024 + (m - 56320)) by lia.
      constructor; [lia|lia|]. apply IH; [cbn; lia|done].
    + destruct ((56320 <=? n) && (n <=? 57343)) eqn:E2; [done|].
      destruct (decode_pieces ps) as [s'|] eqn:E; [|done]. injection H as <-. constructor; [lia|].
      apply IH; [cbn; lia|done].
Qed.
Lemma means_decode_pieces ps s : means ps s -> decode_pieces ps = Some s.
Proof.
  induction 1 as [|c ps s _ IH|e c ps s He _ IH|n ps s Hn _ IH|hi lo ps s Hhi Hlo _ IH]; cbn [decode_pieces].
  - done.
  - by rewrite IH.
  - rewrite (proj2 (escape_meaning_Some e c) He). cbn [mbind option_bind]. by rewrite IH.
  - assert (E : (55296 <=? n) && (n <=? 56319) = false) by lia.
    assert (E' : (56320 <=? n) && (n <=? 57343) = false) by lia. rewrite E, E', IH. done.
  - assert (E : (55296 <=? hi) && (hi <=? 56319) = true) by lia.
    assert (E' : (56320 <=? lo) && (lo <=? 57343) = true) by lia. rewrite E, E', IH. cbn [mbind option_bind].
    do 2 f_equal. lia.
Qed.
Lemma decode_pieces_iff ps s : decode_pieces ps = Some s <-> means ps s.
Proof. split; [apply decode_pieces_means|apply means_decode_pieces]. Qed.
Lemma means_unique ps s s' : means ps s -> means ps s' -> s = s'.
Proof. rewrite <- !decode_pieces_iff. congruence. Qed.
Lemma plain_pieces_iff ps : forall s, plain_pieces ps = Some s <-> verbatim ps s.
Proof.
  unfold verbatim. induction ps as [|p ps IH]; intros s.
  - cbn. split; [by intros [= <-]|]. by destruct s.
  - destruct p as [c|e|n]; cbn [plain_pieces]; [|by split; [|destruct s]|by split; [|destruct s]].
    destruct (plain_pieces ps) as [s'|] eqn:E; cbn [mbind option_bind].
    + pose proof (proj1 (IH s') eq_refl) as ->. split; [by intros [= <-]|]. destruct s as [|c' s]; [done|].
      cbn. intros [= -> H]. apply IH in H. by injection H as ->.
    + split; [done|]. destruct s as [|c' s]; [done|]. cbn. intros [= _ H]. by apply IH in H.
Qed.
Lemma verbatim_means ps s : verbatim ps s -> means ps s.
Proof. intros ->. induction s as [|c s IH]; cbn; by constructor. Qed.

(** ** Structures *)
Lemma de_string_iff v s : de_string v = Some s <-> is_string means s v.
Proof.
  unfold de_string, is_string. split.
  - destruct v; try done. intros H%decode_pieces_iff. eauto.
  - intros (ps & -> & H). by apply decode_pieces_iff.
Qed.
Lemma de_str_iff v s : de_str v = Some s <-> is_string verbatim s v.
Proof.
  unfold de_str, is_string. split.
  - destruct v; try done. intros H%plain_pieces_iff. eauto.
  - intros (ps & -> & H). by apply plain_pieces_iff.
Qed.
Lemma de_vec_iff {A} (f : tree -> option A) (Q : A -> tree -> Prop) v l :
  (forall v x, f v = Some x <-> Q x v) -> de_vec f v = Some l <-> is_array Q l v.
Proof.
  intros Hf. unfold de_vec, is_array. split.
  - destruct v as [| | | |vs|]; try done. intros H%mapM_Some. exists vs. split; [done|].
    apply Forall2_flip. eapply Forall2_impl; [exact H|]. intros x y Hxy. by apply Hf.
  - intros (vs & -> & H). apply mapM_Some. apply Forall2_flip in H. eapply Forall2_impl; [exact H|].
    intros x y Hxy. by apply Hf.
Qed.
Lemma filter_one {A} (Q : A -> Prop) `{forall x, Decision (Q x)} (l : list A) x :
  filter Q l = [x] <-> exists a b, l = a ++ x :: b /\ Q x /\ Forall (fun y => ~ Q y) (a ++ b).
Proof.
  assert (Hnil : forall l : list A, filter Q l = [] <-> Forall (fun y => ~ Q y) l).
  { intros l'. split.
    - intros E. apply Forall_forall. intros y Hy HQ. apply (not_elem_of_nil y). rewrite <- E.
      by apply elem_of_list_filter.
    - intros HF. destruct (filter Q l') as [|y l0] eqn:E; [done|]. exfalso.
      assert (Hy : y ∈ filter Q l') by (rewrite E; left). apply elem_of_list_filter in Hy as [HQ Hy].
      rewrite Forall_forall in HF. by apply (HF y). }
  split.
  - revert x. induction l as [|y l IH]; intros x E; [done|]. rewrite filter_cons in E.
    destruct (decide (Q y)) as [HQ|HQ].
    + injection E as <- E. exists [], l. split_and!; [done|done|]. cbn. by apply Hnil.
    + apply IH in E as (a & b & -> & HQx & HF). exists (y :: a), b. split_and!; [done|done|].
      cbn. by constructor.
  - intros (a & b & -> & HQ & HF). apply Forall_app in HF as [Ha Hb].
    rewrite filter_app, filter_cons, decide_True by done.
    rewrite (proj2 (Hnil a) Ha), (proj2 (Hnil b) Hb). done.
Qed.
Lemma de_field_iff members name v : de_field members name = Some v <-> has_member members name v.
Proof.
  unfold de_field, has_member. split.
  - destruct (filter _ members) as [|[ps v'] [|]] eqn:E; try done. intros [= ->].
    apply filter_one in E as (a & b & -> & HQ & HF). exists a, ps, b.
    split_and!; [done|by apply decode_pieces_iff|]. eapply Forall_impl; [exact HF|].
    cbn. intros m Hm Hm'. by apply Hm, decode_pieces_iff.
  - intros (a & ps & b & E & Hps & HF).
    assert (E1 : filter (fun m => decode_pieces m.1 = Some name) members = [(ps, v)]).
    { apply filter_one. exists a, b. split_and!; [done|by apply decode_pieces_iff|].
      eapply Forall_impl; [exact HF|]. cbn. intros m Hm Hm'. by apply Hm, decode_pieces_iff. }
    by rewrite E1.
Qed.
Lemma de_struct_iff names v vs : de_struct names v = Some vs <-> has_fields names vs v.
Proof.
  unfold de_struct, has_fields. split.
  - destruct v as [| | | |l|members]; try done.
    + destruct (Nat.eqb_spec (List.length l) (List.length names)); [|done]. intros [= ->]. auto.
    + intros H. left. exists members. split; [done|].
      destruct (mapM (fun m => decode_pieces m.1) members) as [ks|] eqn:E; [|done]. cbn [mbind option_bind] in H.
      split.
      * apply mapM_Some in E. clear H. induction E as [|m k ms ks Hm _ IH]; constructor; [|done].
        exists k. by apply decode_pieces_iff.
      * apply mapM_Some in H. eapply Forall2_impl; [exact H|]. intros n w Hn. by apply de_field_iff.
  - intros [(members & -> & Hk & HF)|(-> & Hl)].
    + assert (E : exists ks, mapM (fun m => decode_pieces m.1) members = Some ks).
      { clear HF. induction Hk as [|m ms [k Hm] _ [ks IH]]; [by exists []|].
        exists (k :: ks). cbn. rewrite (proj2 (decode_pieces_iff _ _) Hm). cbn. by rewrite IH. }
      destruct E as [ks ->]. cbn [mbind option_bind]. apply mapM_Some. eapply Forall2_impl; [exact HF|].
      intros n w Hn. by apply de_field_iff.
    + by rewrite (proj2 (Nat.eqb_eq _ _) Hl).
Qed.

(** Undo one step of the option monad. *)
Lemma bind_Some' {A B} (f : A -> option B) (m : option A) y :
  (m ≫= f) = Some y <-> exists x, m = Some x /\ f x = Some y.
Proof. destruct m as [a|]; cbn; split; [eauto| |done|]; [intros (x & [= ->] & H); done|intros (x & ? & _); done]. Qed.

Lemma de_amount_iff v s : de_amount v = Some s <-> is_amount s v.
Proof.
  unfold de_amount, is_amount. rewrite bind_Some'. split.
  - intros (l & Hl & H). apply de_struct_iff in Hl. destruct l as [|a [|c [|]]]; try done.
    apply bind_Some' in H as (am & Ha & H). apply bind_Some' in H as (code & Hc & [= <-]).
    exists a, c, code. by rewrite <- !de_string_iff.
  - intros (a & c & code & Hl & Ha & Hc). exists [a; c]. split; [by apply de_struct_iff|].
    rewrite <- de_string_iff in Ha, Hc. rewrite Ha, Hc. done.
Qed.
Lemma de_price_iff v s : de_price v = Some s <-> is_price s v.
Proof.
  unfold de_price, is_price. rewrite bind_Some'. split.
  - intros (l & Hl & H). apply de_struct_iff in Hl. destruct l as [|a [|c [|]]]; try done.
    apply bind_Some' in H as (mn & Ha & H). apply bind_Some' in H as (mx & Hc & [= <-]).
    exists a, c, mx. by rewrite <- !de_amount_iff.
  - intros (a & c & mx & Hl & Ha & Hc). exists [a; c]. split; [by apply de_struct_iff|].
    rewrite <- de_amount_iff in Ha, Hc. rewrite Ha, Hc. done.
Qed.
Lemma de_media_iff v s : de_media v = Some s <-> is_media verbatim s v.
Proof.
  unfold de_media, is_media. rewrite bind_Some'. split.
  - intros (l & Hl & H). apply de_struct_iff in Hl. destruct l as [|a [|]]; try done.
    exists a. by rewrite <- de_str_iff.
  - intros (a & Hl & Ha). exists [a]. split; [by apply de_struct_iff|]. by apply de_str_iff.
Qed.
Lemma de_option_iff v o : de_option v = Some o <-> is_option verbatim o v.
Proof.
  unfold de_option, is_option. rewrite bind_Some'. split.
  - intros (l & Hl & H). apply de_struct_iff in Hl. destruct l as [|a [|c [|]]]; try done.
    apply bind_Some' in H as (n & Ha & H). apply bind_Some' in H as (vs & Hc & [= <-]).
    exists a, c. rewrite <- de_str_iff. split_and!; [done|done|]. eapply de_vec_iff; [|done].
    intros; apply de_str_iff.
  - intros (a & c & Hl & Ha & Hc). exists [a; c]. split; [by apply de_struct_iff|].
    rewrite <- de_str_iff in Ha. rewrite Ha. cbn [mbind option_bind].
    apply (de_vec_iff de_str) in Hc; [|intros; apply de_str_iff]. rewrite Hc. by destruct o.
Qed.
Lemma de_product_iff v raw : de_product v = Some raw <-> is_product verbatim raw v.
Proof.
  unfold de_product, is_product. rewrite bind_Some'. split.
  - intros (l & Hl & H). apply de_struct_iff in Hl.
    destruct l as [|d [|ts [|t [|n [|i [|os [|p [|ms [|]]]]]]]]]; try done.
    apply bind_Some' in H as (d' & Hd & H). apply bind_Some' in H as (ts' & Hts & H).
    apply bind_Some' in H as (t' & Ht & H). apply bind_Some' in H as (n' & Hn & H).
    apply bind_Some' in H as (i' & Hi & H). apply bind_Some' in H as (os' & Hos & H).
    apply bind_Some' in H as (p' & Hp & H). apply bind_Some' in H as (ms' & Hms & [= <-]).
    exists d, ts, t, n, i, os, p, ms. cbn. rewrite <- !de_str_iff, <- de_string_iff, <- de_price_iff.
    split_and!; try done.
    + eapply de_vec_iff; [|done]. intros; apply de_str_iff.
    + eapply de_vec_iff; [|done]. intros; apply de_option_iff.
    + eapply de_vec_iff; [|done]. intros; apply de_media_iff.
  - intros (d & ts & t & n & i & os & p & ms & Hl & Hd & Hts & Ht & Hn & Hi & Hos & Hp & Hms).
    exists [d; ts; t; n; i; os; p; ms]. split; [by apply de_struct_iff|].
    rewrite <- de_string_iff in Hd. rewrite <- de_str_iff in Ht, Hn, Hi. rewrite <- de_price_iff in Hp.
    apply (de_vec_iff de_str) in Hts; [|intros; apply de_str_iff].
    apply (de_vec_iff de_option) in Hos; [|intros; apply de_option_iff].
    apply (de_vec_iff de_media) in Hms; [|intros; apply de_media_iff].
    rewrite Hd. cbn [mbind option_bind]. rewrite Hts. cbn [mbind option_bind]. rewrite Ht. cbn [mbind option_bind].
    rewrite Hn. cbn [mbind option_bind]. rewrite Hi. cbn [mbind option_bind]. rewrite Hos. cbn [mbind option_bind].
    rewrite Hp. cbn [mbind option_bind]. rewrite Hms. by destruct raw.
Qed.

(** ** Catalogues *)
Definition read_entries (t : rstr) : option (list (rstr * raw_product)) := v ← read_json t; de_entries v.
Lemma read_catalogue_entries t : read_catalogue t = to_map <$> read_entries t.
Proof. unfold read_catalogue, read_entries. destruct (read_json t) as [v|]; [|done]. cbn. by destruct (de_entries v). Qed.
Lemma json_iff t v : read_json t = Some v <-> json_text t v.
Proof. split; [apply read_json_sound|apply read_json_complete]. Qed.
Lemma json_unique t v v' : json_text t v -> json_text t v' -> v = v'.
Proof. rewrite <- !json_iff. congruence. Qed.
Lemma read_entries_iff t entries : read_entries t = Some entries <-> is_catalogue verbatim entries t.
Proof.
  unfold read_entries, is_catalogue. rewrite bind_Some'. split.
  - intros (v & Hv & H). destruct v as [| | | | |members]; try done. exists members.
    split; [by apply json_iff|]. unfold de_entries in H. apply mapM_Some in H. apply Forall2_flip.
    eapply Forall2_impl; [exact H|]. intros m e He. apply bind_Some' in He as (k & Hk & He).
    apply bind_Some' in He as (p & Hp & [= <-]). cbn.
    split; [by apply decode_pieces_iff|by apply de_product_iff].
  - intros (members & Hv & H). exists (TObj members). split; [by apply json_iff|].
    unfold de_entries. apply mapM_Some. apply Forall2_flip in H. eapply Forall2_impl; [exact H|].
    intros m [k p] [Hk Hp]. cbn in *. rewrite (proj2 (decode_pieces_iff _ _) Hk). cbn [mbind option_bind].
    by rewrite (proj2 (de_product_iff _ _) Hp).
Qed.

(** ** The hash map *)
Lemma to_map_app l l' : to_map (l ++ l') = foldl (fun m '(key, p) => <[key := p]> m) (to_map l) l'.
Proof. unfold to_map. by rewrite foldl_app. Qed.
Lemma to_map_lookup entries key raw : to_map entries !! key = Some raw <-> last_entry entries key raw.
Proof.
  unfold last_entry. revert key raw.
  induction entries as [|[k p] l IH] using rev_ind; intros key raw.
  - cbn. rewrite lookup_empty. split; [done|]. intros (a & b & E & _). by destruct a.
  - rewrite to_map_app. cbn. destruct (decide (k = key)) as [->|Hk].
    + rewrite lookup_insert. split.
      * intros [= ->]. exists l, []. split; [done|]. apply not_elem_of_nil.
      * intros (a & b & E & Hb). destruct b as [|x b] using rev_ind.
        { apply app_inj_tail in E as [_ [= ->]]. done. }
        rewrite app_comm_cons, app_assoc in E. apply app_inj_tail in E as [_ <-].
        exfalso. apply Hb. rewrite map_app. apply elem_of_app. right. cbn. left.
    + rewrite lookup_insert_ne by done. rewrite IH. split.
      * intros (a & b & -> & Hb). exists a, (b ++ [(k, p)]).
        split; [by rewrite <- app_assoc|]. rewrite map_app, elem_of_app. cbn. rewrite elem_of_list_singleton.
        intros [?| ->]; done.
      * intros (a & b & E & Hb). destruct b as [|x b _] using rev_ind.
        { apply app_inj_tail in E as [_ [= -> ->]]. done. }
        rewrite app_comm_cons, app_assoc in E. apply app_inj_tail in E as [E <-].
        exists a, b. split; [done|]. intros Hb'. apply Hb. rewrite map_app. apply elem_of_app. by left.
Qed.
Lemma survivors_map entries mo : valid_order mo -> survivors entries (mo (map_to_list (to_map entries))).
Proof.
  intros Hmo. split.
  - rewrite (Hmo _). apply NoDup_fst_map_to_list.
  - intros key raw. rewrite (Hmo _), elem_of_map_to_list. apply to_map_lookup.
Qed.

Section index.
Context (low : N -> list N) (parse : rstr -> option f32).
Lemma index_rejects P mo bo ro so t : (forall entries, ~ is_catalogue verbatim entries t) ->
  index low parse P mo bo ro so t = Nope.
Proof.
  intros H. unfold index. rewrite read_catalogue_entries.
  destruct (read_entries t) as [entries|] eqn:E; [|done]. by apply read_entries_iff, H in E.
Qed.
Lemma index_accepts P mo bo ro so t entries : valid_order mo -> is_catalogue verbatim entries t ->
  exists l, survivors entries l /\
    index low parse P mo bo ro so t = index_and_serialize low parse P bo ro so (map snd l).
Proof.
  intros Hmo H. unfold index. rewrite read_catalogue_entries, (proj2 (read_entries_iff _ _) H).
  eexists. split; [by apply survivors_map|]. done.
Qed.
End index.
