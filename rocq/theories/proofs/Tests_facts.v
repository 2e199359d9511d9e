(** Lemmas on the repository's tests and statistics. *)
From Coq Require Import String Sorting.Sorted.
From Verif.model Require Import Base F32 Utf8 Prim Coll Data Gram Indexer Lit Tests.
From Verif.spec Require Import Spec Data_spec Gram_spec Samples Gram_samples Serde_array_spec Tests_spec.
From Verif.proofs Require Import Base_facts Prim_facts F32_bits Prim_codec Utf8_facts Coll_facts Codec_lemmas Sort_facts Trie_props Size_facts.
Local Open Scope N_scope.

(** ** Round trips *)
Lemma many_pass {A} (enc : encoder A) (dec : decoder A) (eqb : A -> A -> bool) l :
  (forall x, eqb x x = true) -> Forall (fun x => reads_back enc dec x x) l ->
  many_serialize_deserialize enc dec eqb l = Done tt.
Proof.
  intros He H. induction H as [|x l Hx _ IH]; [done|]. simpl. unfold serialize_deserialize.
  specialize (Hx []). rewrite app_nil_r in Hx. rewrite Hx. simpl. rewrite He. exact IH.
Qed.
Lemma many_fail {A} (enc : encoder A) (dec : decoder A) (eqb : A -> A -> bool) l x r :
  many_serialize_deserialize enc dec eqb l = Done tt -> serialize_deserialize enc dec x = Panic ->
  many_serialize_deserialize enc dec eqb (l ++ x :: r) = Panic.
Proof.
  intros H Hx. induction l as [|y l IH]; simpl in *; [by rewrite Hx|].
  destruct (serialize_deserialize enc dec y); simpl in *; try done.
  destruct (eqb y a); [by apply IH|done].
Qed.
Lemma any_test {A} (enc : encoder A) (dec : decoder A) (eqb : A -> A -> bool) : (forall x y, eqb x y = true <-> x = y) ->
  forall l, many_serialize_deserialize enc dec eqb l = Done tt <-> Forall (fun x => dec (enc x) = Done ([], x)) l.
Proof.
  intros He l. induction l as [|x l IH]; [done|]. rewrite Forall_cons, <- IH. cbn [many_serialize_deserialize].
  unfold serialize_deserialize. destruct (dec (enc x)) as [[rest y]| | |]; simpl; [|split; [done|by intros [[=] _]]..].
  destruct rest as [|b rest]; simpl; [|split; [done|by intros [[=] _]]].
  destruct (eqb x y) eqn:E.
  - apply He in E as ->. split; [done|by intros [_ ?]].
  - split; [done|]. intros [[= ->] _]. by rewrite (proj2 (He x x)) in E.
Qed.
Lemma u64_test l : Forall (fun v => v < 2 ^ 64) l ->
  many_serialize_deserialize enc_u64 dec_u64 N.eqb l =
    if existsb (fun v => (2 ^ 56 <=? v) && (v <? 2 ^ 63)) l then Panic else Done tt.
Proof.
  intros H. induction H as [|v l Hv _ IH]; [done|]. cbn [many_serialize_deserialize existsb].
  unfold serialize_deserialize.
  destruct ((2 ^ 56 <=? v) && (v <? 2 ^ 63)) eqn:E; cbn [orb].
  - apply andb_true_iff in E as [E1 E2]. apply N.leb_le in E1. apply N.ltb_lt in E2.
    pose proof (dec_enc_u64_band v [] (conj E1 E2)) as D. rewrite app_nil_r in D. by rewrite D.
  - assert (D : dec_u64 (enc_u64 v ++ []) = Done ([], v)).
    { apply u64_roundtrip_iff; [done|]. intros [H1 H2]. apply andb_false_iff in E as [E|E].
      - apply N.leb_gt in E. lia.
      - apply N.ltb_ge in E. lia. }
    rewrite app_nil_r in D. rewrite D. simpl. rewrite N.eqb_refl. exact IH.
Qed.
Lemma u64_test_iff l : Forall (fun v => v < 2 ^ 64) l ->
  (many_serialize_deserialize enc_u64 dec_u64 N.eqb l = Done tt <-> Forall (fun v => ~ (2 ^ 56 <= v < 2 ^ 63)) l) /\
  (many_serialize_deserialize enc_u64 dec_u64 N.eqb l = Panic <-> Exists (fun v => 2 ^ 56 <= v < 2 ^ 63) l).
Proof.
  intros H. rewrite (u64_test l H). destruct (existsb _ l) eqn:E.
  - apply existsb_exists in E as (v & Hv & Hb). apply andb_true_iff in Hb as [E1 E2].
    apply N.leb_le in E1. apply N.ltb_lt in E2. apply elem_of_list_In in Hv.
    split; (split; [|]); try done.
    + intros F. rewrite Forall_forall in F. exfalso. by apply (F v).
    + intros _. apply Exists_exists. by exists v.
  - assert (F : Forall (fun v => ~ (2 ^ 56 <= v < 2 ^ 63)) l).
    { apply Forall_forall. intros v Hv [H1 H2]. assert (existsb (fun v => (2 ^ 56 <=? v) && (v <? 2 ^ 63)) l = true); [|congruence].
      apply existsb_exists. exists v. split; [by apply elem_of_list_In|]. apply andb_true_iff.
      split; [by apply N.leb_le|by apply N.ltb_lt]. }
    split; (split; [|]); try done.
    intros X. apply Exists_exists in X as (v & Hv & Hb). rewrite Forall_forall in F. by destruct (F v Hv).
Qed.
Lemma other_tests P : 
  (forall l, Forall (fun c => is_scalar c = true) l -> many_serialize_deserialize enc_char dec_char N.eqb l = Done tt) /\
  (forall l, many_serialize_deserialize enc_bool dec_bool Bool.eqb l = Done tt) /\
  (forall l, Forall (str_ok P) l -> many_serialize_deserialize enc_str (dec_str P) str_eqb l = Done tt).
Proof.
  split; [|split].
  - intros l H. apply many_pass; [apply N.eqb_refl|]. eapply Forall_impl; [exact H|]. intros c Hc. by apply rt_char.
  - intros l. apply many_pass; [apply Bool.eqb_reflx|]. apply Forall_forall. intros b _ rest. by destruct b.
  - intros l H. apply many_pass; [apply str_eqb_refl|]. eapply Forall_impl; [exact H|]. intros s Hs. by apply rt_str.
Qed.

(** ** Statistics *)
Definition nz (c : N) : option N := if c =? 0 then None else Some c.
Lemma popularity_fold P white (L : list (list N * list product)) : forall z (m : gmap N N) (f : N -> N),
  (0 <= z)%Z -> (z + Z.of_nat (length L) < 2 ^ 31)%Z -> (forall k, m !! k = nz (f k)) ->
  (forall k, f k + lenN L < 2 ^ 32) ->
  exists m', foldM (fun '(ones_with_space, products_for_gram) '(gram, products) =>
    ones_with_space ← (if (lenN products =? 1) && existsb white gram
                       then add_one_i32 P ones_with_space else Done ones_with_space);
    count ← match products_for_gram !! lenN products with
            | Some v => add_bits P 32 v 1
            | None => Done 1
            end;
    Done (ones_with_space, <[lenN products := count]> products_for_gram)) L (z, m)
  = Done (z + Z.of_nat (length (List.filter (fun x : list N * list product => N.eqb (lenN x.2) 1 && existsb white x.1) L)), m')%Z /\
  forall k, m' !! k = nz (f k + lenN (List.filter (fun x : list N * list product => lenN x.2 =? k) L)).
Proof.
  induction L as [|[g l] L IH]; intros z m f Hz Hb Hm Hf.
  - exists m. simpl. split; [f_equal; f_equal; lia|]. intros k. rewrite Hm. f_equal. unfold lenN. simpl. lia.
  - cbn [foldM List.filter fst snd].
    assert (Hlen : length ((g, l) :: L) = S (length L)) by done. rewrite Hlen in Hb.
    assert (HlenN : lenN ((g, l) :: L) = lenN L + 1) by (unfold lenN; simpl; lia).
    set (b := (lenN l =? 1) && existsb white g).
    assert (E1 : (if b then add_one_i32 P z else Done z) = Done (z + (if b then 1 else 0))%Z).
    { destruct b; [|f_equal; lia]. unfold add_one_i32.
      destruct (Z.ltb_spec (z + 1) (2 ^ 31)); [done|lia]. }
    rewrite E1.
    assert (E2 : match m !! lenN l with Some v => add_bits P 32 v 1 | None => Done 1 end = Done (f (lenN l) + 1)).
    { rewrite Hm. unfold nz. destruct (N.eqb_spec (f (lenN l)) 0) as [Ez|Ez].
      - rewrite Ez. done.
      - unfold add_bits. specialize (Hf (lenN l)). rewrite HlenN in Hf.
        destruct (N.ltb_spec (f (lenN l) + 1) (2 ^ 32)); [done|]. lia. }
    simpl. rewrite E2. simpl.
    destruct (IH (z + (if b then 1 else 0))%Z (<[lenN l := f (lenN l) + 1]> m)
      (fun k => if k =? lenN l then f k + 1 else f k)) as (m' & EL & Hm').
    + destruct b; lia.
    + destruct b; lia.
    + intros k. destruct (N.eqb_spec k (lenN l)) as [->|Hk].
      * rewrite lookup_insert. unfold nz. destruct (N.eqb_spec (f (lenN l) + 1) 0); [lia|done].
      * rewrite lookup_insert_ne by congruence. apply Hm.
    + intros k. specialize (Hf k). rewrite HlenN in Hf. destruct (k =? lenN l); lia.
    + exists m'. rewrite EL. split.
      * f_equal. f_equal. destruct b; cbn [length]; lia.
      * intros k. rewrite Hm'. f_equal. rewrite (N.eqb_sym (lenN l) k). destruct (k =? lenN l).
        -- unfold lenN. cbn [length]. lia.
        -- done.
Qed.

(** Counting entries of a list without duplicate keys that lists the map. *)
Lemma count_number (data : gmap (list N) (list product)) L (Q : list N * list product -> bool) (R : list N -> N -> Prop) :
  L ≡ₚ map_to_list data -> (forall g l, Q (g, l) = true <-> R g (lenN l)) ->
  number_of R data (lenN (List.filter Q L)).
Proof.
  intros HL HQ. exists (map fst (List.filter Q L)).
  assert (ND : NoDup (map fst L)).
  { change (NoDup (L.*1)). rewrite HL. apply NoDup_fst_map_to_list. }
  split; [|split].
  - clear HL HQ. induction L as [|x L IH]; simpl; [constructor|]. inversion_clear ND as [|? ? Hx ND'].
    destruct (Q x); simpl; [|by apply IH]. constructor; [|by apply IH].
    intros Hin. apply Hx. apply elem_of_list_In, in_map_iff in Hin as (y & Ey & Hy).
    apply List.filter_In in Hy as [Hy _]. apply elem_of_list_In, in_map_iff. by exists y.
  - unfold lenN. by rewrite map_length.
  - intros g. rewrite elem_of_list_In, in_map_iff. split.
    + intros ([g' l] & Eg & Hy). simpl in Eg. subst g'. apply List.filter_In in Hy as [Hy Hq].
      exists l. split; [|by apply HQ]. apply elem_of_map_to_list. rewrite <- HL. by apply elem_of_list_In.
    + intros (l & Hd & Hr). exists (g, l). split; [done|]. apply List.filter_In. split; [|by apply HQ].
      apply elem_of_list_In. rewrite HL. by apply elem_of_map_to_list.
Qed.
Lemma number_unique R data c c' : number_of R data c -> number_of R data c' -> c = c'.
Proof.
  intros (G & N1 & <- & H1) (G' & N2 & <- & H2). unfold lenN. f_equal. apply Permutation_length.
  apply NoDup_Permutation; [done|done|]. intros g. by rewrite H1, H2.
Qed.

Lemma sorted_keys_rising rows : NoDup (map fst rows) ->
  StronglySorted (le_cmp (fun a b : N * N => N.compare a.1 b.1)) rows -> rising rows.
Proof.
  intros ND H. induction H as [|x l Hl IH Hx]; [constructor|]. inversion_clear ND as [|? ? Hn ND'].
  constructor; [by apply IH|]. rewrite Forall_forall in Hx |- *. intros y Hy. specialize (Hx y Hy).
  assert (x.1 <> y.1).
  { intros E. apply Hn. rewrite E. apply elem_of_list_In, in_map, elem_of_list_In, Hy. }
  unfold le_cmp in Hx. destruct (N.compare_spec x.1 y.1); try lia. done.
Qed.

Lemma popularity P white o o' data : valid_order o -> valid_order o' -> N.of_nat (size data) < 2 ^ 31 ->
  exists ones products_for_gram, gram_popularity P white o data = Done (Z.of_N ones, products_for_gram) /\
  number_of (fun g k => k = 1 /\ Exists (fun c => white c = true) g) data ones /\
  let rows := popularity_rows o' products_for_gram in
  rising rows /\ forall k c, (k, c) ∈ rows <-> 0 < c /\ number_of (fun _ k' => k' = k) data c.
Proof.
  intros Ho Ho' Hs. set (L := o (map_to_list data)).
  assert (HL : L ≡ₚ map_to_list data) by apply Ho.
  assert (Hlen : lenN L = N.of_nat (size data)).
  { unfold lenN. rewrite HL. reflexivity. }
  destruct (popularity_fold P white L 0%Z ∅ (fun _ => 0)) as (m & E & Hm).
  - lia.
  - unfold lenN in Hlen. lia.
  - intros k. by rewrite lookup_empty.
  - intros k. lia.
  - exists (lenN (List.filter (fun x => (lenN x.2 =? 1) && existsb white x.1) L)), m.
    split; [|split].
    + unfold gram_popularity. fold L. rewrite E. f_equal. f_equal. unfold lenN. lia.
    + apply count_number; [done|]. intros g l. simpl. rewrite andb_true_iff, N.eqb_eq, existsb_exists, Exists_exists.
      split; (intros [? (x & Hx & ?)]; split; [done|]; exists x; split; [|done]; by apply elem_of_list_In).
    + intros rows. assert (HR : rows ≡ₚ map_to_list m) by (unfold rows, popularity_rows; rewrite sort_by_perm; apply Ho').
      split.
      * apply sorted_keys_rising.
        -- change (NoDup (rows.*1)). rewrite HR. apply NoDup_fst_map_to_list.
        -- apply sort_by_sorted; intros *; unfold le_cmp; destruct (N.compare_spec x.1 y.1), (N.compare_spec y.1 x.1); simpl; try done; try lia;
           destruct (N.compare_spec x.1 z.1), (N.compare_spec y.1 z.1); try done; lia.
      * intros k c. rewrite HR, elem_of_map_to_list, Hm. rewrite N.add_0_l. unfold nz.
        pose proof (count_number data L (fun x => lenN x.2 =? k) (fun _ k' => k' = k) HL ltac:(intros g l; simpl; by rewrite N.eqb_eq)) as HC.
        destruct (N.eqb_spec (lenN (List.filter (fun x : list N * list product => lenN x.2 =? k) L)) 0) as [Ez|Ez].
        -- split; [done|]. intros [Hc HN]. rewrite (number_unique _ _ _ _ HN HC) in Hc. lia.
        -- split.
           ++ intros [= <-]. split; [lia|done].
           ++ intros [Hc HN]. f_equal. exact (number_unique _ _ _ _ HC HN).
Qed.

Lemma rising_unique rows : forall rows', rising rows -> rising rows' -> (forall x, x ∈ rows <-> x ∈ rows') -> rows = rows'.
Proof.
  induction rows as [|x rows IH]; intros [|y rows'] H H' HE; [done| | |].
  - exfalso. assert (y ∈ []) as X by (apply HE; left). by apply elem_of_nil in X.
  - exfalso. assert (x ∈ []) as X by (apply HE; left). by apply elem_of_nil in X.
  - inversion_clear H as [|? ? Hr Hx]. inversion_clear H' as [|? ? Hr' Hy].
    rewrite Forall_forall in Hx, Hy.
    assert (x = y) as ->.
    { assert (x ∈ y :: rows') as X by (apply HE; left). assert (y ∈ x :: rows) as Y by (apply HE; left).
      apply elem_of_cons in X as [->|X]; [done|]. apply elem_of_cons in Y as [->|Y]; [done|].
      specialize (Hx y Y). specialize (Hy x X). lia. }
    f_equal. apply IH; [done|done|]. intros z. split; intros Hz.
    + assert (z ∈ y :: rows') as X by (apply HE; by right). apply elem_of_cons in X as [->|X]; [|done].
      specialize (Hx y Hz). lia.
    + assert (z ∈ y :: rows) as X by (apply HE; by right). apply elem_of_cons in X as [->|X]; [|done].
      specialize (Hy y Hz). lia.
Qed.
Lemma popularity_orders P white o1 o2 o1' o2' data r1 r2 : 
  valid_order o1 -> valid_order o2 -> valid_order o1' -> valid_order o2' -> N.of_nat (size data) < 2 ^ 31 ->
  gram_popularity P white o1 data = Done r1 -> gram_popularity P white o2 data = Done r2 ->
  r1.1 = r2.1 /\ popularity_csv (popularity_rows o1' r1.2) = popularity_csv (popularity_rows o2' r2.2).
Proof.
  intros H1 H2 H1' H2' Hs E1 E2.
  destruct (popularity P white o1 o1' data H1 H1' Hs) as (a & m & Ea & Na & Ra & Ia).
  destruct (popularity P white o2 o2' data H2 H2' Hs) as (b & m' & Eb & Nb & Rb & Ib).
  rewrite E1 in Ea. rewrite E2 in Eb. injection Ea as ->. injection Eb as ->. simpl.
  split; [by rewrite (number_unique _ _ _ _ Na Nb)|]. f_equal. apply rising_unique; [done|done|].
  intros [k c]. by rewrite Ia, Ib.
Qed.

(** ** The table *)
Lemma show_fuel_decimal fuel : forall v, v < 10 ^ N.of_nat fuel -> (0 < fuel)%nat -> decimal (show_fuel fuel v) v.
Proof.
  induction fuel as [|fuel IH]; intros v Hv Hf; [lia|]. cbn [show_fuel].
  destruct (N.ltb_spec v 10) as [Hs|Hs].
  - split; [|split; [done|]].
    + pose proof (sf_digit [] 0 v sf_nil ltac:(lia)) as X. simpl in X. done.
    + simpl. intros [= E]. do 2 f_equal. lia.
  - assert (Hf' : (0 < fuel)%nat).
    { destruct fuel; [|lia]. simpl in Hv. lia. }
    assert (Hq : v / 10 < 10 ^ N.of_nat fuel).
    { apply N.div_lt_upper_bound; [lia|]. rewrite Nat2N.inj_succ, N.pow_succ_r' in Hv. lia. }
    destruct (IH (v / 10) Hq Hf') as (Hst & Hne & Hz). pose proof (N.mod_lt v 10 ltac:(lia)) as Hm.
    split; [|split].
    + pose proof (sf_digit _ _ (v mod 10) Hst ltac:(lia)) as X.
      rewrite <- (N.div_mod v 10) in X by lia. exact X.
    + by destruct (show_fuel fuel (v / 10)).
    + intros Hh. exfalso. assert (Hh' : head (show_fuel fuel (v / 10)) = Some 48) by (by destruct (show_fuel fuel (v / 10))).
      apply Hz in Hh'. rewrite Hh' in Hst. inversion Hst as [E|s w d Hs0 Hd E1 E2].
      apply (app_inj_tail s []) in E1 as [-> E1]. inversion Hs0 as [E0|s' w' d' ? ? E0]; [|by destruct s'].
      assert (1 <= v / 10) by (apply N.div_le_lower_bound; lia). lia.
Qed.
Lemma show_decimal v : decimal (show v) v.
Proof.
  apply show_fuel_decimal; [|lia]. rewrite Nat2N.inj_succ.
  assert (H : v < 2 ^ N.of_nat (N.size_nat v)).
  { destruct v as [|p]; [done|]. pose proof (N.size_gt (N.pos p)) as H. 
    replace (N.of_nat (N.size_nat (N.pos p))) with (N.size (N.pos p)); [done|]. simpl.
    clear. induction p; simpl; lia. }
  eapply N.lt_le_trans; [exact H|]. etransitivity; [apply N.pow_le_mono_l with (b := 10); lia|].
  apply N.pow_le_mono_r; lia.
Qed.
Lemma table rows : exists lines, popularity_csv rows = (lit "product_amount;ngrams" ++ [10] ++ concat lines)%list /\
  Forall2 table_line rows lines.
Proof.
  unfold popularity_csv.
  assert (H : forall rows acc, exists lines, fold_left (fun csv '(product_amount, ngrams) => (csv ++ show product_amount ++ [59] ++ show ngrams ++ [10])%list)
    rows acc = (acc ++ concat lines)%list /\ Forall2 table_line rows lines).
  { clear rows. induction rows as [|[k c] rows IH]; intros acc; cbn [fold_left].
    - exists []. simpl. rewrite app_nil_r. split; [done|constructor].
    - destruct (IH (acc ++ show k ++ [59] ++ show c ++ [10])%list) as (lines & E & F).
      exists ((show k ++ [59] ++ show c ++ [10])%list :: lines). split.
      + rewrite E. cbn [concat]. by rewrite <- !app_assoc.
      + constructor; [|done]. exists (show k), (show c). split; [done|]. split; apply show_decimal. }
  destruct (H rows (lit "product_amount;ngrams" ++ [10])%list) as (lines & E & F).
  exists lines. split; [|done]. rewrite E. by rewrite <- app_assoc.
Qed.

(** ** Slices *)
Lemma slice_spec s : forall len t, slice_to s len = Done t <-> exists u, s = (t ++ u)%list /\ str_len t = len.
Proof.
  induction s as [|c s IH]; intros len t; cbn [slice_to].
  - destruct (N.eqb_spec len 0) as [->|Hn].
    + split; [intros [= <-]; by exists []|]. intros (u & E & _). by destruct t.
    + split; [done|]. intros (u & E & El). destruct t; [|done]. by destruct Hn.
  - destruct (N.eqb_spec len 0) as [->|Hn].
    + split; [intros [= <-]; by exists (c :: s)|]. intros (u & E & El). by apply str_len_0 in El as ->.
    + destruct (N.leb_spec (char_len c) len) as [Hc|Hc].
      * destruct (slice_to s (len - char_len c)) as [t'| | |] eqn:Et; simpl.
        -- apply IH in Et as (u & -> & El). split.
           ++ intros [= <-]. exists u. split; [done|]. rewrite str_len_cons. lia.
           ++ intros (u' & E & El'). destruct t as [|x t]; [by destruct Hn|]. injection E as -> E.
              rewrite str_len_cons in El'.
              assert (Done t' = Done t) as Ht; [|by injection Ht as ->].
              rewrite <- (proj2 (IH (len - char_len x) t')) by (by exists u).
              apply IH. exists u'. split; [done|]. lia.
        -- split; [done|]. intros (u & E & El). destruct t as [|x t]; [by destruct Hn|]. injection E as -> E.
           rewrite str_len_cons in El.
           rewrite (proj2 (IH (len - char_len x) t)) in Et; [done|]. exists u. split; [done|]. lia.
        -- split; [done|]. intros (u & E & El). destruct t as [|x t]; [by destruct Hn|]. injection E as -> E.
           rewrite str_len_cons in El.
           rewrite (proj2 (IH (len - char_len x) t)) in Et; [done|]. exists u. split; [done|]. lia.
        -- split; [done|]. intros (u & E & El). destruct t as [|x t]; [by destruct Hn|]. injection E as -> E.
           rewrite str_len_cons in El.
           rewrite (proj2 (IH (len - char_len x) t)) in Et; [done|]. exists u. split; [done|]. lia.
      * split; [done|]. intros (u & E & El). destruct t as [|x t]; [by destruct Hn|]. injection E as -> E.
        rewrite str_len_cons in El. lia.
Qed.
Lemma slice_total s : forall len, (exists t, slice_to s len = Done t) \/ slice_to s len = Panic.
Proof.
  induction s as [|c s IH]; intros len; cbn [slice_to]; destruct (len =? 0); eauto.
  destruct (char_len c <=? len); [|by right]. destruct (IH (len - char_len c)) as [[t ->]| ->]; simpl; eauto.
Qed.
Lemma slices s len : 
  (forall t, slice_to s len = Done t <-> exists u, s = (t ++ u)%list /\ str_len t = len) /\
  (slice_to s len = Panic <-> ~ exists t u, s = (t ++ u)%list /\ str_len t = len).
Proof.
  split; [intros t; apply slice_spec|]. destruct (slice_total s len) as [[t E]|E]; rewrite E.
  - split; [done|]. intros H. destruct H. exists t. by apply slice_spec.
  - split; [|done]. intros _ (t & H). apply slice_spec in H. congruence.
Qed.

(** ** The catalogue behind the statistics *)
Lemma catalogue_popularity P n bo source pc gi white o o' : (1 <= n)%nat -> valid_build_order bo ->
  total_grams (map snd source) < 2 ^ 31 -> index_from P n bo source pc = Done gi ->
  lenN (c_products pc) < 2 ^ 64 -> lenN (c_products pc) <= usize_max P -> valid_order o -> valid_order o' ->
  exists limit ones products_for_gram, cutoff_for (lenN (c_products pc)) limit /\
  gram_popularity P white o (gi_data gi) = Done (ones, products_for_gram) /\
  let rows := popularity_rows o' products_for_gram in
  rising rows /\ forall k c, (k, c) ∈ rows <-> 0 < c /\ 0 < k < limit /\ occur_times n source k c.
Proof.
  intros Hn Hbo Ht E Hp1 Hp2 Ho Ho'.
  assert (Ht' : total_grams (map snd source) < 2 ^ 32) by (eapply N.lt_trans; [exact Ht|reflexivity]).
  destruct (posting_lists P n bo source pc gi Hn Hbo Ht' E Hp1 Hp2) as (limit & Hl & HP).
  destruct (posting_bound P n bo source pc gi Hn Hbo Ht' E) as [B1 B2].
  destruct (popularity P white o o' (gi_data gi) Ho Ho') as (ones & m & EP & _ & HR & HI); [lia|].
  exists limit, (Z.of_N ones), m. split; [done|]. split; [done|]. intros rows. split; [done|].
  intros k c. unfold rows. rewrite HI. 
  assert (HK : forall g, (exists l, gi_data gi !! g = Some l /\ lenN l = k) <-> lenN (owners n source g) = k /\ 0 < k < limit).
  { intros g. destruct (HP g) as [H1 H2]. split.
    - intros (l & El & Hk). destruct (H1 l El) as [Hperm _]. apply Permutation_length in Hperm.
      assert (Hk' : lenN (owners n source g) = k) by (unfold lenN in *; lia). split; [done|].
      destruct (proj1 H2 (ex_intro _ l El)) as [Hne Hlt]. rewrite Hk' in Hlt. split; [|done].
      unfold lenN in Hk'. destruct (owners n source g); [done|]. simpl in Hk'. lia.
    - intros [Hk [H0 Hlt]]. destruct (proj2 H2) as [l El].
      + split; [|lia]. intros En. rewrite En in Hk. simpl in Hk. unfold lenN in Hk. simpl in Hk. lia.
      + exists l. split; [done|]. destruct (H1 l El) as [Hperm _]. apply Permutation_length in Hperm.
        unfold lenN in *. lia. }
  split.
  - intros [Hc (G & ND & <- & HG)]. split; [done|]. 
    assert (HG' : forall g, g ∈ G <-> lenN (owners n source g) = k /\ 0 < k < limit).
    { intros g. rewrite HG. apply HK. }
    assert (Hk : 0 < k < limit).
    { destruct G as [|g G]; [unfold lenN in Hc; simpl in Hc; lia|]. apply (HG' g). left. }
    split; [done|]. exists G. split; [done|]. split; [done|]. intros g. rewrite HG'. tauto.
  - intros [Hc [Hk (G & ND & <- & HG)]]. split; [done|]. exists G. split; [done|]. split; [done|].
    intros g. rewrite HK, HG. tauto.
Qed.

Lemma amount_is_not_products : exists gi products_for_gram,
  index_from wasm32 2 hash_order stutter (plain_container stutter) = Done gi /\
  gram_popularity wasm32 (fun _ => false) no_order (gi_data gi) = Done (0%Z, products_for_gram) /\
  popularity_rows no_order products_for_gram = [(1, 5); (2, 1)] /\
  forall g, is_Some (gi_data gi !! g) -> length (filter (fun '(p, t) => g ∈ windows 2 t) stutter) = 1%nat.
Proof.
  eexists _, _. split; [vm_compute; reflexivity|]. split; [vm_compute; reflexivity|].
  split; [vm_compute; reflexivity|]. intros g [l Hl]. apply elem_of_map_to_list in Hl.
  match type of Hl with _ ∈ map_to_list ?d =>
    assert (F : Forall (fun x => length (filter (fun '(p, t) => x.1 ∈ windows 2 t) stutter) = 1%nat) (map_to_list d)) end.
  { vm_compute map_to_list. repeat (apply Forall_cons; split; [vm_compute; reflexivity|]). apply Forall_nil. exact Logic.I. }
  rewrite Forall_forall in F. exact (F _ Hl).
Qed.
