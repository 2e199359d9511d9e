(** Strings, vectors, maps, arrays and id lists: round trips and decoder safety. *)
From Verif.model Require Import Base F32 Utf8 Prim Coll.
From Verif.spec Require Import Spec.
From Verif.proofs Require Import Base_facts Sort_facts Prim_facts Prim_codec F32_bits Utf8_facts.
From Coq Require Import Sorting.Sorted.
From Coq Require Import ZifyBool ZifyNat ZifyN.
Ltac Zify.zify_post_hook ::= Z.div_mod_to_equations.

Lemma rt_usize_ok P v : size_ok P v -> rt enc_usize (dec_usize P) v v.
Proof. intros [H1 H2]. apply rt_usize; [by left|done]. Qed.
Lemma with_capacity_ok P k n : n <= cap_max P k -> with_capacity P k n = Done tt.
Proof. unfold with_capacity. intros H. apply N.leb_le in H. by rewrite H. Qed.
Lemma with_capacity_inv P k n u : with_capacity P k n = Done u -> n <= cap_max P k.
Proof. unfold with_capacity. destruct (N.leb_spec n (cap_max P k)); done. Qed.
Lemma with_capacity_not_stuck P k n : with_capacity P k n <> Stuck.
Proof. unfold with_capacity. by destruct (n <=? cap_max P k). Qed.
Lemma with_capacity_not_nope P k n : with_capacity P k n <> Nope.
Proof. unfold with_capacity. by destruct (n <=? cap_max P k). Qed.

(** ** Strings *)
Lemma rt_str P s : str_ok P s -> rt enc_str (dec_str P) s s.
Proof.
  intros [Hv Hl] rest. unfold enc_str, dec_str. rewrite <- app_assoc, (rt_usize_ok P _ Hl). simpl.
  replace (str_len s <=? lenN (utf8 s ++ rest)) with true.
  2: { symmetry. apply N.leb_le. rewrite lenN_app. unfold str_len. lia. }
  unfold str_len. rewrite take_lenN_app, drop_lenN_app, utf8_decode_encode by done. done.
Qed.
Lemma dec_str_cases P input :
  dec_str P input =
    match dec_usize P input with
    | Done (rest, len) =>
      if len <=? lenN rest then
        match utf8_decode (take (N.to_nat len) rest) with
        | Some s => Done (drop (N.to_nat len) rest, s)
        | None => Nope
        end
      else Panic
    | Nope => Nope | Panic => Panic | Stuck => Stuck
    end.
Proof.
  unfold dec_str. destruct (dec_usize P input) as [[rest len]| | |]; simpl; try done.
  destruct (len <=? lenN rest); [|done]. by destruct (utf8_decode _).
Qed.
Lemma dec_str_sound P input rest s : dec_str P input = Done (rest, s) ->
  valid_str s /\ exists mid, dec_usize P input = Done (mid, str_len s) /\ mid = utf8 s ++ rest.
Proof.
  rewrite dec_str_cases. destruct (dec_usize P input) as [[mid len]| | |]; try done.
  destruct (N.leb_spec len (lenN mid)) as [Hl|]; [|done].
  destruct (utf8_decode _) as [t|] eqn:E; [|done]. intros [= <- <-].
  apply utf8_decode_sound in E as [Hv E]. split; [done|]. exists mid.
  assert (Hlen : str_len t = len).
  { unfold str_len. rewrite E. unfold lenN in *. rewrite take_length. lia. }
  rewrite Hlen, E. split; [done|]. by rewrite take_drop.
Qed.
Lemma dec_str_eats P : eats 1 (dec_str P).
Proof.
  intros i r v H. apply dec_str_sound in H as (_ & mid & H & ->).
  apply dec_usize_eats in H as (pre & -> & Hp). exists (pre ++ utf8 v).
  rewrite app_length, <- app_assoc. split; [done|lia].
Qed.
Lemma dec_str_no_stuck P : no_stuck (dec_str P).
Proof.
  intros i. rewrite dec_str_cases. destruct (dec_usize P i) as [[r l]| | |] eqn:E; try done.
  - destruct (_ <=? _); [|done]. by destruct (utf8_decode _).
  - by apply dec_usize_no_stuck in E.
Qed.
Lemma dec_str_gives P : gives (dec_str P) valid_str.
Proof. intros i r v H. by apply dec_str_sound in H as [? _]. Qed.

(** ** Truncation *)
(** Every char of [s] starts at a byte offset of at most [max]. *)
Definition starts_within (max : N) (s : rstr) : Prop :=
  forall pre c post, s = pre ++ c :: post -> str_len pre <= max.

(** What truncation computes. *)
Definition limited (max : N) (s r : rstr) : Prop :=
  (r = s /\ starts_within max s) \/
  (exists pre c post, s = pre ++ c :: post /\ max < str_len pre /\ starts_within max pre /\
     ((exists w, pre = r ++ 32 :: w /\ 32 ∉ w) \/ (r = pre /\ 32 ∉ pre))).

Lemma starts_within_snoc max s c : starts_within max s -> str_len s <= max ->
  starts_within max (s ++ [c]).
Proof.
  intros H Hl pre d post E.
  destruct post as [|x post] using rev_ind.
  - apply app_inj_tail in E as [-> ->]. done.
  - rewrite app_comm_cons, app_assoc in E. apply app_inj_tail in E as [E ->].
    by apply (H pre d post).
Qed.

Lemma limit_go_spec max rest seen last :
  starts_within max seen ->
  match last with
  | Some v => exists w, seen = v ++ 32 :: w /\ 32 ∉ w
  | None => 32 ∉ seen
  end ->
  limited max (seen ++ rest) (limit_go max rest seen (str_len seen) last).
Proof.
  revert seen last. induction rest as [|c rest IH]; intros seen last Hs Hl; simpl.
  - left. rewrite app_nil_r. done.
  - destruct (N.ltb_spec max (str_len seen)) as [Hm|Hm].
    + right. exists seen, c, rest. split; [done|]. split; [done|]. split; [done|].
      destruct last as [v|]; [by left|by right].
    + replace (seen ++ c :: rest) with ((seen ++ [c]) ++ rest) by (by rewrite <- app_assoc).
      replace (str_len seen + char_len c) with (str_len (seen ++ [c])).
      2: { rewrite str_len_app, str_len_cons, str_len_nil. lia. }
      apply IH; [by apply starts_within_snoc|].
      destruct (N.eqb_spec c 32) as [->|Hc].
      * exists []. split; [done|]. apply not_elem_of_nil.
      * destruct last as [v|].
        -- destruct Hl as (w & -> & Hw). exists (w ++ [c]). rewrite <- app_assoc. split; [done|].
           rewrite elem_of_app, elem_of_list_singleton. intros [?|?]; auto.
        -- rewrite elem_of_app, elem_of_list_singleton. intros [?|?]; auto.
Qed.
Lemma limit_spec max s : limited max s (limit_string_len s max).
Proof.
  unfold limit_string_len. apply (limit_go_spec max s [] None).
  - intros [|? ?] ? ?; done.
  - apply not_elem_of_nil.
Qed.
Lemma starts_within_len max s : starts_within max s -> str_len s <= max + 4.
Proof.
  intros H. destruct s as [|c s _] using rev_ind; [rewrite str_len_nil; lia|].
  specialize (H s c [] eq_refl). rewrite str_len_app, str_len_cons, str_len_nil.
  pose proof (char_len_bound c). lia.
Qed.
Lemma limited_fix max s : starts_within max s -> limit_string_len s max = s.
Proof.
  intros H. destruct (limit_spec max s) as [[E _]|(pre & c & post & E & Hm & _)]; [done|].
  exfalso. specialize (H pre c post E). lia.
Qed.
Lemma limit_short max s : str_len s <= max -> limit_string_len s max = s.
Proof.
  intros H. apply limited_fix. intros pre c post ->. rewrite str_len_app in H. lia.
Qed.
(** The cuts [&input[0..viable]] and [&input[0..offset]] are at char boundaries:
    the result is a prefix of the chars, its bytes a prefix of the bytes. *)
Lemma limit_prefix max s : exists t, s = limit_string_len s max ++ t.
Proof.
  destruct (limit_spec max s) as [[E _]|(pre & c & post & E & Hm & _ & [(w & Ew & _)|[Er _]])].
  - exists []. rewrite app_nil_r. done.
  - exists ((32 :: w) ++ c :: post). rewrite E at 1. rewrite Ew at 1. by rewrite <- app_assoc.
  - exists (c :: post). by rewrite Er.
Qed.
Lemma limit_go_bytes max s : exists t, utf8 s = utf8 (limit_string_len s max) ++ utf8 t.
Proof. destruct (limit_prefix max s) as [t E]. exists t. rewrite E at 1. apply utf8_app. Qed.
Lemma limit_len max s : str_len (limit_string_len s max) <= max + 4.
Proof.
  destruct (limit_spec max s) as [[E H]|(pre & c & post & E & Hm & Hs & [(w & Ew & _)|[Er _]])].
  - rewrite E. by apply starts_within_len.
  - assert (str_len (limit_string_len s max) <= max); [|lia].
    apply (Hs _ 32 w Ew).
  - rewrite Er. by apply starts_within_len.
Qed.
Lemma limit_idem max s : limit_string_len (limit_string_len s max) max = limit_string_len s max.
Proof.
  destruct (limit_spec max s) as [[E H]|(pre & c & post & E & Hm & Hs & [(w & Ew & _)|[Er _]])].
  - rewrite E. by rewrite E.
  - apply limit_short. apply (Hs _ 32 w Ew).
  - rewrite Er. by apply limited_fix.
Qed.
Lemma limit_valid max s : valid_str s -> valid_str (limit_string_len s max).
Proof. destruct (limit_prefix max s) as [t E]. intros H. rewrite E in H. apply valid_str_app in H. tauto. Qed.

(** ** Loops over encoded items *)
Lemma rep_consume {A S St} (enc : encoder A) (put : list N -> S -> St) (g : S -> A -> S)
    (F : St -> res St) (l : list A) (s : S) rest :
  (forall x s rest, x ∈ l -> F (put (enc x ++ rest) s) = Done (put rest (g s x))) ->
  rep_nat (length l) F (put (concat (map enc l) ++ rest) s) = Done (put rest (foldl g s l)).
Proof.
  revert s. induction l as [|x l IH]; intros s H; simpl; [done|].
  rewrite <- app_assoc, H by left. simpl. apply IH. intros. apply H. by right.
Qed.

Lemma foldl_snoc_map {A B} (f : A -> B) l acc :
  foldl (fun out x => out ++ [f x]) acc l = acc ++ map f l.
Proof.
  revert acc. induction l as [|x l IH]; intros acc; simpl; [by rewrite app_nil_r|].
  rewrite IH, <- app_assoc. done.
Qed.

Lemma rt_vec P k {A B} (enc : encoder A) (dec : decoder B) (f : A -> B) l :
  len_ok P k (lenN l) -> (forall x, x ∈ l -> rt enc dec x (f x)) ->
  rt (enc_vec enc) (dec_vec P k dec) l (map f l).
Proof.
  intros [Hs Hc] H rest. unfold enc_vec, dec_vec. rewrite <- app_assoc, (rt_usize_ok P _ Hs). simpl.
  rewrite with_capacity_ok by done. simpl. rewrite rep_N_length.
  rewrite (rep_consume enc (fun i s => (i, s)) (fun out x => out ++ [f x])).
  - rewrite foldl_snoc_map. done.
  - intros x s r Hx. simpl. rewrite H by done. done.
Qed.
Lemma rt_vec_id P k {A} (enc : encoder A) (dec : decoder A) l :
  len_ok P k (lenN l) -> (forall x, x ∈ l -> rt enc dec x x) ->
  rt (enc_vec enc) (dec_vec P k dec) l l.
Proof.
  intros H1 H2. rewrite <- (map_id l) at 2. by apply (rt_vec P k enc dec (fun x => x)).
Qed.

Lemma rt_array P n {A} (enc : encoder A) (dec : decoder A) l :
  length l = n -> size_ok P (lenN l) -> (forall x, x ∈ l -> rt enc dec x x) ->
  rt (enc_array enc) (dec_array P n dec) l l.
Proof.
  intros Hn Hs H rest. unfold enc_array, dec_array.
  rewrite <- app_assoc. pose proof (rt_usize_ok P _ Hs) as Hu. unfold rt, enc_usize in Hu.
  rewrite Hu. simpl. unfold lenN. rewrite Hn, N.eqb_refl, <- Hn.
  rewrite (rep_consume enc (fun i s => (i, s)) (fun out x => out ++ [x])).
  - by rewrite foldl_snoc_map, map_id.
  - intros x s r Hx. simpl. rewrite H by done. done.
Qed.

(** ** Maps *)
Lemma foldl_insert_list_to_map `{Countable K} {V} (l : list (K * V)) (m : gmap K V) :
  NoDup l.*1 -> foldl (fun m kv => <[kv.1 := kv.2]> m) m l = list_to_map l ∪ m.
Proof.
  revert m. induction l as [|[k v] l IH]; intros m Hnd; simpl.
  - by rewrite left_id_L by apply _.
  - inversion Hnd as [|? ? Hk Hnd']; subst. rewrite IH by done. simpl.
    rewrite <- insert_union_r; [by rewrite insert_union_l|].
    by apply not_elem_of_list_to_map_1.
Qed.

(** [f] is what a value becomes on reading. *)
Lemma rt_map P kd `{Countable K} {V W} (o : order_of (K * V)) (enck : encoder K) (encv : encoder V)
    (deck : decoder K) (decv : decoder W) (f : V -> W) (m : gmap K V) :
  valid_order o -> len_ok P kd (N.of_nat (size m)) ->
  (forall k v, m !! k = Some v -> rt enck deck k k /\ rt encv decv v (f v)) ->
  rt (enc_map o enck encv) (dec_map P kd deck decv) m (f <$> m).
Proof.
  intros Ho [Hs Hc] Hkv rest. unfold enc_map, dec_map.
  rewrite <- app_assoc, (rt_usize_ok P _ Hs). simpl.
  rewrite with_capacity_ok by done. simpl.
  assert (Hlen : N.of_nat (size m) = lenN (o (map_to_list m))).
  { unfold lenN. rewrite (Ho _). unfold size, map_size. done. }
  rewrite Hlen, rep_N_length.
  rewrite (rep_consume (fun '(k, v) => enck k ++ encv v) (fun i s => (i, s))
             (fun out kv => <[kv.1 := f kv.2]> out)).
  - do 2 f_equal.
    assert (Hf : forall l (m0 : gmap K W), foldl (fun out kv => <[kv.1 := f kv.2]> out) m0 l
            = foldl (fun m kv => <[kv.1 := kv.2]> m) m0 (prod_map id f <$> l)).
    { induction l as [|[k v] l IH]; intros m0; simpl; [done|]. apply IH. }
    rewrite Hf, foldl_insert_list_to_map.
    + rewrite right_id_L by apply _.
      rewrite <- (list_to_map_to_list (f <$> m)). apply list_to_map_proper.
      * rewrite <- list_fmap_compose. 
        assert ((fst ∘ prod_map id f <$> o (map_to_list m)) = (o (map_to_list m)).*1) as ->.
        { apply list_fmap_ext. by intros i [k v] _. }
        rewrite (Ho _). apply NoDup_fst_map_to_list.
      * rewrite map_to_list_fmap, (Ho _). done.
    + rewrite <- list_fmap_compose.
      assert ((fst ∘ prod_map id f <$> o (map_to_list m)) = (o (map_to_list m)).*1) as ->.
      { apply list_fmap_ext. by intros i [k v] _. }
      rewrite (Ho _). apply NoDup_fst_map_to_list.
  - intros [k v] s r Hx. simpl. rewrite (Ho _) in Hx. apply elem_of_map_to_list in Hx.
    destruct (Hkv k v Hx) as [H1 H2]. rewrite <- app_assoc, H1. simpl. rewrite H2. done.
Qed.
Lemma rt_map_id P kd `{Countable K} {V} (o : order_of (K * V)) (enck : encoder K) (encv : encoder V)
    (deck : decoder K) (decv : decoder V) (m : gmap K V) :
  valid_order o -> len_ok P kd (N.of_nat (size m)) ->
  (forall k v, m !! k = Some v -> rt enck deck k k /\ rt encv decv v v) ->
  rt (enc_map o enck encv) (dec_map P kd deck decv) m m.
Proof.
  intros. rewrite <- (map_fmap_id m) at 2. by apply (rt_map P kd o enck encv deck decv id).
Qed.

(** ** Sequential id lists *)

Lemma usize_lt_pow P v : v <= usize_max P <-> v < 2 ^ usize_bits P.
Proof.
  unfold usize_max. assert (2 ^ usize_bits P <> 0) by (by apply N.pow_nonzero). lia.
Qed.

Lemma dec_seq_loop P l prev out rest :
  Forall (size_ok P) l -> StronglySorted N.le (match prev with Some p => p :: l | None => l end) ->
  rep_nat (length l) (fun '(input, output, previous) =>
    '(new_input, parsed) ← dec_usize P input;
    item ← match previous with
           | Some p => add_bits P (usize_bits P) parsed p
           | None => Done parsed
           end;
    Done (new_input, output ++ [item], Some item))
    (concat (map enc_usize (deltas prev l)) ++ rest, out, prev)
  = Done (rest, out ++ l, match last l with Some x => Some x | None => prev end).
Proof.
  revert prev out. induction l as [|x l IH]; intros prev out Hok Hs; simpl.
  - by rewrite app_nil_r.
  - inversion Hok as [|? ? [Hx1 Hx2] Hok']; subst.
    rewrite <- app_assoc.
    assert (Hd : size_ok P (match prev with Some p => x - p | None => x end)).
    { destruct prev; split; lia. }
    rewrite (rt_usize_ok P _ Hd). simpl.
    assert (Hitem : (match prev with
       | Some p => add_bits P (usize_bits P) (match prev with Some p => x - p | None => x end) p
       | None => Done (match prev with Some p => x - p | None => x end) end) = Done x).
    { destruct prev as [p|]; [|done].
      inversion Hs as [|? ? _ Hp]; subst. inversion Hp as [|? ? Hpx _]; subst.
      unfold add_bits. replace (x - p + p) with x by lia.
      apply usize_lt_pow in Hx2. apply N.ltb_lt in Hx2. by rewrite Hx2. }
    rewrite Hitem. simpl. rewrite IH.
    + rewrite <- app_assoc. simpl. do 2 f_equal. destruct l as [|y l]; [done|].
      change (last (x :: y :: l)) with (last (y :: l)). destruct (last (y :: l)) eqn:E; [done|].
      by apply last_None in E.
    + done.
    + destruct prev; [|done]. by inversion Hs.
Qed.

Lemma sort_N_sorted l : StronglySorted N.le (sort_by N.compare l).
Proof.
  pose proof (sort_by_total_sorted N.compare l N_compare_total) as H.
  eapply StronglySorted_ind with (P := fun l => StronglySorted N.le l); [| |exact H]; [constructor|].
  intros a k _ IH Ha. constructor; [done|]. eapply Forall_impl; [exact Ha|].
  intros b Hb. unfold le_cmp in Hb. by apply N.compare_le_iff in Hb.
Qed.

Lemma rt_seq P l : len_ok P KIds (lenN l) -> Forall (size_ok P) l ->
  rt enc_seq (dec_seq P) l (sort_by N.compare l).
Proof.
  intros [Hs Hc] Hok rest. unfold enc_seq, dec_seq.
  assert (Hlen : lenN (sort_by N.compare l) = lenN l) by (unfold lenN; by rewrite sort_by_length).
  rewrite <- app_assoc. rewrite Hlen, (rt_usize_ok P _ Hs). simpl.
  rewrite with_capacity_ok by done. simpl. rewrite <- Hlen, rep_N_length.
  rewrite dec_seq_loop; [done| |apply sort_N_sorted].
  rewrite sort_by_perm. done.
Qed.

(** ** Decoder safety for collections *)
Lemma eats_weaken {A} k j (dec : decoder A) : eats k dec -> (j <= k)%nat -> eats j dec.
Proof. intros H Hj i r v E. destruct (H i r v E) as (pre & -> & Hp). exists pre. split; [done|lia]. Qed.

Lemma suffix_refl {A} (l : list A) : suffix_of l l.
Proof. by exists []. Qed.
Lemma suffix_trans {A} (a b c : list A) : suffix_of a b -> suffix_of b c -> suffix_of a c.
Proof. intros [x ->] [y ->]. exists (y ++ x). by rewrite <- app_assoc. Qed.
Lemma eats_suffix {A} k (dec : decoder A) i r v : eats k dec -> dec i = Done (r, v) -> suffix_of r i.
Proof. intros H E. destruct (H i r v E) as (pre & -> & _). by exists pre. Qed.
Lemma suffix_length {A} (a b : list A) : suffix_of a b -> (length a <= length b)%nat.
Proof. intros [x ->]. rewrite app_length. lia. Qed.

Lemma dec_vec_inv P k {A} (dec : decoder A) input rest l (Q : A -> Prop) n :
  dec_vec P k dec input = Done (rest, l) -> eats n dec -> gives dec Q ->
  exists mid len, dec_usize P input = Done (mid, len) /\ len <= cap_max P k /\ lenN l = len /\
    suffix_of rest mid /\ Forall Q l /\ (n * length l + length rest <= length mid)%nat.
Proof.
  unfold dec_vec. intros H He Hg. inv_bind H. destruct x as [mid len].
  inv_bind H. apply with_capacity_inv in E0. exists mid, len. split; [done|]. split; [done|].
  apply (rep_N_inv _ (fun i '(inp, out) => length out = i /\ suffix_of inp mid /\ Forall Q out
     /\ (n * length out + length inp <= length mid)%nat)) in H as (H1 & H2 & H3 & H4).
  - split; [unfold lenN; lia|]. done.
  - simpl. split; [done|]. split; [apply suffix_refl|]. split; [constructor|lia].
  - intros i [inp out] [inp' out'] Hi (H1' & H2' & H3' & H4') Hf. inv_bind Hf. destruct x0 as [ni item].
    injection Hf as <- <-. pose proof (eats_suffix _ _ _ _ _ He E1) as Hsuf.
    destruct (He _ _ _ E1) as (pre & -> & Hpre).
    rewrite !app_length in *. simpl.
    split; [lia|]. split; [by eapply suffix_trans|]. split; [|lia].
    apply Forall_app. split; [done|]. constructor; [by eapply Hg|constructor].
Qed.
Lemma dec_vec_eats P k {A} n (dec : decoder A) : eats n dec -> eats 1 (dec_vec P k dec).
Proof.
  intros He i r v H. eapply (dec_vec_inv P k dec i r v (fun _ => True)) in H as (mid & len & Hu & _ & _ & [s ->] & _); [|done|done].
  apply dec_usize_eats in Hu as (pre & -> & Hp). exists (pre ++ s).
  rewrite app_length, <- app_assoc. split; [done|lia].
Qed.
Lemma dec_vec_no_stuck P k {A} (dec : decoder A) : no_stuck dec -> no_stuck (dec_vec P k dec).
Proof.
  intros Hd i. unfold dec_vec. destruct (dec_usize P i) as [[mid len]| | |] eqn:E; simpl; try done.
  2: by apply dec_usize_no_stuck in E.
  destruct (with_capacity P k len) eqn:Ec; simpl; try done.
  2: by apply with_capacity_not_stuck in Ec.
  rewrite rep_N_nat. apply rep_nat_not_stuck. intros [inp out].
  pose proof (Hd inp). by destruct (dec inp) as [[? ?]| | |].
Qed.

Lemma dec_array_inv P n {A} (dec : decoder A) input rest l (Q : A -> Prop) :
  dec_array P n dec input = Done (rest, l) -> eats 0 dec -> gives dec Q ->
  exists mid, dec_usize P input = Done (mid, N.of_nat n) /\ length l = n /\ suffix_of rest mid /\ Forall Q l.
Proof.
  unfold dec_array. intros H He Hg. inv_bind H. destruct x as [mid len].
  destruct (N.eqb_spec len (N.of_nat n)) as [->|]; [|done]. exists mid. split; [done|].
  apply (rep_nat_inv _ (fun i '(inp, out) => length out = i /\ suffix_of inp mid /\ Forall Q out)) in H; [done| |].
  - simpl. split; [done|]. split; [apply suffix_refl|constructor].
  - intros i [inp out] [inp' out'] Hi (H1 & H2 & H3) Hf. inv_bind Hf. destruct x as [ni item].
    injection Hf as <- <-. pose proof (eats_suffix _ _ _ _ _ He E0).
    rewrite app_length. simpl. split; [lia|]. split; [by eapply suffix_trans|].
    apply Forall_app. split; [done|]. constructor; [by eapply Hg|constructor].
Qed.
Lemma dec_array_eats P n {A} (dec : decoder A) : eats 0 dec -> eats 1 (dec_array P n dec).
Proof.
  intros He i r v H. eapply (dec_array_inv P n dec i r v (fun _ => True)) in H as (mid & Hu & _ & [s ->] & _); [|done|done].
  apply dec_usize_eats in Hu as (pre & -> & Hp). exists (pre ++ s).
  rewrite app_length, <- app_assoc. split; [done|lia].
Qed.
Lemma dec_array_no_stuck P n {A} (dec : decoder A) : no_stuck dec -> no_stuck (dec_array P n dec).
Proof.
  intros Hd i. unfold dec_array. destruct (dec_usize P i) as [[mid len]| | |] eqn:E; simpl; try done.
  2: by apply dec_usize_no_stuck in E.
  destruct (len =? N.of_nat n); [|done]. apply rep_nat_not_stuck. intros [inp out].
  pose proof (Hd inp). by destruct (dec inp) as [[? ?]| | |].
Qed.

Lemma dec_map_inv P kd `{Countable K} {V} (deck : decoder K) (decv : decoder V) input rest m
    (Q : K -> V -> Prop) :
  dec_map P kd deck decv input = Done (rest, m) -> eats 0 deck -> eats 0 decv ->
  (forall i r k r' v, deck i = Done (r, k) -> decv r = Done (r', v) -> Q k v) ->
  exists mid len, dec_usize P input = Done (mid, len) /\ suffix_of rest mid /\ map_Forall Q m.
Proof.
  unfold dec_map. intros H1 Hk Hv Hg. inv_bind H1. destruct x as [mid len].
  inv_bind H1. exists mid, len. split; [done|].
  apply (rep_N_inv _ (fun i '(inp, out) => suffix_of inp mid /\ map_Forall Q out)) in H1; [done| |].
  - split; [apply suffix_refl|apply map_Forall_empty].
  - intros i [inp out] [inp' out'] Hi (H2 & H3) Hf. inv_bind Hf. destruct x0 as [ni key].
    inv_bind Hf. destruct x0 as [ni' value]. injection Hf as <- <-.
    split.
    + eapply suffix_trans; [by eapply eats_suffix in E2|].
      eapply suffix_trans; [by eapply eats_suffix in E1|done].
    + apply map_Forall_insert_2; [by eapply Hg|done].
Qed.
Lemma dec_map_eats P kd `{Countable K} {V} (deck : decoder K) (decv : decoder V) :
  eats 0 deck -> eats 0 decv -> eats 1 (dec_map P kd deck decv).
Proof.
  intros Hk Hv i r v H1.
  eapply (dec_map_inv P kd deck decv i r v (fun _ _ => True)) in H1 as (mid & len & Hu & [s ->] & _); [|done..].
  apply dec_usize_eats in Hu as (pre & -> & Hp). exists (pre ++ s).
  rewrite app_length, <- app_assoc. split; [done|lia].
Qed.
Lemma dec_map_no_stuck P kd `{Countable K} {V} (deck : decoder K) (decv : decoder V) :
  no_stuck deck -> no_stuck decv -> no_stuck (dec_map P kd deck decv).
Proof.
  intros Hk Hv i. unfold dec_map. destruct (dec_usize P i) as [[mid len]| | |] eqn:E; simpl; try done.
  2: by apply dec_usize_no_stuck in E.
  destruct (with_capacity P kd len) eqn:Ec; simpl; try done.
  2: by apply with_capacity_not_stuck in Ec.
  rewrite rep_N_nat. apply rep_nat_not_stuck. intros [inp out].
  pose proof (Hk inp). destruct (deck inp) as [[r ?]| | |]; simpl; try done.
  pose proof (Hv r). by destruct (decv r) as [[? ?]| | |].
Qed.

(** A decoded id list is ascending, unless an addition wrapped. *)
Lemma dec_seq_inv P input rest l : dec_seq P input = Done (rest, l) ->
  exists mid len, dec_usize P input = Done (mid, len) /\ suffix_of rest mid /\
    lenN l = len /\ (length l + length rest <= length mid)%nat.
Proof.
  unfold dec_seq. intros H. inv_bind H. destruct x as [mid len]. inv_bind H.
  inv_bind H. destruct x0 as [[inp out] prev]. injection H as <- <-. exists mid, len. split; [done|].
  apply (rep_N_inv _ (fun i '(inp, out, prev) => suffix_of inp mid /\ length out = i /\
     (length out + length inp <= length mid)%nat)) in E1 as (H1 & H2 & H3).
  - split; [done|]. split; [unfold lenN; lia|done].
  - simpl. split; [apply suffix_refl|]. split; [done|lia].
  - intros i [[inp1 out1] prev1] [[inp2 out2] prev2] Hi (H1 & H2 & H3) Hf.
    inv_bind Hf. destruct x0 as [ni parsed]. inv_bind Hf. injection Hf as <- <- <-.
    pose proof (eats_suffix _ _ _ _ _ (dec_usize_eats P) E2) as Hsuf.
    destruct (dec_usize_eats P _ _ _ E2) as (pre & -> & Hpre).
    rewrite !app_length in *. simpl. split; [by eapply suffix_trans|]. split; [lia|lia].
Qed.
Lemma dec_seq_eats P : eats 1 (dec_seq P).
Proof.
  intros i r v H. apply dec_seq_inv in H as (mid & len & Hu & [s ->] & _).
  apply dec_usize_eats in Hu as (pre & -> & Hp). exists (pre ++ s).
  rewrite app_length, <- app_assoc. split; [done|lia].
Qed.
Lemma add_bits_not_stuck P b x y : add_bits P b x y <> Stuck.
Proof. unfold add_bits. destruct (_ <? _); [done|]. by destruct (overflow_checks P). Qed.
Lemma dec_seq_no_stuck P : no_stuck (dec_seq P).
Proof.
  intros i. unfold dec_seq. destruct (dec_usize P i) as [[mid len]| | |] eqn:E; simpl; try done.
  2: by apply dec_usize_no_stuck in E.
  destruct (with_capacity P KIds len) eqn:Ec; simpl; try done.
  2: by apply with_capacity_not_stuck in Ec.
  rewrite rep_N_nat.
  match goal with |- context [rep_nat ?n ?f ?s] => assert (Hr : rep_nat n f s <> Stuck) end.
  { apply rep_nat_not_stuck. intros [[inp out] prev].
    pose proof (dec_usize_no_stuck P inp). destruct (dec_usize P inp) as [[r v]| | |]; simpl; try done.
    destruct prev as [p|]; simpl; [|done].
    pose proof (add_bits_not_stuck P (usize_bits P) v p). by destruct (add_bits _ _ _ _). }
  destruct (rep_nat _ _ _) as [[[? ?] ?]| | |]; done.
Qed.
