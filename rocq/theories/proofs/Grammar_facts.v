(** The loader follows the grammar of Grammar_spec. *)
From Verif.model Require Import Base F32 Utf8 Prim Coll Data Gram Nodes Classic Lib.
From Verif.spec Require Import Spec Grammar_spec.
From Verif.proofs Require Import Base_facts Prim_facts Prim_codec Utf8_facts Coll_facts Codec_lemmas.

(** ** Numbers *)
Lemma base128_value ds : base128 ds = value ds.
Proof. induction ds as [|d ds IH]; simpl; [done|]. by rewrite IH. Qed.
Lemma span_inv r bs c rest : Forall is_byte bs -> span r bs = (c, rest) ->
  (exists ds d, c = ds ++ [d] /\ Forall continues ds /\ d < 128 /\ (length ds < r)%nat) \/
  (Forall continues c /\ rest = [] /\ (length c < r)%nat) \/
  (Forall continues c /\ length c = r).
Proof.
  revert bs c rest. induction r as [|r IH]; intros [|b bs] c rest Hb; simpl;
    try (intros [= <- <-]; simpl; eauto 6 with lia).
  apply Forall_cons in Hb as [Hb Hbs]. unfold is_byte in Hb.
    destruct (N.leb_spec 128 (b mod 256)) as [Hc|Hc]; rewrite N.mod_small in Hc by done.
    + destruct (span r bs) as [c' rest'] eqn:E. intros [= <- <-].
      destruct (IH _ _ _ Hbs E) as [(ds & d & -> & H1 & H2 & H3)|[(H1 & -> & H3)|(H1 & H2)]].
      * left. exists (b :: ds), d. split; [done|]. split; [constructor; [split; done|done]|]. simpl. split; [done|lia].
      * right. left. split; [constructor; [split; done|done]|]. split; [done|]. simpl. lia.
      * right. right. split; [constructor; [split; done|done]|]. simpl. lia.
    + intros [= <- <-]. left. exists [], b. split; [done|]. split; [constructor|]. split; [done|]. simpl. lia.
Qed.
Lemma number_dec bs rest v : number bs rest v -> dec_u64 bs = Done (rest, v).
Proof.
  destruct 1 as [ds d rest H1 H2 H3|ds H1 H2|ds d last rest H1 H2 H3].
  - rewrite (dec_u64_span _ (ds ++ [d]) rest).
    2: { rewrite (span_all 9 ds d rest); [done|done|done|lia]. }
    change base128 with value. destruct (N.eqb_spec (lenN (ds ++ [d])) 9) as [E|E].
    + exfalso. unfold lenN in E. rewrite app_length in E. simpl in E. lia.
    + destruct ds; done.
  - rewrite (dec_u64_span _ ds []).
    2: { apply span_short; [done|lia]. }
    change base128 with value. destruct (N.eqb_spec (lenN ds) 9) as [E|E]; [unfold lenN in E; lia|].
    destruct ds; [simpl in H2; lia|done].
  - rewrite (dec_u64_span _ (ds ++ [d]) (last :: rest)).
    + change base128 with value. replace (lenN (ds ++ [d]) =? 9) with true; [done|].
      symmetry. apply N.eqb_eq. unfold lenN. rewrite app_length, H2. done.
    + destruct (N.lt_ge_cases d 128).
      * rewrite (span_all 9 ds d (last :: rest)); [done|done|done|lia].
      * replace (ds ++ d :: last :: rest) with ((ds ++ [d]) ++ last :: rest) by (by rewrite <- app_assoc).
        apply span_cont; [|rewrite app_length, H2; done].
        apply Forall_app. split; [done|]. constructor; [split; done|constructor].
Qed.
Lemma dec_number bs rest v : Forall is_byte bs -> dec_u64 bs = Done (rest, v) -> number bs rest v.
Proof.
  intros Hb. destruct (span 9 bs) as [c r] eqn:E. rewrite (dec_u64_span _ _ _ E).
  pose proof (span_app _ _ _ _ E) as Ebs.
  destruct (span_inv _ _ _ _ Hb E) as [(ds & d & -> & H1 & H2 & H3)|[(H1 & -> & H3)|(H1 & H2)]].
  - destruct (N.eqb_spec (lenN (ds ++ [d])) 9) as [E9|E9].
    + destruct r as [|b r]; [done|]. intros [= <- <-]. subst bs. rewrite <- app_assoc.
      change value with base128. apply Number_long; [done| |unfold is_byte; lia].
      unfold lenN in E9. rewrite app_length in E9. simpl in E9. lia.
    + intros H. assert (H' : (r, value (ds ++ [d])) = (rest, v)) by (destruct ds; simpl in *; congruence).
      injection H' as <- <-. subst bs. rewrite <- app_assoc. change value with base128. apply Number_ends; [done| |done].
      unfold lenN in E9. rewrite app_length in E9. simpl in E9. lia.
  - destruct (N.eqb_spec (lenN c) 9) as [E9|E9]; [done|].
    destruct c as [|x c]; [done|]. intros [= <- <-]. rewrite app_nil_r in Ebs. subst bs.
    change (x mod 128 + 128 * value c) with (value (x :: c)).
    change value with base128. apply Number_cut; [done|]. simpl in *. lia.
  - assert (E9 : lenN c = 9) by (unfold lenN; rewrite H2; done). rewrite E9. simpl.
    destruct r as [|b r]; [done|]. intros [= <- <-]. subst bs.
    destruct c as [|d ds _] using rev_ind; [done|].
    rewrite app_length in H2. simpl in H2. apply Forall_app in H1 as [H1 H3]. apply Forall_cons in H3 as [[_ H3] _].
    rewrite <- app_assoc. change value with base128. apply Number_long; [done|lia|done].
Qed.
Lemma number_iff bs rest v : Forall is_byte bs -> number bs rest v <-> dec_u64 bs = Done (rest, v).
Proof. intros Hb. split; [apply number_dec|by apply dec_number]. Qed.
Lemma number_suffix bs rest v : number bs rest v -> exists pre, bs = pre ++ rest /\ pre <> [].
Proof. intros H. by apply number_dec, dec_u64_suffix in H. Qed.

(** ** Every form *)
Section grammar.
  Context (P : platform).
  Lemma fares_suffix f bs rest v : fares P f bs (Reads rest v) -> suffix_of rest bs.
  Proof.
    remember (Reads rest v) as r eqn:E. intros H. revert rest v E.
    induction H; intros rest' v' E; try discriminate; try (injection E as <- <-); subst; eauto using suffix_refl.
    - apply number_suffix in H as (pre & -> & _). by exists pre.
    - by exists [b].
    - by exists block.
    - by exists (utf8 s).
    - eauto using suffix_trans.
  Qed.
  Lemma lenN_inj {A} (a b c d : list A) : a ++ b = c ++ d -> lenN a = lenN c -> a = c /\ b = d.
  Proof. intros E H. apply app_inj_1; [|done]. unfold lenN in H. lia. Qed.
  (** One fate only. *)
  Lemma fares_unique f bs r r' : fares P f bs r -> fares P f bs r' -> r = r'.
  Proof.
    intros H. revert r'. induction H; intros r' H'; inversion H'; subst; try discriminate; try done;
      try (exfalso; naive_solver lia).
    all: try (exfalso; rewrite ?app_length, ?lenN_app in *; lia).
    - apply number_dec in H, H0. congruence.
    - match goal with E : _ ++ _ = _ ++ _ |- _ => apply app_inj_1 in E as [-> ->]; [done|done] end.
    - match goal with E : _ ++ _ = _ ++ _ |- _ => apply lenN_inj in E as [_ ->]; done end.
    - exfalso. match goal with E : _ ++ _ = _ ++ _ |- _ => apply lenN_inj in E as [-> _]; [naive_solver|done] end.
    - exfalso. match goal with E : _ ++ _ = _ ++ _ |- _ => apply lenN_inj in E as [E _]; [naive_solver|congruence] end.
    - apply IHfares. congruence.
    - match goal with E : fares P f bs (Reads _ _) |- _ => apply IHfares1 in E; injection E as <- <- end. by apply IHfares2.
    - match goal with E : fares P f bs (Falls _ _) |- _ => apply IHfares in E; by injection E as <- <- end.
    - congruence.
    - congruence.
  Qed.

  (** The outcome [r] of reading [bs] is its fate; [inp] are the bytes left, and [V] says what the
      value is. *)
  Definition agrees {S} (f : form) (bs : list N) (inp : S -> list N) (V : S -> N -> Prop) (r : res S) : Prop :=
    Forall is_byte bs ->
    match r with
    | Done s => exists v, fares P f bs (Reads (inp s) v) /\ V s v
    | Nope => fares P f bs Rejected
    | Panic => exists rest why, fares P f bs (Falls rest why)
    | Stuck => False
    end.
  Definition any {S : Type} (_ : S) (_ : N) : Prop := True.
  Lemma suffix_bytes (rest bs : list N) : suffix_of rest bs -> Forall is_byte bs -> Forall is_byte rest.
  Proof. intros [pre ->] H. by apply Forall_app in H as [_ H]. Qed.
  Lemma agrees_seq {S T} f g bs (inp : S -> list N) V r (inp' : T -> list N) V' k :
    agrees f bs inp V r ->
    (forall s v, V s v -> suffix_of (inp s) bs -> agrees (g v) (inp s) inp' V' (k s)) ->
    agrees (Seq f g) bs inp' V' (r ≫= k).
  Proof.
    intros Hr Hk Hb. specialize (Hr Hb). destruct r as [s| | |]; simpl.
    - destruct Hr as (v & Hr & HV). pose proof (fares_suffix _ _ _ _ Hr) as Hs.
      specialize (Hk s v HV Hs (suffix_bytes _ _ Hs Hb)). destruct (k s) as [t| | |].
      + destruct Hk as (w & Hk & HV'). exists w. split; [|done]. by eapply Fares_seq.
      + by eapply Fares_seq.
      + destruct Hk as (rest & why & Hk). exists rest, why. by eapply Fares_seq.
      + done.
    - by apply Fares_seq_rejected.
    - destruct Hr as (rest & why & Hr). exists rest, why. by apply Fares_seq_falls.
    - done.
  Qed.
  Lemma agrees_unfold {S} f f' bs (inp : S -> list N) V r : unfold P f = Some f' ->
    agrees f' bs inp V r -> agrees f bs inp V r.
  Proof.
    intros E H Hb. specialize (H Hb). destruct r as [s| | |]; [|by eapply Fares_unfold| |done].
    - destruct H as (v & H & HV). exists v. split; [by eapply Fares_unfold|done].
    - destruct H as (rest & why & H). exists rest, why. by eapply Fares_unfold.
  Qed.
  Lemma agrees_done {S} v bs (s : S) inp (V : S -> N -> Prop) : inp s = bs -> V s v -> agrees (Give v) bs inp V (Done s).
  Proof. intros <- HV Hb. exists v. split; [constructor|done]. Qed.
  (** The last step of a function: what was read is put together. *)
  Lemma agrees_end {S T} f bs (inp : S -> list N) V r (inp' : T -> list N) V' k :
    agrees f bs inp V r ->
    (forall s v, V s v -> suffix_of (inp s) bs -> exists t, k s = Done t /\ inp' t = inp s /\ V' t v) ->
    agrees f bs inp' V' (r ≫= k).
  Proof.
    intros H HQ Hb. specialize (H Hb). destruct r as [s| | |]; simpl; try done.
    destruct H as (v & H1 & H2). destruct (HQ s v H2 (fares_suffix _ _ _ _ H1)) as (t & -> & E & H3).
    exists v. by rewrite E.
  Qed.
  Lemma agrees_weaken {S} f bs (inp : S -> list N) (V V' : S -> N -> Prop) r :
    agrees f bs inp V r -> (forall s v, V s v -> suffix_of (inp s) bs -> V' s v) -> agrees f bs inp V' r.
  Proof.
    intros H HQ Hb. specialize (H Hb). destruct r as [s| | |]; try done. destruct H as (v & H1 & H2). exists v. split; [done|].
    apply HQ; [done|]. by eapply fares_suffix.
  Qed.

  (** ** Primitives *)
  Notation val := (fun (s : list N * N) v => s.2 = v).
  Lemma agrees_u64 bs : agrees Number bs fst val (dec_u64 bs).
  Proof.
    intros Hb. destruct (dec_u64 bs) as [[rest v]| | |] eqn:E.
    - exists v. split; [|done]. constructor. by apply dec_number.
    - apply Fares_no_number. intros rest v H. apply number_dec in H. congruence.
    - by apply dec_u64_no_panic in E.
    - by apply dec_u64_no_stuck in E.
  Qed.
  Lemma agrees_require {S} b bs (s : S) inp : inp s = bs ->
    agrees (Require b) bs inp any (if b then Done s else Nope).
  Proof. intros <- Hb. destruct b; [exists 0; split; [|done]|]; constructor. Qed.
  Lemma agrees_usize bs : agrees (Size P) bs fst val (dec_usize P bs).
  Proof.
    unfold dec_usize, Size. eapply agrees_seq; [apply agrees_u64|]. intros [rest v] w <- _. simpl.
    intros Hb. destruct (N.leb_spec v (usize_max P)) as [H|H].
    - exists v. split; [|done]. apply usize_lt_pow, N.ltb_lt in H. rewrite H. eapply Fares_seq; constructor.
    - replace (v <? 2 ^ usize_bits P) with false; [apply Fares_seq_rejected; constructor|].
      symmetry. apply N.ltb_ge. apply N.nlt_ge. intros H'. apply usize_lt_pow in H'. lia.
  Qed.
  Lemma agrees_room k count bs : agrees (Room k count) bs (fun _ : unit => bs) any (with_capacity P k count).
  Proof.
    intros Hb. unfold with_capacity. destruct (N.leb_spec count (cap_max P k)).
    - exists 0. split; [|done]. by constructor.
    - exists bs, (No_room k count). by constructor.
  Qed.
  Lemma agrees_u32 bs : agrees (Seq Number (fun v => Require (v <? 2 ^ 32))) bs fst any (dec_u32 bs).
  Proof.
    unfold dec_u32. eapply agrees_seq; [apply agrees_u64|]. intros [rest v] w <- _. simpl. by apply agrees_require.
  Qed.
  Lemma agrees_char bs : agrees Char bs fst any (dec_char bs).
  Proof.
    unfold dec_char, dec_u32. rewrite bind_assoc_res. unfold Char. eapply agrees_seq; [apply agrees_u64|].
    intros [rest v] w <- _. simpl.
    replace (((v <? 55296) || (57343 <? v)) && (v <? 1114112)) with (is_scalar v).
    - destruct (N.ltb_spec v (2 ^ 32)) as [H|H]; simpl.
      + apply agrees_require; done.
      + replace (is_scalar v) with false; [intros _; constructor|].
        symmetry. apply not_true_iff_false. intros E. apply is_scalar_bound in E. lia.
    - unfold is_scalar. apply eq_true_iff_eq. lia.
  Qed.
  Lemma agrees_f32 bs : agrees Float bs fst any (dec_f32 bs).
  Proof.
    intros Hb. destruct bs as [|a [|b [|c [|d bs]]]]; simpl; try (constructor; simpl; lia).
    exists 0. split; [|done]. by apply (Fares_block P 4 [a; b; c; d] bs).
  Qed.
  Lemma agrees_byte bs : agrees Byte bs fst val (dec_u8 bs).
  Proof. intros Hb. destruct bs as [|b bs]; [constructor|]. exists b. split; [constructor|done]. Qed.
  Lemma agrees_bool bs : agrees Byte bs fst any (dec_bool bs).
  Proof. intros Hb. destruct bs as [|b bs]; [constructor|]. exists b. split; [constructor|done]. Qed.
  Lemma agrees_str bs : agrees (Text P) bs fst any (dec_str P bs).
  Proof.
    unfold dec_str, Text. eapply agrees_seq; [apply agrees_usize|]. intros [rest len] w <- _ Hb. simpl.
    destruct (N.leb_spec len (lenN rest)) as [H|H].
    - assert (Hl : lenN (take (N.to_nat len) rest) = len) by (unfold lenN in *; rewrite take_length; lia).
      pose proof (take_drop (N.to_nat len) rest) as Etd.
      destruct (utf8_decode (take (N.to_nat len) rest)) as [s|] eqn:E; simpl.
      + exists 0. split; [|done]. apply utf8_decode_iff in E as [Hv E]. rewrite E in Hl, Etd.
        rewrite <- Etd at 1. rewrite <- Hl at 1. by constructor.
      + rewrite <- Etd. apply Fares_no_letters; [done|]. intros s Hv Es.
        assert (Some s = None); [|done]. rewrite <- E. symmetry. apply utf8_decode_iff. done.
    - exists rest, (Beyond_end len). by constructor.
  Qed.

  (** ** Loops *)
  Lemma agrees_times {S} (inp : S -> list N) (I : nat -> S -> Prop) body f :
    (forall i s, I i s -> agrees f (inp s) inp (fun s' _ => suffix_of (inp s') (inp s) -> I (Datatypes.S i) s') (body s)) ->
    forall c s bs, inp s = bs -> I 0%nat s -> agrees (Times c f) bs inp (fun s _ => I (N.to_nat c) s) (rep_N c body s).
  Proof.
    intros Hbody c s bs <- Hs. rewrite rep_N_nat. rewrite <- (N2Nat.id c) at 1.
    set (n := N.to_nat c). clearbody n. clear c. change n with (0 + n)%nat at 2.
    revert Hs. generalize 0%nat as i. revert s. induction n as [|n IH]; intros s i Hs.
    - eapply agrees_unfold; [done|]. simpl. rewrite Nat.add_0_r. by apply agrees_done.
    - eapply agrees_unfold; [done|].
      replace (N.of_nat (Datatypes.S n) =? 0) with false by (symmetry; apply N.eqb_neq; lia).
      replace (N.of_nat (Datatypes.S n) - 1) with (N.of_nat n) by lia. simpl rep_nat.
      eapply agrees_seq; [apply Hbody, Hs|]. intros s' v HI Hsuf. simpl in HI.
      replace (i + Datatypes.S n)%nat with (Datatypes.S i + n)%nat by lia. apply IH. auto.
  Qed.
  (** Without an invariant, but for the bytes left. *)
  Lemma agrees_times_any {S} (inp : S -> list N) body f bs :
    (forall s, suffix_of (inp s) bs -> agrees f (inp s) inp any (body s)) ->
    forall c s bs', inp s = bs' -> suffix_of bs' bs -> agrees (Times c f) bs' inp any (rep_N c body s).
  Proof.
    intros H c s bs' <- Hs. eapply agrees_weaken; [apply (agrees_times inp (fun _ s => suffix_of (inp s) bs))|done].
    - intros i s' Hs'. eapply agrees_weaken; [by apply H|]. intros t v _ Ht _. by eapply suffix_trans.
    - done.
    - done.
  Qed.
  (** A length, memory for it, a loop. *)
  Lemma agrees_many {S} k (inp : S -> list N) body f (mk : list N -> S) bs :
    (forall rest, inp (mk rest) = rest) ->
    (forall s, suffix_of (inp s) bs -> agrees f (inp s) inp any (body s)) ->
    agrees (Many P k f) bs inp any
      ('(input, len) ← dec_usize P bs; _ ← with_capacity P k len; rep_N len body (mk input)).
  Proof.
    intros Hmk Hbody. eapply agrees_seq; [apply agrees_usize|]. intros [rest len] w <- Hsuf. simpl in *.
    eapply agrees_seq; [apply agrees_room|]. intros [] v _ _. cbn beta.
    by eapply agrees_times_any.
  Qed.
  Lemma agrees_vec k {A} (dec : decoder A) f bs V :
    (forall bs', suffix_of bs' bs -> agrees f bs' fst V (dec bs')) ->
    agrees (Many P k f) bs fst any (dec_vec P k dec bs).
  Proof.
    intros H. unfold dec_vec. apply (agrees_many k fst _ f (fun rest => (rest, []))); [done|].
    intros [input out] Hs. simpl in *. specialize (H _ Hs).
    destruct (dec input) as [[r x]| | |]; try done.
    intros Hb. destruct (H Hb) as (v & H1 & _). exists v. done.
  Qed.
  (** One thing and another. *)
  Lemma agrees_pair {A B T} f g bs (da : decoder A) (db : decoder B) V W (h : list N -> A -> B -> T) (inp : T -> list N) :
    agrees f bs fst V (da bs) ->
    (forall rest, suffix_of rest bs -> agrees g rest fst W (db rest)) ->
    (forall rest a b, inp (h rest a b) = rest) ->
    agrees (Seq f (fun _ => g)) bs inp any ('(input, a) ← da bs; '(input, b) ← db input; Done (h input a b)).
  Proof.
    intros Ha Hb Hh. eapply agrees_seq; [exact Ha|]. intros [rest a] v _ Hs. simpl in *.
    intros Hbytes. specialize (Hb rest Hs Hbytes). destruct (db rest) as [[r b]| | |]; try done.
    destruct Hb as (w & Hw & _). exists w. simpl. by rewrite Hh.
  Qed.
  Lemma agrees_map_form kd `{Countable K} {A} (deck : decoder K) (decv : decoder A) f g bs V W :
    (forall bs', suffix_of bs' bs -> agrees f bs' fst V (deck bs')) ->
    (forall bs', suffix_of bs' bs -> agrees g bs' fst W (decv bs')) ->
    agrees (Many P kd (Seq f (fun _ => g))) bs fst any (dec_map P kd deck decv bs).
  Proof.
    intros Hf Hg. unfold dec_map. apply (agrees_many kd fst _ _ (fun rest => (rest, ∅))); [done|].
    intros [input out] Hs. simpl in *.
    eapply (agrees_pair f g input deck decv V W (fun new_input key value => (new_input, <[key := value]> out))).
    - by apply Hf.
    - intros rest Hr. apply Hg. by eapply suffix_trans.
    - done.
  Qed.

  (** ** Ids of products *)
  Lemma agrees_sums c bs output previous top : Forall (fun x => x < top) output ->
    (top = 0 \/ (top - 1) ∈ output) ->
    agrees (Sums c previous top) bs (fun '(input, _, _) => input)
      (fun '(_, out, _) top' => length out = (length output + N.to_nat c)%nat /\
         Forall (fun x => x < top') out /\ (top' = 0 \/ (top' - 1) ∈ out))
      (rep_N c (fun '(input, output, previous) =>
        '(new_input, parsed) ← dec_usize P input;
        item ← match previous with
               | Some p => add_bits P (usize_bits P) parsed p
               | None => Done parsed
               end;
        Done (new_input, output ++ [item], Some item)) (bs, output, previous)).
  Proof.
    rewrite rep_N_nat. rewrite <- (N2Nat.id c) at 1. set (n := N.to_nat c). clearbody n. clear c.
    revert bs output previous top. induction n as [|n IH]; intros bs output previous top Hall Htop.
    - eapply agrees_unfold; [done|]. simpl. apply agrees_done; [done|]. split; [lia|done].
    - eapply agrees_unfold; [done|].
      replace (N.of_nat (Datatypes.S n) =? 0) with false by (symmetry; apply N.eqb_neq; lia).
      replace (N.of_nat (Datatypes.S n) - 1) with (N.of_nat n) by lia. simpl rep_nat.
      rewrite bind_assoc_res.
      eapply agrees_seq; [apply agrees_usize|]. intros [rest d] w <- _. simpl.
      rewrite bind_assoc_res.
      eapply (agrees_seq _ _ _ (fun _ : N => rest) (fun s v => s = v)).
      + intros Hb. destruct previous as [q|].
        * unfold add_bits. rewrite (N.add_comm d q). destruct (N.ltb_spec (q + d) (2 ^ usize_bits P)) as [Hl|Hl].
          -- exists (q + d). split; [by constructor|done].
          -- destruct (overflow_checks P) eqn:E.
             ++ exists rest, (Overflows q d). by constructor.
             ++ exists ((q + d) mod 2 ^ usize_bits P). split; [by constructor|done].
        * exists d. split; [constructor|done].
      + intros id v <- _. simpl. eapply agrees_weaken; [apply IH|].
        * apply Forall_app. split.
          -- eapply Forall_impl; [exact Hall|]. simpl. lia.
          -- constructor; [lia|constructor].
        * right. destruct (N.max_spec top (id + 1)) as [[_ ->]|[Hm ->]].
          -- apply elem_of_app. right. apply elem_of_list_singleton. lia.
          -- apply elem_of_app. left. destruct Htop as [->|Htop]; [lia|done].
        * intros [[i out] pr] v. rewrite app_length. simpl. intros (E & H1 & H2) _. split; [lia|done].
  Qed.
  Lemma mapR_of_opt {A B} (g : A -> option B) l :
    (exists ys, mapR (fun x => of_opt (g x)) l = Done ys /\ Forall (fun x => g x <> None) l) \/
    (mapR (fun x => of_opt (g x)) l = Nope /\ Exists (fun x => g x = None) l).
  Proof.
    induction l as [|x l IH]; simpl; [left; eauto|].
    destruct (g x) as [y|] eqn:E; simpl.
    - destruct IH as [(ys & -> & H)|[-> H]]; simpl.
      + left. exists (y :: ys). split; [done|]. constructor; [congruence|done].
      + right. split; [done|]. by right.
    - right. split; [done|]. by left.
  Qed.
  Lemma agrees_refs existing bs :
    agrees (Refs P (lenN existing)) bs fst any (dec_product_refs P existing bs).
  Proof.
    unfold dec_product_refs, dec_seq, Refs. rewrite bind_assoc_res.
    eapply agrees_seq; [apply agrees_usize|]. intros [rest len] w <- _. simpl.
    rewrite bind_assoc_res.
    eapply agrees_seq; [apply agrees_room|]. intros [] v _ _. cbn beta.
    rewrite bind_assoc_res.
    eapply agrees_seq; [apply (agrees_sums len rest [] None 0); [constructor|by left]|].
    intros [[input out] prev] top (El & Hall & Htop) _. simpl in *.
    replace (lenN out) with len by (unfold lenN; lia).
    eapply agrees_seq; [apply agrees_room|]. intros [] v' _ _. cbn beta.
    destruct (mapR_of_opt (getN existing) out) as [(ys & -> & H)|[-> H]]; simpl.
    - replace (top <=? lenN existing) with true.
      + intros _. exists 0. split; [constructor|done].
      + symmetry. apply N.leb_le. destruct Htop as [->|Htop]; [lia|].
        rewrite Forall_forall in H. specialize (H _ Htop).
        assert (~ lenN existing <= top - 1); [|lia]. intros Hn. apply H. by apply getN_None.
    - replace (top <=? lenN existing) with false; [intros _; constructor|].
      symmetry. apply N.leb_gt. apply Exists_exists in H as (x & Hx & E). apply getN_None in E.
      rewrite Forall_forall in Hall. specialize (Hall _ Hx). lia.
  Qed.

  (** ** Trees *)
  Lemma agrees_with_eq {S} f bs (inp : S -> list N) V r :
    agrees f bs inp V r -> agrees f bs inp (fun s v => V s v /\ r = Done s) r.
  Proof. intros H Hb. specialize (H Hb). destruct r as [s| | |]; try done. destruct H as (v & H1 & H2). exists v. done. Qed.
  Lemma agrees_node fuel bs : (length bs < fuel)%nat -> agrees Tree bs fst any (dec_node_fuel P fuel bs).
  Proof.
    revert bs. induction fuel as [|fuel IH]; intros bs Hl; [lia|].
    eapply agrees_unfold; [done|]. simpl dec_node_fuel.
    eapply agrees_seq; [apply agrees_with_eq, agrees_char|]. intros [r c] v [_ Ec] _. simpl.
    apply dec_char_eats in Ec as (pre & Ebs & Hpre).
    assert (Hr : (length r < fuel)%nat) by (subst bs; rewrite app_length in Hl; lia).
    eapply agrees_seq; [apply agrees_f32|]. intros [r' x] v' _ Hs. simpl in *.
    assert (Hv : agrees (Many P KNodeRefs Tree) r' fst any (dec_vec P KNodeRefs (dec_node_fuel P fuel) r')).
    { apply (agrees_vec _ _ _ _ any). intros bs' Hs'. apply IH.
      apply suffix_length in Hs, Hs'. lia. }
    intros Hb. specialize (Hv Hb). destruct (dec_vec _ _ _ _) as [[r'' l]| | |]; done.
  Qed.
  Lemma agrees_tree bs : agrees Tree bs fst any (dec_node P bs).
  Proof. apply agrees_node. lia. Qed.

  (** ** Parts of the file *)
  Lemma agrees_vendors bs :
    agrees (vendors_form P) bs fst (fun s v => lenN (vm_by_id s.2) = v) (dec_vendors P bs).
  Proof.
    unfold dec_vendors, vendors_form.
    eapply agrees_seq; [apply agrees_usize|]. intros [rest len] w <- _. simpl.
    eapply agrees_seq; [apply agrees_room|]. intros [] v _ _. cbn beta.
    eapply agrees_seq; [apply agrees_room|]. intros [] v' _ _. cbn beta.
    eapply (agrees_seq _ _ _ (fun s : list N * vendor_manager * N => s.1.1)).
    - apply (agrees_times (fun s : list N * vendor_manager * N => s.1.1) (fun i s => length (vm_by_id s.1.2) = i));
        [|done|done].
      intros i [[input vm] id] Hi. simpl in *.
      eapply agrees_end; [apply agrees_str|].
      intros [new_input name] v'' _ _. eexists. split; [done|]. split; [done|]. intros _. simpl.
      rewrite app_length. simpl. lia.
    - intros [[input vm] id] v'' Hl _. simpl in *. apply agrees_done; [done|]. simpl. unfold lenN. lia.
  Qed.
  Lemma agrees_product sid vendors bs :
    agrees (product_form P (lenN (vm_by_id vendors))) bs fst any (dec_product P sid vendors bs).
  Proof.
    unfold dec_product, product_form.
    eapply agrees_seq; [apply agrees_str|]. intros [r1 d] v1 _ _. simpl.
    eapply agrees_seq; [apply agrees_str|]. intros [r2 t] v2 _ _. simpl.
    eapply agrees_seq; [apply agrees_str|]. intros [r3 id] v3 _ _. simpl.
    eapply agrees_seq; [apply agrees_usize|]. intros [r4 vid] v4 <- _. simpl.
    destruct (getN (vm_by_id vendors) vid) as [x|] eqn:E; simpl.
    - apply getN_Some in E. apply N.ltb_lt in E. rewrite E. intros _. exists 0. split; [constructor|done].
    - apply getN_None in E. apply N.ltb_ge in E. rewrite E. intros _. constructor.
  Qed.
  Lemma agrees_feature bs : agrees (column_form P) bs fst any (dec_feature P bs).
  Proof.
    unfold dec_feature, column_form.
    eapply agrees_seq; [apply agrees_byte|]. intros [r b] v <- _. simpl.
    assert (Hother : agrees (Require false) r fst any (@Nope (list N * feature))) by (intros _; constructor).
    destruct b as [|[[]|[]|]]; simpl; try done.
    - eapply agrees_end; [apply (agrees_vec _ _ _ _ any); intros; apply agrees_str|]. intros [r' l] v _ _. eexists. done.
    - eapply agrees_end; [apply (agrees_vec _ _ _ _ any); intros; apply agrees_u32|]. intros [r' l] v _ _. eexists. done.
    - eapply agrees_end; [apply (agrees_vec _ _ _ _ any); intros; apply agrees_f32|]. intros [r' l] v _ _. eexists. done.
  Qed.
  Lemma agrees_features bs : agrees (Many P KFeatureMap (Seq (Text P) (fun _ => column_form P))) bs fst any (dec_features P bs).
  Proof.
    apply (agrees_map_form _ _ _ _ _ _ any any); intros; [apply agrees_str|apply agrees_feature].
  Qed.
  Lemma fares_assoc f g h bs r :
    fares P (Seq f (fun v => Seq (g v) h)) bs r -> fares P (Seq (Seq f g) h) bs r.
  Proof.
    intros H. inversion H as [| | | | | | | | |? ? ? ? Hn| ? ? ? rest v ? H1 H2| ? ? ? H1|? ? ? ? ? H1| | | | | | | | | | |];
      subst; [discriminate| | |].
    - inversion H2 as [| | | | | | | | |? ? ? ? Hn| ? ? ? rest' v' ? H3 H4| ? ? ? H3|? ? ? ? ? H3| | | | | | | | | | |];
        subst; [discriminate| | |].
      + eapply Fares_seq; [|exact H4]. by eapply Fares_seq.
      + apply Fares_seq_rejected. by eapply Fares_seq.
      + apply Fares_seq_falls. by eapply Fares_seq.
    - apply Fares_seq_rejected. by apply Fares_seq_rejected.
    - apply Fares_seq_falls. by apply Fares_seq_falls.
  Qed.
  Lemma agrees_assoc {S} f g h bs (inp : S -> list N) V r :
    agrees (Seq f (fun v => Seq (g v) h)) bs inp V r -> agrees (Seq (Seq f g) h) bs inp V r.
  Proof.
    intros H Hb. specialize (H Hb). destruct r as [s| | |]; [|by apply fares_assoc| |done].
    - destruct H as (v & H & HV). exists v. split; [by apply fares_assoc|done].
    - destruct H as (rest & why & H). exists rest, why. by apply fares_assoc.
  Qed.
  (** The container, and what follows. *)
  Lemma agrees_container {T} g bs (inp : T -> list N) V k :
    (forall c rest, agrees (g (lenN (c_products c))) rest inp V (k (rest, c))) ->
    agrees (Seq (vendors_form P) (fun vendors => Seq (products_form P vendors) (fun products =>
      Seq (Many P KFeatureMap (Seq (Text P) (fun _ => column_form P))) (fun _ => g products)))) bs inp V (dec_container P bs ≫= k).
  Proof.
    intros Hk. unfold dec_container. rewrite bind_assoc_res.
    eapply agrees_seq; [apply agrees_vendors|]. intros [r vendors] v <- _. simpl.
    rewrite bind_assoc_res. apply agrees_assoc.
    eapply agrees_seq; [apply agrees_usize|]. intros [rest count] w <- _. simpl.
    rewrite bind_assoc_res. apply agrees_assoc.
    eapply (agrees_seq _ _ _ (fun s : list N * list product * N => s.1.1)).
    - apply (agrees_times (fun s : list N * list product * N => s.1.1) (fun i s => length s.1.2 = i)); [|done|done].
      intros i [[input products] id] Hi. simpl in *.
      eapply agrees_end; [apply agrees_product|].
      intros [new_input p] v _ _. eexists. split; [done|]. split; [done|]. intros _. simpl. rewrite app_length. simpl. lia.
    - intros [[input products] id] v Hl _. simpl in *. intros Hb.
      assert (Hg : agrees (Seq (Give count) (fun products => Seq (Many P KFeatureMap (Seq (Text P) (fun _ => column_form P)))
        (fun _ => g products))) input inp V (Done (input, tt) ≫= fun '(input, _) =>
          (dec_features P input ≫= (fun '(input, extra_features) => Done (input, Container products vendors extra_features))) ≫= k));
        [|by apply Hg].
      eapply (agrees_seq _ _ _ fst (fun _ v => count = v)); [by apply agrees_done|].
      intros [input' []] v' <- _. simpl. rewrite bind_assoc_res.
      eapply agrees_seq; [apply agrees_features|]. intros [r' fs] v'' _ _. simpl.
      replace count with (lenN (c_products (Container products vendors fs))) by (simpl; unfold lenN; lia). apply Hk.
  Qed.
  Lemma agrees_array_char {T} n g bs k (inp : T -> list N) V :
    (forall rest l, agrees g rest inp V (k (rest, l))) ->
    agrees (Seq (Size P) (fun count => Seq (Assert_size (N.of_nat n) count) (fun _ => Seq (Times (N.of_nat n) Char) (fun _ => g))))
      bs inp V (dec_array P n dec_char bs ≫= k).
  Proof.
    intros Hk. unfold dec_array. rewrite bind_assoc_res.
    eapply agrees_seq; [apply agrees_usize|]. intros [rest len] w <- _. simpl.
    destruct (N.eqb_spec len (N.of_nat n)) as [->|Hn].
    - assert (Hg : agrees (Seq (Assert_size (N.of_nat n) (N.of_nat n)) (fun _ => Seq (Times (N.of_nat n) Char) (fun _ => g))) rest inp V
        (Done (rest, tt) ≫= fun '(rest, _) => rep_nat n (fun '(input, out) =>
          '(new_input, item) ← dec_char input; Done (new_input, out ++ [item])) (rest, []) ≫= k)); [|exact Hg].
      eapply (agrees_seq _ _ _ fst any).
      + intros _. exists 0. split; [constructor|done].
      + intros [rest' []] v _ _. simpl.
        assert (E : forall (S : Type) (f : S -> res S) s, rep_nat n f s = rep_N (N.of_nat n) f s)
          by (intros; by rewrite rep_N_nat, Nat2N.id).
        rewrite E. eapply agrees_seq.
        * apply (agrees_times_any fst _ Char rest'); [|done|apply suffix_refl].
          intros [input out] _. simpl. eapply agrees_end; [apply agrees_char|]. intros [i c] v' _ _. eexists. done.
        * intros [r l] v' _ _. apply Hk.
    - intros _. simpl. exists rest, (Wrong_size len). eapply Fares_seq_falls. by constructor.
  Qed.
  Lemma agrees_data n existing bs :
    agrees (Many P KDataMap (gram_form P n (lenN existing))) bs fst any
      (dec_map P KDataMap (dec_array P n dec_char)
        (fun input => '(input, (products, _)) ← dec_product_refs P existing input; Done (input, products)) bs).
  Proof.
    unfold dec_map. apply (agrees_many KDataMap fst _ _ (fun rest => (rest, ∅))); [done|].
    intros [input out] _. simpl. apply agrees_array_char. intros rest l. rewrite bind_assoc_res.
    eapply agrees_end; [apply agrees_refs|]. intros [r [ps ids]] v _ _. simpl. eexists. done.
  Qed.
  Lemma agrees_option {T} existing bs (k : list N -> rstr -> list product -> list N -> T) (inp : T -> list N) :
    (forall r name ps ids, inp (k r name ps ids) = r) ->
    agrees (named_refs P (lenN existing)) bs inp any
      ('(input, name) ← dec_str P bs; '(input, (products, ids)) ← dec_product_refs P existing input;
       Done (k input name products ids)).
  Proof.
    intros Hk. eapply agrees_seq; [apply agrees_str|]. intros [r name] v _ _. simpl.
    eapply agrees_end; [apply agrees_refs|]. intros [r' [ps ids]] v' _ _. eexists. split; [done|]. by rewrite Hk.
  Qed.
  Lemma agrees_category existing id bs :
    agrees (category_form P (lenN existing)) bs fst any (dec_category P existing id bs).
  Proof.
    unfold dec_category, category_form.
    eapply agrees_seq; [apply agrees_bool|]. intros [r1 b] v1 _ _. simpl.
    eapply agrees_seq; [apply agrees_str|]. intros [r2 name] v2 _ _. simpl.
    eapply agrees_seq; [apply agrees_usize|]. intros [r3 len] v3 <- _. simpl.
    eapply agrees_seq; [apply agrees_room|]. intros [] v4 _ _. cbn beta.
    eapply (agrees_end _ _ (fun s : list N * list cat_option * N => s.1.1) any).
    - apply (agrees_times_any (fun s : list N * list cat_option * N => s.1.1) _ _ r3); [|done|apply suffix_refl].
      intros [[input options] next] _. simpl.
      by apply (agrees_option existing input (fun r name ps ids =>
        (r, options ++ [CatOption name next ps (list_to_set ids)], next + 1))).
    - intros [[input options] next] v _ _. eexists. done.
  Qed.
  Lemma agrees_categories existing bs :
    agrees (Many P KCategories (category_form P (lenN existing))) bs fst any (dec_categories P existing bs).
  Proof.
    unfold dec_categories, Many.
    eapply agrees_seq; [apply agrees_usize|]. intros [r3 len] v3 <- _. simpl.
    eapply agrees_seq; [apply agrees_room|]. intros [] v4 _ _. cbn beta.
    eapply (agrees_end _ _ (fun s : list N * category_index * N => s.1.1) any).
    - apply (agrees_times_any (fun s : list N * category_index * N => s.1.1) _ _ r3); [|done|apply suffix_refl].
      intros [[input cats] next] _. simpl. eapply agrees_end; [apply agrees_category|].
      intros [r [c next']] v _ _. eexists. done.
    - intros [[input cats] next] v _ _. eexists. done.
  Qed.
  Lemma agrees_tags existing bs :
    agrees (Many P KTags (named_refs P (lenN existing))) bs fst any (dec_tags P existing bs).
  Proof.
    unfold dec_tags, Many.
    eapply agrees_seq; [apply agrees_usize|]. intros [r3 len] v3 <- _. simpl.
    eapply agrees_seq; [apply agrees_room|]. intros [] v4 _ _. cbn beta.
    eapply (agrees_end _ _ (fun s : list N * tag_index * N => s.1.1) any).
    - apply (agrees_times_any (fun s : list N * tag_index * N => s.1.1) _ _ r3); [|done|apply suffix_refl].
      intros [[input tags] id] _. simpl.
      by apply (agrees_option existing input (fun r name ps ids => (r, tags ++ [Tag name ps (list_to_set ids) id], id + 1))).
    - intros [[input tags] id] v _ _. eexists. done.
  Qed.
  Lemma agrees_orders bs : agrees (Many P KOrderMap (order_form P)) bs fst any (dec_orders P bs).
  Proof.
    apply (agrees_map_form _ _ _ _ _ _ any any); intros; [apply agrees_str|].
    eapply agrees_vec. intros. apply agrees_usize.
  Qed.
  (** The whole file; [deserialize_all] drops what is left. *)
  Lemma agrees_file n bs : agrees (file_form P n) bs fst any
    ('(input, ngram) ← dec_gram_index P n bs; '(input, classic) ← dec_classic P (gi_container ngram) input;
     Done (input, (ngram, classic))).
  Proof.
    unfold dec_gram_index, file_form. rewrite bind_assoc_res.
    apply (agrees_container (fun products =>
      Seq (Many P KRootMap (Seq Char (fun _ => Tree))) (fun _ =>
      Seq (Many P KDataMap (gram_form P n products)) (fun _ =>
      Seq (Many P KCategories (category_form P products)) (fun _ =>
      Seq (Many P KTags (named_refs P products)) (fun _ =>
      Many P KOrderMap (order_form P))))))).
    intros c rest. rewrite bind_assoc_res.
    eapply agrees_seq; [apply (agrees_map_form _ _ _ _ _ _ any any); intros; [apply agrees_char|apply agrees_tree]|].
    intros [r1 roots] v1 _ _. simpl. rewrite bind_assoc_res.
    eapply agrees_seq; [apply agrees_data|]. intros [r2 data] v2 _ _. simpl. unfold dec_classic.
    rewrite bind_assoc_res.
    eapply agrees_seq; [apply agrees_categories|]. intros [r3 cats] v3 _ _. simpl.
    rewrite bind_assoc_res.
    eapply agrees_seq; [apply agrees_tags|]. intros [r4 tags] v4 _ _. simpl.
    rewrite bind_assoc_res.
    eapply agrees_end; [apply agrees_orders|]. intros [r5 orders] v5 _ _. simpl. eexists. done.
  Qed.
  (** The grammar decides: which files are read, which are rejected, and which make the loader panic. *)
  Lemma file_fate n bs : Forall is_byte bs ->
    ((exists index, deserialize_all P n bs = Done index) <-> exists rest v, fares P (file_form P n) bs (Reads rest v)) /\
    (deserialize_all P n bs = Nope <-> fares P (file_form P n) bs Rejected) /\
    (deserialize_all P n bs = Panic <-> exists rest why, fares P (file_form P n) bs (Falls rest why)).
  Proof.
    intros Hb. pose proof (agrees_file n bs Hb) as H.
    assert (E : deserialize_all P n bs = ('(input, ngram) ← dec_gram_index P n bs;
      '(input, classic) ← dec_classic P (gi_container ngram) input; Done (input, (ngram, classic))) ≫= fun '(_, index) => Done index).
    { unfold deserialize_all. rewrite bind_assoc_res. destruct (dec_gram_index P n bs) as [[i g]| | |]; simpl; try done.
      rewrite bind_assoc_res. by destruct (dec_classic P (gi_container g) i) as [[i' cl]| | |]. }
    rewrite E. clear E.
    destruct (dec_gram_index P n bs ≫= _) as [[rest index]| | |]; simpl in *; [| | |done].
    - destruct H as (v & H & _). split; [|split].
      + split; [|eauto]. intros _. eauto.
      + split; [done|]. intros H'. by pose proof (fares_unique _ _ _ _ H H').
      + split; [done|]. intros (rest' & why & H'). by pose proof (fares_unique _ _ _ _ H H').
    - split; [|split].
      + split; [by intros [? ?]|]. intros (rest' & v & H'). by pose proof (fares_unique _ _ _ _ H H').
      + done.
      + split; [done|]. intros (rest' & why & H'). by pose proof (fares_unique _ _ _ _ H H').
    - destruct H as (rest & why & H). split; [|split].
      + split; [by intros [? ?]|]. intros (rest' & v & H'). by pose proof (fares_unique _ _ _ _ H H').
      + split; [done|]. intros H'. by pose proof (fares_unique _ _ _ _ H H').
      + split; [|done]. intros _. eauto.
  Qed.
  (** Every file has exactly one fate. *)
  Lemma file_has_fate n bs : Forall is_byte bs -> exists r, fares P (file_form P n) bs r /\
    forall r', fares P (file_form P n) bs r' -> r' = r.
  Proof.
    intros Hb. pose proof (agrees_file n bs Hb) as H.
    destruct (dec_gram_index P n bs ≫= _) as [[rest index]| | |]; [| | |done].
    - destruct H as (v & H & _). exists (Reads rest v). split; [done|]. intros r' H'. by eapply fares_unique.
    - exists Rejected. split; [done|]. intros r' H'. by eapply fares_unique.
    - destruct H as (rest & why & H). exists (Falls rest why). split; [done|]. intros r' H'. by eapply fares_unique.
  Qed.
  (** Where a panic happens, the reason given is there. *)
  Lemma falls_means f bs rest why : fares P f bs (Falls rest why) ->
    suffix_of rest bs /\
    match why with
    | Beyond_end len => lenN rest < len
    | No_room k count => cap_max P k < count
    | Wrong_size count => True
    | Overflows a b => overflow_checks P = true /\ 2 ^ usize_bits P <= a + b
    end.
  Proof.
    remember (Falls rest why) as r eqn:E. intros H. revert rest why E.
    induction H; intros rest' why' E; try discriminate; try (injection E as <- <-); subst; eauto using suffix_refl.
    apply fares_suffix in H. destruct (IHfares2 _ _ eq_refl) as [Hs Hw]. split; [by eapply suffix_trans|done].
  Qed.
  Fixpoint sizes (n : N) (f : form) : Prop :=
    match f with
    | Assert_size m _ => m = n
    | Seq f g => sizes n f /\ forall v, sizes n (g v)
    | Times _ f => sizes n f
    | _ => True
    end.
  Lemma sizes_unfold n f f' : unfold P f = Some f' -> sizes n f -> sizes n f'.
  Proof.
    destruct f as [| | | |c f|c previous top| | | | | | |]; simpl; try discriminate; intros [= <-]; try done.
    - destruct (c =? 0); [done|]. intros H. split; [done|]. done.
    - intros _. destruct (c =? 0); [done|]. split; [done|]. done.
  Qed.
  Lemma falls_size n f bs rest count : fares P f bs (Falls rest (Wrong_size count)) -> sizes n f -> count <> n.
  Proof.
    remember (Falls rest (Wrong_size count)) as r eqn:E. intros H. revert rest count E.
    induction H; intros rest' count' E Hs; try discriminate; subst.
    - eapply IHfares; [done|]. by eapply sizes_unfold.
    - destruct Hs as [_ Hs]. by eapply IHfares2.
    - destruct Hs as [Hs _]. by eapply IHfares.
    - injection E as <- <-. simpl in Hs. by subst.
  Qed.
  Lemma sizes_file n : sizes (N.of_nat n) (file_form P n).
  Proof.
    unfold file_form, vendors_form, products_form, product_form, category_form, gram_form, named_refs, order_form, Refs, Many, Text, Size, Char.
    simpl. repeat (done || split || intros ?).
    match goal with |- context [?v =? 0] =>
      destruct (v =? 0); [simpl; repeat (done || split || intros ?)|];
      destruct (v =? 1); [simpl; repeat (done || split || intros ?)|];
      destruct (v =? 2); simpl; repeat (done || split || intros ?)
    end.
  Qed.
  Lemma load_causes n bs : Forall is_byte bs -> deserialize_all P n bs = Panic ->
    exists rest why, fares P (file_form P n) bs (Falls rest why) /\ suffix_of rest bs /\
    match why with
    | Beyond_end len => lenN rest < len
    | No_room k count => cap_max P k < count
    | Wrong_size count => count <> N.of_nat n
    | Overflows a b => overflow_checks P = true /\ 2 ^ usize_bits P <= a + b
    end.
  Proof.
    intros Hb H. apply file_fate in H as (rest & why & H); [|done]. exists rest, why. split; [done|].
    pose proof (falls_means _ _ _ _ H) as [Hs Hw]. split; [done|]. destruct why; try done.
    eapply falls_size; [exact H|apply sizes_file].
  Qed.
End grammar.
(** Three files. *)
Lemma short_text_falls : fares host64 (file_form host64 3) [1; 5; 65] (Falls [65] (Beyond_end 5)).
Proof.
  unfold file_form, vendors_form, Text, Size.
  eapply Fares_seq_falls, Fares_seq.
  { eapply Fares_seq; [constructor; apply (Number_ends [] 1); [constructor|simpl; lia|done]|].
    eapply Fares_seq; constructor. }
  eapply Fares_seq; [constructor; done|]. eapply Fares_seq; [constructor; done|].
  eapply Fares_seq_falls, Fares_unfold; [done|]. simpl.
  eapply Fares_seq_falls, Fares_seq.
  { eapply Fares_seq; [constructor; apply (Number_ends [] 5); [constructor|simpl; lia|done]|].
    eapply Fares_seq; constructor. }
  change (base128 ([] ++ [5])) with 5. by constructor.
Qed.
