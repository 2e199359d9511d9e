(** What the entry points should do. *)
From Verif.model Require Import Base F32 Utf8 Prim Coll Data Gram Indexer Nodes Classic Lit Raw Js Lib.
From Verif.spec Require Import Spec Data_spec Gram_spec Js_spec.

(** ** One search *)
(** The product satisfies the category filter, the tag filter and every feature filter. *)
Definition passes (categories : cat_handler) (tags : tag_handler) (filters : list feature_filter)
    (fs : feature_set) (p : product) : Prop :=
  has_options categories (p_sid p) /\ has_tags tags (p_sid p) /\
  forall f, f ∈ filters -> filter_accepts f fs p = true.
(** Both handlers only have options and tags of their own index switched on. *)
Definition handlers_ok (categories : cat_handler) (tags : tag_handler) : Prop :=
  active_options_exist categories /\ active_tags_exist tags.

(** The ranks of the listed positions never decrease. *)
Definition ranks_ascend (table : list N) (l : list N) : Prop :=
  forall i j a b ra rb, (i < j)%nat -> l !! i = Some a -> l !! j = Some b ->
    table !! N.to_nat a = Some ra -> table !! N.to_nat b = Some rb -> ra <= rb.

(** ** Histories of calls *)
Inductive lib_op :=
| InitOp (bytes : list N)
| SearchOp (o : search_order) (input : rstr) (categories : cat_handler) (tags : tag_handler)
    (order : option rstr) (entries : list (rstr * jsval)).

Section history.
  Context (low : N -> list N) (unwinding : bool) (P : platform).
  Definition lib_step (st : lib_state) (op : lib_op) : lib_state :=
    match op with
    | InitOp bytes => (initialize P st bytes).1
    | SearchOp o input categories tags order entries =>
      (search low unwinding o st input categories tags order entries).1
    end.
  Definition lib_run (st : lib_state) (ops : list lib_op) : lib_state := foldl lib_step st ops.

  (** Does the operation, started in [st], load a file? *)
  Definition loads (st : lib_state) (op : lib_op) : Prop :=
    match op with InitOp bytes => (initialize P st bytes).2 = Done true | _ => False end.
  Fixpoint no_loads (st : lib_state) (ops : list lib_op) : Prop :=
    match ops with
    | [] => True
    | op :: ops' => ~ loads st op /\ no_loads (lib_step st op) ops'
    end.
  (** Does the operation, started in [st], panic inside a search? *)
  Definition search_panics (st : lib_state) (op : lib_op) : Prop :=
    match op with
    | InitOp _ => False
    | SearchOp o input categories tags order entries =>
      (search low unwinding o st input categories tags order entries).2 = Panic
    end.
  Fixpoint no_panics (st : lib_state) (ops : list lib_op) : Prop :=
    match ops with
    | [] => True
    | op :: ops' => ~ search_panics st op /\ no_panics (lib_step st op) ops'
    end.
End history.

(** The state in which exactly this index is loaded and nothing went wrong. *)
Definition loaded (gi : gram_index) (cl : classic) : lib_state := LibState (Some gi) (Some cl) false false.

(** ** Tag suggestions *)
(** [ws] are the parts of [query] between its spaces. *)
Definition splits (query : rstr) (ws : list rstr) : Prop :=
  (exists w ws', ws = w :: ws' /\ query = w ++ concat (map (fun w => 32 :: w) ws')) /\
  Forall (fun w => 32 ∉ w) ws.
(** All pairs of a keyword and a tag, keyword by keyword. *)
Definition pairs (ws : list rstr) (tags : list tag) : list (rstr * tag) :=
  concat (map (fun w => map (fun t => (w, t)) tags) ws).
(** At how many positions do two strings have the same char? *)
Fixpoint agreeing (a b : rstr) : N :=
  match a, b with
  | x :: a', y :: b' => (if decide (x = y) then 1 else 0) + agreeing a' b'
  | _, _ => 0
  end.
(** The length in bytes of the shorter of the keyword and the name of the tag. *)
Definition shorter (x : rstr * tag) : N := N.min (lenN (utf8 x.1)) (lenN (utf8 (t_name x.2))).
(** Both have at least three bytes and the chars agree at more than four fifths of the
    bytes of the shorter one. *)
Definition similar (x : rstr * tag) : Prop := 3 <= shorter x /\ 4 * shorter x < 5 * agreeing x.1 (t_name x.2).
(** The pair [x] agrees at a larger share of positions than [y]. *)
Definition closer (x y : rstr * tag) : Prop :=
  agreeing y.1 (t_name y.2) * shorter x < agreeing x.1 (t_name x.2) * shorter y.
(** [x] is the first of those pairs that are [good] for which no other such pair is
    [better]. *)
Definition first_best {A} (good : A -> Prop) (better : A -> A -> Prop) (l : list A) (x : A) : Prop :=
  exists i, l !! i = Some x /\ good x /\
    (forall j y, l !! j = Some y -> good y -> ~ better y x) /\
    (forall j y, (j < i)%nat -> l !! j = Some y -> good y -> better x y).

(** ** Handlers of two indexes *)
(** Both handlers have the same things switched on, and these list the same positions. *)
Definition same_options (h h' : cat_handler) : Prop :=
  ch_active h = ch_active h' /\
  forall key cat opt cat' opt', key ∈ ch_active h ->
    option_at (ch_handle h) key cat opt -> option_at (ch_handle h') key cat' opt' ->
    forall sid, sid ∈ o_ids opt <-> sid ∈ o_ids opt'.
Definition same_tags (h h' : tag_handler) : Prop :=
  th_active h = th_active h' /\
  forall id t t', id ∈ th_active h -> tag_at (th_handle h) id t -> tag_at (th_handle h') id t' ->
    forall sid, sid ∈ t_ids t <-> sid ∈ t_ids t'.
