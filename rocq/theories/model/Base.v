(** Common vocabulary of the model: outcomes, loops, the target platform,
    hash-map iteration orders and the stable sort. *)
From stdpp Require Export prelude list gmap.
From Coq Require Export NArith ZArith.
Open Scope N_scope.

(** Outcome of a Rust call returning [Option<_>] (or a plain value):
    [Done v] is [Some v] (or the value), [Nope] is [None], [Panic] is a Rust panic.
    [Stuck] is not a Rust behaviour: it is returned only if the fuel of one of
    the model's own recursions runs out (theorems show this never happens). *)
Inductive res (A : Type) : Type :=
| Done (a : A)
| Nope
| Panic
| Stuck.
Arguments Done {A} a.
Arguments Nope {A}.
Arguments Panic {A}.
Arguments Stuck {A}.

(** Rust's [?] operator on [Option], with panics propagating. *)
Global Instance res_ret : MRet res := @Done.
Global Instance res_bind : MBind res := fun A B f m =>
  match m with Done a => f a | Nope => Nope | Panic => Panic | Stuck => Stuck end.
Global Instance res_fmap : FMap res := fun A B f m =>
  match m with Done a => Done (f a) | Nope => Nope | Panic => Panic | Stuck => Stuck end.

(** [Option::ok_or(None)?]: an [Option] used with [?]. *)
Definition of_opt {A} (o : option A) : res A :=
  match o with Some a => Done a | None => Nope end.
(** [Option::unwrap] / slice indexing: panics on [None]. *)
Definition unwrap {A} (o : option A) : res A :=
  match o with Some a => Done a | None => Panic end.

(** [for _ in 0..n { s = f(s)?; }] for a [nat] count. *)
Fixpoint rep_nat {S} (n : nat) (f : S -> res S) (s : S) : res S :=
  match n with
  | O => Done s
  | S n' => s' ← f s; rep_nat n' f s'
  end.

(** The same loop for a binary count (a length read from a file may be huge;
    the loop stops at the first failure). [Base_facts.rep_N_nat] shows that it
    is [rep_nat]. *)
Fixpoint rep_pos {S} (p : positive) (f : S -> res S) (s : S) : res S :=
  match p with
  | xH => f s
  | xO q => s' ← rep_pos q f s; rep_pos q f s'
  | xI q => s0 ← f s; s' ← rep_pos q f s0; rep_pos q f s'
  end.
Definition rep_N {S} (n : N) (f : S -> res S) (s : S) : res S :=
  match n with 0 => Done s | Npos p => rep_pos p f s end.

(** [for (i, x) in l { s = f(i, s)?; }]: a fallible left fold. *)
Fixpoint foldM {A S} (f : S -> A -> res S) (l : list A) (s : S) : res S :=
  match l with
  | [] => Done s
  | x :: l' => s' ← f s x; foldM f l' s'
  end.

(** [iter.map(f).collect()] where [f] may panic. *)
Fixpoint mapR {A B} (f : A -> res B) (l : list A) : res (list B) :=
  match l with
  | [] => Done []
  | x :: l' => y ← f x; ys ← mapR f l'; Done (y :: ys)
  end.

(** [slice.get(i)] with a machine integer index. *)
Definition getN {A} (l : list A) (i : N) : option A :=
  if i <? N.of_nat (length l) then l !! N.to_nat i else None.

(** [v[i] = x], panicking when out of bounds. *)
Definition setN {A} (l : list A) (i : N) (x : A) : res (list A) :=
  if i <? N.of_nat (length l) then Done (<[N.to_nat i := x]> l) else Panic.

(** Length of a vector as a machine integer. *)
Definition lenN {A} (l : list A) : N := N.of_nat (length l).

(** Places where the code pre-allocates ([Vec::with_capacity],
    [AHashMap::with_capacity]) with a length taken from the file. *)
Inductive kind :=
| KStrings | KFloats | KInts | KUsizes | KNodeRefs | KVendorMap | KVendorVec
| KFeatureMap | KOrderMap | KRootMap | KDataMap | KIds | KProductRefs
| KCategories | KOptions | KTags.

(** The compilation target: width of [usize] (32 on wasm32, 64 on the server),
    the largest capacity each container accepts without a "capacity overflow"
    panic, and whether arithmetic overflow panics (debug) or wraps (release,
    the profile of build_search.sh:1-2). *)
Record platform := {
  usize_bits : N;
  cap_max : kind -> N;
  overflow_checks : bool
}.

Definition usize_max (P : platform) : N := 2 ^ usize_bits P - 1.

(** [Vec::with_capacity(len)] / [AHashMap::with_capacity(len)]: panics with
    "capacity overflow" beyond the limit; allocation failure is not modelled. *)
Definition with_capacity (P : platform) (k : kind) (len : N) : res unit :=
  if len <=? cap_max P k then Done tt else Panic.

(** [a + b] on an unsigned integer of [bits] bits. *)
Definition add_bits (P : platform) (bits a b : N) : res N :=
  if a + b <? 2 ^ bits then Done (a + b)
  else if overflow_checks P then Panic else Done ((a + b) mod 2 ^ bits).
(** [a * b] on an unsigned integer of [bits] bits. *)
Definition mul_bits (P : platform) (bits a b : N) : res N :=
  if a * b <? 2 ^ bits then Done (a * b)
  else if overflow_checks P then Panic else Done ((a * b) mod 2 ^ bits).

(** A hash-map iteration order: an arbitrary rearrangement of the entries. *)
Definition order_of (A : Type) := list A -> list A.
Definition valid_order {A} (o : order_of A) : Prop := forall l, o l ≡ₚ l.

(** [slice.sort_by(cmp)], Rust's stable sort, as stable insertion sort.
    For comparators that are total preorders every stable sort returns this
    list ([Sort_facts.stable_sort_unique]). *)
Section sort.
  Context {A : Type} (cmp : A -> A -> comparison).
  Fixpoint insert_by (x : A) (l : list A) : list A :=
    match l with
    | [] => [x]
    | y :: l' => match cmp x y with Gt => y :: insert_by x l' | _ => x :: l end
    end.
  Fixpoint sort_by (l : list A) : list A :=
    match l with
    | [] => []
    | x :: l' => insert_by x (sort_by l')
    end.
End sort.

(** [Ordering::reverse]. *)
Definition reverse_ord (c : comparison) : comparison := CompOpp c.
(** [partial_cmp(..).unwrap_or(Ordering::Equal)]. *)
Definition unwrap_or_equal (c : option comparison) : comparison :=
  match c with Some c => c | None => Eq end.
