(** What pages may rely on. *)
From Verif.model Require Import Base F32 Utf8 Prim Coll Data Gram Indexer Nodes Classic Lit Raw Js Lib Page.
From Verif.spec Require Import Spec Data_spec Js_spec Lib_spec.

(** The handler that a request is sent to. *)
Definition sent_to (r : request) : option N :=
  match r with
  | GetCategories | GetTags | AskInitialize _ => None
  | AskToggle h _ | AskStatus h _ | AskAddGeneral h _ | AskAdd h _ _ | AskRemove h _ _ => Some h
  end.
(** A method of the handler is running that changes it, resp. only reads it. *)
Definition being_changed {S} (w : world (S := S)) (h : N) (v : handler) : Prop :=
  w_handlers w !! h = Some (Cell v Exclusive).
Definition being_read {S} (w : world (S := S)) (h : N) (v : handler) : Prop :=
  exists n, w_handlers w !! h = Some (Cell v (Shared (n + 1))).
Definition idle {S} (w : world (S := S)) (h : N) : Prop :=
  exists v, w_handlers w !! h = Some (Cell v (Shared 0)).
Definition all_idle {S} (w : world (S := S)) : Prop :=
  forall h c, w_handlers w !! h = Some c -> c_borrow c = Shared 0.

(** ** What happened to one handler *)
(** The operations on a category handler, resp. a tag handler, among the events. *)
Fixpoint cat_history (h : N) (es : list event) : list (handler_op export_option) :=
  match es with
  | [] => []
  | e :: es' =>
    match e with
    | Toggled h' (IOption x) => if decide (h' = h) then [Toggle x] else []
    | AddedGeneral h' f => if decide (h' = h) then [AddGeneral f] else []
    | Added h' (IOption x) f => if decide (h' = h) then [AddFor x f] else []
    | Removed h' (IOption x) f => if decide (h' = h) then [RemoveFor x f] else []
    | _ => []
    end ++ cat_history h es'
  end.
Fixpoint tag_history (h : N) (es : list event) : list (handler_op js_tag) :=
  match es with
  | [] => []
  | e :: es' =>
    match e with
    | Toggled h' (ITag x) => if decide (h' = h) then [Toggle x] else []
    | AddedGeneral h' f => if decide (h' = h) then [AddGeneral f] else []
    | Added h' (ITag x) f => if decide (h' = h) then [AddFor x f] else []
    | Removed h' (ITag x) f => if decide (h' = h) then [RemoveFor x f] else []
    | _ => []
    end ++ tag_history h es'
  end.
(** The observer calls it made. *)
Fixpoint calls_by (h : N) (es : list event) : list call :=
  match es with
  | [] => []
  | Called h' f b :: es' => (if decide (h' = h) then [(f, b)] else []) ++ calls_by h es'
  | _ :: es' => calls_by h es'
  end.
(** The observer calls that a sequence of operations makes, one operation after the other. *)
Fixpoint cat_calls (h : cat_handler) (ops : list (handler_op export_option)) : list call :=
  match ops with [] => [] | op :: ops' => (cat_op h op).2 ++ cat_calls (cat_op h op).1 ops' end.
Fixpoint tag_calls (h : tag_handler) (ops : list (handler_op js_tag)) : list call :=
  match ops with
  | [] => []
  | op :: ops' => match tag_op h op with Done (h', cs) => cs ++ tag_calls h' ops' | _ => [] end
  end.

(** ** Kinds of code *)
Section code.
  Context {S : Type}.
  (** Never makes a handler. *)
  Fixpoint makes_none (p : js (S := S)) : Prop :=
    match p with
    | JReturn | JThrow => True
    | JAsk r k => r <> GetCategories /\ r <> GetTags /\ forall a, makes_none (k a)
    | JSearch _ _ _ _ getters _ k => makes_none getters /\ forall a, makes_none (k a)
    | JGet k => forall s, makes_none (k s)
    | JSet _ k => makes_none k
    end.
  (** Never searches. *)
  Fixpoint searches_not (p : js (S := S)) : Prop :=
    match p with
    | JReturn | JThrow => True
    | JAsk _ k => forall a, searches_not (k a)
    | JSearch _ _ _ _ _ _ _ => False
    | JGet k => forall s, searches_not (k s)
    | JSet _ k => searches_not k
    end.
  (** Never throws. *)
  Fixpoint throws_not (p : js (S := S)) : Prop :=
    match p with
    | JReturn => True
    | JThrow => False
    | JAsk _ k => forall a, throws_not (k a)
    | JSearch _ _ _ _ _ _ k => forall a, throws_not (k a)
    | JGet k => forall s, throws_not (k s)
    | JSet _ k => throws_not k
    end.
  (** Reads filter objects by code that neither searches nor throws. *)
  Fixpoint plain_filters (p : js (S := S)) : Prop :=
    match p with
    | JReturn | JThrow => True
    | JAsk _ k => forall a, plain_filters (k a)
    | JSearch _ _ _ _ getters _ k => searches_not getters /\ throws_not getters /\ forall a, plain_filters (k a)
    | JGet k => forall s, plain_filters (k s)
    | JSet _ k => plain_filters k
    end.
  (** Uses only tags of numbered lists (as iterators of built and loaded indexes return). *)
  Definition item_ok (i : item) : Prop := match i with IOption _ => True | ITag t => tag_handle_ok t end.
  Definition request_ok (r : request) : Prop :=
    match r with AskToggle _ i | AskAdd _ i _ | AskRemove _ i _ => item_ok i | _ => True end.
  Fixpoint tags_ok (p : js (S := S)) : Prop :=
    match p with
    | JReturn | JThrow => True
    | JAsk r k => request_ok r /\ forall a, tags_ok (k a)
    | JSearch _ _ _ _ getters _ k => tags_ok getters /\ forall a, tags_ok (k a)
    | JGet k => forall s, tags_ok (k s)
    | JSet _ k => tags_ok k
    end.
End code.

(** A method that changes the handler is running. *)
Definition busy {S} (w : world (S := S)) (h : N) : bool :=
  match w_handlers w !! h with Some (Cell _ Exclusive) => true | _ => false end.
(** Running code only if a method that changes the handler is running. *)
Definition only_if_busy {S} (h : N) (call : world (S := S) -> js (S := S) -> res (world (S := S) * bool))
    (w : world (S := S)) (p : js (S := S)) : res (world (S := S) * bool) :=
  if busy w h then call w p else Panic.
(** The handlers no method is running of. *)
Definition idle_handlers {S} (w : world (S := S)) : gset N :=
  dom (filter (fun x => c_borrow x.2 = Shared 0) (w_handlers w)).
