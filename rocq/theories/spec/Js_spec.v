(** What filters, handlers and iterators should do. *)
From Verif.model Require Import Base F32 Utf8 Prim Coll Data Gram Nodes Classic Lit Raw Js.
From Verif.spec Require Import Spec Data_spec.

(** ** Filters by feature *)
(** The product at position [i] has the number [x] under [key]. *)
Definition numeric_at (fs : feature_set) (i : nat) (key : rstr) (x : f64) : Prop :=
  (exists l v, fs !! key = Some (FFloat l) /\ l !! i = Some v /\ x = f64_of_f32 v) \/
  (exists l n, fs !! key = Some (FInteger l) /\ l !! i = Some n /\ x = f64_of_u32 n).
(** The product at position [i] has the string [s] under [key]. *)
Definition string_at (fs : feature_set) (i : nat) (key s : rstr) : Prop :=
  exists l, fs !! key = Some (FString l) /\ l !! i = Some s.
(** [x] lies within the bounds, as far as they are numbers. *)
Definition within (from to : jsval) (x : f64) : Prop :=
  (forall a, from = JNum a -> SFleb a x = true) /\ (forall b, to = JNum b -> SFleb x b = true).
Definition is_number (v : jsval) : Prop := exists x, v = JNum x.

(** A JavaScript object none of whose getters throw, and its properties ([undefined] when
    missing; the first of several with the same name, as there is only one in JavaScript). *)
Definition plain_object (v : jsval) (props : list (rstr * jsval)) : Prop :=
  exists identity, v = JObj identity (map (fun '(k, v) => (k, Some v)) props).
Fixpoint property (props : list (rstr * jsval)) (key : rstr) : jsval :=
  match props with
  | [] => JUndef
  | (k, v) :: props' => if decide (k = key) then v else property props' key
  end.

(** What reading a property gives: [None] if its getter throws. *)
Fixpoint read (props : list (rstr * option jsval)) (key : rstr) : option jsval :=
  match props with
  | [] => Some JUndef
  | (k, r) :: props' => if decide (k = key) then r else read props' key
  end.
(** The filter that [{feature: v}] stands for. *)
Definition stands_for (entry : rstr * jsval) (f : feature_filter) : Prop :=
  exists identity props, entry.2 = JObj identity props /\
    ((exists from to, read props s_from = Some from /\ read props s_to = Some to /\
        f = FeatureFilter (Range from to) entry.1) \/
     (exists v, (read props s_from = None \/ read props s_to = None) /\ read props s_exact = Some v /\
        f = FeatureFilter (Exact v) entry.1)).

(** ** Handlers *)
(** The key names an option, resp. a tag, of the index. *)
Definition option_at (cl : classic) (key : N * N) (cat : category) (opt : cat_option) : Prop :=
  (cl_categories cl : list category) !! N.to_nat key.1 = Some cat /\ cat_options cat !! N.to_nat key.2 = Some opt.
Definition tag_at (cl : classic) (id : N) (t : tag) : Prop := (cl_tags cl : list tag) !! N.to_nat id = Some t.
(** [handle] is the index [cl], or [cl] after being stored and loaded (C18). *)
Definition same_classic (cl handle : classic) : Prop := handle = cl \/ handle = stored_classic cl.
Definition active_options_exist (h : cat_handler) : Prop :=
  forall key, key ∈ ch_active h -> exists cat opt, option_at (ch_handle h) key cat opt.
Definition active_tags_exist (h : tag_handler) : Prop :=
  forall id, id ∈ th_active h -> exists t, tag_at (th_handle h) id t.
(** The position is listed by every active option, resp. tag. *)
Definition has_options (h : cat_handler) (sid : N) : Prop :=
  forall key cat opt, key ∈ ch_active h -> option_at (ch_handle h) key cat opt -> sid ∈ o_ids opt.
Definition has_tags (h : tag_handler) (sid : N) : Prop :=
  forall id t, id ∈ th_active h -> tag_at (th_handle h) id t -> sid ∈ t_ids t.

(** What JavaScript does to a handler: [K] identifies an option or tag. *)
Inductive handler_op (K : Type) :=
| Toggle (k : K)
| AddGeneral (f : N)
| AddFor (k : K) (f : N)
| RemoveFor (k : K) (f : N).
Arguments Toggle {K} k.
Arguments AddGeneral {K} f.
Arguments AddFor {K} k f.
Arguments RemoveFor {K} k f.

(** A call sequence on a category handler and on a tag handler; the observer calls made by
    each operation. *)
Definition cat_op (h : cat_handler) (op : handler_op export_option) : cat_handler * list call :=
  match op with
  | Toggle item => ch_toggle h item
  | AddGeneral f => (ch_add_general h f, [])
  | AddFor item f => (ch_add_option h item f, [])
  | RemoveFor item f => (ch_remove_option h item f, [])
  end.
Definition cat_run (h : cat_handler) (ops : list (handler_op export_option)) : cat_handler :=
  foldl (fun h op => (cat_op h op).1) h ops.
Definition tag_op (h : tag_handler) (op : handler_op js_tag) : res (tag_handler * list call) :=
  match op with
  | Toggle t => th_toggle h t
  | AddGeneral f => Done (th_add_general h f, [])
  | AddFor t f => h ← th_add_tag h t f; Done (h, [])
  | RemoveFor t f => h ← th_remove_tag h t f; Done (h, [])
  end.
Definition tag_run (h : tag_handler) (ops : list (handler_op js_tag)) : res tag_handler :=
  foldM (fun h op => '(h, _) ← tag_op h op; Done h) ops h.

(** How often [k] was toggled, where [key] identifies an item. *)
Fixpoint toggles {K K'} `{EqDecision K'} (key : K -> K') (ops : list (handler_op K)) (k : K') : nat :=
  match ops with
  | [] => 0
  | Toggle k' :: ops' => (if decide (key k' = k) then 1 else 0) + toggles key ops' k
  | _ :: ops' => toggles key ops' k
  end.
(** The general observers in order of registration. *)
Fixpoint general_observers {K} (ops : list (handler_op K)) : list N :=
  match ops with
  | [] => []
  | AddGeneral f :: ops' => f :: general_observers ops'
  | _ :: ops' => general_observers ops'
  end.
(** One occurrence less of [f], if there is one. *)
Fixpoint without_one (f : N) (l : list N) : list N :=
  match l with
  | [] => []
  | x :: l' => if decide (x = f) then l' else x :: without_one f l'
  end.
(** The registrations for [k], given those at the start. *)
Fixpoint registered {K K'} `{EqDecision K'} (key : K -> K') (l : list N) (ops : list (handler_op K)) (k : K') : list N :=
  match ops with
  | [] => l
  | AddFor k' f :: ops' => registered key (if decide (key k' = k) then l ++ [f] else l) ops' k
  | RemoveFor k' f :: ops' => registered key (if decide (key k' = k) then without_one f l else l) ops' k
  | _ :: ops' => registered key l ops' k
  end.
Fixpoint no_removal {K K'} `{EqDecision K'} (key : K -> K') (ops : list (handler_op K)) (k : K') : Prop :=
  match ops with
  | [] => True
  | RemoveFor k' _ :: ops' => key k' <> k /\ no_removal key ops' k
  | _ :: ops' => no_removal key ops' k
  end.

(** Every tag handle used by the operations leads to a tag of a numbered list (as lists of
    built and loaded indexes are). *)
Definition tag_handle_ok (t : js_tag) : Prop :=
  tag_positions (cl_tags (jt_handle t)) /\ exists x, tag_at (jt_handle t) (jt_index t) x.
Definition tag_op_ok (op : handler_op js_tag) : Prop :=
  match op with Toggle t | AddFor t _ | RemoveFor t _ => tag_handle_ok t | AddGeneral _ => True end.

(** Every option toggled on a category handler is one of the index. *)
Definition cat_op_ok (cl : classic) (op : handler_op export_option) : Prop :=
  match op with Toggle item => exists cat opt, option_at cl (eo_keys item) cat opt | _ => True end.
(** Every tag toggled on a tag handler is one of the index. *)
Definition own_tag (cl : classic) (op : handler_op js_tag) : Prop :=
  match op with Toggle t => exists x, tag_at cl (jt_index t) x | _ => True end.

(** ** Iterators *)
(** The results of [n] calls. *)
Fixpoint calls {It Out} (next : It -> It * option Out) (n : nat) (it : It) : list (option Out) :=
  match n with
  | O => []
  | S n' => let '(it', r) := next it in r :: calls next n' it'
  end.
(** [n] answers: all of [l], then nothing more. *)
Definition then_none {Out} (n : nat) (l : list Out) : list (option Out) :=
  map (fun i => l !! i) (seq 0 n).
