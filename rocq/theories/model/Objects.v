(** The objects a page holds: what [#[wasm_bindgen]] (0.2.80) does when methods of src/lib.rs and
    src/js_interactable/*.rs are called, return, throw or trap, and when objects are freed by hand.
    All exported classes are here, and who shares the [Arc<ClassicIndexes>] of src/lib.rs:31.

    Simplified: what methods compute is left out (see Js.v, Lib.v and Page.v); a page is any
    sequence of events, so observers and getters may do anything between the start and the end
    of a call. Arguments are of the right class (otherwise the glue throws before the call). *)
From Verif.model Require Import Base Page.

(** An exported object in its [WasmRefCell]: the classic index its [Arc] refers to, if it has one,
    and the calls in progress. *)
Record obj := Obj { o_arc : option N; o_borrow : borrow }.

(** Calls of methods of objects, and of [search]. *)
Inductive call :=
| KToggle (h i : N)      (** src/js_interactable/category_handler.rs:17-45, tag_handler.rs:25-53, [toggle] *)
| KStatus (h i : N)      (** category_handler.rs:47-49, tag_handler.rs:55-57, [get_status] *)
| KIter (h : N)          (** category_handler.rs:52-57, [iter], and tag_handler.rs:18-23, [tags] *)
| KAddGeneral (h : N)    (** category_handler.rs:59-61, tag_handler.rs:59-61, [add_general_observer] *)
| KAdd (h i : N)         (** category_handler.rs:63-71, [add_option_lister], tag_handler.rs:63-71, [add_tag_lister] *)
| KRemove (h i : N)      (** category_handler.rs:73-88, tag_handler.rs:73-84, [remove_option_listener], [remove_tag_listener] *)
| KNextCategory (t : N)  (** category_handler.rs:121-130, [CategoryIter::next_item] *)
| KNextOption (t : N)    (** category_handler.rs:141-155, [CategoryOptionIter::next_item] *)
| KCategoryName (t : N)  (** category_handler.rs:157-159, [CategoryOptionIter::name] *)
| KNextTag (t : N)       (** tag_handler.rs:116-124, [TagIter::next_tag] *)
| KName (i : N)          (** category_handler.rs:171-173, tag_handler.rs:136-138, [get_name] *)
| KSuggestedInput (s : N) (** src/lib.rs:139-141, [TagSuggestionResult::get_input] *)
| KSuggestedTag (s : N)  (** src/lib.rs:143-145, [TagSuggestionResult::get_tag] *)
| KNextProduct (r : N)   (** src/js_interactable/product_producer.rs:24-35, [next_product] *)
| KProduct (p : N)       (** product_producer.rs:50-78, the accessors of [JsProduct] *)
| KSearch (c t : N).     (** src/lib.rs:63-100, [search] *)

(** The objects a call borrows, in this order, and whether mutably ([&mut self]): first [self],
    then the arguments. *)
Definition borrows (k : call) : list (N * bool) :=
  match k with
  | KToggle h i | KAdd h i | KRemove h i => [(h, true); (i, false)]
  | KStatus h i => [(h, false); (i, false)]
  | KAddGeneral h => [(h, true)]
  | KIter h => [(h, false)]
  | KNextCategory t | KNextOption t | KNextTag t | KNextProduct t => [(t, true)]
  | KCategoryName x | KName x | KSuggestedInput x | KSuggestedTag x | KProduct x => [(x, false)]
  | KSearch c t => [(c, false); (t, false)]
  end.
(** The object a call returns (or may return): none, one with a clone of the [Arc] of the given
    object, or one without an [Arc] (category_handler.rs:162-167, product_producer.rs:5-10 and 38-42). *)
Inductive product := Nothing | Sharing (h : N) | Alone.
Definition makes (k : call) : product :=
  match k with
  | KIter h | KNextCategory h | KNextTag h | KSuggestedTag h => Sharing h
  | KNextOption _ | KNextProduct _ | KSearch _ _ => Alone
  | _ => Nothing
  end.

(** What a page can do. [ELeave] and [ETrap] end the call that started last: regularly, with an
    object or without one, or by a panic or an exception of a getter. *)
Inductive event :=
| ELoad                  (** src/lib.rs:48-61, [initialize], when it succeeds *)
| EGet (some : bool)     (** src/lib.rs:104-120 and 148-191, [get_categories], [get_tags], [tag_suggestion] *)
| EEnter (k : call)
| ELeave (some : bool)
| ETrap
| EFree (h : N).         (** wasm-bindgen, [free] of the JavaScript class *)

(** The index in [SHARED_CLASSIC_INDEX]; the strong count of every classic index that is still
    allocated; the cells that are allocated; the JavaScript objects whose pointer is null; the
    calls in progress; the next number for an index. *)
Record state := State {
  s_shared : option N;
  s_strong : gmap N N;
  s_objs : gmap N obj;
  s_null : gset N;
  s_stack : list call;
  s_next : N
}.
Definition start : state := State None ∅ ∅ ∅ [] 0.
Inductive outcome := Threw | Fine | Made (h : N).

(** [Arc::clone] and [Drop for Arc]: the last one deallocates. *)
Definition arc_clone (a : N) (m : gmap N N) : gmap N N := <[a := default 0 (m !! a) + 1]> m.
Definition arc_drop (a : N) (m : gmap N N) : gmap N N :=
  match m !! a with
  | Some n => if n <=? 1 then delete a m else <[a := n - 1]> m
  | None => m
  end.

(** wasm-bindgen, [RefFromWasmAbi] and [RefMutFromWasmAbi]: throws for a null pointer and for an
    object in use; [None]. *)
Definition borrow_one (null : gset N) (objs : gmap N obj) (h : N) (mutable : bool) : option (gmap N obj) :=
  if decide (h ∈ null) then None
  else match objs !! h with
       | Some (Obj a (Shared n)) =>
         if mutable then if n =? 0 then Some (<[h := Obj a Exclusive]> objs) else None
         else Some (<[h := Obj a (Shared (n + 1))]> objs)
       | _ => None
       end.
(** The conversion of all arguments. Throwing runs no destructors: what was borrowed before stays
    borrowed. *)
Fixpoint borrow_all (null : gset N) (objs : gmap N obj) (l : list (N * bool)) : gmap N obj * bool :=
  match l with
  | [] => (objs, true)
  | (h, mutable) :: l' =>
    match borrow_one null objs h mutable with
    | Some objs' => borrow_all null objs' l'
    | None => (objs, false)
    end
  end.
(** wasm-bindgen, [Drop for Ref] and [Drop for RefMut]. *)
Definition release_one (objs : gmap N obj) (h : N) : gmap N obj :=
  match objs !! h with
  | Some (Obj a Exclusive) => <[h := Obj a (Shared 0)]> objs
  | Some (Obj a (Shared n)) => <[h := Obj a (Shared (n - 1))]> objs
  | None => objs
  end.
Definition release_all (objs : gmap N obj) (l : list (N * bool)) : gmap N obj :=
  foldr (fun x objs => release_one objs x.1) objs l.

(** A new object, in a cell and with a JavaScript object of its own. *)
Definition make (s : state) (arc : option N) : state * outcome :=
  let h := fresh (dom (s_objs s) ∪ s_null s) in
  (State (s_shared s) (match arc with Some a => arc_clone a (s_strong s) | None => s_strong s end)
     (<[h := Obj arc (Shared 0)]> (s_objs s)) (s_null s) (s_stack s) (s_next s), Made h).

Definition step (s : state) (e : event) : state * outcome :=
  match e with
  | ELoad =>
    (State (Some (s_next s))
       (arc_clone (s_next s) (match s_shared s with Some a => arc_drop a (s_strong s) | None => s_strong s end))
       (s_objs s) (s_null s) (s_stack s) (s_next s + 1), Fine)
  | EGet some =>
    match s_shared s with
    | Some a => if some then make s (Some a) else (s, Fine)
    | None => (s, Fine)
    end
  | EEnter k =>
    let '(objs, ok) := borrow_all (s_null s) (s_objs s) (borrows k) in
    if ok then (State (s_shared s) (s_strong s) objs (s_null s) (k :: s_stack s) (s_next s), Fine)
    else (State (s_shared s) (s_strong s) objs (s_null s) (s_stack s) (s_next s), Threw)
  | ELeave some =>
    match s_stack s with
    | [] => (s, Fine)
    | k :: stack =>
      let s' := State (s_shared s) (s_strong s) (release_all (s_objs s) (borrows k)) (s_null s) stack (s_next s) in
      match makes k with
      | Sharing h => if some then make s' (s_objs s !! h ≫= o_arc) else (s', Fine)
      | Alone => if some then make s' None else (s', Fine)
      | Nothing => (s', Fine)
      end
    end
  | ETrap => (State (s_shared s) (s_strong s) (s_objs s) (s_null s) (tail (s_stack s)) (s_next s), Threw)
  | EFree h =>
    (* [__destroy_into_raw] makes the pointer null first; then the cell must not be in use *)
    if decide (h ∈ s_null s) then (s, Threw)
    else match s_objs s !! h with
         | None => (s, Threw)
         | Some (Obj a b) =>
           let null := {[h]} ∪ s_null s in
           if decide (b = Shared 0)
           then (State (s_shared s) (match a with Some a => arc_drop a (s_strong s) | None => s_strong s end)
                   (delete h (s_objs s)) null (s_stack s) (s_next s), Fine)
           else (State (s_shared s) (s_strong s) (s_objs s) null (s_stack s) (s_next s), Threw)
         end
  end.
(** A page: its state after some events, and what they returned. *)
Fixpoint run_page (s : state) (es : list event) : state * list outcome :=
  match es with
  | [] => (s, [])
  | e :: es' => let '(s1, r) := step s e in let '(s2, rs) := run_page s1 es' in (s2, r :: rs)
  end.
