(** A JavaScript page using the library: what the [#[wasm_bindgen]] attributes of src/lib.rs and
    src/js_interactable/*.rs add to the methods. Handlers live in cells that count the calls in
    progress ([WasmRefCell] of wasm-bindgen 0.2.80); a call that would alias a handler being
    changed throws a JavaScript exception. Neither exceptions nor panics (compiled to traps) run
    destructors, so borrows taken before them are never given back.

    Simplified: options and tags are values (their cells are never borrowed mutably), objects are
    not freed by hand, and iterators and products, whose methods call no JavaScript, are left out. *)
From Verif.model Require Import Base F32 Utf8 Prim Coll Data Gram Indexer Nodes Classic Lit Raw Js Lib.

(** src/js_interactable/category_handler.rs:7-13 and src/js_interactable/tag_handler.rs:8-14. *)
Inductive handler := HCat (h : cat_handler) | HTag (h : tag_handler).
(** src/js_interactable/category_handler.rs:162-167 and src/js_interactable/tag_handler.rs:127-132. *)
Inductive item := IOption (e : export_option) | ITag (t : js_tag).

(** wasm-bindgen, [WasmRefCell]: how many methods are reading the handler, or that one is changing it. *)
Inductive borrow := Shared (n : N) | Exclusive.
#[global] Instance borrow_eq_dec : EqDecision borrow.
Proof. solve_decision. Defined.
Record cell := Cell { c_handler : handler; c_borrow : borrow }.

(** What can be asked of a handler. Mixing up options and tags throws before the call ([Nope]). *)
(** src/js_interactable/category_handler.rs:17-45 and src/js_interactable/tag_handler.rs:25-53, [toggle]. *)
Definition h_toggle (h : handler) (i : item) : res (handler * list call) :=
  match h, i with
  | HCat h, IOption e => let '(h', calls) := ch_toggle h e in Done (HCat h', calls)
  | HTag h, ITag t => '(h', calls) ← th_toggle h t; Done (HTag h', calls)
  | _, _ => Nope
  end.
(** src/js_interactable/category_handler.rs:47-49 and src/js_interactable/tag_handler.rs:55-57, [get_status]. *)
Definition h_status (h : handler) (i : item) : res bool :=
  match h, i with
  | HCat h, IOption e => Done (ch_get_status h e)
  | HTag h, ITag t => Done (th_get_status h t)
  | _, _ => Nope
  end.
(** src/js_interactable/category_handler.rs:59-61 and src/js_interactable/tag_handler.rs:59-61,
    [add_general_observer]. *)
Definition h_add_general (h : handler) (f : N) : res handler :=
  match h with HCat h => Done (HCat (ch_add_general h f)) | HTag h => Done (HTag (th_add_general h f)) end.
(** src/js_interactable/category_handler.rs:63-71, [add_option_lister], and
    src/js_interactable/tag_handler.rs:63-71, [add_tag_lister]. *)
Definition h_add (h : handler) (i : item) (f : N) : res handler :=
  match h, i with
  | HCat h, IOption e => Done (HCat (ch_add_option h e f))
  | HTag h, ITag t => h' ← th_add_tag h t f; Done (HTag h')
  | _, _ => Nope
  end.
(** src/js_interactable/category_handler.rs:73-88, [remove_option_listener], and
    src/js_interactable/tag_handler.rs:73-84, [remove_tag_listener]. *)
Definition h_remove (h : handler) (i : item) (f : N) : res handler :=
  match h, i with
  | HCat h, IOption e => Done (HCat (ch_remove_option h e f))
  | HTag h, ITag t => h' ← th_remove_tag h t f; Done (HTag h')
  | _, _ => Nope
  end.

(** Calls of exported functions; handlers are named by numbers, like JavaScript objects. *)
Inductive request :=
| GetCategories | GetTags | AskInitialize (input : list N)
| AskToggle (h : N) (i : item) | AskStatus (h : N) (i : item)
| AskAddGeneral (h : N) (f : N) | AskAdd (h : N) (i : item) (f : N) | AskRemove (h : N) (i : item) (f : N).
(** What the page gets back. *)
Inductive reply := Threw | Undefined | ABool (b : bool) | AHandle (h : N) | AResults (p : producer).

(** What happened (no counterpart in the code): a handler was changed, an observer was called. *)
Inductive event :=
| Toggled (h : N) (i : item) | AddedGeneral (h : N) (f : N)
| Added (h : N) (i : item) (f : N) | Removed (h : N) (i : item) (f : N)
| Called (h : N) (f : N) (b : bool).

Section page.
  Context (to_lowercase : N -> list N) (P : platform).
  (** What JavaScript remembers. *)
  Context {S : Type}.

  (** JavaScript code, as it looks to the library: it returns, throws, calls the library and goes
      on depending on the reply, or uses its memory. [getters] is the code run while the filter
      object of a search is read, and [entries] what is read. *)
  Inductive js :=
  | JReturn
  | JThrow
  | JAsk (r : request) (k : reply -> js)
  | JSearch (categories tags : N) (input : rstr) (order : option rstr)
      (getters : js) (entries : S -> list (rstr * jsval)) (k : reply -> js)
  | JGet (k : S -> js)
  | JSet (s : S) (k : js).

  (** The library's cells (src/lib.rs:29-34), the handlers, JavaScript's memory, and what
      happened. *)
  Record world := World {
    w_lib : lib_state;
    w_handlers : gmap N cell;
    w_js : S;
    w_log : list event
  }.
  Definition set_lib (w : world) (st : lib_state) : world := World st (w_handlers w) (w_js w) (w_log w).
  Definition set_cell (w : world) (h : N) (c : cell) : world :=
    World (w_lib w) (<[h := c]> (w_handlers w)) (w_js w) (w_log w).
  Definition set_js (w : world) (s : S) : world := World (w_lib w) (w_handlers w) s (w_log w).
  Definition log (w : world) (e : event) : world := World (w_lib w) (w_handlers w) (w_js w) (w_log w ++ [e]).

  (** The code of the observers, and the hash orders met by searches. *)
  Context (observer : N -> bool -> js) (order_at : world -> search_order).

  (** wasm-bindgen, [WasmRefCell::borrow]: fails while the handler is being changed. *)
  Definition borrow_shared (w : world) (h : N) : option (world * handler) :=
    match w_handlers w !! h with
    | Some (Cell v (Shared n)) => Some (set_cell w h (Cell v (Shared (n + 1))), v)
    | _ => None
    end.
  (** wasm-bindgen, [Drop for Ref]. *)
  Definition release_shared (w : world) (h : N) : world :=
    match w_handlers w !! h with
    | Some (Cell v (Shared n)) => set_cell w h (Cell v (Shared (n - 1)))
    | _ => w
    end.
  (** wasm-bindgen, [WasmRefCell::borrow_mut]: fails while the handler is in use. *)
  Definition borrow_exclusive (w : world) (h : N) : option (world * handler) :=
    match w_handlers w !! h with
    | Some (Cell v (Shared 0)) => Some (set_cell w h (Cell v Exclusive), v)
    | _ => None
    end.

  (** src/lib.rs:105-121: a new handler with a name of its own. *)
  Definition new_handler (w : world) (r : res handler) : world * reply :=
    match r with
    | Done v => let h := fresh (dom (w_handlers w)) in (set_cell w h (Cell v (Shared 0)), AHandle h)
    | Nope => (w, Undefined)
    | _ => (w, Threw)
    end.
  (** A method with [&mut self] that calls no JavaScript. *)
  Definition change (w : world) (h : N) (f : handler -> res handler) (e : event) : world * reply :=
    match borrow_exclusive w h with
    | None => (w, Threw)
    | Some (w1, v) =>
      match f v with
      | Done v' => (log (set_cell w1 h (Cell v' (Shared 0))) e, Undefined)
      | Nope => (w, Threw)
      | _ => (w1, Threw)
      end
    end.
  (** src/js_interactable/category_handler.rs:40-44 and src/js_interactable/tag_handler.rs:48-52:
      exceptions of observers are caught. *)
  Fixpoint notify (run : world -> js -> res (world * bool)) (h : N) (calls : list call) (w : world) : res world :=
    match calls with
    | [] => Done w
    | (f, b) :: calls' =>
      '(w', _) ← run (log w (Called h f b)) (observer f b);
      notify run h calls' w'
    end.
  (** [toggle]: the handler stays mutably borrowed while the observers run. *)
  Definition ask_toggle (run : world -> js -> res (world * bool)) (w : world) (h : N) (i : item) : res (world * reply) :=
    match borrow_exclusive w h with
    | None => Done (w, Threw)
    | Some (w1, v) =>
      match h_toggle v i with
      | Done (v', calls) =>
        w2 ← notify run h calls (log (set_cell w1 h (Cell v' Exclusive)) (Toggled h i));
        Done (set_cell w2 h (Cell v' (Shared 0)), Undefined)
      | Nope => Done (w, Threw)
      | _ => Done (w1, Threw)
      end
    end.
  (** [get_status]. *)
  Definition ask_status (w : world) (h : N) (i : item) : world * reply :=
    match borrow_shared w h with
    | None => (w, Threw)
    | Some (w1, v) =>
      match h_status v i with
      | Done b => (release_shared w1 h, ABool b)
      | _ => (w, Threw)
      end
    end.
  Definition answer (run : world -> js -> res (world * bool)) (w : world) (r : request) : res (world * reply) :=
    match r with
    | GetCategories => Done (new_handler w (h ← get_categories (w_lib w); Done (HCat h)))
    | GetTags => Done (new_handler w (h ← get_tags (w_lib w); Done (HTag h)))
    | AskInitialize input =>
      let '(st, r) := initialize P (w_lib w) input in
      Done (set_lib w st, match r with Done b => ABool b | _ => Threw end)
    | AskToggle h i => ask_toggle run w h i
    | AskStatus h i => Done (ask_status w h i)
    | AskAddGeneral h f => Done (change w h (fun v => h_add_general v f) (AddedGeneral h f))
    | AskAdd h i f => Done (change w h (fun v => h_add v i f) (Added h i f))
    | AskRemove h i f => Done (change w h (fun v => h_remove v i f) (Removed h i f))
    end.

  (** src/lib.rs:63-70, entering [search]: the handlers are borrowed one after the other. If the
      second is being changed, the first stays borrowed. [None] as second part: an exception. *)
  Definition enter_search (w : world) (categories tags : N) : world * option (cat_handler * tag_handler) :=
    match w_handlers w !! categories, w_handlers w !! tags with
    | Some (Cell (HCat _) _), Some (Cell (HTag _) _) =>
      match borrow_shared w categories with
      | Some (w1, HCat c) =>
        match borrow_shared w1 tags with
        | Some (w2, HTag t) => (w2, Some (c, t))
        | _ => (w1, None)
        end
      | _ => (w, None)
      end
    | _, _ => (w, None)
    end.
  (** src/lib.rs:71-100, after the filter object has been read; a panic keeps both borrows. *)
  Definition finish_search (w : world) (categories tags : N) (c : cat_handler) (t : tag_handler) (input : rstr)
      (order : option rstr) (entries : list (rstr * jsval)) : world * reply :=
    let '(st, r) := search to_lowercase false (order_at w) (w_lib w) input c t order entries in
    let w' := set_lib w st in
    match r with
    | Done p => (release_shared (release_shared w' tags) categories, AResults p)
    | Nope => (release_shared (release_shared w' tags) categories, Undefined)
    | _ => (w', Threw)
    end.

  (** Running JavaScript code; the result says whether it threw. [fuel] bounds the nesting of
      observers. *)
  Fixpoint run (fuel : nat) : world -> js -> res (world * bool) :=
    let inner := match fuel with O => fun _ _ => Stuck | Datatypes.S fuel' => run fuel' end in
    fix go (w : world) (p : js) {struct p} : res (world * bool) :=
    match p with
    | JReturn => Done (w, false)
    | JThrow => Done (w, true)
    | JAsk r k => '(w', a) ← answer inner w r; go w' (k a)
    | JSearch categories tags input order getters entries k =>
      match enter_search w categories tags with
      | (w1, None) => go w1 (k Threw)
      | (w1, Some (c, t)) =>
        '(w2, threw) ← go w1 getters;
        if threw : bool then go w2 (k Threw)
        else
          let '(w3, a) := finish_search w2 categories tags c t input order (entries (w_js w2)) in
          go w3 (k a)
      end
    | JGet k => go w (k (w_js w))
    | JSet s k => go (set_js w s) k
    end.
End page.
