(** Pages. *)
From Verif.model Require Import Base F32 Utf8 Prim Coll Data Gram Indexer Nodes Classic Lit Raw Js Lib Page.
From Verif.spec Require Import Spec Data_spec Js_spec Lib_spec Page_spec Samples Raw_samples Gram_samples Js_samples Lib_samples.

(** The page remembers handlers. *)
Definition page := js (S := list N).
Definition opened (st : lib_state) : world (S := list N) := World st ∅ [] [].
Definition with_handle (a : reply) (k : N -> page) : page := match a with AHandle h => k h | _ => JReturn end.

(** An observer that makes another handler, watched by itself, and toggles an option of it. *)
Definition watch_another : page :=
  JAsk GetCategories (fun a => with_handle a (fun h =>
    JAsk (AskAddGeneral h 7) (fun _ => JAsk (AskToggle h (IOption (ExportOption [] 0 0))) (fun _ => JReturn)))).
Definition spawning (f : N) (b : bool) : page := watch_another.

(** An observer that searches again. *)
Definition search_again : page :=
  JGet (fun s => match s with
    | [categories; tags] => JSearch categories tags [] None JReturn (fun _ => []) (fun _ => JReturn)
    | _ => JReturn
    end).
Definition searching (f : N) (b : bool) : page := search_again.
(** A page that shows the results for the tags switched on. *)
Definition live_results (t : js_tag) : page :=
  JAsk GetCategories (fun a => with_handle a (fun categories =>
    JAsk GetTags (fun a => with_handle a (fun tags =>
      JSet [categories; tags] (JAsk (AskAddGeneral tags 7) (fun _ => JAsk (AskToggle tags (ITag t)) (fun _ => JReturn))))))).

(** A page that searches after the toggle instead, and an observer of the tags that clears a category. *)
Definition clearing (f : N) (b : bool) : page :=
  JGet (fun s => match s with
    | [categories; tags] => JAsk (AskToggle categories (IOption (ExportOption [] 0 1))) (fun _ => JThrow)
    | _ => JReturn
    end).
Definition careful (t : js_tag) : page :=
  JAsk GetCategories (fun a => with_handle a (fun categories =>
    JAsk GetTags (fun a => with_handle a (fun tags =>
      JSet [categories; tags] (JAsk (AskAddGeneral tags 7) (fun _ => JAsk (AskToggle tags (ITag t)) (fun _ =>
        JSearch categories tags word_lamp None JReturn (fun _ => []) (fun a => match a with AResults _ => JReturn | _ => JThrow end)))))))).
Definition plain_page (w : world (S := list N)) : search_order := plain_search.
Definition sample_lib : lib_state := after [InitOp sample_file].
(** The first tag of the loaded file. *)
Definition first_tag (st : lib_state) : js_tag :=
  JSTag (match s_classic st with Some cl => cl | None => Classic [] [] ∅ end) 0.
(** What became of a page: its handlers' states, the events as numbers, whether it threw. *)
Definition page_end (r : res (world (S := list N) * bool)) : option (list (N * bool) * list N * bool) :=
  match r with
  | Done (w, threw) =>
    Some (map (fun x => (x.1, bool_decide (c_borrow x.2 = Shared 0))) (map_to_list (w_handlers w)),
          map (fun e => match e with Toggled h _ => 10 + h | AddedGeneral h _ => 20 + h | Added h _ _ => 30 + h
                         | Removed h _ _ => 40 + h | Called h _ _ => 50 + h end) (w_log w), threw)
  | _ => None
  end.
