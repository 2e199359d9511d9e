(** A page that asks for a status. *)
From Verif.model Require Import Base F32 Utf8 Prim Coll Data Gram Indexer Nodes Classic Lit Raw Js Lib Page.
From Verif.spec Require Import Spec Data_spec Js_spec Lib_spec Page_spec Samples Raw_samples Gram_samples Js_samples Lib_samples Page_samples.
(** It toggles a tag and throws unless the tag is then said to be on. *)
Definition look_up (t : js_tag) : page :=
  JAsk GetTags (fun a => with_handle a (fun tags =>
    JAsk (AskToggle tags (ITag t)) (fun _ =>
      JAsk (AskStatus tags (ITag t)) (fun a => match a with ABool true => JReturn | _ => JThrow end)))).
