(** What a page may expect of the objects it was given. *)
From Verif.model Require Import Base Page Objects.

#[global] Instance outcome_eq_dec : EqDecision outcome.
Proof. solve_decision. Defined.
(** The page after some events. *)
Definition after (es : list event) : state := (run_page start es).1.
Definition replies (es : list event) : list outcome := (run_page start es).2.
(** An object that was not freed, or was not successfully freed: its cell is allocated. *)
Definition allocated (s : state) (h : N) : Prop := exists x, s_objs s !! h = Some x.
(** An object that can be used: its pointer is not null. *)
Definition in_hand (s : state) (h : N) : Prop := h ∉ s_null s /\ allocated s h.
(** No method of it is in progress. *)
Definition idle (s : state) (h : N) : Prop := exists a, s_objs s !! h = Some (Obj a (Shared 0)).
(** The allocated objects that share a classic index. *)
Definition sharers (s : state) (a : N) : list N :=
  omap (fun '(h, x) => if decide (o_arc x = Some a) then Some h else None) (map_to_list (s_objs s)).
(** A call that needs the object (mutably). *)
Definition needs (k : call) (h : N) : Prop := exists m, (h, m) ∈ borrows k.
Definition changes (k : call) (h : N) : Prop := (h, true) ∈ borrows k.
(** The calls that went wrong: they threw before they began, or they ended in a panic or with an
    exception. *)
Fixpoint mishaps (s : state) (es : list event) : list call :=
  match es with
  | [] => []
  | e :: es' =>
    match e with
    | EEnter k => if decide ((step s e).2 = Threw) then [k] else []
    | ETrap => take 1 (s_stack s)
    | _ => []
    end ++ mishaps (step s e).1 es'
  end.
