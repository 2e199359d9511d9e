(** C141 and C142: the objects a page holds, and freeing them by hand. *)
From Verif.model Require Import Base Page Objects.
From Verif.spec Require Import Objects_spec Objects_samples.
From Verif.proofs Require Import Objects_facts Objects_borrows.

(** C141. A classic index stays allocated exactly as long as it is the one in use or some allocated
    object shares it. *)
Theorem C141_counted : forall es a, let s := after es in
  let n := N.of_nat (length (sharers s a)) + (if decide (s_shared s = Some a) then 1 else 0) in
  s_strong s !! a = if n =? 0 then None else Some n.
Proof. exact strong_exact. Qed.
Print Assumptions C141_counted.
(** A page in which nothing threw can free all its objects; loading again then leaves one index. *)
Theorem C141_released : forall es, Threw ∉ replies es -> s_stack (after es) = [] ->
  let es' := es ++ map EFree (elements (dom (s_objs (after es)))) ++ [ELoad] in
  Threw ∉ replies es' /\ s_objs (after es') = ∅ /\
  forall a, s_strong (after es') !! a = if decide (s_shared (after es') = Some a) then Some 1 else None.
Proof. exact all_released. Qed.
Print Assumptions C141_released.
(** A freed object stays freed: every call that needs it throws. *)
Theorem C141_freed : forall es es' h, h ∈ s_null (after es) ->
  h ∈ s_null (after (es ++ es')) /\ (step (after (es ++ es')) (EFree h)).2 = Threw /\
  forall k, needs k h -> (step (after (es ++ es')) (EEnter k)).2 = Threw.
Proof. exact freed_for_good. Qed.
Print Assumptions C141_freed.
(** Freeing an object in use throws, and its index is never deallocated. *)
Theorem C141_in_use : forall es h a b, in_hand (after es) h -> s_objs (after es) !! h = Some (Obj (Some a) b) -> b <> Shared 0 ->
  (step (after es) (EFree h)).2 = Threw /\
  forall es', let s := after (es ++ EFree h :: es') in allocated s h /\ h ∈ sharers s a /\ s_strong s !! a <> None.
Proof. exact free_in_use. Qed.
Print Assumptions C141_in_use.
(** Iterators and tags share the index of the object they come from; nothing else does. *)
Theorem C141_shares : forall es k stack h a b, s_stack (after es) = k :: stack ->
  k ∈ [KIter h; KNextCategory h; KNextTag h; KSuggestedTag h] -> s_objs (after es) !! h = Some (Obj (Some a) b) ->
  exists g, (step (after es) (ELeave true)).2 = Made g /\ in_hand (after (es ++ [ELeave true])) g /\
    g ∈ sharers (after (es ++ [ELeave true])) a /\
    s_strong (after (es ++ [ELeave true])) !! a = Some (default 0 (s_strong (after es) !! a) + 1).
Proof. exact leave_shares. Qed.
Print Assumptions C141_shares.
Theorem C141_alone : forall es k stack some, s_stack (after es) = k :: stack ->
  (forall h, k ∉ [KIter h; KNextCategory h; KNextTag h; KSuggestedTag h]) ->
  s_strong (after (es ++ [ELeave some])) = s_strong (after es).
Proof. exact leave_alone. Qed.
Print Assumptions C141_alone.
Example C141_hyps : replies first_option = [Fine; Made 0; Fine; Made 1; Fine; Made 2; Fine; Made 3] /\
  s_stack (after first_option) = [] /\ s_strong (after first_option) !! 0 = Some 4 /\
  sharers (after first_option) 0 ≡ₚ [0; 1; 2] /\ bool_decide (3 ∈ s_null (after forgets)) = true /\
  in_hand (after toggling) 0 /\ s_objs (after toggling) !! 0 = Some (Obj (Some 0) Exclusive).
Proof.
  split; [reflexivity|]. split; [reflexivity|]. split; [reflexivity|]. split; [vm_compute; solve_Permutation|].
  split; [reflexivity|]. split; [|reflexivity]. split; [apply (bool_decide_unpack (0 ∉ s_null (after toggling))); exact I|]. eexists; vm_compute; reflexivity.
Qed.

(** C142. Toggling a freed option makes every later call of its handler throw. *)
Theorem C142_others_usable_refuted : forall es h i, in_hand (after es) h -> idle (after es) h -> i ∈ s_null (after es) ->
  (step (after es) (EEnter (KToggle h i))).2 = Threw /\
  forall es' k, needs k h -> (step (after (es ++ EEnter (KToggle h i) :: es')) (EEnter k)).2 = Threw.
Proof. exact toggle_bricks. Qed.
Print Assumptions C142_others_usable_refuted.
(** Asking for the status of a freed option, or searching with a freed tag handler, makes every later
    change of the category handler throw. *)
Theorem C142_status_refuted : forall es h i, in_hand (after es) h -> idle (after es) h -> i ∈ s_null (after es) ->
  (step (after es) (EEnter (KStatus h i))).2 = Threw /\
  forall es' k, changes k h -> (step (after (es ++ EEnter (KStatus h i) :: es')) (EEnter k)).2 = Threw.
Proof. exact status_bricks. Qed.
Print Assumptions C142_status_refuted.
Theorem C142_search_refuted : forall es h t, in_hand (after es) h -> idle (after es) h -> t ∈ s_null (after es) ->
  (step (after es) (EEnter (KSearch h t))).2 = Threw /\
  forall es' k, changes k h -> (step (after (es ++ EEnter (KSearch h t) :: es')) (EEnter k)).2 = Threw.
Proof. exact search_bricks. Qed.
Print Assumptions C142_search_refuted.
(** A search that panics, or whose filter object throws when read, does the same to both handlers. *)
Theorem C142_trap_refuted : forall es c t stack h, s_stack (after es) = KSearch c t :: stack -> h = c \/ h = t ->
  forall es' k, changes k h -> (step (after (es ++ ETrap :: es')) (EEnter k)).2 = Threw.
Proof. exact search_trap_bricks. Qed.
Print Assumptions C142_trap_refuted.
(** What holds: an object stays usable unless a call that needed it went wrong. *)
Theorem C142_others_usable_partial : forall es h, s_stack (after es) = [] -> allocated (after es) h ->
  (forall k, k ∈ mishaps start es -> ~ needs k h) -> idle (after es) h.
Proof. exact spared_idle. Qed.
Print Assumptions C142_others_usable_partial.
Example C142_hyps : in_hand (after forgets) 0 /\ idle (after forgets) 0 /\ bool_decide (3 ∈ s_null (after forgets)) = true /\
  mishaps start (forgets ++ [EEnter (KToggle 0 3)]) = [KToggle 0 3] /\ s_stack (after (forgets ++ [EEnter (KToggle 0 3)])) = [] /\
  allocated (after (forgets ++ [EEnter (KToggle 0 3)])) 1.
Proof.
  split; [split; [apply (bool_decide_unpack (0 ∉ s_null (after forgets))); exact I|eexists; vm_compute; reflexivity]|].
  split; [eexists; vm_compute; reflexivity|]. split; [reflexivity|]. split; [reflexivity|]. split; [reflexivity|]. eexists; vm_compute; reflexivity.
Qed.
