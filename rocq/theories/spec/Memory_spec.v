(** What it means that references in the arenas show an index. *)
From Verif.model Require Import Base F32 Utf8 Prim Coll Data Gram Indexer Nodes Classic Lib Memory.

(** Memory is only added to: nodes and boxes keep their places, a container never changes, and an
    arena of vendors may get longer. *)
Definition box_grows (b b' : boxed) : Prop :=
  match b, b' with
  | BVendors l, BVendors l' => l `prefix_of` l'
  | BContainer c, BContainer c' => c = c'
  | _, _ => False
  end.
Definition grows (M M' : memory) : Prop :=
  m_nodes M `prefix_of` m_nodes M' /\
  forall i b, m_super M !! i = Some b -> exists b', m_super M' !! i = Some b' /\ box_grows b b'.

(** The node at [a] is [nd]: it has its item and weight, its children in the same order, and looks
    up the same child for every item. *)
Fixpoint shows_node (M : memory) (a : node_ref) (nd : node) {struct nd} : Prop :=
  match nd with
  | Node item weight children => exists by_occurances items,
    m_nodes M !! a = Some (CNode item weight by_occurances items) /\
    (fix all (refs : list node_ref) (l : list node) {struct l} : Prop :=
       match l, refs with
       | [], [] => True
       | c :: l', r :: refs' => shows_node M r c /\ all refs' l'
       | _, _ => False
       end) by_occurances children /\
    forall g, match items !! g, node_items (Node item weight children) !! g with
              | None, None => True
              | Some r, Some child => exists i, by_occurances !! i = Some r /\ children !! i = Some child
              | _, _ => False
              end
  end.
Definition shows_vendor (M : memory) (r : vendor_ref) (v : vendor) : Prop :=
  exists l, m_super M !! vr_arena r = Some (BVendors l) /\ l !! vr_at r = Some v.
Definition shows_vendors (M : memory) (c : cvendors) (vm : vendor_manager) : Prop :=
  (forall k, option_Forall2 (shows_vendor M) (cv_tags c !! k) (vm_tags vm !! k)) /\
  Forall2 (shows_vendor M) (cv_by_id c) (vm_by_id vm).
Definition shows_product (M : memory) (c : cproduct) (p : product) : Prop :=
  cp_description c = p_description p /\ cp_title c = p_title p /\ shows_vendor M (cp_vendor c) (p_vendor p) /\
  cp_id c = p_id p /\ cp_sid c = p_sid p.
Definition shows_container (M : memory) (c : ccontainer) (v : container) : Prop :=
  Forall2 (shows_product M) (cc_products c) (c_products v) /\ shows_vendors M (cc_vendors c) (c_vendors v) /\
  cc_features c = c_features v.
(** A reference to a product of the container at [container]. *)
Definition shows_product_ref (M : memory) (container : nat) (r : product_ref) (p : product) : Prop :=
  pr_container r = container /\
  exists c cp, m_super M !! container = Some (BContainer c) /\ cc_products c !! pr_at r = Some cp /\ shows_product M cp p.
Definition shows_index (M : memory) (c : cgram_index) (gi : gram_index) : Prop :=
  (exists cc, m_super M !! cg_container c = Some (BContainer cc) /\ shows_container M cc (gi_container gi)) /\
  (forall g, option_Forall2 (shows_node M) (cg_roots c !! g) (gi_roots gi !! g)) /\
  (forall w, option_Forall2 (Forall2 (shows_product_ref M (cg_container c))) (cg_data c !! w) (gi_data gi !! w)).
Definition shows_option (M : memory) (container : nat) (c : coption) (o : cat_option) : Prop :=
  co_name c = o_name o /\ co_sid c = o_sid o /\ Forall2 (shows_product_ref M container) (co_content c) (o_content o) /\
  co_ids c = o_ids o.
Definition shows_category (M : memory) (container : nat) (c : ccategory) (v : category) : Prop :=
  cca_name c = cat_name v /\ Forall2 (shows_option M container) (cca_options c) (cat_options v) /\
  cca_exclusive c = cat_exclusive v.
Definition shows_tag (M : memory) (container : nat) (c : ctag) (v : tag) : Prop :=
  ct_name c = t_name v /\ Forall2 (shows_product_ref M container) (ct_products c) (t_products v) /\
  ct_ids c = t_ids v /\ ct_id c = t_id v.
Definition shows_classic (M : memory) (container : nat) (c : cclassic) (v : classic) : Prop :=
  Forall2 (shows_category M container) (ccl_categories c) (cl_categories v) /\
  Forall2 (shows_tag M container) (ccl_tags c) (cl_tags v) /\ ccl_order c = cl_order v.
(** Both indexes, of one container. *)
Definition shows_all (M : memory) (c : cgram_index * cclassic) (v : gram_index * classic) : Prop :=
  shows_index M c.1 v.1 /\ shows_classic M (cg_container c.1) c.2 v.2.

(** The two programs end the same way. *)
Definition same_end {A B} (R : A -> B -> Prop) (r : res A) (r' : res B) : Prop :=
  match r, r' with
  | Done a, Done b => R a b
  | Nope, Nope | Panic, Panic | Stuck, Stuck => True
  | _, _ => False
  end.
