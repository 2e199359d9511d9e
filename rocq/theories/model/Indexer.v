(** src/ngram/indexer.rs: building the n-gram index. *)
From Verif.model Require Import Base F32 Utf8 Prim Coll Data Gram.

(** Addresses of [Rc<RefCell<InnerMutableGramNode>>] cells. *)
Definition addr := N.

(** src/ngram/indexer.rs:10-15, [InnerMutableGramNode]. *)
Record mnode := MNode { m_item : N; m_occ : N; m_items : gmap N addr }.

(** The heap of mutable nodes; the next fresh address is [h_next]. *)
Record heap := Heap { h_nodes : gmap addr mnode; h_next : addr }.

(** src/ngram/indexer.rs:28-34, [MutableGramNode::new]: allocate a cell. *)
Definition mnode_new (h : heap) (item occ : N) : heap * addr :=
  (Heap (<[h_next h := MNode item occ ∅]> (h_nodes h)) (h_next h + 1), h_next h).

(** [RefCell::borrow_mut], used at src/ngram/indexer.rs:92, 101 and 105: a panic if the cell is
    borrowed already. [borrowed] lists the cells borrowed mutably at this point. *)
Definition borrow_mut (borrowed : list addr) (a : addr) : res (list addr) :=
  if bool_decide (a ∈ borrowed) then Panic else Done (a :: borrowed).

(** src/ngram/indexer.rs:92 and 105, [node.0.borrow_mut().occurances += 1] on a [u32]. *)
Definition bump (P : platform) (borrowed : list addr) (h : heap) (a : addr) : res heap :=
  _ ← borrow_mut borrowed a;
  nd ← unwrap (h_nodes h !! a);
  occ ← add_bits P 32 (m_occ nd) 1;
  Done (Heap (<[a := MNode (m_item nd) occ (m_items nd)]> (h_nodes h)) (h_next h)).

(** src/ngram/indexer.rs:89-95, the root entry:
    [root.entry(gram).and_modify(+1).or_insert_with(new(gram, 1)).clone()]. *)
Definition touch_root (P : platform) (h : heap) (root : gmap N addr) (gram : N)
  : res (heap * gmap N addr * addr) :=
  match root !! gram with
  | Some a => h ← bump P [] h a; Done (h, root, a)
  | None => let '(h, a) := mnode_new h gram 1 in Done (h, <[gram := a]> root, a)
  end.

(** src/ngram/indexer.rs:98-112, one queued node: its child for [gram] is created or
    incremented, and replaces the node in the queue. The node stays borrowed until the end of
    the statement, that is, while its child is borrowed. *)
Definition touch_child (P : platform) (h : heap) (parent : addr) (gram : N) : res (heap * addr) :=
  borrowed ← borrow_mut [] parent;
  nd ← unwrap (h_nodes h !! parent);
  match m_items nd !! gram with
  | Some a => h ← bump P borrowed h a; Done (h, a)
  | None =>
    let '(h, a) := mnode_new h gram 1 in
    Done (Heap (<[parent := MNode (m_item nd) (m_occ nd) (<[gram := a]> (m_items nd))]> (h_nodes h))
               (h_next h), a)
  end.

(** src/ngram/indexer.rs:98-112, the loop over the queue. *)
Fixpoint advance (P : platform) (h : heap) (queue : list addr) (gram : N) : res (heap * list addr) :=
  match queue with
  | [] => Done (h, [])
  | q :: queue' =>
    '(h, q') ← touch_child P h q gram;
    '(h, queue'') ← advance P h queue' gram;
    Done (h, q' :: queue'')
  end.

(** Mutable state of [index_from] for one feed: heap, root map, posting lists,
    queue and lookback window. *)
Record istate := IState {
  i_heap : heap;
  i_root : gmap N addr;
  i_data : gmap (list N) (list product);
  i_queue : list addr;
  i_lookback : list N
}.

(** src/ngram/indexer.rs:127-130: [entry(lookback).and_modify(push).or_insert(vec![data])]. *)
Definition data_push (m : gmap (list N) (list product)) (key : list N) (data : product)
  : gmap (list N) (list product) :=
  <[key := match m !! key with Some l => l ++ [data] | None => [data] end]> m.

(** src/ngram/indexer.rs:87-131, one gram of a feed. For [N = 0], [lookback[N - 1]]
    panics. *)
Definition index_gram (P : platform) (n : nat) (data : product) (st : istate) (gram : N)
  : res istate :=
  '(h, root, root_node) ← touch_root P (i_heap st) (i_root st) gram;
  '(h, queue) ← advance P h (i_queue st) gram;
  (* 115-118 *)
  let queue := root_node :: queue in
  let queue := if Nat.eqb (length queue) n then removelast queue else queue in
  match n with
  | O => Panic
  | _ =>
    (* 121-124 *)
    let lookback := shift_in (i_lookback st) gram in
    (* 127-130 *)
    Done (IState h root (data_push (i_data st) lookback data) queue lookback)
  end.

(** src/ngram/indexer.rs:82-132, one feed: a fresh queue and lookback, then every gram. *)
Definition index_feed (P : platform) (n : nat) (st : istate) (feed : product * list N)
  : res istate :=
  let '(data, grams) := feed in
  foldM (index_gram P n data) grams
    (IState (i_heap st) (i_root st) (i_data st) [] (replicate n gram_default)).

(** src/ngram/indexer.rs:17-20, [occurances_to_weight]. *)
Definition occurances_to_weight (total this : N) : f32 :=
  f32_div (f32_of_N this) (f32_of_N total).

(** src/ngram/indexer.rs:36-67, [immutalize]. [o a] is the hash order of the children map of
    the node at address [a]. [fuel] bounds the depth. Its [borrow] and the one of line 136
    cannot fail, as nothing is borrowed mutably any more. *)
Fixpoint immutalize (o : addr -> order_of (N * addr)) (h : heap) (fuel : nat) (a : addr)
    (parent_occurances : N) : res node :=
  match fuel with
  | O => Stuck
  | S fuel' =>
    me ← unwrap (h_nodes h !! a);
    by_occurances ← mapR (fun '(_, v) => immutalize o h fuel' v (m_occ me))
                      (o a (map_to_list (m_items me)));
    let by_occurances := sort_by (fun a b => reverse_ord (node_cmp a b)) by_occurances in
    Done (Node (m_item me) (occurances_to_weight parent_occurances (m_occ me)) by_occurances)
  end.

(** src/ngram/indexer.rs:147-151: the posting cut-off. *)
Definition maximum_product_amount (P : platform) (products_amount : N) : N :=
  f32_to_usize P (f32_mul (f32_of_N products_amount) f32_0_8).

(** Hash iteration orders used while building. *)
Record build_order := BuildOrder {
  bo_children : addr -> order_of (N * addr);
  bo_root : order_of (N * addr);
  bo_tags : order_of (rstr * list product)
}.
Definition valid_build_order (o : build_order) : Prop :=
  (forall a, valid_order (bo_children o a)) /\ valid_order (bo_root o) /\ valid_order (bo_tags o).

Definition istate_init : istate := IState (Heap ∅ 0) ∅ ∅ [] [].

(** src/ngram/indexer.rs:71-164, [GramIndex::index_from]. *)
Definition index_from (P : platform) (n : nat) (o : build_order)
    (source : list (product * list N)) (product_container : container) : res gram_index :=
  st ← foldM (index_feed P n) source istate_init;
  (* 134-138 *)
  occs ← mapR (fun '(_, a) => nd ← unwrap (h_nodes (i_heap st) !! a); Done (m_occ nd))
           (bo_root o (map_to_list (i_root st)));
  total ← foldM (fun a b => add_bits P 32 a b) occs 0;
  (* 141-144 *)
  roots ← mapR (fun '(k, v) => nd ← immutalize (bo_children o) (i_heap st) (S n) v total;
                               Done (k, nd))
            (bo_root o (map_to_list (i_root st)));
  (* 147-152 *)
  let maximum := maximum_product_amount P (lenN (c_products product_container)) in
  let data_map := filter (fun '(_, data) => lenN data < maximum) (i_data st) in
  (* 155-157 *)
  let data_map := sort_by product_cmp <$> data_map in
  Done (GramIndex (list_to_map roots) data_map product_container).
