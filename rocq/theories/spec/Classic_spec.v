(** What the raw data says about categories, tags and orders. *)
From Verif.model Require Import Base F32 Utf8 Prim Coll Data Gram Nodes Classic.
From Verif.spec Require Import Spec Data_spec.

(** ** Categories and tags *)
(** The raw product at position [i] lists the value [v] under the category [k]. *)
Definition lists_option (raw : list (list raw_option)) (i : nat) (k v : rstr) : Prop :=
  exists options o, raw !! i = Some options /\ o ∈ options /\ ro_name o = k /\ v ∈ ro_values o.
(** The raw product at position [i] lists the tag [t]. *)
Definition lists_tag (raw : list (list rstr)) (i : nat) (t : rstr) : Prop :=
  exists tags, raw !! i = Some tags /\ t ∈ tags.

(** Every mention of a category, of a value in a category, and of a value of the category
    [k], in the order of the raw data. *)
Definition category_mentions (raw : list (list raw_option)) : list rstr :=
  map ro_name (concat raw).
Definition pair_mentions (raw : list (list raw_option)) : list (rstr * rstr) :=
  concat (map (fun o => map (pair (ro_name o)) (ro_values o)) (concat raw)).
Definition value_mentions (raw : list (list raw_option)) (k : rstr) : list rstr :=
  map snd (filter (fun kv => kv.1 = k) (pair_mentions raw)).

(** The products that mention the tag [t], in catalogue order, once per mention. *)
Definition tag_owners (raw : list (list rstr)) (ps : list product) (t : rstr) : list product :=
  concat (zip_with (fun tags p => map (fun _ => p) (filter (fun s => s = t) tags)) raw ps).

(** ** Orders *)
(** [ranks] numbers the positions of [keys]: each of 0, 1, 2, ... once, a key that comes before
    another gets the smaller number, and equal keys are numbered by position. *)
Definition rank_table {T} (before : T -> T -> Prop) (keys : list T) (ranks : list N) : Prop :=
  ranks ≡ₚ map N.of_nat (seq 0 (length keys)) /\
  forall i j x y ri rj, keys !! i = Some x -> keys !! j = Some y ->
    ranks !! i = Some ri -> ranks !! j = Some rj ->
    ri < rj <-> before x y \/ (~ before y x /\ (i < j)%nat).

(** Dictionary order of strings by code point. *)
Inductive title_before : rstr -> rstr -> Prop :=
| tb_end c s : title_before [] (c :: s)
| tb_here c d s t : c < d -> title_before (c :: s) (d :: t)
| tb_later c s t : title_before s t -> title_before (c :: s) (c :: t).
