(** What happens in the directory of the indexer. *)
From Verif.model Require Import Base F32 Utf8 Data Gram Indexer Nodes Raw Lib Json Disk.
From Verif.spec Require Import Spec Gram_spec Raw_spec Lib_spec End_spec Json_spec.

Section history.
  Context (low : N -> list N) (parse : rstr -> option f32).

  (** Somebody saves a file other than the index; or the indexer runs, somehow. *)
  Inductive event :=
  | Save (path : rstr) (contents : list N)
  | Run (P : platform) (mo : order_of (rstr * raw_product)) (bo : build_order)
      (ro : order_of (rstr * (product * f32))) (so : ser_order) (read_fails : bool) (w : writing).
  Definition possible (e : event) : Prop :=
    match e with
    | Save path _ => path <> out_path
    | Run _ mo bo _ so _ _ => valid_order mo /\ valid_build_order bo /\ valid_ser_order so
    end.
  Definition happens (e : event) (d : disk) : disk :=
    match e with
    | Save path contents => <[path := contents]> d
    | Run P mo bo ro so fails w => fst (run low parse P mo bo ro so fails w d)
    end.
  Definition history (es : list event) (d : disk) : disk := foldl (fun d e => happens e d) d es.

  (** [bytes] is the index of what was in the input file at one of the runs. *)
  Definition produced (es : list event) (d : disk) (bytes : list N) : Prop :=
    exists before P mo bo ro so fails w after file,
      es = before ++ Run P mo bo ro so fails w :: after /\ history before d !! in_path = Some file /\
      main low parse P mo bo ro so file = Done bytes.
End history.

(** A file with a catalogue of [few] products or less whose index can be loaded on [Q]. *)
Definition fitting (low : N -> list N) (Q : platform) (few : nat) (file : list N) : Prop :=
  forall t entries l, valid_str t -> file = utf8 t -> is_catalogue verbatim entries t -> survivors entries l ->
    raw_fits Q low (map snd l) /\ total_grams (map (raw_text low) (map snd l)) < 2 ^ 32 /\ (length l <= few)%nat.
