(** Texts for the readings. *)
From Coq Require Import String.
From Verif.model Require Import Base F32 Utf8 Prim Coll Data Gram Indexer Lit.
From Verif.spec Require Import Spec Data_spec Gram_spec Choice_spec Reading_spec Samples Gram_samples.

(** Three of four words go on with x after the a. *)
Definition mostly_x : list (product * rstr) :=
  plain_source [lit "axqrst"%string; lit "axqrst"%string; lit "axqrst"%string; lit "abcdef"%string].
Definition mostly_x_index : res gram_index := index_from wasm32 6 hash_order mostly_x (plain_container mostly_x).
Definition abcdef : rstr := lit "abcdef"%string.
(** A letter too many. *)
Definition axbcde : rstr := lit "axbcde"%string.
Definition three_quarters : f32 := share (map snd mostly_x) (lit "a"%string) 120.

(** All readings, found by trying all grams of the texts. *)
Definition in_texts_b (texts : list (list N)) (g : list N) : bool :=
  existsb (fun t => existsb (fun i => bool_decide (take (length g) (drop i t) = g)) (seq 0 (S (length t)))) texts.
Definition followers (texts : list (list N)) (w : list N) : list N :=
  List.filter (fun g => in_texts_b texts (w ++ [g])) (remove_dups (concat texts)).
Fixpoint readings (fuel n : nat) (texts : list (list N)) (w : list N) (fresh : bool) (q : list N) (c : nat) (x : f32)
    : list (list N * f32) :=
  match fuel with
  | O => []
  | S fuel =>
    if Nat.eqb (length w) n then [(w, x)] else
    let others := List.filter (fun y => negb (bool_decide (head q = Some y))) (followers texts w) in
    let down g := f32_mul x (share texts w g) in
    match q with
    | g :: q' => if in_texts_b texts (w ++ [g]) then readings fuel n texts (w ++ [g]) true q' c (down g) else []
    | [] => []
    end ++
    (if Nat.ltb c (n / 3) then
       concat (map (fun y => readings fuel n texts (w ++ [y]) true (tail q) (S c) (down y) ++
                             readings fuel n texts (w ++ [y]) true q (S (S c)) (down y)) others) ++
       match q with
       | g :: q' =>
         if fresh && in_texts_b texts (removelast w ++ [g])
         then readings fuel n texts (removelast w ++ [g]) false q' (S c) x
         else []
       | [] => []
       end
     else [])
  end.
Definition all_readings (n : nat) (texts : list (list N)) (q : list N) : list (list N * f32) :=
  match q with
  | q0 :: q' => if in_texts_b texts [q0] then readings (n + length q) n texts [q0] false q' 0 f32_one else []
  | [] => []
  end.
Definition clearly_surest_b (n : nat) (texts : list (list N)) (q : list N) (r : option (list N * f32)) : bool :=
  match r with
  | None => match all_readings n texts q with [] => true | _ => false end
  | Some r =>
    SFleb r.2 r.2 && existsb (fun r' => bool_decide (r' = r)) (all_readings n texts q) &&
    forallb (fun r' => bool_decide (r' = r) || SFltb r'.2 r.2) (all_readings n texts q)
  end.
