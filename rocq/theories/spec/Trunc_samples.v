(** A catalogue of 128 products, whose file can be cut short. *)
From Verif.model Require Import Base F32 Utf8 Prim Coll Data Gram Indexer Nodes Classic Lit Raw Js Lib.
From Verif.spec Require Import Spec Data_spec Js_spec Lib_spec Samples Raw_samples Gram_samples Lib_samples.

Definition crowd : list raw_product := sample_raw ++ replicate 125 (raw_plain str_one []).
Definition crowd_file : list N := file_of crowd.
(** All but the last 129 bytes: of the last order, all but the first byte of its length is lost. *)
Definition crowd_cut : list N := take (length crowd_file - 129) crowd_file.
Definition last_order : rstr := match reverse (so_orders sample_order (map_to_list
   match optimize sample_parse hash_order crowd with Done (_, cl) => cl_order cl | _ => ∅ end)) with (key, _) :: _ => key | [] => [] end.
