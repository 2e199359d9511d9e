(** C136: a case. *)
From Verif.model Require Import Base F32 Utf8 Prim Coll Data Gram Indexer Nodes Classic Lit Raw Js Lib Access.
From Verif.spec Require Import Spec Data_spec Samples Raw_samples Lib_samples Lib_samples Suggest_samples.

Lemma access_sample : match deserialize_all host64 ngram_index_size sample_file with
  | Done (_, cl) => map (fun id => (t_name <$> tags_get (cl_tags cl) id, tag_get_id <$> tags_get (cl_tags cl) id, jt_get_name (js_tag_new cl id))) [0; 1; 2] =
      [(Some word_sale, Some 0, Done word_sale); (Some [110; 101; 119], Some 1, Done [110; 101; 119]); (None, None, Panic)] /\
      length (tags_iter (cl_tags cl)) = 2%nat /\ categories_index (cl_categories cl) 7 = Panic
  | _ => False
  end /\
  node_partial_cmp (weighing S754_nan) (weighing f32_one) = Some Eq /\ node_partial_cmp (weighing f32_zero) (weighing f32_one) = Some Lt.
Proof. split; [|split; vm_compute; reflexivity]. vm_compute. repeat split; reflexivity. Qed.
