-Q theories Verif
theories/model/Base.v
theories/model/F32.v
theories/model/Utf8.v
theories/model/Prim.v
theories/model/Coll.v
theories/model/Data.v
theories/model/Gram.v
theories/model/Indexer.v
theories/model/Nodes.v
theories/model/Classic.v
theories/model/Lit.v
theories/model/Raw.v
theories/model/Js.v
theories/model/Lib.v
theories/model/Conc.v
theories/model/Json.v
theories/model/Parse.v
theories/model/Page.v
theories/model/Equal.v
theories/model/Threads.v
theories/model/Memory.v
theories/spec/Spec.v
theories/proofs/Base_facts.v
theories/proofs/Sort_facts.v
theories/proofs/Prim_facts.v
theories/proofs/F32_bits.v
theories/proofs/Prim_codec.v
theories/proofs/Utf8_facts.v
theories/proofs/Coll_facts.v
theories/proofs/Codec_lemmas.v
theories/proofs/Classic_facts.v
theories/proofs/Order_facts.v
theories/proofs/Raw_facts.v
theories/proofs/Raw_props.v
theories/proofs/Raw_samples_facts.v
theories/proofs/Js_facts.v
theories/proofs/Js_samples_facts.v
theories/props/P_codec.v
theories/spec/Data_spec.v
theories/spec/Classic_spec.v
theories/spec/Raw_spec.v
theories/spec/Js_spec.v
theories/spec/Js_samples.v
theories/spec/Raw_samples.v
theories/proofs/Data_facts.v
theories/proofs/File_facts.v
theories/proofs/Data_more.v
theories/spec/Samples.v
theories/proofs/Sample_facts.v
theories/props/P_data.v
theories/proofs/Float_facts.v
theories/proofs/Cutoff_facts.v
theories/proofs/F64_facts.v
theories/spec/Gram_spec.v
theories/spec/Seq_spec.v
theories/proofs/Indexer_facts.v
theories/proofs/Seq_exact.v
theories/proofs/Trie_facts.v
theories/proofs/Search_facts.v
theories/spec/Gram_samples.v
theories/proofs/Trie_props.v
theories/props/P_trie.v
theories/proofs/Search_more.v
theories/proofs/Search_props.v
theories/proofs/Example_facts.v
theories/proofs/Ties_props.v
theories/proofs/Ties_samples_facts.v
theories/props/P_search.v
theories/props/P_classic.v
theories/props/P_js.v
theories/spec/Lib_spec.v
theories/spec/Lib_samples.v
theories/spec/Conc_spec.v
theories/proofs/Lib_facts.v
theories/proofs/Handler_exact.v
theories/proofs/Suggest_facts.v
theories/proofs/Conc_facts.v
theories/proofs/Lib_samples_facts.v
theories/proofs/Lib_examples.v
theories/props/P_lib.v
theories/props/P_conc.v
theories/spec/End_spec.v
theories/spec/End_samples.v
theories/proofs/End_facts.v
theories/proofs/End_props.v
theories/proofs/End_samples_facts.v
theories/props/P_end.v
theories/spec/Json_spec.v
theories/proofs/Json_facts.v
theories/proofs/Json_props.v
theories/proofs/Json_more.v
theories/spec/Json_samples.v
theories/proofs/Json_end.v
theories/proofs/Json_samples_facts.v
theories/props/P_json.v
theories/spec/Parse_spec.v
theories/spec/Parse_samples.v
theories/proofs/Parse_facts.v
theories/proofs/Parse_props.v
theories/proofs/Parse_samples_facts.v
theories/props/P_parse.v
theories/spec/Page_spec.v
theories/spec/Page_samples.v
theories/proofs/Page_facts.v
theories/proofs/Page_story.v
theories/proofs/Page_props.v
theories/proofs/Page_samples_facts.v
theories/spec/Page_more_samples.v
theories/proofs/Page_more.v
theories/props/P_page.v
theories/spec/Cost_spec.v
theories/spec/Cost_samples.v
theories/proofs/Cost_facts.v
theories/proofs/Size_facts.v
theories/proofs/Length_facts.v
theories/proofs/Cost_props.v
theories/proofs/Bytes_facts.v
theories/proofs/Cost_samples_facts.v
theories/props/P_cost.v
theories/spec/Equal_spec.v
theories/spec/Equal_samples.v
theories/proofs/Equal_facts.v
theories/proofs/Equal_props.v
theories/proofs/Equal_samples_facts.v
theories/props/P_equal.v
theories/spec/Typing_samples.v
theories/proofs/Typing_facts.v
theories/proofs/Typing_props.v
theories/proofs/Typing_samples_facts.v
theories/props/P_typing.v
theories/spec/Threads_spec.v
theories/spec/Threads_samples.v
theories/proofs/Threads_facts.v
theories/proofs/Threads_props.v
theories/proofs/Threads_samples_facts.v
theories/props/P_threads.v
theories/spec/Outcome_spec.v
theories/spec/Outcome_samples.v
theories/proofs/Outcome_facts.v
theories/proofs/Outcome_props.v
theories/proofs/Outcome_samples_facts.v
theories/props/P_outcome.v
theories/spec/Memory_spec.v
theories/proofs/Memory_facts.v
theories/proofs/Memory_props.v
theories/proofs/Memory_samples_facts.v
theories/props/P_memory.v
theories/spec/Reorder_spec.v
theories/spec/Reorder_samples.v
theories/proofs/Reorder_props.v
theories/proofs/Reorder_end.v
theories/proofs/Reorder_samples_facts.v
theories/props/P_reorder.v
theories/spec/Choice_spec.v
theories/proofs/Choice_props.v
theories/proofs/Choice_end.v
theories/spec/Choice_samples.v
theories/proofs/Choice_samples_facts.v
theories/props/P_choice.v
theories/spec/Trunc_spec.v
theories/spec/Trunc_samples.v
theories/proofs/Trunc_facts.v
theories/proofs/Trunc_end.v
theories/proofs/Trunc_props.v
theories/proofs/Trunc_samples_facts.v
theories/props/P_trunc.v
theories/proofs/Again_facts.v
theories/proofs/Again_props.v
theories/props/P_again.v
theories/spec/Sorted_spec.v
theories/spec/Sorted_samples.v
theories/proofs/Sorted_end.v
theories/proofs/Sorted_samples_facts.v
theories/props/P_sorted.v
theories/model/Serde_array.v
theories/spec/Serde_array_spec.v
theories/proofs/Serde_array_facts.v
theories/props/P_serde.v
theories/spec/Reading_spec.v
theories/proofs/Reading_props.v
theories/spec/Reading_samples.v
theories/proofs/Reading_samples_facts.v
theories/props/P_reading.v
theories/spec/Grammar_spec.v
theories/proofs/Grammar_facts.v
theories/props/P_grammar.v
theories/model/Tests.v
theories/spec/Tests_spec.v
theories/proofs/Tests_facts.v
theories/props/P_tests.v
theories/spec/Text_spec.v
theories/proofs/Text_end.v
theories/proofs/Text_samples_facts.v
theories/props/P_text.v
theories/spec/Panics_spec.v
theories/proofs/Panics_facts.v
theories/proofs/Panics_samples_facts.v
theories/props/P_panics.v
theories/model/Border.v
theories/spec/Border_spec.v
theories/proofs/Border_facts.v
theories/spec/Shown_spec.v
theories/proofs/Shown_facts.v
theories/props/P_border.v
theories/spec/Growth_spec.v
theories/spec/Growth_samples.v
theories/proofs/Growth_facts.v
theories/proofs/Growth_end.v
theories/proofs/Growth_samples_facts.v
theories/props/P_growth.v
theories/model/Access.v
theories/spec/Suggest_spec.v
theories/spec/Suggest_samples.v
theories/spec/Contract_spec.v
theories/proofs/Suggest_end.v
theories/proofs/Contract_facts.v
theories/proofs/Suggest_samples_facts.v
theories/props/P_suggest.v
theories/props/P_contract.v
theories/model/Bench.v
theories/spec/Bench_spec.v
theories/proofs/Bench_facts.v
theories/spec/Bench_samples.v
theories/proofs/Bench_more.v
theories/props/P_bench.v
theories/spec/Filesize_spec.v
theories/proofs/Filesize_facts.v
theories/proofs/Filesize_mono.v
theories/proofs/Filesize_base.v
theories/proofs/Filesize_grow.v
theories/props/P_filesize.v
theories/spec/Slip_spec.v
theories/spec/Slip_samples.v
theories/proofs/Slip_facts.v
theories/proofs/Slip_end.v
theories/props/P_slip.v
theories/proofs/Window_exact.v
theories/spec/Corrupt_spec.v
theories/spec/Corrupt_samples.v
theories/proofs/Corrupt_facts.v
theories/proofs/Corrupt_end.v
theories/props/P_corrupt.v
theories/proofs/Access_facts.v
theories/proofs/Access_samples_facts.v
theories/props/P_access.v
theories/spec/Rank_samples.v
theories/proofs/Rank_facts.v
theories/proofs/Rank_end.v
theories/props/P_rank.v
theories/spec/Reprice_spec.v
theories/proofs/Reprice_facts.v
theories/proofs/Reprice_end.v
theories/props/P_reprice.v
theories/model/Machine.v
theories/spec/Machine_samples.v
theories/proofs/Machine_facts.v
theories/proofs/Machine_end.v
theories/props/P_machine.v
theories/model/Words.v
theories/proofs/Words_facts.v
theories/props/P_words.v
theories/model/Objects.v
theories/spec/Objects_spec.v
theories/spec/Objects_samples.v
theories/proofs/Objects_facts.v
theories/proofs/Objects_borrows.v
theories/props/P_objects.v
theories/spec/Layout_spec.v
theories/proofs/Layout_facts.v
theories/proofs/Layout_bytes.v
theories/props/P_layout.v
theories/model/Disk.v
theories/spec/Disk_spec.v
theories/spec/Disk_samples.v
theories/proofs/Disk_facts.v
theories/proofs/Disk_samples_facts.v
theories/props/P_disk.v
theories/spec/Pieces_spec.v
theories/spec/Pieces_samples.v
theories/proofs/Pieces_facts.v
theories/proofs/Pieces_samples_facts.v
theories/props/P_pieces.v
theories/spec/Reserve_spec.v
theories/proofs/Reserve_facts.v
theories/props/P_reserve.v
theories/spec/Held_spec.v
theories/proofs/Held_facts.v
theories/props/P_held.v
theories/spec/Chosen_spec.v
theories/proofs/Chosen_facts.v
theories/props/P_chosen.v
theories/spec/Narrow_spec.v
theories/proofs/Narrow_facts.v
theories/props/P_narrow.v
