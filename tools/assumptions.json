{"C116_softmax": ["ClassicalDedekindReals.sig_forall_dec", "ClassicalDedekindReals.sig_not_dec", "FunctionalExtensionality.functional_extensionality_dep"], "C116_softmax_probabilities": ["ClassicalDedekindReals.sig_forall_dec", "ClassicalDedekindReals.sig_not_dec", "FunctionalExtensionality.functional_extensionality_dep"], "C116_softmax_order": ["ClassicalDedekindReals.sig_forall_dec", "ClassicalDedekindReals.sig_not_dec", "Classical_Prop.classic", "FunctionalExtensionality.functional_extensionality_dep"], "C116_softmax_shift": ["ClassicalDedekindReals.sig_forall_dec", "ClassicalDedekindReals.sig_not_dec", "FunctionalExtensionality.functional_extensionality_dep"], "C116_softmax_default_refuted": [], "C116_softmax_coerced_refuted": ["ClassicalDedekindReals.sig_forall_dec", "ClassicalDedekindReals.sig_not_dec", "FunctionalExtensionality.functional_extensionality_dep"], "C116_sigmoid": ["ClassicalDedekindReals.sig_forall_dec", "ClassicalDedekindReals.sig_not_dec", "FunctionalExtensionality.functional_extensionality_dep"], "C116_softplus": ["ClassicalDedekindReals.sig_forall_dec", "ClassicalDedekindReals.sig_not_dec", "Classical_Prop.classic", "FunctionalExtensionality.functional_extensionality_dep"], "C116_elu": ["ClassicalDedekindReals.sig_forall_dec", "ClassicalDedekindReals.sig_not_dec", "FunctionalExtensionality.functional_extensionality_dep"], "C116_relu": ["ClassicalDedekindReals.sig_forall_dec", "FunctionalExtensionality.functional_extensionality_dep"], "C116_relu6": ["ClassicalDedekindReals.sig_forall_dec", "FunctionalExtensionality.functional_extensionality_dep"], "C116_hard_refuted": ["ClassicalDedekindReals.sig_forall_dec", "FunctionalExtensionality.functional_extensionality_dep"], "C116_hard_sigmoid_partial": ["ClassicalDedekindReals.sig_forall_dec", "FunctionalExtensionality.functional_extensionality_dep"], "C116_hard_swish_partial": ["ClassicalDedekindReals.sig_forall_dec", "FunctionalExtensionality.functional_extensionality_dep"], "C117_batch_norm": ["ClassicalDedekindReals.sig_forall_dec", "ClassicalDedekindReals.sig_not_dec", "FunctionalExtensionality.functional_extensionality_dep"], "C117_batch_norm_statistics": ["ClassicalDedekindReals.sig_forall_dec", "ClassicalDedekindReals.sig_not_dec", "FunctionalExtensionality.functional_extensionality_dep"], "C117_batch_norm_vector_refuted": ["ClassicalDedekindReals.sig_forall_dec", "ClassicalDedekindReals.sig_not_dec", "FunctionalExtensionality.functional_extensionality_dep"], "C117_reduce_l2": ["ClassicalDedekindReals.sig_forall_dec", "ClassicalDedekindReals.sig_not_dec", "FunctionalExtensionality.functional_extensionality_dep"], "C117_reduce_l2_all": ["ClassicalDedekindReals.sig_forall_dec", "ClassicalDedekindReals.sig_not_dec", "FunctionalExtensionality.functional_extensionality_dep"], "C117_reduce_l2_input_refuted": ["ClassicalDedekindReals.sig_forall_dec", "ClassicalDedekindReals.sig_not_dec", "FunctionalExtensionality.functional_extensionality_dep"], "C110_binding": [], "C110_opfusion_refuted": [], "C110_subgraph_refuted": [], "C110_subgraph_error_refuted": [], "C110_nothing_asked": [], "C95_removed_exactly": [], "C95_values": [], "C95_outputs_kept": [], "C95_ready_for_planning": [], "C95_original_loses_nodes_refuted": [], "C95_stale_shapes_refuted": [], "C95_two_outputs_refuted": [], "C95_output_lost_refuted": [], "C95_shape_as_data_refuted": [], "C95_dead_node_stays_refuted": [], "C95_node_named_like_tensor_refuted": [], "C45_fold_preserves_partial": ["ClassicalDedekindReals.sig_forall_dec", "ClassicalDedekindReals.sig_not_dec", "FunctionalExtensionality.functional_extensionality_dep"], "C45_bias_refuted": ["ClassicalDedekindReals.sig_forall_dec", "ClassicalDedekindReals.sig_not_dec", "FunctionalExtensionality.functional_extensionality_dep"], "C45_readonly_refuted": ["ClassicalDedekindReals.sig_forall_dec", "ClassicalDedekindReals.sig_not_dec", "FunctionalExtensionality.functional_extensionality_dep"], "C45_output_refuted": ["ClassicalDedekindReals.sig_forall_dec", "ClassicalDedekindReals.sig_not_dec", "FunctionalExtensionality.functional_extensionality_dep"], "C45_shared_result_refuted": ["ClassicalDedekindReals.sig_forall_dec", "ClassicalDedekindReals.sig_not_dec", "FunctionalExtensionality.functional_extensionality_dep"], "C45_shared_weight_refuted": ["ClassicalDedekindReals.sig_forall_dec", "ClassicalDedekindReals.sig_not_dec", "FunctionalExtensionality.functional_extensionality_dep"], "C59_node": [], "C59_output_shape": [], "C59_output_shape_refuted": [], "C59_rank_refuted": [], "C59_defaults_refuted": [], "C83_conv": [], "C83_gemm": [], "C83_matmul": [], "C83_convtranspose_partial": [], "C83_convtranspose_refuted": [], "C83_integer_conv_partial": [], "C83_integer_conv_refuted": [], "C83_qlinear_matmul_partial": [], "C83_qlinear_matmul_refuted": [], "C84_pool_partial": [], "C84_pool_refuted": [], "C84_global_average": [], "C84_elementwise_partial": [], "C84_elementwise_refuted": [], "C85_lstm_partial": [], "C85_gru_partial": [], "C85_bidirectional_refuted": [], "C85_no_bias_refuted": [], "C86_einsum_partial": [], "C86_einsum_refuted": [], "C108_exact_wiring": [], "C108_own_match": [], "C108_unknown_name": [], "C108_chain_found_partial": [], "C108_siblings_refuted": [], "C94_blocks": [], "C94_live_tensors_disjoint": [], "C94_live_tensor_has_block": [], "C94_pools_refine_private": [], "C94_cache_survives": [], "C94_total_between_peak_and_sum": [], "C94_validation_never_warns": [], "C94_single_pool_refuted": [], "C94_relations_lose_cache_refuted": [], "C94_outcome": [], "C94_built_graph_refuted": [], "C121_outputs": [], "C121_again": [], "C121_parts": [], "C121_values": [], "C121_dumped_values_are_true": [], "C121_saved": [], "C121_plan_unchanged": [], "C121_dump_all_refuted": [], "C121_dumped_survives_refuted": [], "C13_dangling_removes_exactly_unneeded_partial": [], "C13_output_producer_removed_refuted": [], "C14_fused_outputs_are_undeclared_refuted": [], "C14_fused_wiring_partial": [], "C15_region_interface_exact": [], "C15_internal_graph_output_refuted": [], "C57_fusion_preserves_values": [], "C57_fusing_around_a_node_refuted": [], "C16_skip_redirects_readers_partial": [], "C16_skip_last_node_partial": [], "C16_skipped_output_lost_refuted": [], "C16_skip_on_graph_input_crashes_refuted": [], "C16_other_reader_broken_refuted": [], "C17_partition": [], "C18_constants_are_exactly_runtime_independent": [], "C58_constant_search_exponential_refuted": [], "C100_einsum_partial": [], "C100_einsum_implicit_partial": [], "C100_einsum_rejects": [], "C100_einsum_prefix_refuted": [], "C100_einsum_result_order_refuted": [], "C100_einsum_mismatch_refuted": [], "C100_einsum_short_operand_refuted": [], "C100_einsum_empty_refuted": [], "C55_each_in_its_file_partial": [], "C55_plain_names_distinct": [], "C55_collision_iff": [], "C55_inside_folder": [], "C55_collision_refuted": [], "C55_escape_refuted": [], "C46_conditions_partial": [], "C46_convbn_matches": [], "C46_serial_refuted": [], "C46_placeholder_refuted": [], "C47_convbn_disjoint": [], "C47_disjoint_refuted": [], "C63_convbn_complete": [], "C63_serial_refuted": [], "C64_terminates": [], "C64_convbn_returns": [], "C64_pool1d_refuted": [], "C64_weight_input_refuted": [], "C97_no_if_left": [], "C97_sound": [], "C97_values": [], "C97_flat_exactly": [], "C97_flat_values": [], "C97_outputs_kept": [], "C97_flat_succeeds": [], "C97_tensors": [], "C97_declared_result_refuted": [], "C97_second_result_refuted": [], "C97_branch_output_reread_refuted": [], "C97_branch_passes_through_refuted": [], "C97_unnamed_branch_node_refuted": [], "C97_chained_conditions_refuted": [], "C97_branch_operand_refuted": [], "C97_two_outputs_refuted": [], "C97_name_clash_refuted": [], "C97_order_refuted": [], "C91_marks_exactly_needed": [], "C91_shape_tensors_exact": [], "C91_exponential_work_refuted": [], "C92_shapes_are_true": [], "C92_calls_do_not_interfere": [], "C92_values_are_true": [], "C91_omitted_operands_refuted": [], "C92_reduction_axes_refuted": [], "C92_out_of_order_refuted": [], "C109_rewritten_partial": [], "C109_rank_checked": [], "C109_letter_x_refuted": [], "C109_scalar_refuted": [], "C109_stale_shapes_refuted": [], "C50_flags_after_history": [], "C50_independent_partial": [], "C50_existing_partial": [], "C50_history_refuted": [], "C50_existing_refuted": [], "C78_well_shaped": [], "C78_shipped_tables": [], "C78_gegelu_refuted": [], "C78_linear_heads_refuted": [], "C79_model_size": [], "C80_report": ["ClassicalDedekindReals.sig_forall_dec", "ClassicalDedekindReals.sig_not_dec", "Classical_Prop.classic", "FunctionalExtensionality.functional_extensionality_dep"], "C80_report_cached": ["ClassicalDedekindReals.sig_forall_dec", "ClassicalDedekindReals.sig_not_dec", "Classical_Prop.classic", "FunctionalExtensionality.functional_extensionality_dep"], "C79_cached_size": [], "C79_reported_params": [], "C79_dedup_after_reorder": [], "C79_dedup_refuted": [], "C80_batches": [], "C80_past": [], "C80_latent_cache_refuted": ["ClassicalDedekindReals.sig_forall_dec", "ClassicalDedekindReals.sig_not_dec", "Classical_Prop.classic", "FunctionalExtensionality.functional_extensionality_dep"], "C80_linear_attention_refuted": [], "C80_shared_gate_refuted": [], "C80_rope_tables": [], "C69_built_graph_executable": [], "C69_build_succeeds": [], "C69_shipped_tables": [], "C69_kv_cache": [], "C69_plannable": [], "C69_gpt2_map": [], "C69_gpt2_default_refuted": [], "C69_post_norm_refuted": [], "C104_independent_of_sizes": [], "C104_same_failure": [], "C105_reinfer": ["ClassicalDedekindReals.sig_forall_dec", "ClassicalDedekindReals.sig_not_dec", "Classical_Prop.classic", "FunctionalExtensionality.functional_extensionality_dep"], "C105_reproduces": ["ClassicalDedekindReals.sig_forall_dec", "ClassicalDedekindReals.sig_not_dec", "Classical_Prop.classic", "FunctionalExtensionality.functional_extensionality_dep"], "C93_attention_kv": [], "C93_cached_attention_kv": [], "C93_builder_kv_params": [], "C93_set_past_refuted": [], "C93_made_with_past": [], "C93_linear_layers_refuted": [], "C51_sum_of_rooflines": ["ClassicalDedekindReals.sig_forall_dec", "ClassicalDedekindReals.sig_not_dec", "Classical_Prop.classic", "FunctionalExtensionality.functional_extensionality_dep"], "C51_not_below": ["ClassicalDedekindReals.sig_forall_dec", "ClassicalDedekindReals.sig_not_dec", "Classical_Prop.classic", "FunctionalExtensionality.functional_extensionality_dep"], "C51_faster_device": ["ClassicalDedekindReals.sig_forall_dec", "ClassicalDedekindReals.sig_not_dec", "Classical_Prop.classic", "FunctionalExtensionality.functional_extensionality_dep"], "C51_no_link": ["ClassicalDedekindReals.sig_forall_dec", "ClassicalDedekindReals.sig_not_dec", "Classical_Prop.classic", "FunctionalExtensionality.functional_extensionality_dep"], "C51_context_parts": ["ClassicalDedekindReals.sig_forall_dec", "ClassicalDedekindReals.sig_not_dec", "Classical_Prop.classic", "FunctionalExtensionality.functional_extensionality_dep"], "C51_more_devices_can_be_slower": ["ClassicalDedekindReals.sig_forall_dec", "ClassicalDedekindReals.sig_not_dec", "Classical_Prop.classic", "FunctionalExtensionality.functional_extensionality_dep"], "C120_rebuild": [], "C120_executable_refuted": [], "C120_position_refuted": [], "C120_cache_twice_refuted": [], "C119_table": ["ClassicalDedekindReals.sig_forall_dec", "ClassicalDedekindReals.sig_not_dec", "Classical_Prop.classic", "FunctionalExtensionality.functional_extensionality_dep"], "C119_csv_reads_back": ["ClassicalDedekindReals.sig_forall_dec", "ClassicalDedekindReals.sig_not_dec", "Classical_Prop.classic", "FunctionalExtensionality.functional_extensionality_dep"], "C119_cells": ["ClassicalDedekindReals.sig_forall_dec", "ClassicalDedekindReals.sig_not_dec", "Classical_Prop.classic", "FunctionalExtensionality.functional_extensionality_dep"], "C119_total_flops": ["ClassicalDedekindReals.sig_forall_dec", "ClassicalDedekindReals.sig_not_dec", "Classical_Prop.classic", "FunctionalExtensionality.functional_extensionality_dep"], "C119_latency": ["ClassicalDedekindReals.sig_forall_dec", "ClassicalDedekindReals.sig_not_dec", "Classical_Prop.classic", "FunctionalExtensionality.functional_extensionality_dep"], "C119_latency_unit_refuted": ["ClassicalDedekindReals.sig_forall_dec", "ClassicalDedekindReals.sig_not_dec", "Classical_Prop.classic", "FunctionalExtensionality.functional_extensionality_dep"], "C101_wiring": [], "C101_shipped_tables": [], "C74_renamed": [], "C74_kept_iff": [], "C74_kept": [], "C74_name_clash_refuted": [], "C75_loaded": [], "C75_inputs_partial": [], "C76_save_reload": [], "C77_folding": [], "C75_omitted_operand_refuted": [], "C75_input_order_refuted": [], "C75_unread_input_refuted": [], "C76_passthrough_refuted": [], "C77_constant_output_refuted": [], "C01_live_tensors_disjoint": [], "C02_blocks_in_bounds": [], "C03_pool_execution_refines_private": [], "C04_live_activation_has_block": [], "C05_total_between_peak_and_sum": [], "C05b_validation_never_warns": [], "C06_outputs_survive_refuted": [], "C06_unconsumed_results_survive_partial": [], "C07_reorder_keeps_inputs_refuted": [], "C08_planning_completes_refuted": [], "C08_planning_outcome_partial": [], "C01b_reorder_establishes_planner_hypotheses": [], "C09_reorder_is_dependency_respecting_permutation": [], "C10_missing_nodes_are_cyclic": [], "C10_omitted_names_lose_nodes_refuted": [], "C11_reorder_preserves_values": [], "C12_relations_are_the_wiring": [], "C12b_occurrences_meaning": [], "C12c_occurrences_count": [], "C70_inplace_pairs": [], "C70_plain_pairs": [], "C70_overlap_refuted": [], "C53_view_in_pool": [], "C53_view_in_block": [], "C53_rejects": [], "C53_plan_accepted": [], "C53_negative_refuted": [], "C54_disjoint_unchanged": [], "C54_read_back": [], "C54_live_tensors_independent": [], "C54_padded_block_refuted": [], "C65_engine_view_in_block_partial": [], "C65_live_views_disjoint_partial": [], "C65_narrow_refuted": [], "C71_disjoint_groups": [], "C71_values": [], "C71_overlap_refuted": [], "C72_exact_or_silent_partial": [], "C72_forgotten_reader_refuted": [], "C72_rebuild": [], "C73_postops_read_back": [], "C73_name_clash_refuted": [], "C48_totals": ["ClassicalDedekindReals.sig_forall_dec", "ClassicalDedekindReals.sig_not_dec", "Classical_Prop.classic", "FunctionalExtensionality.functional_extensionality_dep"], "C48_printed_totals": ["ClassicalDedekindReals.sig_forall_dec", "ClassicalDedekindReals.sig_not_dec", "Classical_Prop.classic", "FunctionalExtensionality.functional_extensionality_dep"], "C48_order_refuted": ["ClassicalDedekindReals.sig_forall_dec", "ClassicalDedekindReals.sig_not_dec", "Classical_Prop.classic", "FunctionalExtensionality.functional_extensionality_dep"], "C66_sharing_partial": ["ClassicalDedekindReals.sig_forall_dec", "ClassicalDedekindReals.sig_not_dec", "Classical_Prop.classic", "FunctionalExtensionality.functional_extensionality_dep"], "C66_hidden_refuted": ["ClassicalDedekindReals.sig_forall_dec", "ClassicalDedekindReals.sig_not_dec", "Classical_Prop.classic", "FunctionalExtensionality.functional_extensionality_dep"], "C49_hidden_after_history": [], "C49_report_by_set": ["ClassicalDedekindReals.sig_forall_dec", "ClassicalDedekindReals.sig_not_dec", "Classical_Prop.classic", "FunctionalExtensionality.functional_extensionality_dep"], "C49_independent_partial": ["ClassicalDedekindReals.sig_forall_dec", "ClassicalDedekindReals.sig_not_dec", "Classical_Prop.classic", "FunctionalExtensionality.functional_extensionality_dep"], "C49_explicit_hidden": [], "C49_history_refuted": ["ClassicalDedekindReals.sig_forall_dec", "ClassicalDedekindReals.sig_not_dec", "Classical_Prop.classic", "FunctionalExtensionality.functional_extensionality_dep"], "C67_memory_partial": [], "C67_mixed_refuted": [], "C68_csv_reads_back_partial": [], "C68_comma_refuted": [], "C43_onnx_np_onnx": [], "C43_np_onnx_np": [], "C43_domain": [], "C43_codomain": [], "C43_string_arrays_unknown": [], "C44_array_roundtrip": [], "C44_scalar_roundtrip": [], "C44_narrow_scalar_reads_zero": [], "C44_exact": [], "C44_other_types_raise": [], "C44_roundtrip_refuted": [], "C61_raw": [], "C61_typed": [], "C61_narrow_typed_zero": [], "C61_typed_refuted": [], "C62_eight_byte_types_become_float64": [], "C62_typed_become_zero": [], "C62_other_sizes_refused": [], "C62_refused_refuted": [], "C81_rewired_partial": ["ClassicalDedekindReals.sig_forall_dec", "ClassicalDedekindReals.sig_not_dec", "Classical_Prop.classic", "FunctionalExtensionality.functional_extensionality_dep"], "C81_untouched": ["ClassicalDedekindReals.sig_forall_dec", "ClassicalDedekindReals.sig_not_dec", "Classical_Prop.classic", "FunctionalExtensionality.functional_extensionality_dep"], "C81_sym8_values": ["ClassicalDedekindReals.sig_forall_dec", "ClassicalDedekindReals.sig_not_dec", "Classical_Prop.classic", "FunctionalExtensionality.functional_extensionality_dep"], "C81_asym8_values": ["ClassicalDedekindReals.sig_forall_dec", "ClassicalDedekindReals.sig_not_dec", "Classical_Prop.classic", "FunctionalExtensionality.functional_extensionality_dep"], "C81_sym4_values": ["ClassicalDedekindReals.sig_forall_dec", "ClassicalDedekindReals.sig_not_dec", "Classical_Prop.classic", "FunctionalExtensionality.functional_extensionality_dep"], "C81_shared_weight_refuted": ["ClassicalDedekindReals.sig_forall_dec", "ClassicalDedekindReals.sig_not_dec", "Classical_Prop.classic", "FunctionalExtensionality.functional_extensionality_dep"], "C81_unread_weight_refuted": ["ClassicalDedekindReals.sig_forall_dec", "ClassicalDedekindReals.sig_not_dec", "Classical_Prop.classic", "FunctionalExtensionality.functional_extensionality_dep"], "C81_readers_refuted": ["ClassicalDedekindReals.sig_forall_dec", "ClassicalDedekindReals.sig_not_dec", "Classical_Prop.classic", "FunctionalExtensionality.functional_extensionality_dep"], "C81_small_weights_refuted": ["ClassicalDedekindReals.sig_forall_dec", "ClassicalDedekindReals.sig_not_dec", "Classical_Prop.classic", "FunctionalExtensionality.functional_extensionality_dep"], "C82_loop": ["ClassicalDedekindReals.sig_forall_dec", "ClassicalDedekindReals.sig_not_dec", "Classical_Prop.classic", "FunctionalExtensionality.functional_extensionality_dep"], "C82_spaced_weights_partial": [], "C82_neighbours_refuted": ["ClassicalDedekindReals.sig_forall_dec", "ClassicalDedekindReals.sig_not_dec", "Classical_Prop.classic", "FunctionalExtensionality.functional_extensionality_dep"], "C82_every_second_refuted": [], "C115_qlinear_conv": ["ClassicalDedekindReals.sig_forall_dec", "ClassicalDedekindReals.sig_not_dec", "Classical_Prop.classic", "FunctionalExtensionality.functional_extensionality_dep"], "C115_no_bias_refuted": ["ClassicalDedekindReals.sig_forall_dec", "ClassicalDedekindReals.sig_not_dec", "Classical_Prop.classic", "FunctionalExtensionality.functional_extensionality_dep"], "C115_conv_integer": ["ClassicalDedekindReals.sig_forall_dec", "ClassicalDedekindReals.sig_not_dec", "Classical_Prop.classic", "FunctionalExtensionality.functional_extensionality_dep"], "C115_same": ["ClassicalDedekindReals.sig_forall_dec", "ClassicalDedekindReals.sig_not_dec", "Classical_Prop.classic", "FunctionalExtensionality.functional_extensionality_dep"], "C115_valid_refuted": ["ClassicalDedekindReals.sig_forall_dec", "ClassicalDedekindReals.sig_not_dec", "Classical_Prop.classic", "FunctionalExtensionality.functional_extensionality_dep"], "C115_qlinear_matmul": [], "C115_inner_mismatch_refuted": [], "C115_matmul_integer": [], "C115_quantize": [], "C115_dequantize": [], "C115_quantize_optional_refuted": [], "C35_symmetric_error_partial": ["ClassicalDedekindReals.sig_forall_dec", "ClassicalDedekindReals.sig_not_dec", "Classical_Prop.classic", "FunctionalExtensionality.functional_extensionality_dep"], "C35_half_step_refuted": ["ClassicalDedekindReals.sig_forall_dec", "ClassicalDedekindReals.sig_not_dec", "Classical_Prop.classic", "FunctionalExtensionality.functional_extensionality_dep"], "C35_wide_codes_refuted": ["ClassicalDedekindReals.sig_forall_dec", "ClassicalDedekindReals.sig_not_dec", "Classical_Prop.classic", "FunctionalExtensionality.functional_extensionality_dep"], "C36_asymmetric_error_partial": ["ClassicalDedekindReals.sig_forall_dec", "ClassicalDedekindReals.sig_not_dec", "Classical_Prop.classic", "FunctionalExtensionality.functional_extensionality_dep"], "C36_eight_bits": ["ClassicalDedekindReals.sig_forall_dec", "ClassicalDedekindReals.sig_not_dec", "Classical_Prop.classic", "FunctionalExtensionality.functional_extensionality_dep"], "C36_code_16_refuted": ["ClassicalDedekindReals.sig_forall_dec", "ClassicalDedekindReals.sig_not_dec", "Classical_Prop.classic", "FunctionalExtensionality.functional_extensionality_dep"], "C37_pack_signed_partial": [], "C37_symmetric_codes_fit": [], "C37_unsigned_refuted": [], "C37_odd_refuted": [], "C38_all_zero_refuted": ["ClassicalDedekindReals.sig_forall_dec", "ClassicalDedekindReals.sig_not_dec", "Classical_Prop.classic", "FunctionalExtensionality.functional_extensionality_dep"], "C38_zero_row_refuted": ["ClassicalDedekindReals.sig_forall_dec", "ClassicalDedekindReals.sig_not_dec", "Classical_Prop.classic", "FunctionalExtensionality.functional_extensionality_dep"], "C38_underflow_refuted": ["ClassicalDedekindReals.sig_forall_dec", "ClassicalDedekindReals.sig_not_dec", "Classical_Prop.classic", "FunctionalExtensionality.functional_extensionality_dep"], "C38_infinite_scale_refuted": ["ClassicalDedekindReals.sig_forall_dec", "ClassicalDedekindReals.sig_not_dec", "Classical_Prop.classic", "FunctionalExtensionality.functional_extensionality_dep"], "C38_success_partial": ["ClassicalDedekindReals.sig_forall_dec", "ClassicalDedekindReals.sig_not_dec", "Classical_Prop.classic", "FunctionalExtensionality.functional_extensionality_dep"], "C118_late_constants_refuted": [], "C118_plain": [], "C118_folded": [], "C118_saved_inputs_refuted": [], "C52_get_latest": [], "C52_getitem": [], "C52_keys": [], "C52_step": [], "C52_create_node": [], "C32_linear_expression_exact": ["ClassicalDedekindReals.sig_forall_dec", "ClassicalDedekindReals.sig_not_dec", "Classical_Prop.classic", "FunctionalExtensionality.functional_extensionality_dep"], "C32_relative_fit_refuted": ["ClassicalDedekindReals.sig_forall_dec", "ClassicalDedekindReals.sig_not_dec", "Classical_Prop.classic", "FunctionalExtensionality.functional_extensionality_dep"], "C33_one_variable_partial": ["ClassicalDedekindReals.sig_forall_dec", "ClassicalDedekindReals.sig_not_dec", "Classical_Prop.classic", "FunctionalExtensionality.functional_extensionality_dep"], "C33_independent_variables_partial": ["ClassicalDedekindReals.sig_forall_dec", "ClassicalDedekindReals.sig_not_dec", "Classical_Prop.classic", "FunctionalExtensionality.functional_extensionality_dep"], "C33_two_variables_refuted": ["ClassicalDedekindReals.sig_forall_dec", "ClassicalDedekindReals.sig_not_dec", "Classical_Prop.classic", "FunctionalExtensionality.functional_extensionality_dep"], "C34_update_partial": ["ClassicalDedekindReals.sig_forall_dec", "ClassicalDedekindReals.sig_not_dec", "Classical_Prop.classic", "FunctionalExtensionality.functional_extensionality_dep"], "C34_history_independent": ["ClassicalDedekindReals.sig_forall_dec", "ClassicalDedekindReals.sig_not_dec", "Classical_Prop.classic", "FunctionalExtensionality.functional_extensionality_dep"], "C34_idempotent": ["ClassicalDedekindReals.sig_forall_dec", "ClassicalDedekindReals.sig_not_dec", "Classical_Prop.classic", "FunctionalExtensionality.functional_extensionality_dep"], "C34_regressed_engine": ["ClassicalDedekindReals.sig_forall_dec", "ClassicalDedekindReals.sig_not_dec", "Classical_Prop.classic", "FunctionalExtensionality.functional_extensionality_dep"], "C34_unordered_refuted": ["ClassicalDedekindReals.sig_forall_dec", "ClassicalDedekindReals.sig_not_dec", "Classical_Prop.classic", "FunctionalExtensionality.functional_extensionality_dep"], "C60_floor_exact_partial": ["ClassicalDedekindReals.sig_forall_dec", "ClassicalDedekindReals.sig_not_dec", "Classical_Prop.classic", "FunctionalExtensionality.functional_extensionality_dep"], "C60_ceil_exact_partial": ["ClassicalDedekindReals.sig_forall_dec", "ClassicalDedekindReals.sig_not_dec", "Classical_Prop.classic", "FunctionalExtensionality.functional_extensionality_dep"], "C60_pool_partial": ["ClassicalDedekindReals.sig_forall_dec", "ClassicalDedekindReals.sig_not_dec", "Classical_Prop.classic", "FunctionalExtensionality.functional_extensionality_dep"], "C60_even_samples_refuted": ["ClassicalDedekindReals.sig_forall_dec", "ClassicalDedekindReals.sig_not_dec", "Classical_Prop.classic", "FunctionalExtensionality.functional_extensionality_dep"], "C60_remainder_refuted": ["ClassicalDedekindReals.sig_forall_dec", "ClassicalDedekindReals.sig_not_dec", "Classical_Prop.classic", "FunctionalExtensionality.functional_extensionality_dep"], "C39_graph_file_partial": ["ClassicalDedekindReals.sig_forall_dec", "ClassicalDedekindReals.sig_not_dec", "Classical_Prop.classic", "FunctionalExtensionality.functional_extensionality_dep"], "C39_float_exact": ["ClassicalDedekindReals.sig_forall_dec", "ClassicalDedekindReals.sig_not_dec", "Classical_Prop.classic", "FunctionalExtensionality.functional_extensionality_dep"], "C39_graph_injective": ["ClassicalDedekindReals.sig_forall_dec", "ClassicalDedekindReals.sig_not_dec", "Classical_Prop.classic", "FunctionalExtensionality.functional_extensionality_dep"], "C39_tensor_attribute_refuted": ["ClassicalDedekindReals.sig_forall_dec", "ClassicalDedekindReals.sig_not_dec", "Classical_Prop.classic", "FunctionalExtensionality.functional_extensionality_dep"], "C39_scalar_or_list_refuted": ["ClassicalDedekindReals.sig_forall_dec", "ClassicalDedekindReals.sig_not_dec", "Classical_Prop.classic", "FunctionalExtensionality.functional_extensionality_dep"], "C39_int64_attribute_refuted": ["ClassicalDedekindReals.sig_forall_dec", "ClassicalDedekindReals.sig_not_dec", "Classical_Prop.classic", "FunctionalExtensionality.functional_extensionality_dep"], "C39_empty_list_refuted": ["ClassicalDedekindReals.sig_forall_dec", "ClassicalDedekindReals.sig_not_dec", "Classical_Prop.classic", "FunctionalExtensionality.functional_extensionality_dep"], "C39_array_type_refuted": ["ClassicalDedekindReals.sig_forall_dec", "ClassicalDedekindReals.sig_not_dec", "Classical_Prop.classic", "FunctionalExtensionality.functional_extensionality_dep"], "C40_engine_file_partial": ["ClassicalDedekindReals.sig_forall_dec", "ClassicalDedekindReals.sig_not_dec", "Classical_Prop.classic", "FunctionalExtensionality.functional_extensionality_dep"], "C40_success_faithful_partial": ["ClassicalDedekindReals.sig_forall_dec", "ClassicalDedekindReals.sig_not_dec", "Classical_Prop.classic", "FunctionalExtensionality.functional_extensionality_dep"], "C40_large_coefficient_refuted": ["ClassicalDedekindReals.sig_forall_dec", "ClassicalDedekindReals.sig_not_dec", "Classical_Prop.classic", "FunctionalExtensionality.functional_extensionality_dep"], "C41_plan_file": [], "C41_success_faithful": [], "C42_names_injective_partial": [], "C42_nul_refuted": [], "C19_broadcast_exact": [], "C19_incompatible_rejected": [], "C19_order_independent": [], "C20_elementwise_partial": [], "C20_unary": [], "C20_mutual_broadcast_refuted": [], "C20_empty_dimension_refuted": [], "C21_matmul_partial": [], "C21_gemm_checks_inner": [], "C21_inner_mismatch_accepted_refuted": [], "C21_mutual_batch_refuted": [], "C21_batch_rank_refuted": [], "C22_conv_counts_windows_partial": ["ClassicalDedekindReals.sig_forall_dec", "ClassicalDedekindReals.sig_not_dec", "Classical_Prop.classic", "FunctionalExtensionality.functional_extensionality_dep"], "C22_pool_counts_windows_partial": ["ClassicalDedekindReals.sig_forall_dec", "ClassicalDedekindReals.sig_not_dec", "Classical_Prop.classic", "FunctionalExtensionality.functional_extensionality_dep"], "C22_valid_counts_windows_partial": ["ClassicalDedekindReals.sig_forall_dec", "ClassicalDedekindReals.sig_not_dec", "Classical_Prop.classic", "FunctionalExtensionality.functional_extensionality_dep"], "C22_oversized_kernel_refuted": ["ClassicalDedekindReals.sig_forall_dec", "ClassicalDedekindReals.sig_not_dec", "Classical_Prop.classic", "FunctionalExtensionality.functional_extensionality_dep"], "C22_valid_ignores_dilation_refuted": ["ClassicalDedekindReals.sig_forall_dec", "ClassicalDedekindReals.sig_not_dec", "Classical_Prop.classic", "FunctionalExtensionality.functional_extensionality_dep"], "C22_pool3d_pads_refuted": ["ClassicalDedekindReals.sig_forall_dec", "ClassicalDedekindReals.sig_not_dec", "Classical_Prop.classic", "FunctionalExtensionality.functional_extensionality_dep"], "C22_valid_rank5_refuted": ["ClassicalDedekindReals.sig_forall_dec", "ClassicalDedekindReals.sig_not_dec", "Classical_Prop.classic", "FunctionalExtensionality.functional_extensionality_dep"], "C22_pool_ceil_mode": ["ClassicalDedekindReals.sig_forall_dec", "ClassicalDedekindReals.sig_not_dec", "Classical_Prop.classic", "FunctionalExtensionality.functional_extensionality_dep"], "C23_conv_same_partial": ["ClassicalDedekindReals.sig_forall_dec", "ClassicalDedekindReals.sig_not_dec", "Classical_Prop.classic", "FunctionalExtensionality.functional_extensionality_dep"], "C23_pool_same_partial": ["ClassicalDedekindReals.sig_forall_dec", "ClassicalDedekindReals.sig_not_dec", "Classical_Prop.classic", "FunctionalExtensionality.functional_extensionality_dep"], "C23_rank5_refuted": ["ClassicalDedekindReals.sig_forall_dec", "ClassicalDedekindReals.sig_not_dec", "Classical_Prop.classic", "FunctionalExtensionality.functional_extensionality_dep"], "C24_slice_counts_partial": ["ClassicalDedekindReals.sig_forall_dec", "ClassicalDedekindReals.sig_not_dec", "Classical_Prop.classic", "FunctionalExtensionality.functional_extensionality_dep"], "C24_axis_counts_partial": ["ClassicalDedekindReals.sig_forall_dec", "ClassicalDedekindReals.sig_not_dec", "Classical_Prop.classic", "FunctionalExtensionality.functional_extensionality_dep"], "C24_empty_reversed_refuted": ["ClassicalDedekindReals.sig_forall_dec", "ClassicalDedekindReals.sig_not_dec", "Classical_Prop.classic", "FunctionalExtensionality.functional_extensionality_dep"], "C25_reshape_exact_partial": [], "C25_volume_preserved": [], "C25_two_unknowns_refuted": [], "C25_empty_input_refuted": [], "C25_scalar_refuted": [], "C26_explicit_sizes": [], "C26_default_sizes_partial": [], "C26_negative_size_refuted": [], "C26_default_axis_refuted": [], "C27_permutes": [], "C27_inverse": [], "C27_default_reverses": [], "C28_roundtrip": [], "C29_concat": [], "C30_expand_partial": [], "C30_incompatible_accepted_refuted": [], "C30_empty_dimension_refuted": [], "C31_gather": [], "C31_pad": [], "C31_reduce_removes": [], "C31_reduce_keeps": [], "C31_flatten": [], "C31_flatten_default": [], "C31_topk": [], "C31_depth_to_space": [], "C31_onehot": [], "C31_reduce_all_refuted": [], "C31_flatten_negative_axis_refuted": [], "C59_transpose_inverts": [], "C102_lstm_partial": [], "C102_lstm_wrong_hidden": [], "C102_lstm_layout_refuted": [], "C102_gru_partial": [], "C102_gru_refuted": [], "C102_roialign_partial": [], "C102_roialign_default_refuted": [], "C102_roialign_rejects": [], "C102_nms_partial": [], "C102_nms_refuted": [], "C102_nms_rejects": [], "C102_gridsample_partial": [], "C102_gridsample_mixed_refuted": [], "C102_scan_refuted": [], "C102_topk_default_refuted": [], "C102_topk_axis": [], "C102_zipmap": [], "C102_feature_refuted": [], "C102_sdpa": [], "C103_scales_partial": ["ClassicalDedekindReals.sig_forall_dec", "ClassicalDedekindReals.sig_not_dec", "Classical_Prop.classic", "FunctionalExtensionality.functional_extensionality_dep"], "C103_integer_scales": ["ClassicalDedekindReals.sig_forall_dec", "ClassicalDedekindReals.sig_not_dec", "Classical_Prop.classic", "FunctionalExtensionality.functional_extensionality_dep"], "C103_short_scales_refuted": ["ClassicalDedekindReals.sig_forall_dec", "FunctionalExtensionality.functional_extensionality_dep"], "C103_sizes_partial": ["ClassicalDedekindReals.sig_forall_dec", "FunctionalExtensionality.functional_extensionality_dep"], "C103_sizes_refuted": ["ClassicalDedekindReals.sig_forall_dec", "FunctionalExtensionality.functional_extensionality_dep"], "C103_nothing_refuted": ["ClassicalDedekindReals.sig_forall_dec", "FunctionalExtensionality.functional_extensionality_dep"], "C111_removed_partial": [], "C111_values_partial": [], "C111_runtime_shape_refuted": [], "C111_output_refuted": [], "C111_second_pass_refuted": [], "C56_terminates": ["ClassicalDedekindReals.sig_forall_dec", "ClassicalDedekindReals.sig_not_dec", "Classical_Prop.classic", "FunctionalExtensionality.functional_extensionality_dep"], "C56_honest_2d_partial": ["ClassicalDedekindReals.sig_forall_dec", "ClassicalDedekindReals.sig_not_dec", "Classical_Prop.classic", "FunctionalExtensionality.functional_extensionality_dep"], "C56_honest_partial": ["ClassicalDedekindReals.sig_forall_dec", "ClassicalDedekindReals.sig_not_dec", "Classical_Prop.classic", "FunctionalExtensionality.functional_extensionality_dep"], "C56_shape_4d": ["ClassicalDedekindReals.sig_forall_dec", "ClassicalDedekindReals.sig_not_dec", "Classical_Prop.classic", "FunctionalExtensionality.functional_extensionality_dep"], "C56_never_understates": ["ClassicalDedekindReals.sig_forall_dec", "ClassicalDedekindReals.sig_not_dec", "Classical_Prop.classic", "FunctionalExtensionality.functional_extensionality_dep"], "C56_2d_refuted": ["ClassicalDedekindReals.sig_forall_dec", "ClassicalDedekindReals.sig_not_dec", "Classical_Prop.classic", "FunctionalExtensionality.functional_extensionality_dep"], "C56_4d_refuted": ["ClassicalDedekindReals.sig_forall_dec", "ClassicalDedekindReals.sig_not_dec", "Classical_Prop.classic", "FunctionalExtensionality.functional_extensionality_dep"], "C56_4d_tiling_refuted": ["ClassicalDedekindReals.sig_forall_dec", "ClassicalDedekindReals.sig_not_dec", "Classical_Prop.classic", "FunctionalExtensionality.functional_extensionality_dep"], "C106_removes_exactly_dependents": [], "C106_rest_is_closed": [], "C106_unknown_name": [], "C106_deep_graph_refuted": [], "C106_exponential_calls_refuted": [], "C07_silent_validation": [], "C24_slice_defaults_partial": ["ClassicalDedekindReals.sig_forall_dec", "ClassicalDedekindReals.sig_not_dec", "Classical_Prop.classic", "FunctionalExtensionality.functional_extensionality_dep"], "C59_node_shape": [], "C31_global_pool": [], "C43_widths": [], "C43_widths_all": [], "C54_zeroed": [], "C87_slice_first_axis_partial": [], "C96_rewritten_exactly": [], "C96_values": [], "C96_same_k_same_values": [], "C96_outputs_kept": [], "C96_given_k_raises_refuted": [], "C96_opset1_raises_refuted": [], "C96_topk_for_topk_raises_refuted": [], "C96_two_outputs_refuted": [], "C96_output_lost_refuted": [], "C87_slice_partial": [], "C87_slice_ignored_axes_refuted": [], "C87_slice_without_axes_refuted": [], "C87_slice_reversed_start_refuted": [], "C87_unsqueeze_partial": [], "C87_unsqueeze_axes_refuted": [], "C87_squeeze_partial": [], "C87_squeeze_axes_refuted": [], "C87_split_partial": [], "C87_split_trailing_refuted": [], "C87_split_default_axis_refuted": [], "C87_gather_elements_partial": [], "C87_gather_elements_cast_refuted": [], "C88_conv_partial": ["ClassicalDedekindReals.sig_forall_dec", "ClassicalDedekindReals.sig_not_dec", "Classical_Prop.classic", "FunctionalExtensionality.functional_extensionality_dep"], "C88_conv_bias_partial": ["ClassicalDedekindReals.sig_forall_dec", "ClassicalDedekindReals.sig_not_dec", "Classical_Prop.classic", "FunctionalExtensionality.functional_extensionality_dep"], "C88_conv_rerun_refuted": ["ClassicalDedekindReals.sig_forall_dec", "ClassicalDedekindReals.sig_not_dec", "Classical_Prop.classic", "FunctionalExtensionality.functional_extensionality_dep"], "C88_conv_unsupported": ["ClassicalDedekindReals.sig_forall_dec", "ClassicalDedekindReals.sig_not_dec", "Classical_Prop.classic", "FunctionalExtensionality.functional_extensionality_dep"], "C88_conv_auto_pad_refuted": ["ClassicalDedekindReals.sig_forall_dec", "ClassicalDedekindReals.sig_not_dec", "Classical_Prop.classic", "FunctionalExtensionality.functional_extensionality_dep"], "C88_maxpool_partial": ["ClassicalDedekindReals.sig_forall_dec", "ClassicalDedekindReals.sig_not_dec", "Classical_Prop.classic", "FunctionalExtensionality.functional_extensionality_dep"], "C88_maxpool_negative_refuted": ["ClassicalDedekindReals.sig_forall_dec", "ClassicalDedekindReals.sig_not_dec", "Classical_Prop.classic", "FunctionalExtensionality.functional_extensionality_dep"], "C88_maxpool_rerun_refuted": ["ClassicalDedekindReals.sig_forall_dec", "ClassicalDedekindReals.sig_not_dec", "Classical_Prop.classic", "FunctionalExtensionality.functional_extensionality_dep"], "C88_maxpool_dilation_refuted": ["ClassicalDedekindReals.sig_forall_dec", "ClassicalDedekindReals.sig_not_dec", "Classical_Prop.classic", "FunctionalExtensionality.functional_extensionality_dep"], "C88_gemm_partial": [], "C88_gemm_alpha_refuted": [], "C88_global_average_values": [], "C88_global_average_rank_refuted": [], "C89_div_partial": [], "C89_div_refuted": [], "C89_mod_partial": [], "C89_fmod_refuted": [], "C89_max_exact": [], "C89_sum_exact": [], "C89_min_refuted": [], "C89_clip_partial": [], "C89_clip_missing_refuted": [], "C89_leaky_relu_refuted": [], "C89_nonzero_partial": [], "C89_nonzero_of_zeros_refuted": [], "C90_slice_partial": ["ClassicalDedekindReals.sig_forall_dec", "ClassicalDedekindReals.sig_not_dec", "Classical_Prop.classic", "FunctionalExtensionality.functional_extensionality_dep"], "C90_unsqueeze_partial": [], "C90_squeeze_partial": [], "C90_split_partial": [], "C90_disagreements_refuted": ["ClassicalDedekindReals.sig_forall_dec", "ClassicalDedekindReals.sig_not_dec", "Classical_Prop.classic", "FunctionalExtensionality.functional_extensionality_dep"], "C98_gather_nd_partial": [], "C98_gather_nd_inside": [], "C98_gather_nd_bounds": [], "C98_gather_nd_too_long": [], "C98_gather_nd_batch_dims_refuted": [], "C98_scatter_nd_partial": [], "C98_scatter_nd_impl": [], "C98_scatter_nd_bounds": [], "C98_scatter_nd_shapes": [], "C98_scatter_nd_reduction_refuted": [], "C98_one_hot_partial": [], "C98_one_hot_values_refuted": [], "C98_one_hot_range_refuted": [], "C98_argmax_partial": [], "C98_argmax_last_refuted": [], "C99_pad_partial": [], "C99_pad_default_mode_refuted": [], "C99_pad_attribute_refuted": [], "C99_pad_mode_refuted": [], "C99_pad_axes_refuted": [], "C99_pad_crop_refuted": [], "C99_reshape_partial": [], "C99_reshape_two_open": [], "C99_reshape_agrees_partial": [], "C99_reduce_sum_partial": [], "C99_reduce_sum_all": [], "C99_reduce_axes_refuted": [], "C99_reduce_sum_empty_axes_refuted": [], "C99_constant_of_shape_partial": [], "C99_constant_of_shape_default_refuted": [], "C99_constant_of_shape_long_value_refuted": [], "C99_shape": [], "C99_shape_start_refuted": [], "C107_gather": [], "C107_gather_bounds": [], "C107_expand": [], "C107_expand_rejects": [], "C107_expand_shape": [], "C107_expand_disagrees_refuted": [], "C107_where": [], "C107_tile": [], "C107_trilu": [], "C107_cumsum_partial": [], "C107_cumsum_flags_refuted": [], "C107_compress": [], "C107_compress_flat": [], "C107_compress_bounds": [], "C107_range_partial": ["ClassicalDedekindReals.sig_forall_dec", "ClassicalDedekindReals.sig_not_dec", "Classical_Prop.classic", "FunctionalExtensionality.functional_extensionality_dep"], "C107_range_zero_step": [], "C107_range_large_refuted": ["ClassicalDedekindReals.sig_forall_dec", "ClassicalDedekindReals.sig_not_dec", "Classical_Prop.classic", "FunctionalExtensionality.functional_extensionality_dep"], "C107_range_case": ["ClassicalDedekindReals.sig_forall_dec", "ClassicalDedekindReals.sig_not_dec", "Classical_Prop.classic", "FunctionalExtensionality.functional_extensionality_dep"], "C112_succeeds": [], "C112_config": [], "C112_encoder": [], "C112_counts": [], "C112_default_refuted": [], "C112_no_patch_size_refuted": [], "C112_tokens_refuted": [], "C113_shapes": [], "C113_infer": ["ClassicalDedekindReals.sig_forall_dec", "ClassicalDedekindReals.sig_not_dec", "Classical_Prop.classic", "FunctionalExtensionality.functional_extensionality_dep"], "C113_as_built": ["ClassicalDedekindReals.sig_forall_dec", "ClassicalDedekindReals.sig_not_dec", "Classical_Prop.classic", "FunctionalExtensionality.functional_extensionality_dep"], "C113_channels_refuted": ["ClassicalDedekindReals.sig_forall_dec", "ClassicalDedekindReals.sig_not_dec", "Classical_Prop.classic", "FunctionalExtensionality.functional_extensionality_dep"], "C113_batch_refuted": ["ClassicalDedekindReals.sig_forall_dec", "ClassicalDedekindReals.sig_not_dec", "Classical_Prop.classic", "FunctionalExtensionality.functional_extensionality_dep"], "C113_small_image_refuted": ["ClassicalDedekindReals.sig_forall_dec", "ClassicalDedekindReals.sig_not_dec", "Classical_Prop.classic", "FunctionalExtensionality.functional_extensionality_dep"], "C114_size": [], "C114_report": ["ClassicalDedekindReals.sig_forall_dec", "ClassicalDedekindReals.sig_not_dec", "Classical_Prop.classic", "FunctionalExtensionality.functional_extensionality_dep"], "C114_scaling": [], "C114_resolution": []}