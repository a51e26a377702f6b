{
 "claims": [
  {
   "property": "C01",
   "status": "proved",
   "theorems": [
    "C01_live_tensors_disjoint",
    "C01b_reorder_establishes_planner_hypotheses"
   ],
   "note": "For single-assignment graphs with exact consumer lists (established by update_tensor_relations; C01b derives the hypotheses from reordering)."
  },
  {
   "property": "C02",
   "status": "proved",
   "theorems": [
    "C02_blocks_in_bounds"
   ],
   "note": ""
  },
  {
   "property": "C03",
   "status": "proved",
   "theorems": [
    "C03_pool_execution_refines_private"
   ],
   "note": ""
  },
  {
   "property": "C04",
   "status": "proved",
   "theorems": [
    "C04_live_activation_has_block"
   ],
   "note": ""
  },
  {
   "property": "C05",
   "status": "proved",
   "theorems": [
    "C05_total_between_peak_and_sum",
    "C05b_validation_never_warns"
   ],
   "note": ""
  },
  {
   "property": "C06",
   "status": "partial",
   "theorems": [
    "C06_outputs_survive_refuted",
    "C06_unconsumed_results_survive_partial"
   ],
   "note": "Refuted for outputs that are also consumed (block reused); proved for unconsumed outputs."
  },
  {
   "property": "C07",
   "status": "partial",
   "theorems": [
    "C07_reorder_keeps_inputs_refuted",
    "C07_silent_validation"
   ],
   "note": "Refuted universally: after reordering dynamics holds only produced tensors, so pure inputs never get a block."
  },
  {
   "property": "C08",
   "status": "partial",
   "theorems": [
    "C08_planning_completes_refuted",
    "C08_planning_outcome_partial"
   ],
   "note": "Refuted: ZeroDivisionError when no intermediate bytes exist; exact outcome proved otherwise."
  },
  {
   "property": "C09",
   "status": "proved",
   "theorems": [
    "C09_reorder_is_dependency_respecting_permutation"
   ],
   "note": ""
  },
  {
   "property": "C10",
   "status": "partial",
   "theorems": [
    "C10_missing_nodes_are_cyclic",
    "C10_omitted_names_lose_nodes_refuted"
   ],
   "note": "Exact characterisation of dropped nodes; refuted for graphs using the empty name for omitted operands."
  },
  {
   "property": "C11",
   "status": "proved",
   "theorems": [
    "C11_reorder_preserves_values"
   ],
   "note": ""
  },
  {
   "property": "C12",
   "status": "proved",
   "theorems": [
    "C12_relations_are_the_wiring",
    "C12b_occurrences_meaning",
    "C12c_occurrences_count"
   ],
   "note": ""
  },
  {
   "property": "C13",
   "status": "partial",
   "theorems": [
    "C13_dangling_removes_exactly_unneeded_partial",
    "C13_output_producer_removed_refuted"
   ],
   "note": "Exact when no declared output is also read by a node; refuted otherwise (recursive removal takes the producer of a declared output)."
  },
  {
   "property": "C14",
   "status": "partial",
   "theorems": [
    "C14_fused_outputs_are_undeclared_refuted",
    "C14_fused_wiring_partial"
   ],
   "note": "Refuted for every graph: outputs made inside the fused set are undeclared; all others kept; wiring of the fused graph exact."
  },
  {
   "property": "C15",
   "status": "partial",
   "theorems": [
    "C15_region_interface_exact",
    "C15_internal_graph_output_refuted"
   ],
   "note": "Exact interface proved; refuted for declared outputs read only inside the set."
  },
  {
   "property": "C16",
   "status": "partial",
   "theorems": [
    "C16_skip_redirects_readers_partial",
    "C16_skip_last_node_partial",
    "C16_skipped_output_lost_refuted",
    "C16_skip_on_graph_input_crashes_refuted",
    "C16_other_reader_broken_refuted"
   ],
   "note": "Proved when the skipped tensor is read and not declared, or is unread and its operand has no other reader; refuted in the remaining cases."
  },
  {
   "property": "C17",
   "status": "proved",
   "theorems": [
    "C17_partition"
   ],
   "note": ""
  },
  {
   "property": "C18",
   "status": "proved",
   "theorems": [
    "C18_constants_are_exactly_runtime_independent"
   ],
   "note": ""
  },
  {
   "property": "C19",
   "status": "proved",
   "theorems": [
    "C19_broadcast_exact",
    "C19_incompatible_rejected",
    "C19_order_independent"
   ],
   "note": ""
  },
  {
   "property": "C20",
   "status": "partial",
   "theorems": [
    "C20_elementwise_partial",
    "C20_unary",
    "C20_mutual_broadcast_refuted",
    "C20_empty_dimension_refuted"
   ],
   "note": "Proved when one operand already has the broadcast shape; refuted for mutually broadcasting operands and for empty dimensions."
  },
  {
   "property": "C21",
   "status": "partial",
   "theorems": [
    "C21_matmul_partial",
    "C21_gemm_checks_inner",
    "C21_inner_mismatch_accepted_refuted",
    "C21_mutual_batch_refuted",
    "C21_batch_rank_refuted"
   ],
   "note": "Proved when one batch shape is the broadcast; refuted: K mismatch accepted by MatMul, mutual batch broadcast wrong, batch rank dropped."
  },
  {
   "property": "C22",
   "status": "partial",
   "theorems": [
    "C22_conv_counts_windows_partial",
    "C22_pool_counts_windows_partial",
    "C22_valid_counts_windows_partial",
    "C22_oversized_kernel_refuted",
    "C22_valid_ignores_dilation_refuted",
    "C22_pool3d_pads_refuted",
    "C22_valid_rank5_refuted",
    "C22_pool_ceil_mode"
   ],
   "note": "Exact window count incl. binary64 rounding for sizes < 2^50; refuted for kernels two strides too large (negative size), VALID with dilations, 3-D pooling with asymmetric pads, VALID on rank 5."
  },
  {
   "property": "C23",
   "status": "partial",
   "theorems": [
    "C23_conv_same_partial",
    "C23_pool_same_partial",
    "C23_rank5_refuted"
   ],
   "note": "Proved for 1 and 2 spatial axes; refuted for rank 5 (result truncated to rank 3)."
  },
  {
   "property": "C24",
   "status": "partial",
   "theorems": [
    "C24_slice_counts_partial",
    "C24_axis_counts_partial",
    "C24_empty_reversed_refuted",
    "C24_slice_defaults_partial"
   ],
   "note": "Proved for whole Slice nodes; missing only dim = 0 with a negative step, refuted (size 1)."
  },
  {
   "property": "C25",
   "status": "partial",
   "theorems": [
    "C25_reshape_exact_partial",
    "C25_volume_preserved",
    "C25_two_unknowns_refuted",
    "C25_empty_input_refuted",
    "C25_scalar_refuted"
   ],
   "note": "Exact (iff) for positive sources and valid requests; refuted for two -1s, empty sources and scalars."
  },
  {
   "property": "C26",
   "status": "partial",
   "theorems": [
    "C26_explicit_sizes",
    "C26_default_sizes_partial",
    "C26_negative_size_refuted",
    "C26_default_axis_refuted"
   ],
   "note": "Proved for given sizes and for the default split whenever the last chunk is non-negative; refuted otherwise (5 into 4) and for the default axis (TypeError)."
  },
  {
   "property": "C27",
   "status": "proved",
   "theorems": [
    "C27_permutes",
    "C27_inverse",
    "C27_default_reverses"
   ],
   "note": ""
  },
  {
   "property": "C28",
   "status": "proved",
   "theorems": [
    "C28_roundtrip"
   ],
   "note": ""
  },
  {
   "property": "C29",
   "status": "proved",
   "theorems": [
    "C29_concat"
   ],
   "note": ""
  },
  {
   "property": "C30",
   "status": "partial",
   "theorems": [
    "C30_expand_partial",
    "C30_incompatible_accepted_refuted",
    "C30_empty_dimension_refuted"
   ],
   "note": "Proved for compatible positive shapes; refuted: incompatible shapes accepted, 0 against 1."
  },
  {
   "property": "C31",
   "status": "partial",
   "theorems": [
    "C31_gather",
    "C31_pad",
    "C31_reduce_removes",
    "C31_reduce_keeps",
    "C31_flatten",
    "C31_flatten_default",
    "C31_topk",
    "C31_depth_to_space",
    "C31_onehot",
    "C31_reduce_all_refuted",
    "C31_flatten_negative_axis_refuted",
    "C31_global_pool"
   ],
   "note": "Proved per operator; refuted: Reduce without axes sets no shape, Flatten with a negative axis."
  },
  {
   "property": "C32",
   "status": "partial",
   "theorems": [
    "C32_linear_expression_exact",
    "C32_relative_fit_refuted"
   ],
   "note": "The fitted expression is exact for all x; refuted at the API: shape_regress fits outputs relative to the first computed input, which need not divide (Concat of 3x and x)."
  },
  {
   "property": "C33",
   "status": "partial",
   "theorems": [
    "C33_one_variable_partial",
    "C33_independent_variables_partial",
    "C33_two_variables_refuted"
   ],
   "note": "Proved for one variable, integer-linear dimensions with dividing slopes; refuted for two variables (the last variable's expression overwrites)."
  },
  {
   "property": "C34",
   "status": "partial",
   "theorems": [
    "C34_update_partial",
    "C34_history_independent",
    "C34_idempotent",
    "C34_regressed_engine",
    "C34_unordered_refuted"
   ],
   "note": "Proved when expressions are added after the variables they read (the order shape_regress uses); refuted for other orders via add_expr."
  },
  {
   "property": "C35",
   "status": "partial",
   "theorems": [
    "C35_symmetric_error_partial",
    "C35_half_step_refuted",
    "C35_wide_codes_refuted"
   ],
   "note": "Proved with binary32 rounding for every layout, 2-8 bits, groups not all below 2^-119; bound is 1/2 + 2^(bits-25) steps (exactly 1/2 refuted by a concrete tie); refuted for more than 8 bits."
  },
  {
   "property": "C36",
   "status": "partial",
   "theorems": [
    "C36_asymmetric_error_partial",
    "C36_eight_bits",
    "C36_code_16_refuted"
   ],
   "note": "8 bits: full claim. Fewer bits: code 2^bits can occur (refuted), error bound still proved."
  },
  {
   "property": "C37",
   "status": "partial",
   "theorems": [
    "C37_pack_signed_partial",
    "C37_symmetric_codes_fit",
    "C37_unsigned_refuted",
    "C37_odd_refuted"
   ],
   "note": "Lossless for signed codes and even last dimension; refuted for codes >= 8 (all asymmetric 4-bit tensors) and odd widths."
  },
  {
   "property": "C38",
   "status": "partial",
   "theorems": [
    "C38_all_zero_refuted",
    "C38_zero_row_refuted",
    "C38_underflow_refuted",
    "C38_infinite_scale_refuted",
    "C38_success_partial"
   ],
   "note": "Success proved for groups with a weight of at least 2^-117 and range at most 2^127; refuted for all-zero groups (ValueError), underflow (OverflowError), infinite scale."
  },
  {
   "property": "C39",
   "status": "partial",
   "theorems": [
    "C39_graph_file_partial",
    "C39_float_exact",
    "C39_graph_injective",
    "C39_tensor_attribute_refuted",
    "C39_scalar_or_list_refuted",
    "C39_int64_attribute_refuted",
    "C39_empty_list_refuted",
    "C39_array_type_refuted"
   ],
   "note": "Proved for graphs within the format's ranges (int32 attributes, NUL-free names, homogeneous non-empty attribute lists, supported array types), floats up to binary32 rounding; refuted for tensor attributes (dropped and unreadable), scalar-vs-list, int64 attributes (OverflowError), empty lists, unsupported array types."
  },
  {
   "property": "C40",
   "status": "partial",
   "theorems": [
    "C40_engine_file_partial",
    "C40_success_faithful_partial",
    "C40_large_coefficient_refuted"
   ],
   "note": "Exact for coefficients up to 2^24; refuted beyond (binary32 rounding merges distinct engines)."
  },
  {
   "property": "C41",
   "status": "proved",
   "theorems": [
    "C41_plan_file",
    "C41_success_faithful"
   ],
   "note": ""
  },
  {
   "property": "C42",
   "status": "partial",
   "theorems": [
    "C42_names_injective_partial",
    "C42_nul_refuted"
   ],
   "note": "Proved for NUL-free names; refuted for names containing NUL."
  },
  {
   "property": "C43",
   "status": "proved",
   "theorems": [
    "C43_onnx_np_onnx",
    "C43_np_onnx_np",
    "C43_domain",
    "C43_codomain",
    "C43_string_arrays_unknown",
    "C43_widths",
    "C43_widths_all"
   ],
   "note": ""
  },
  {
   "property": "C44",
   "status": "partial",
   "theorems": [
    "C44_array_roundtrip",
    "C44_scalar_roundtrip",
    "C44_narrow_scalar_reads_zero",
    "C44_exact",
    "C44_other_types_raise",
    "C44_roundtrip_refuted"
   ],
   "note": "Exact: every numeric array reads back except non-zero scalars of int8/uint8/int16/uint16/bool, which read back as 0; string arrays cannot be saved."
  },
  {
   "property": "C45",
   "status": "partial",
   "theorems": [
    "C45_fold_preserves_partial",
    "C45_bias_refuted",
    "C45_readonly_refuted",
    "C45_output_refuted",
    "C45_shared_result_refuted",
    "C45_shared_weight_refuted"
   ],
   "note": "Proved over the reals for every graph whose matched pairs have no bias operand, writable weights, and private conv result and weight; the excluded cases are refuted (bias operand raises, read-only weights raise, declared outputs dropped, shared results orphaned, shared weights rescaled). Float32 rounding not modelled."
  },
  {
   "property": "C46",
   "status": "partial",
   "theorems": [
    "C46_conditions_partial",
    "C46_convbn_matches",
    "C46_serial_refuted",
    "C46_placeholder_refuted"
   ],
   "note": "Node conditions and distinctness for all patterns; full match property for the ConvBN pattern; edges refuted in general (serial chains of three, forks)."
  },
  {
   "property": "C47",
   "status": "partial",
   "theorems": [
    "C47_convbn_disjoint",
    "C47_disjoint_refuted"
   ],
   "note": "Proved for ConvBN; refuted in general."
  },
  {
   "property": "C48",
   "status": "partial",
   "theorems": [
    "C48_totals",
    "C48_printed_totals",
    "C48_order_refuted"
   ],
   "note": "Sums exact for totals up to 2^53; above, the float MAC total depends on set iteration order (refuted)."
  },
  {
   "property": "C49",
   "status": "partial",
   "theorems": [
    "C49_hidden_after_history",
    "C49_report_by_set",
    "C49_independent_partial",
    "C49_explicit_hidden",
    "C49_history_refuted"
   ],
   "note": "Exact dependence on the history proved; refuted (exclude_ops of a default call leaks into all later default calls)."
  },
  {
   "property": "C50",
   "status": "partial",
   "theorems": [
    "C50_flags_after_history",
    "C50_independent_partial",
    "C50_existing_partial",
    "C50_history_refuted",
    "C50_existing_refuted"
   ],
   "note": "Exact effect of the history proved (which flags leak through the shared architecture table); independence proved when earlier Builders of the same architecture pass no overriding flags; refuted otherwise."
  },
  {
   "property": "C51",
   "status": "proved",
   "theorems": [
    "C51_sum_of_rooflines",
    "C51_not_below",
    "C51_faster_device",
    "C51_no_link",
    "C51_context_parts",
    "C51_more_devices_can_be_slower"
   ],
   "note": "Roofline sum, per-class formulas and lower bound by both totals proved in binary64; adding devices can make the estimate slower (example)."
  },
  {
   "property": "C52",
   "status": "proved",
   "theorems": [
    "C52_get_latest",
    "C52_getitem",
    "C52_keys",
    "C52_step",
    "C52_create_node"
   ],
   "note": ""
  },
  {
   "property": "C53",
   "status": "partial",
   "theorems": [
    "C53_view_in_pool",
    "C53_view_in_block",
    "C53_rejects",
    "C53_plan_accepted",
    "C53_negative_refuted"
   ],
   "note": "Views inside the pool proved for non-negative dimensions; refuted for negative dimensions."
  },
  {
   "property": "C54",
   "status": "partial",
   "theorems": [
    "C54_disjoint_unchanged",
    "C54_read_back",
    "C54_live_tensors_independent",
    "C54_padded_block_refuted",
    "C54_zeroed"
   ],
   "note": "Frame and read-back proved; filling a padded block raises (refuted)."
  },
  {
   "property": "C55",
   "status": "partial",
   "theorems": [
    "C55_each_in_its_file_partial",
    "C55_plain_names_distinct",
    "C55_collision_iff",
    "C55_inside_folder",
    "C55_collision_refuted",
    "C55_escape_refuted"
   ],
   "note": "Collision characterised exactly; refuted for names that differ only in replaced characters and for names escaping the folder."
  },
  {
   "property": "C56",
   "status": "partial",
   "theorems": [
    "C56_terminates",
    "C56_honest_2d_partial",
    "C56_honest_partial",
    "C56_shape_4d",
    "C56_never_understates",
    "C56_2d_refuted",
    "C56_4d_refuted",
    "C56_4d_tiling_refuted"
   ],
   "note": "Termination, honesty when the block tiles the tensor and passed its own test, one-sided error always; refuted for rank 2 (square fallback) and rank 4 (stale ratio, block that does not tile)."
  },
  {
   "property": "C57",
   "status": "partial",
   "theorems": [
    "C57_fusion_preserves_values",
    "C57_fusing_around_a_node_refuted"
   ],
   "note": "Proved for convex (contiguously schedulable) sets; refuted for non-convex sets, which the code accepts."
  },
  {
   "property": "C58",
   "status": "partial",
   "theorems": [
    "C58_constant_search_exponential_refuted"
   ],
   "note": "Refuted: 2^N-1 visits on a chain of N squarings."
  },
  {
   "property": "C59",
   "status": "partial",
   "theorems": [
    "C59_node",
    "C59_output_shape",
    "C59_output_shape_refuted",
    "C59_rank_refuted",
    "C59_defaults_refuted",
    "C59_transpose_inverts",
    "C59_node_shape"
   ],
   "note": "C59_node: one to three spatial axes, attributes given or default. Refuted parts: an output_shape attribute replaces the spatial sizes whatever they are; other ranks get the empty shape; three axes with default strides, dilations or pads raise."
  },
  {
   "property": "C60",
   "status": "partial",
   "theorems": [
    "C60_floor_exact_partial",
    "C60_ceil_exact_partial",
    "C60_pool_partial",
    "C60_even_samples_refuted",
    "C60_remainder_refuted"
   ],
   "note": "Proved (incl. binary64 rounding, 48-bit sizes) when some sample is not a multiple of the stride and the top remainder is under half a window; refuted otherwise (rounding direction and offset guessed wrongly)."
  },
  {
   "property": "C61",
   "status": "partial",
   "theorems": [
    "C61_raw",
    "C61_typed",
    "C61_narrow_typed_zero",
    "C61_typed_refuted"
   ],
   "note": "Proved for raw storage of all numeric types and typed storage of float16/32/64, int32/64; refuted for typed int8/uint8/int16/uint16/bool."
  },
  {
   "property": "C62",
   "status": "partial",
   "theorems": [
    "C62_eight_byte_types_become_float64",
    "C62_typed_become_zero",
    "C62_other_sizes_refused",
    "C62_refused_refuted"
   ],
   "note": "Refuted: 8-byte types become float64, typed data become zeros; other sizes are refused (proved)."
  },
  {
   "property": "C63",
   "status": "partial",
   "theorems": [
    "C63_convbn_complete",
    "C63_serial_refuted"
   ],
   "note": "Proved for ConvBN; refuted for serial patterns."
  },
  {
   "property": "C64",
   "status": "partial",
   "theorems": [
    "C64_terminates",
    "C64_convbn_returns",
    "C64_pool1d_refuted",
    "C64_weight_input_refuted"
   ],
   "note": "Termination proved for all graphs and patterns; refuted for exceptions (1-D kernels, edges into weights)."
  },
  {
   "property": "C65",
   "status": "partial",
   "theorems": [
    "C65_engine_view_in_block_partial",
    "C65_live_views_disjoint_partial",
    "C65_narrow_refuted"
   ],
   "note": "Proved when no tensor is narrower than the engine's element size; refuted otherwise (1-byte tensors get overlapping views)."
  },
  {
   "property": "C66",
   "status": "partial",
   "theorems": [
    "C66_sharing_partial",
    "C66_hidden_refuted"
   ],
   "note": "Proved with nothing hidden; with hidden operators Dedup Params can exceed Params (refuted)."
  },
  {
   "property": "C67",
   "status": "partial",
   "theorems": [
    "C67_memory_partial",
    "C67_mixed_refuted"
   ],
   "note": "Proved for uniform element sizes and operators using the default profile; refuted for mixed element sizes."
  },
  {
   "property": "C68",
   "status": "partial",
   "theorems": [
    "C68_csv_reads_back_partial",
    "C68_comma_refuted"
   ],
   "note": "Proved for cells without comma and newline; refuted otherwise."
  },
  {
   "property": "C69",
   "status": "partial",
   "theorems": [
    "C69_built_graph_executable",
    "C69_build_succeeds",
    "C69_shipped_tables",
    "C69_kv_cache",
    "C69_plannable",
    "C69_gpt2_map",
    "C69_gpt2_default_refuted",
    "C69_post_norm_refuted"
   ],
   "note": "Proved for weight maps with distinct names; refuted for a post-attention norm with the default map (nodes lost) and GPT-2 with the default map (KeyError). Zero heads / zero o_groups (ZeroDivisionError) and the vision builder are outside the model."
  },
  {
   "property": "C70",
   "status": "partial",
   "theorems": [
    "C70_inplace_pairs",
    "C70_plain_pairs",
    "C70_overlap_refuted"
   ],
   "note": ""
  },
  {
   "property": "C71",
   "status": "partial",
   "theorems": [
    "C71_disjoint_groups",
    "C71_values",
    "C71_overlap_refuted"
   ],
   "note": ""
  },
  {
   "property": "C72",
   "status": "partial",
   "theorems": [
    "C72_exact_or_silent_partial",
    "C72_forgotten_reader_refuted",
    "C72_rebuild"
   ],
   "note": ""
  },
  {
   "property": "C73",
   "status": "partial",
   "theorems": [
    "C73_postops_read_back",
    "C73_name_clash_refuted"
   ],
   "note": ""
  },
  {
   "property": "C74",
   "status": "partial",
   "theorems": [
    "C74_renamed",
    "C74_kept_iff",
    "C74_kept",
    "C74_name_clash_refuted"
   ],
   "note": "Injectivity of OpType_i proved for all operator names and indices; exact criterion when renaming is off; the clash Relu_1 / unnamed second Relu is refuted (known bug: a node silently disappears)."
  },
  {
   "property": "C75",
   "status": "partial",
   "theorems": [
    "C75_loaded",
    "C75_inputs_partial",
    "C75_omitted_operand_refuted",
    "C75_input_order_refuted",
    "C75_unread_input_refuted"
   ],
   "note": "Proved except the declared-inputs part: equal as a set when every declared input is read and no operand is omitted (C75_inputs_partial); order, unread inputs and the empty name are refuted."
  },
  {
   "property": "C76",
   "status": "partial",
   "theorems": [
    "C76_save_reload",
    "C76_passthrough_refuted"
   ],
   "note": "Proved for all files; outputs are equal when each declared output is produced, read or stored; refuted otherwise: a pass-through output disappears and an unread initializer is written as a required input without its value. Tensor payload encoding is C43/C44/C61/C62; node attributes are not modelled here."
  },
  {
   "property": "C77",
   "status": "partial",
   "theorems": [
    "C77_folding",
    "C77_constant_output_refuted"
   ],
   "note": "Proved for arbitrary operator semantics; refuted part: a declared output that is itself constant loses its tensor and is missing from the saved file."
  },
  {
   "property": "C78",
   "status": "partial",
   "theorems": [
    "C78_well_shaped",
    "C78_shipped_tables",
    "C78_gegelu_refuted",
    "C78_linear_heads_refuted"
   ],
   "note": "Proved for every consistent configuration. Refuted: hidden_act 'gegelu' outside phi3 records an output as wide as its input; linear-attention per-head norms use the attention head size even when linear_key_head_dim differs."
  },
  {
   "property": "C79",
   "status": "partial",
   "theorems": [
    "C79_model_size",
    "C79_cached_size",
    "C79_reported_params",
    "C79_dedup_after_reorder",
    "C79_dedup_refuted"
   ],
   "note": "Proved, except that Dedup Params is always 0 on a fresh builder graph (C79_dedup_refuted): the readers are recorded only by graph_reorder_nodes, after which it is exact (C79_dedup_after_reorder)."
  },
  {
   "property": "C80",
   "status": "partial",
   "theorems": [
    "C80_report",
    "C80_report_cached",
    "C80_batches",
    "C80_past",
    "C80_latent_cache_refuted",
    "C80_linear_attention_refuted",
    "C80_shared_gate_refuted",
    "C80_rope_tables"
   ],
   "note": "Proved as the exact formulas of the code. Refuted as the cost of the model: linear-attention nodes are charged again with the projections that are separate nodes and with a projection that has no weight; MoE nodes without shared expert are charged with its gate; latent attention ignores the KV cache."
  },
  {
   "property": "C81",
   "status": "partial",
   "theorems": [
    "C81_rewired_partial",
    "C81_untouched",
    "C81_sym8_values",
    "C81_asym8_values",
    "C81_sym4_values",
    "C81_shared_weight_refuted",
    "C81_unread_weight_refuted",
    "C81_readers_refuted",
    "C81_small_weights_refuted"
   ],
   "note": "Proved for a weight with exactly one reader (the rewiring and the decoded values for 8-bit symmetric, 8-bit asymmetric and 4-bit symmetric codes). Refuted: weights read twice (AttributeError, because the reader table gets a bare string), weights nothing reads (KeyError), the recorded readers of the new tensors, and 4-bit groups of tiny weights (the float16 scale is 0). 4-bit asymmetric codes are refuted under C36/C37."
  },
  {
   "property": "C82",
   "status": "partial",
   "theorems": [
    "C82_loop",
    "C82_spaced_weights_partial",
    "C82_neighbours_refuted",
    "C82_every_second_refuted"
   ],
   "note": "Proved: the loop ends and quantizes exactly the weights in the explicit list `reached`; this is every weight when no two float weights are neighbours. Refuted in general: the weight after a quantized one is passed over, so of adjacent weights every second one stays float."
  },
  {
   "property": "C83",
   "status": "partial",
   "theorems": [
    "C83_conv",
    "C83_gemm",
    "C83_matmul",
    "C83_convtranspose_partial",
    "C83_convtranspose_refuted",
    "C83_integer_conv_partial",
    "C83_integer_conv_refuted",
    "C83_qlinear_matmul_partial",
    "C83_qlinear_matmul_refuted"
   ],
   "note": "Proved exactly for Conv (any rank, groups, bias), Gemm (both transpositions, third input; alpha and beta scaling is not counted) and MatMul (broadcast batches). ConvTranspose: proved right if and only if the output has as many elements as the input; refuted otherwise. Integer convolutions: exact for 1-D and 2-D kernels, refuted for 3-D. QLinearMatMul: exact when the first operand is not broadcast, refuted when it is."
  },
  {
   "property": "C84",
   "status": "partial",
   "theorems": [
    "C84_pool_partial",
    "C84_pool_refuted",
    "C84_global_average",
    "C84_elementwise_partial",
    "C84_elementwise_refuted"
   ],
   "note": "Exact for 1-D and 2-D pooling, global average pooling, two-input element-wise operators and Sum. Refuted: a 3-D pooling window is counted by its first side only, and n-ary Max/Min/Mean with three or more inputs report the cost of two."
  },
  {
   "property": "C85",
   "status": "partial",
   "theorems": [
    "C85_lstm_partial",
    "C85_gru_partial",
    "C85_bidirectional_refuted",
    "C85_no_bias_refuted"
   ],
   "note": "Exact for one direction. Refuted: with two directions the gate arithmetic of the second direction is missing (180 and 110 steps per hidden value); without the optional bias the profile raises IndexError."
  },
  {
   "property": "C86",
   "status": "partial",
   "theorems": [
    "C86_einsum_partial",
    "C86_einsum_refuted"
   ],
   "note": "Exact for two operands without ellipsis, repeated labels included. Refuted: a third operand is ignored, one operand or an ellipsis over more dimensions than labels raises IndexError, a broadcast size 1 in the second operand hides the other size."
  },
  {
   "property": "C87",
   "status": "partial",
   "theorems": [
    "C87_slice_first_axis_partial",
    "C87_slice_partial",
    "C87_slice_ignored_axes_refuted",
    "C87_slice_without_axes_refuted",
    "C87_slice_reversed_start_refuted",
    "C87_unsqueeze_partial",
    "C87_unsqueeze_axes_refuted",
    "C87_squeeze_partial",
    "C87_squeeze_axes_refuted",
    "C87_split_partial",
    "C87_split_trailing_refuted",
    "C87_split_default_axis_refuted",
    "C87_gather_elements_partial",
    "C87_gather_elements_cast_refuted"
   ],
   "note": "Proved: Slice with non-negative axes up to 4 and steps (negative steps with start >= -dim), Unsqueeze/Squeeze for ascending non-negative axes or one axis of either sign, Split with a positive last piece, GatherElements when the indices' dtype holds the values. Refuted: negative axes or axes > 4 of Slice are ignored, Slice without axes slices axis 0 only, reversed Slice starting before the array, Unsqueeze/Squeeze with several negative or unsorted axes, Squeeze without axes, an empty last Split piece, Split without axis, GatherElements casts to the index dtype."
  },
  {
   "property": "C88",
   "status": "partial",
   "theorems": [
    "C88_conv_partial",
    "C88_conv_bias_partial",
    "C88_conv_rerun_refuted",
    "C88_conv_unsupported",
    "C88_conv_auto_pad_refuted",
    "C88_maxpool_partial",
    "C88_maxpool_negative_refuted",
    "C88_maxpool_rerun_refuted",
    "C88_maxpool_dilation_refuted",
    "C88_gemm_partial",
    "C88_gemm_alpha_refuted",
    "C88_global_average_values",
    "C88_global_average_rank_refuted"
   ],
   "note": "Proved: 2-D Conv with one group and explicit pads (first run, or with a bias), MaxPool of non-negative data without dilation on the first run, Gemm with alpha = beta = 1, the averages of GlobalAveragePool. Refuted: a second Conv without bias adds to the old output, auto_pad is ignored by the loop, MaxPool starts from zero (wrong for negative data), keeps the maximum of earlier runs and ignores dilations, Gemm ignores alpha and beta, GlobalAveragePool drops the spatial axes; groups and other ranks raise NotImplementedError."
  },
  {
   "property": "C89",
   "status": "partial",
   "theorems": [
    "C89_div_partial",
    "C89_div_refuted",
    "C89_mod_partial",
    "C89_fmod_refuted",
    "C89_max_exact",
    "C89_sum_exact",
    "C89_min_refuted",
    "C89_clip_partial",
    "C89_clip_missing_refuted",
    "C89_leaky_relu_refuted",
    "C89_nonzero_partial",
    "C89_nonzero_of_zeros_refuted"
   ],
   "note": "Proved: Div for operands of equal sign or exact quotients, Mod with fmod = 0, Max, Sum, Clip with both bound inputs listed, NonZero when some element is non-zero. Refuted: Div floors negative quotients, fmod is ignored, Min returns a negated truth value or raises, Clip with fewer than three inputs raises, LeakyRelu fails on more than one element, NonZero of zeros lists every position."
  },
  {
   "property": "C90",
   "status": "partial",
   "theorems": [
    "C90_slice_partial",
    "C90_unsqueeze_partial",
    "C90_squeeze_partial",
    "C90_split_partial",
    "C90_disagreements_refuted"
   ],
   "note": "Proved on the inputs where both follow ONNX; refuted for negative Slice axes, Slice without axes, several negative Unsqueeze or Squeeze axes, and GlobalAveragePool."
  },
  {
   "property": "C91",
   "status": "partial",
   "theorems": [
    "C91_marks_exactly_needed",
    "C91_shape_tensors_exact",
    "C91_exponential_work_refuted",
    "C91_omitted_operands_refuted"
   ],
   "note": "Proved: the marked nodes are exactly the needed ones for every graph and iteration order, within 2|nodes|+1 levels, for the operand table the library has. Refuted parts: operands missing from the table; exponential number of visits."
  },
  {
   "property": "C92",
   "status": "partial",
   "theorems": [
    "C92_shapes_are_true",
    "C92_calls_do_not_interfere",
    "C92_values_are_true",
    "C92_reduction_axes_refuted",
    "C92_out_of_order_refuted"
   ],
   "note": "Proved for all graphs in dependency order and all operators whose shape operands are in the library's table; refuted for the omitted operands and for nodes listed out of order."
  },
  {
   "property": "C93",
   "status": "partial",
   "theorems": [
    "C93_attention_kv",
    "C93_cached_attention_kv",
    "C93_builder_kv_params",
    "C93_set_past_refuted",
    "C93_made_with_past",
    "C93_linear_layers_refuted"
   ],
   "note": "Positive theorems for the per-operator sizes and for kv_params right after build_graph/add_kv_cache; refuted after set_past_kv_length and for linear-attention layers. The MLA operator's own kv accounting is not covered here."
  },
  {
   "property": "C94",
   "status": "partial",
   "theorems": [
    "C94_blocks",
    "C94_live_tensors_disjoint",
    "C94_live_tensor_has_block",
    "C94_pools_refine_private",
    "C94_cache_survives",
    "C94_total_between_peak_and_sum",
    "C94_validation_never_warns",
    "C94_single_pool_refuted",
    "C94_relations_lose_cache_refuted",
    "C94_outcome",
    "C94_built_graph_refuted"
   ],
   "note": ""
  },
  {
   "property": "C95",
   "status": "partial",
   "theorems": [
    "C95_removed_exactly",
    "C95_values",
    "C95_outputs_kept",
    "C95_ready_for_planning",
    "C95_original_loses_nodes_refuted",
    "C95_stale_shapes_refuted",
    "C95_two_outputs_refuted",
    "C95_output_lost_refuted",
    "C95_shape_as_data_refuted",
    "C95_dead_node_stays_refuted",
    "C95_node_named_like_tensor_refuted"
   ],
   "note": "Proved for graphs where no node has two outputs that are both read or declared, declared outputs are unread and no node is named like a tensor; each of these conditions is shown necessary, and the change made to the original graph is proved for every call. Termination: enough fuel exists for every acyclic graph."
  },
  {
   "property": "C96",
   "status": "partial",
   "theorems": [
    "C96_rewritten_exactly",
    "C96_values",
    "C96_same_k_same_values",
    "C96_outputs_kept",
    "C96_given_k_raises_refuted",
    "C96_opset1_raises_refuted",
    "C96_topk_for_topk_raises_refuted",
    "C96_two_outputs_refuted",
    "C96_output_lost_refuted"
   ],
   "note": ""
  },
  {
   "property": "C97",
   "status": "partial",
   "theorems": [
    "C97_no_if_left",
    "C97_sound",
    "C97_values",
    "C97_flat_exactly",
    "C97_flat_values",
    "C97_outputs_kept",
    "C97_flat_succeeds",
    "C97_tensors",
    "C97_declared_result_refuted",
    "C97_second_result_refuted",
    "C97_branch_output_reread_refuted",
    "C97_branch_passes_through_refuted",
    "C97_unnamed_branch_node_refuted",
    "C97_chained_conditions_refuted",
    "C97_branch_operand_refuted",
    "C97_two_outputs_refuted",
    "C97_name_clash_refuted",
    "C97_order_refuted"
   ],
   "note": "Refuted parts: an If result that is a model output is never an output of the loaded graph; second results of an If, branch outputs read inside the branch, branches that pass an outer tensor through, operands shared by a condition and another If's branch, and nodes computing a condition and something else lose a producer; an unnamed branch node or a condition computed from another If makes loading fail; equal tensor names in two branches collide; branch nodes are appended after their readers. Initializers of branches are not modelled (the code ignores them)."
  },
  {
   "property": "C98",
   "status": "partial",
   "theorems": [
    "C98_gather_nd_partial",
    "C98_gather_nd_inside",
    "C98_gather_nd_bounds",
    "C98_gather_nd_too_long",
    "C98_gather_nd_batch_dims_refuted",
    "C98_scatter_nd_partial",
    "C98_scatter_nd_impl",
    "C98_scatter_nd_bounds",
    "C98_scatter_nd_shapes",
    "C98_scatter_nd_reduction_refuted",
    "C98_one_hot_partial",
    "C98_one_hot_values_refuted",
    "C98_one_hot_range_refuted",
    "C98_argmax_partial",
    "C98_argmax_last_refuted"
   ],
   "note": "Proved for batch_dims 0, reduction none, values [0,1] and indices in range, select_last_index 0. Refuted by proof: GatherND with batch_dims gathers other elements than the operator's definition; ScatterND ignores the reduction attribute; OneHot ignores the off/on values and raises on an index out of range; ArgMax ignores select_last_index."
  },
  {
   "property": "C99",
   "status": "partial",
   "theorems": [
    "C99_pad_partial",
    "C99_pad_default_mode_refuted",
    "C99_pad_attribute_refuted",
    "C99_pad_mode_refuted",
    "C99_pad_axes_refuted",
    "C99_pad_crop_refuted",
    "C99_reshape_partial",
    "C99_reshape_two_open",
    "C99_reshape_agrees_partial",
    "C99_reduce_sum_partial",
    "C99_reduce_sum_all",
    "C99_reduce_axes_refuted",
    "C99_reduce_sum_empty_axes_refuted",
    "C99_constant_of_shape_partial",
    "C99_constant_of_shape_default_refuted",
    "C99_constant_of_shape_long_value_refuted",
    "C99_shape",
    "C99_shape_start_refuted"
   ],
   "note": "Proved for the modelled default cases. Refuted by proof: Pad without a mode attribute, with pads as attribute (opset < 11) or with mode reflect/edge gives no value or raises; axes input of Pad is ignored; negative pads raise; axes given as attribute make ReduceSum raise; an empty axes list does not reduce all axes; ConstantOfShape without value raises; Shape ignores start/end."
  },
  {
   "property": "C100",
   "status": "partial",
   "theorems": [
    "C100_einsum_partial",
    "C100_einsum_implicit_partial",
    "C100_einsum_rejects",
    "C100_einsum_prefix_refuted",
    "C100_einsum_result_order_refuted",
    "C100_einsum_mismatch_refuted",
    "C100_einsum_short_operand_refuted",
    "C100_einsum_empty_refuted"
   ],
   "note": "Proved for ellipses at the start of terms, matching operands and positive sizes. Refuted by proof: labels before an ellipsis give a shape of wrong rank; a result ellipsis that is not first is moved to the front; contradictory sizes and operands with too many dimensions are accepted; size 0 against 1 gives 1."
  },
  {
   "property": "C101",
   "status": "proved",
   "theorems": [
    "C101_wiring",
    "C101_shipped_tables"
   ],
   "note": "Proved for the language-model builder; the vision tower is not modelled. Position embeddings must not be combined with rotary ones (see C69)."
  },
  {
   "property": "C102",
   "status": "partial",
   "theorems": [
    "C102_lstm_partial",
    "C102_lstm_wrong_hidden",
    "C102_lstm_layout_refuted",
    "C102_gru_partial",
    "C102_gru_refuted",
    "C102_roialign_partial",
    "C102_roialign_default_refuted",
    "C102_roialign_rejects",
    "C102_nms_partial",
    "C102_nms_refuted",
    "C102_nms_rejects",
    "C102_gridsample_partial",
    "C102_gridsample_mixed_refuted",
    "C102_scan_refuted",
    "C102_topk_default_refuted",
    "C102_topk_axis",
    "C102_zipmap",
    "C102_feature_refuted",
    "C102_sdpa"
   ],
   "note": "Proved for layout 0, given RoiAlign sizes, one class and image, equal kinds of shape sequences. Refuted by proof: layout 1 is ignored; a GRU with one output always raises; RoiAlign without the defaulted sizes raises; NonMaxSuppression ignores the classes; GridSample raises when only one operand has a stored value; Scan accepts no node with fewer than five outputs; TopK without axis raises except at rank 1; ArrayFeatureExtractor drops the leading dimensions."
  },
  {
   "property": "C103",
   "status": "partial",
   "theorems": [
    "C103_scales_partial",
    "C103_integer_scales",
    "C103_short_scales_refuted",
    "C103_sizes_partial",
    "C103_sizes_refuted",
    "C103_nothing_refuted"
   ],
   "note": "Proved: with scales every dimension is the floor of the exact product or one more (only when rounding carries it over), exact when the product is representable, exact for integer scales; sizes exact for ranks other than 2. Refuted by proof: two sizes are added to the first two dimensions; other counts give the empty shape; missing scales drop dimensions; one input raises."
  },
  {
   "property": "C104",
   "status": "proved",
   "theorems": [
    "C104_independent_of_sizes",
    "C104_same_failure"
   ],
   "note": "Proved without hypotheses on the configuration."
  },
  {
   "property": "C105",
   "status": "proved",
   "theorems": [
    "C105_reinfer",
    "C105_reproduces"
   ],
   "note": "Proved for configurations whose described projections fit the attention (the same sanity hypotheses as C78)."
  },
  {
   "property": "C106",
   "status": "partial",
   "theorems": [
    "C106_removes_exactly_dependents",
    "C106_rest_is_closed",
    "C106_unknown_name",
    "C106_deep_graph_refuted",
    "C106_exponential_calls_refuted"
   ],
   "note": "Proved when the recursion limit exceeds the number of nodes. Refuted by proof: on every graph whose dependency chains exceed the recursion limit the call fails with RecursionError; the number of calls is exponential in the number of nodes for chains that use each result twice."
  },
  {
   "property": "C107",
   "status": "partial",
   "theorems": [
    "C107_gather",
    "C107_gather_bounds",
    "C107_expand",
    "C107_expand_rejects",
    "C107_expand_shape",
    "C107_expand_disagrees_refuted",
    "C107_where",
    "C107_tile",
    "C107_trilu",
    "C107_cumsum_partial",
    "C107_cumsum_flags_refuted",
    "C107_compress",
    "C107_compress_flat",
    "C107_compress_bounds",
    "C107_range_partial",
    "C107_range_zero_step",
    "C107_range_large_refuted",
    "C107_range_case"
   ],
   "note": "CumSum proved without its flags (exclusive/reverse raise NotImplementedError: proved); Range below 2^53 (above, elements can be lost: refuted by an example); Expand: shape inference accepts shapes that do not broadcast, where the value is an error (refuted)."
  },
  {
   "property": "C108",
   "status": "partial",
   "theorems": [
    "C108_exact_wiring",
    "C108_own_match",
    "C108_unknown_name",
    "C108_chain_found_partial",
    "C108_siblings_refuted"
   ],
   "note": "Wiring and self-match proved for every selection. That the search finds the selection is proved for chains; refuted in general: two selected nodes with the same operator reading the same tensor leave the placeholder 'a' in the match, and fuse_subgraph_iotensors then fails with KeyError."
  },
  {
   "property": "C109",
   "status": "partial",
   "theorems": [
    "C109_rewritten_partial",
    "C109_rank_checked",
    "C109_letter_x_refuted",
    "C109_scalar_refuted",
    "C109_stale_shapes_refuted"
   ],
   "note": "Proved for ASCII requests of rank at least one, sizes below 2^63, names without the letter x that do not read as numbers. Refuted: names containing x (maxlen is split into two names), scalar inputs, and the shapes recorded for intermediate tensors go stale (a Relu of a 2x3 input still declared 1x3)."
  },
  {
   "property": "C110",
   "status": "partial",
   "theorems": [
    "C110_binding",
    "C110_opfusion_refuted",
    "C110_subgraph_refuted",
    "C110_subgraph_error_refuted",
    "C110_nothing_asked"
   ],
   "note": "Refuted for every model and every non-empty request: get_subgraph and model_subgraph build Graph without its required configuration, model_opfusion passes a keyword 'name' that neither fusion method has; Python's argument binding (modelled, with a specification) raises TypeError before any file is written. Proved: an empty request does nothing."
  },
  {
   "property": "C111",
   "status": "partial",
   "theorems": [
    "C111_removed_partial",
    "C111_values_partial",
    "C111_runtime_shape_refuted",
    "C111_output_refuted",
    "C111_second_pass_refuted"
   ],
   "note": "Proved when each reshaping node has one dynamic operand and its result is read by a node. Refuted: a target shape computed at run time, a reshape result that is a model output, and a graph that went through update_tensor_relations before (any fusion pass), which forgets that graph inputs are dynamic: in each the node goes and its readers or the output dangle."
  },
  {
   "property": "C112",
   "status": "partial",
   "theorems": [
    "C112_succeeds",
    "C112_config",
    "C112_encoder",
    "C112_counts",
    "C112_default_refuted",
    "C112_no_patch_size_refuted",
    "C112_tokens_refuted"
   ],
   "note": "C112_tokens_refuted: the patch embedding is reshaped without a transpose, so tokens are not patches (except one patch or hidden size 1). C112_default_refuted / C112_no_patch_size_refuted: zero heads fail even when head_dim is given; patch size 0 raises ZeroDivisionError."
  },
  {
   "property": "C113",
   "status": "partial",
   "theorems": [
    "C113_shapes",
    "C113_infer",
    "C113_as_built",
    "C113_channels_refuted",
    "C113_batch_refuted",
    "C113_small_image_refuted"
   ],
   "note": "Refuted parts: the channel count is never checked, a batch of two images of the right size is refused, and a graph for an image smaller than one patch is built but never infers."
  },
  {
   "property": "C114",
   "status": "proved",
   "theorems": [
    "C114_size",
    "C114_report",
    "C114_scaling",
    "C114_resolution"
   ],
   "note": ""
  },
  {
   "property": "C115",
   "status": "partial",
   "theorems": [
    "C115_qlinear_conv",
    "C115_no_bias_refuted",
    "C115_conv_integer",
    "C115_same",
    "C115_valid_refuted",
    "C115_qlinear_matmul",
    "C115_inner_mismatch_refuted",
    "C115_matmul_integer",
    "C115_quantize",
    "C115_dequantize",
    "C115_quantize_optional_refuted"
   ],
   "note": "Refuted parts: VALID padding and three spatial axes give a rank-0 result; without a bias QLinearConv takes the type of y_scale; QLinearMatMul ignores the batch of the second operand and the inner size; QuantizeLinear needs the optional zero point."
  },
  {
   "property": "C116",
   "status": "partial",
   "theorems": [
    "C116_softmax",
    "C116_softmax_probabilities",
    "C116_softmax_order",
    "C116_softmax_shift",
    "C116_softmax_default_refuted",
    "C116_softmax_coerced_refuted",
    "C116_sigmoid",
    "C116_softplus",
    "C116_elu",
    "C116_relu",
    "C116_relu6",
    "C116_hard_refuted",
    "C116_hard_sigmoid_partial",
    "C116_hard_swish_partial"
   ],
   "note": "Refuted parts: Softmax without the axis attribute raises AttributeError and ignores the pre-13 coercion to two dimensions; HardSigmoid and HardSwish raise ValueError unless the array has one element, and a clipped HardSigmoid loses its shape."
  },
  {
   "property": "C117",
   "status": "partial",
   "theorems": [
    "C117_batch_norm",
    "C117_batch_norm_statistics",
    "C117_batch_norm_vector_refuted",
    "C117_reduce_l2",
    "C117_reduce_l2_all",
    "C117_reduce_l2_input_refuted"
   ],
   "note": "Refuted parts: BatchNormalization of a vector raises IndexError; ReduceL2 ignores axes given as an input."
  },
  {
   "property": "C118",
   "status": "partial",
   "theorems": [
    "C118_late_constants_refuted",
    "C118_plain",
    "C118_folded",
    "C118_saved_inputs_refuted"
   ],
   "note": "Proved: with folding a refresh changes nothing; without folding it changes nothing but two lists. Refuted: those two lists (initials, dynamics) grow by a copy at every refresh, and an unread initializer is then saved as two graph inputs of one name; the constant search is skipped for every node (they keep the verdict of loading), so no constant that appears after loading is ever folded."
  },
  {
   "property": "C119",
   "status": "partial",
   "theorems": [
    "C119_table",
    "C119_csv_reads_back",
    "C119_cells",
    "C119_total_flops",
    "C119_latency",
    "C119_latency_unit_refuted"
   ],
   "note": "Table, cells and csv proved. REFUTED for the unit: the column headed 'Projected Latency(ms)' holds seconds (a node of 2000 ms is listed as 2.00000; every node under 5 microseconds as 0.00000). Python's text of a float (Total memory and latency) is abstract; tabulate is not modelled."
  },
  {
   "property": "C120",
   "status": "partial",
   "theorems": [
    "C120_rebuild",
    "C120_executable_refuted",
    "C120_position_refuted",
    "C120_cache_twice_refuted"
   ],
   "note": "Proved by a relation between the first run and a run that starts from any state left by an earlier one. C120_executable_refuted and C120_position_refuted record the two defects."
  },
  {
   "property": "C121",
   "status": "partial",
   "theorems": [
    "C121_outputs",
    "C121_again",
    "C121_parts",
    "C121_values",
    "C121_dumped_values_are_true",
    "C121_saved",
    "C121_plan_unchanged",
    "C121_dump_all_refuted",
    "C121_dumped_survives_refuted"
   ],
   "note": "C121_dump_all_refuted and C121_dumped_survives_refuted record the two defects: the plan ignores the dump, and dumping every intermediate makes the planner divide by zero."
  }
 ]
}