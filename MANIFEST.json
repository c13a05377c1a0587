{
 "claims": [
  {
   "property": "C01",
   "status": "proved",
   "theorems": [
    "C01_quantizer_output_representable",
    "C01_quantizer_raises_iff_unknown_mode",
    "C01_layer"
   ],
   "note": "all 7x5 modes, exact rational arithmetic; per element and for the layer on batches, which raises in training"
  },
  {
   "property": "C02",
   "status": "proved",
   "theorems": [
    "C02_quantizer_identity_on_representable",
    "C02_sat_sym_most_negative",
    "C02_quantizer_idempotent"
   ],
   "note": "identity, idempotence, and the SAT_SYM exception"
  },
  {
   "property": "C03",
   "status": "proved",
   "theorems": [
    "C03_rounding_modes_follow_rules",
    "C03_RND_ties_to_even_refuted"
   ],
   "note": "each mode against an independent rule that determines the result; the code comment on RND is refuted"
  },
  {
   "property": "C04",
   "status": "proved",
   "theorems": [
    "C04_SAT_is_closest_code",
    "C04_SAT_SYM_is_closest_symmetric_code",
    "C04_SAT_ZERO_zeroes_overflow",
    "C04_names"
   ],
   "note": ""
  },
  {
   "property": "C05",
   "status": "proved",
   "theorems": [
    "C05_WRAP_is_twos_complement"
   ],
   "note": ""
  },
  {
   "property": "C06",
   "status": "proved",
   "theorems": [
    "C06_WRAP_SM_reflects"
   ],
   "note": ""
  },
  {
   "property": "C07",
   "status": "proved",
   "theorems": [
    "C07_zero_width_is_zero",
    "C07_zero_width_elements_of_layer",
    "C07_constructor_normalises"
   ],
   "note": "element level, layer level (broadcast over a batch) and constructor"
  },
  {
   "property": "C08",
   "status": "proved",
   "theorems": [
    "C08_quantizer_monotone",
    "C08_wrapping_not_monotone"
   ],
   "note": "and wrapping modes shown not monotone"
  },
  {
   "property": "C09",
   "status": "proved",
   "theorems": [
    "C09_save_load_preserves",
    "C09_save_load_clamps_negative_widths",
    "C09_save_load_preserves_any_width_refuted"
   ],
   "note": "legal configurations round-trip; negative widths are clamped, and the unrestricted claim is refuted"
  },
  {
   "property": "C10",
   "status": "proved",
   "theorems": [
    "C10_heterogeneous_iff",
    "C10_fusible_iff",
    "C10_homogeneous_type_exact",
    "C10_exported_type_contains_elements",
    "C10_exported_type_int8_refuted"
   ],
   "note": "under the condition that the exported int8 differences do not overflow; refuted without it"
  },
  {
   "property": "C11",
   "status": "proved",
   "theorems": [
    "C11_inference_grid_and_error",
    "C11_inference_tensor",
    "C11_spec_deterministic"
   ],
   "note": "element and tensor level, all strategies, all real bitwidths"
  },
  {
   "property": "C12",
   "status": "proved",
   "theorems": [
    "C12_inference_ignores_draws",
    "C12_inference_idempotent",
    "C12_inference_monotone"
   ],
   "note": "determinism and idempotence at tensor level, monotonicity per element"
  },
  {
   "property": "C13",
   "status": "proved",
   "theorems": [
    "C13_unknown_strategy_raises",
    "C13_stochastic_envelope",
    "C13_stochastic_up_probability",
    "C13_noise_envelope",
    "C13_unknown_name_only_raises_in_training"
   ],
   "note": "plus: an unknown strategy name only raises in training"
  },
  {
   "property": "C14",
   "status": "proved",
   "theorems": [
    "C14_training_value_and_gradients",
    "C14_each_derivative",
    "C14_training_value_is_quantized_value",
    "C14_inference_gradients"
   ],
   "note": "dual-number differentiation; ln 2 and non-integer powers of two arbitrary"
  },
  {
   "property": "C15",
   "status": "proved",
   "theorems": [
    "C15_scale_grad",
    "C15_scale_grad_value",
    "C15_regularizer_monotone",
    "C15_regularizer_value"
   ],
   "note": ""
  },
  {
   "property": "C16",
   "status": "proved",
   "theorems": [
    "C16_call_uses_clipped_bitwidths",
    "C16_history",
    "C16_bias_uses_clipped_bitwidths_refuted"
   ],
   "note": "for the quantizer call, over histories; bias_forward does not clip (refuted there)"
  },
  {
   "property": "C17",
   "status": "proved",
   "theorems": [
    "C17_registers_are_extremes",
    "C17_log_meaning",
    "C17_nonrecording_calls_change_nothing"
   ],
   "note": "over all histories of resets, bitwidth updates and calls, for skipped prefixes"
  },
  {
   "property": "C18",
   "status": "proved",
   "theorems": [
    "C18_batch_size_irrelevant",
    "C18_every_sample_once_in_order",
    "C18_unclipped_bits_refuted"
   ],
   "note": "Same ranges, BOPs, state and concatenated predictions for any two positive batch sizes, for every graph (nested models, shared layers), dataset and cover factor; every sample visited once in order. Needs bitwidths inside their clip range: refuted without (the first batch reads the unclipped bitwidth for the bias)."
  },
  {
   "property": "C19",
   "status": "proved",
   "theorems": [
    "C19_bits_cover_and_minimal",
    "C19_calibrated_values_fit",
    "C19_large_values_refuted",
    "C19_coarse_grid_refuted"
   ],
   "note": "cover, minimality, and end-to-end over calibration histories; refuted beyond 2^32 and below -32 bits"
  },
  {
   "property": "C20",
   "status": "proved",
   "theorems": [
    "C20_pos_only_cover_and_minimal"
   ],
   "note": ""
  },
  {
   "property": "C21",
   "status": "proved",
   "theorems": [
    "C21_untraced_raises",
    "C21_reset_raises",
    "C21_raises_iff_nothing_recorded"
   ],
   "note": "iff over histories"
  },
  {
   "property": "C22",
   "status": "proved",
   "theorems": [
    "C22_weight_bits_exact_and_minimal",
    "C22_weight_bits_rounded",
    "C22_minimal_in_float32_refuted",
    "C22_finest_weight_refuted"
   ],
   "note": "exact arithmetic; under any rounding of the addition one extra bit at most; float32 minimality and the 2^-32 weight refuted"
  },
  {
   "property": "C23",
   "status": "proved",
   "theorems": [
    "C23_activation_bits_over_approximate",
    "C23_relu_bits_agree",
    "C23_kernel_bits_over_approximate",
    "C23_kernel_bits_float32_refuted"
   ],
   "note": "kernel part in exact arithmetic; refuted in float32"
  },
  {
   "property": "C24",
   "status": "proved",
   "theorems": [
    "C24_degeneracy",
    "C24_bitwidth_shape",
    "C24_raises_iff"
   ],
   "note": ""
  },
  {
   "property": "C25",
   "status": "proved",
   "theorems": [
    "C25_prefix_recording_succeeds",
    "C25_prefix_specs",
    "C25_except_1st_raises"
   ],
   "note": ""
  },
  {
   "property": "C26",
   "status": "proved",
   "theorems": [
    "C26_adapt_group_minimum",
    "C26_same_number_of_bits",
    "C26_zero_weights_to_upper_clip"
   ],
   "note": "log2 any function that brackets powers of two"
  },
  {
   "property": "C27",
   "status": "proved",
   "theorems": [
    "C27_deployed_bias",
    "C27_channels_first_refuted",
    "C27_bias_finest_grid_channels_last",
    "C27_bias_finest_grid_channels_first"
   ],
   "note": "finest grid for both channel locations; forward and deployed bias agree (plus the C28 shift); refuted for channels_first convolutions, whose forward ignores channel_loc"
  },
  {
   "property": "C28",
   "status": "proved",
   "theorems": [
    "C28_truncating_prebiased_is_rounding",
    "C28_layer_prebias"
   ],
   "note": "quantizer level for all formats and overflow modes; layer level for every input, weight and bitwidth"
  },
  {
   "property": "C29",
   "status": "proved",
   "theorems": [
    "C29_masked_positions_are_zero"
   ],
   "note": ""
  },
  {
   "property": "C30",
   "status": "proved",
   "theorems": [
    "C30_linear_layer_proxy",
    "C30_channels_first_refuted"
   ],
   "note": "layers whose bias location is channel_loc (all but channels_first convolutions, refuted separately); float32 rounding outside the model"
  },
  {
   "property": "C31",
   "status": "proved",
   "theorems": [
    "C31_relu_layer_proxy"
   ],
   "note": "as C30; heterogeneous bitwidths and both overflow policies"
  },
  {
   "property": "C32",
   "status": "proved",
   "theorems": [
    "C32_proxy_model_exact",
    "C32_proxy_model_exact_quantized_inputs",
    "C32_untraced_sample_differs"
   ],
   "note": "trees of nested functional models built from HGQ layers, passive layers, dropout, linear activations and Signature layers; both overflow modes; Signature inputs must keep their declared format; the calibration hypothesis is shown to be needed by an untraced sample"
  },
  {
   "property": "C33",
   "status": "proved",
   "theorems": [
    "C33_conversion_preserves",
    "C33_conversion_succeeds",
    "C33_several_outputs_refuted"
   ],
   "note": "graphs whose nested models have one output each; a nested model with several outputs is converted wrongly (refuted separately)"
  },
  {
   "property": "C34",
   "status": "proved",
   "theorems": [
    "C34_each_needed_node_once",
    "C34_top_level"
   ],
   "note": "order of inputs is covered by C33, which holds for arbitrary layer semantics"
  },
  {
   "property": "C35",
   "status": "proved",
   "theorems": [
    "C35_next_name",
    "C35_sequences_distinct",
    "C35_converted_names_distinct",
    "C35_names_exact"
   ],
   "note": ""
  },
  {
   "property": "C36",
   "status": "proved",
   "theorems": [
    "C36_converges_or_raises",
    "C36_none_removes"
   ],
   "note": ""
  },
  {
   "property": "C37",
   "status": "proved",
   "theorems": [
    "C37_lookup",
    "C37_kernel_and_bias",
    "C37_other_weights",
    "C37_reported",
    "C37_silently_skipped_refuted",
    "C37_substring_refuted",
    "C37_standalone_batchnorm_raises"
   ],
   "note": "Lookup is by substring (first match); kernel and bias are the fused quantized ones. Refuted: weights merely named like a kernel or bias are skipped silently; a substring match can shadow the exact name; copying a standalone batch-norm layer raises."
  },
  {
   "property": "C38",
   "status": "proved",
   "theorems": [
    "C38_factors",
    "C38_narrows",
    "C38_cover_never_shrinks",
    "C38_cover_total",
    "C38_cover_one",
    "C38_below_one_refuted"
   ],
   "note": "The cover step keeps the grid and contains the recorded range for factors >= 1, never raises on finite ranges, and factor 1 changes nothing; refuted for factors below 1. C38_factors: exactly the positive factors are accepted; C38_narrows: a factor of at most 1 keeps the range inside the recorded one."
  },
  {
   "property": "C39",
   "status": "proved",
   "theorems": [
    "C39_corrected_ranges",
    "C39_attainable_values_kept",
    "C39_negative_fraction_refuted"
   ],
   "note": "Corrected ranges for softmax, sigmoid and tanh; quantized attainable values in the traced range stay in it for non-negative fractional bits; refuted for negative fractional bits."
  },
  {
   "property": "C40",
   "status": "proved",
   "theorems": [
    "C40_inference_changes_nothing",
    "C40_no_bops_refuted",
    "C40_retrace_records_nothing"
   ],
   "note": "After trace_minmax any sequence of inference calls of any model over the traced top-level layers leaves the state unchanged; refuted for no_bops_computation; a second trace with rst=False records nothing."
  },
  {
   "property": "C41",
   "status": "proved",
   "theorems": [
    "C41_dense_formula",
    "C41_trace_returns_exact_bops",
    "C41_without_counting",
    "C41_free_bops_is_sum",
    "C41_trace_returns_sum",
    "C41_callbacks_agree",
    "C41_nested_not_counted_refuted"
   ],
   "note": "FreeBOPs is the sum over the layer tree; trace_minmax returns the sum of compute_exact_bops over top-level layers, evaluated at the final state, and agrees with FreeBOPs when nothing is nested; dense layers follow the documented formula; refuted for nested quantized layers."
  },
  {
   "property": "C42",
   "status": "proved",
   "theorems": [
    "C42_reset_reaches_every_layer",
    "C42_reset_total",
    "C42_trace_top_level_only",
    "C42_nested_calibration_refuted"
   ],
   "note": "reset_minmax reaches exactly the quantized layers at every depth; trace_minmax leaves non-recording nested layers unchanged, and their exact bitwidths raise."
  },
  {
   "property": "C43",
   "status": "proved",
   "theorems": [
    "C43_reshape",
    "C43_reshape_mismatch",
    "C43_concatenate",
    "C43_max_pool",
    "C43_pool_position",
    "C43_max_pool_suffices",
    "C43_permute_refuted",
    "C43_permute_uniform",
    "C43_average_refuted",
    "C43_mixed_grids_refuted",
    "C43_permute_values",
    "C43_pool_window",
    "C43_average_needs"
   ],
   "note": "Reshape, flatten, dropout (inference), concatenate and max pooling proved for all shapes, axes, paddings and data formats, for act_bw_exact; batches of any size. Concatenation and pooling follow the TensorFlow definitions (np.concatenate, tf.nn.max_pool). Permute, average pooling and max pooling over different grids are refuted with concrete witnesses. Concatenate along the batch axis is not covered."
  },
  {
   "property": "C44",
   "status": "proved",
   "theorems": [
    "C44_container",
    "C44_all_zero",
    "C44_huge_refuted",
    "C44_fine_refuted"
   ],
   "note": "Proved for all arrays of multiples of 2^-32 in [-2^32, 2^32); arrays outside are refuted (C44_huge_refuted, C44_fine_refuted). log2 is exact in the model (numpy's float log2 may round up next to a power of two)."
  },
  {
   "property": "C45",
   "status": "proved",
   "theorems": [
    "C45_idempotent",
    "C45_produced_contains",
    "C45_bias_refuted",
    "C45_extreme_refuted",
    "C45_subtract_refuted",
    "C45_dot_refuted",
    "C45_average_refuted",
    "C45_heterogeneous_refuted"
   ],
   "note": "Whole networks, at the state the derivation leaves behind; the _refuted theorems show that each excluded layer kind is really wrong. Float32 rounding of activation outputs is not modelled."
  },
  {
   "property": "C46",
   "status": "proved",
   "theorems": [
    "C46_preserved",
    "C46_wrap_unsigned_refuted",
    "C46_wrap_signed_refuted",
    "C46_saturation_refuted",
    "C46_symmetric_refuted",
    "C46_top_refuted",
    "C46_no_bits_refuted",
    "C46_heterogeneous_refuted"
   ],
   "note": "Uniform quantizers, in the cases listed in the specification predicate 'harmless' (all rounding and overflow modes); every excluded class has a refutation witness."
  },
  {
   "property": "C47",
   "status": "proved",
   "theorems": [
    "C47_result_type",
    "C47_exact",
    "C47_input",
    "C47_unsigned_refuted",
    "C47_no_bits_refuted",
    "C47_other_rounding_refuted",
    "C47_input_sat_zero_refuted",
    "C47_economy"
   ],
   "note": "Direct consumers (heterogeneous or not) with TRN/RND; network level, using get_result_kifRS; also the input-layer rule. Failures for other rounding modes, mixed signs, no bits and SAT_ZERO inputs are proved."
  },
  {
   "property": "C48",
   "status": "proved",
   "theorems": [
    "C48_width",
    "C48_rejected",
    "C48_65_bits_refuted",
    "C48_accumulator",
    "C48_accumulator_full"
   ],
   "note": "64 bits besides the sign; the stricter reading (64 bits in total) is refuted. Accumulator statements are for accum_fp_max_offset = None."
  },
  {
   "property": "C49",
   "status": "proved",
   "theorems": [
    "C49_representable",
    "C49_wraps",
    "C49_output_format",
    "C49_in_network"
   ],
   "note": "Element-wise, exact arithmetic; the activation is an arbitrary function (its cast to float32 included). Inputs outside the format wrap after rounding to nearest even. C49_in_network covers a layer followed by one homogeneous quantizer; the other result types are C47. f <= 1074 because 2.**-f underflows beyond."
  },
  {
   "property": "C50",
   "status": "proved",
   "theorems": [
    "C50_replaced",
    "C50_kept",
    "C50_raises"
   ],
   "note": "A request that admits 4096 entries makes the conversion of a 12-bit input fail instead of keeping the layer (C50_raises_ex). 2^(k+i+f) of the model with a negative exponent (as a Python float) is compared as a rational."
  },
  {
   "property": "C51",
   "status": "proved",
   "theorems": [
    "C51_round_trip",
    "C51_no_bits_changed",
    "C51_nuke_not_parsed",
    "C51_parser",
    "C51_parser_reads"
   ],
   "note": "Strings of ASCII characters; includes a full characterisation of what the parser accepts."
  },
  {
   "property": "C52",
   "status": "proved",
   "theorems": [
    "C52_keys",
    "C52_rejected",
    "C52_copy",
    "C52_isolated",
    "C52_stays",
    "C52_by_reference_refuted",
    "C52_regularizer_refuted"
   ],
   "note": "Programs of get/set/write/delete/new-layer/build statements over dict and regularizer objects with identity. Refuted for dictionaries written to after being passed to a setter, and for the regularizer object, which the shallow copy shares."
  },
  {
   "property": "C53",
   "status": "proved",
   "theorems": [
    "C53_auto",
    "C53_activation",
    "C53_default",
    "C53_named",
    "C53_shared_refuted",
    "C53_kernel_refuted",
    "C53_covers_agree",
    "C53_bias_covers",
    "C53_channels_first_refuted"
   ],
   "note": "Same program model; any layers built in between. C53_bias_covers says what a covering bias is; C53_named: everything but 'auto' is taken as it stands. Refuted for channels first (the batch dimension is compared with the bias), for a dictionary shared with an activation layer, and for kernel configurations, where 'auto' becomes the invalid strategy -1."
  },
  {
   "property": "C54",
   "status": "proved",
   "theorems": [
    "C54_affine",
    "C54_scale_only",
    "C54_in_layer",
    "C54_standard_iff",
    "C54_standard_refuted",
    "C54_center_only_refuted"
   ],
   "note": "For any function in place of rsqrt and any per-channel multiply-accumulate operator (dense, grouped convolution). Also shown: exactly when this is batch normalisation of Wx+bias (C54_standard_iff), refuted in general, and refuted for scale=False with center=True."
  },
  {
   "property": "C55",
   "status": "proved",
   "theorems": [
    "C55_training_formula",
    "C55_training_is_inference",
    "C55_beta_refuted",
    "C55_center_only_refuted",
    "C55_bias_dropped_refuted"
   ],
   "note": "For layers with bn_beta zero, center and scale on, or without bias; training values equal inference values for deterministic strategies at exact bitwidths. Refuted for bn_beta non-zero, scale=False with center=True, and center=False with a bias."
  },
  {
   "property": "C56",
   "status": "proved",
   "theorems": [
    "C56_value",
    "C56_correct_iff",
    "C56_refuted",
    "C56_statistics",
    "C56_inference",
    "C56_elements"
   ],
   "note": "What the layer computes, exactly when that is batch normalisation, and a witness (through the quantizers too) that it is not in general. C56_statistics: the statistics used in training are the means and variances over all axes but the channel's; C56_inference: inference uses the moving ones; C56_elements: the quantized output element by element, for any axes and any sharing of bitwidths."
  },
  {
   "property": "C57",
   "status": "proved",
   "theorems": [
    "C57_quantized_bits",
    "C57_quantized_relu",
    "C57_binary",
    "C57_rejected",
    "C57_wrap_refuted",
    "C57_one_bit_refuted",
    "C57_binary_alpha_refuted"
   ],
   "note": "Against the documented QKeras functions (QKeras is outside /repo), with at least one magnitude bit. Ternary and po2 raise because their overloads lack the second argument. Refuted: other overflow policies, one-bit signed quantizers, scaled binary quantizers."
  },
  {
   "property": "C58",
   "status": "proved",
   "theorems": [
    "C58_rounding_is_ieee",
    "C58_standard_round",
    "C58_standard_round_exceptions",
    "C58_exact_round_refuted",
    "C58_floor",
    "C58_floor_underflow_refuted",
    "C58_training_refuted",
    "C58_proxy_same",
    "C58_proxy_exact",
    "C58_wide_wrap_refuted"
   ],
   "note": "Single precision written out on exact rationals (rn32, proved to be IEEE round-to-nearest-even on |x| < 2^127; overflow, sign of zero and XLA rewrites not modelled), no real-number axioms. Standard round exact except on the two exceptional sets, where it is exactly one step high; floor exact; the proxy quantizer agrees bit for bit. Refuted: exactness at the exceptions, floor of subnormals, training-mode output on the grid, WRAP formats wider than 24 bits."
  },
  {
   "property": "C59",
   "status": "proved",
   "theorems": [
    "C59_layer_bops",
    "C59_weight_costs",
    "C59_model_bops",
    "C59_conv_bops",
    "C59_conv_bops_padded",
    "C59_channels_first_refuted",
    "C59_float_sum_exact"
   ],
   "note": "Layers read directly from another quantized layer (passive layers in between: C43). Sums exact up to 2^24 in float32. Refuted for channels_first."
  },
  {
   "property": "C60",
   "status": "proved",
   "theorems": [
    "C60_dense_is_matrix_product",
    "C60_conv1d",
    "C60_conv2d",
    "C60_conv1d_channels_first",
    "C60_conv2d_channels_first",
    "C60_output_positions",
    "C60_same_padding",
    "C60_dense_inference",
    "C60_convnd",
    "C60_convnd_channels_first",
    "C60_conv_inference"
   ],
   "note": "tf.matmul and tf.nn.convolution are modelled from their documentation. C60_convnd: any number of spatial dimensions; conv1d and conv2d spell out one and two. C60_conv_inference is for channels_last (channels_first: C27, C30)."
  },
  {
   "property": "C61",
   "status": "proved",
   "theorems": [
    "C61_shared_kernel_bits",
    "C61_bops_over_approximate",
    "C61_inner_axis_refuted"
   ],
   "note": "Kernels whose shared axes are leading (None, 'all', 'except_last', 'batch'); refuted for other shared axes. Exact arithmetic: float32 can make the exact kernel bits larger (C23_kernel_bits_float32_refuted)."
  },
  {
   "property": "C62",
   "status": "proved",
   "theorems": [
    "C62_layer_any_input",
    "C62_relu_wrap",
    "C62_relu_wrap_refuted"
   ],
   "note": "Per layer. WRAP with ReLU only inside the layer's widest range (refuted beyond). Output formats are the derived ones (get_bits_exact); exact arithmetic."
  },
  {
   "property": "C63",
   "status": "proved",
   "theorems": [
    "C63_gradient",
    "C63_kernel_bitwidth",
    "C63_activation_bitwidth",
    "C63_never_negative"
   ],
   "note": "Layer reading one quantized layer (registers calibrated), kernels whose shared axes are leading; sqrt(1/degeneracy), beta and the convolution factor are arbitrary constants."
  },
  {
   "property": "C64",
   "status": "proved",
   "theorems": [
    "C64_save_load",
    "C64_load_environment",
    "C64_same_outputs",
    "C64_needs_calibration",
    "C64_batchnorm_training",
    "C64_stored_shapes",
    "C64_epsilon_refuted",
    "C64_center_scale_refuted",
    "C64_bits_readapted_refuted",
    "C64_shared_configuration_refuted"
   ],
   "note": "Layers that were constructed, built and then changed only in weights, registers, beta and the adaptation flag; keras restores its own arguments, the dictionary values and the weights in order. HBatchNormalization is not covered. Four refutations delimit the batch-norm part and shared dictionaries."
  },
  {
   "property": "C65",
   "status": "proved",
   "theorems": [
    "C65_accumulation",
    "C65_order_refuted",
    "C65_layer",
    "C65_proxy",
    "C65_layer_and_proxy",
    "C65_wide_refuted"
   ],
   "note": "Layers and proxies at inference; the formats are those of the exact model. The range condition is on the terms of each sum; without it two refutations: the order of summation matters, and a layer and its proxy can differ."
  },
  {
   "property": "C66",
   "status": "proved",
   "theorems": [
    "C66_moving_statistics",
    "C66_bounded",
    "C66_variance_not_negative",
    "C66_converges"
   ],
   "note": "HDenseBatchNorm and HConvBatchNorm; with scale off the statistics are those of the quantized kernel."
  },
  {
   "property": "C67",
   "status": "proved",
   "theorems": [
    "C67_same_samples",
    "C67_more_samples_wider_ranges",
    "C67_more_samples_more_bops",
    "C67_cover_below_one_refuted",
    "C67_in_steps",
    "C67_cover_in_steps_refuted",
    "C67_callback",
    "C67_callback_empty"
   ],
   "note": "Models of HGQ layers with top-level quantizers, any data, batch sizes and stores. BOPs monotone under the hypotheses of the exact count (quantized kernels and calibrated ranges within 32 bits)."
  },
  {
   "property": "C68",
   "status": "proved",
   "theorems": [
    "C68_first_call",
    "C68_without_scale",
    "C68_once",
    "C68_only_dense",
    "C68_same_number_of_bits",
    "C68_activation_refuted"
   ],
   "note": "Bitwidths shared over leading axes (every skip_dims of kernels built from a prefix); rsqrt and log2 abstract. About eager calls; C84 treats graphs."
  },
  {
   "property": "C69",
   "status": "proved",
   "theorems": [
    "C69_where",
    "C69_own_quantizer",
    "C69_registered",
    "C69_nothing_else",
    "C69_raises",
    "C69_reused_layer_refuted"
   ],
   "note": "Layers in the model's order; a layer consuming another one twice is visited once. hls4ml's use of the overrides is not modelled."
  },
  {
   "property": "C70",
   "status": "proved",
   "theorems": [
    "C70_tensors_fit",
    "C70_same_outputs",
    "C70_unquantized_refuted"
   ],
   "note": "The geometry of every layer (which input elements an output element reads) is a parameter. Derivation without a quantizer to shrink (the state after register_qconf or a first derivation); tables for layers read as described."
  },
  {
   "property": "C71",
   "status": "proved",
   "theorems": [
    "C71_kernel",
    "C71_offset",
    "C71_network",
    "C71_tables",
    "C71_offset_refuted",
    "C71_rounding_refuted",
    "C71_zero_bits_refuted"
   ],
   "note": "The circuit semantics is a specification (hls4ml is not in the repository): types and table sizes read from the registered configuration, uniform quantizers alone behind their input left out, any order of additions, tables of tanh and sigmoid over [-4, 4) and [-8, 8). Two uniform quantizers in a row (both would be left out) are outside the statement. Geometry is a parameter as in C70."
  },
  {
   "property": "C72",
   "status": "proved",
   "theorems": [
    "C72_same_function",
    "C72_activation_layer",
    "C72_settings",
    "C72_converts",
    "C72_needs",
    "C72_other_variables",
    "C72_other_variables_refuted"
   ],
   "note": "Keras classes are parameters (accepted keywords, initial variables, function of settings and variables by name); the meaning of the activations is the one of C57 (QKeras's documentation). Layers with variables other than kernel and bias: C72_other_variables and its refuted companion show that their values are lost."
  },
  {
   "property": "C73",
   "status": "proved",
   "theorems": [
    "C73_points",
    "C73_reads",
    "C73_error",
    "C73_other",
    "C73_coarse_refuted"
   ],
   "note": "The layout of a table (points evenly spaced over the fixed range, floor of the scaled input, clipped to the table) is the one the comments in the code state for hls4ml."
  },
  {
   "property": "C74",
   "status": "proved",
   "theorems": [
    "C74_widths",
    "C74_bops",
    "C74_origin",
    "C74_shared_refuted",
    "C74_shared_concat_refuted",
    "C74_unquantized_input",
    "C74_no_products"
   ],
   "note": "Two general statements and, for layers called twice, refutations: C74_shared_refuted (for every network) and C74_shared_concat_refuted (a witness)."
  },
  {
   "property": "C75",
   "status": "proved",
   "theorems": [
    "C75_loads",
    "C75_same",
    "C75_activation",
    "C75_config_only"
   ],
   "note": "UnaryLUT: configuration plus the stored table; keras is taken to store and assign the variable in both cases."
  },
  {
   "property": "C76",
   "status": "proved",
   "theorems": [
    "C76_built",
    "C76_unbuilt"
   ],
   "note": "Signature: nested lists in the configuration, tf.constant and broadcasting on loading."
  },
  {
   "property": "C77",
   "status": "proved",
   "theorems": [
    "C77_accepts",
    "C77_hactivation",
    "C77_proxy",
    "C77_documented",
    "C77_proxy_refuted"
   ],
   "note": "Which activation arguments the constructor takes; proxy = layer iff the activation is the object tf.keras.activations.relu or leaves the reached values alone. Refuted for other functions named relu (tf.nn.relu): the proxy drops the ReLU."
  },
  {
   "property": "C78",
   "status": "proved",
   "theorems": [
    "C78_firmware",
    "C78_tables",
    "C78_kernel"
   ],
   "note": "C78_firmware composes C32_proxy_model_exact and C71_network; C78_tables the same with C71_tables. The network of the derivation (layer kinds, element recipes) is related to the converted model by the predicate describes, layer by layer; C78_kernel discharges it for dense and convolution layers, C78_ex for a whole model. Assumes that registering leaves the quantizers as they are (layer_config returns the state it was given), the firmware arithmetic of Spec/Firmware.v, and the exact arithmetic of the model (float32 effects: C65)."
  },
  {
   "property": "C79",
   "status": "proved",
   "theorems": [
    "C79_same",
    "C79_uniform",
    "C79_overflow_refuted",
    "C79_uneven_refuted",
    "C79_symmetric_refuted"
   ],
   "note": "C79_same: any fuel, names, overrides, nothing assumed about the inputs but that no quantizer overflows before registration. Assumes all_fine after registration (formats within bounds, C51), honest inputs (float32 values) and tables of the declared format. C79_uniform discharges the condition on shrinking. C79_overflow_refuted, C79_uneven_refuted and C79_symmetric_refuted show that each condition is needed."
  },
  {
   "property": "C80",
   "status": "proved",
   "theorems": [
    "C80_registered",
    "C80_stages",
    "C80_fusion_refuted"
   ],
   "note": "C80_registered: the types come from the states reached when each layer's turn came (registered_at), the quantizers of the circuit are those after the last layer; no settledness is assumed. Conditions: those of C79_same, synthesized (C71) at the moment of registration, and same_fusion, shown necessary by C80_fusion_refuted (a defect: a heterogeneous quantizer that registration makes uniform is removed from the circuit although the layer before it was typed for one that stays). C80_stages: every registered layer has such a moment; with C69_registered its types are the ones filed in the overrides. accum_fp_max_offset is None as in C71_network."
  },
  {
   "property": "C81",
   "status": "proved",
   "theorems": [
    "C81_arguments",
    "C81_configurations",
    "C81_widths",
    "C81_derived",
    "C81_rounding",
    "C81_quantizers"
   ],
   "note": "About construct and build of Model/Serial.v. C81_arguments is one direction: rejected are the arguments of other HGQ classes; which further arguments keras accepts is not modelled. C81_widths gives the resolved skip axes and the shapes of the bitwidths and of the range registers; C81_derived the parallelization factor of dense layers and centering of batch-norm layers; C81_rounding and C81_quantizers the rounding mode, exactness and range of widths of each quantizer from its own configuration."
  },
  {
   "property": "C82",
   "status": "proved",
   "theorems": [
    "C82_quiet",
    "C82_firmware",
    "C82_rounding_refuted"
   ],
   "note": "From the HGQ model to the firmware without C78's assumption that registration changes no quantizer. C82_quiet: on the calibration data no quantizer of the converted proxy overflows, if ReLU layers are steady (Spec/Steady.v); C82_firmware adds the hypotheses of C80 about the network. Not covered: ReLU units that are never positive on the calibration data, and ReLU layers with rnd_strategy other than 'auto' that round to nearest in the firmware and have no negative unit or a minimum that is the negative of a power of two; there C82_rounding_refuted shows that the first quantizer may overflow (with the right output all the same)."
  },
  {
   "property": "C83",
   "status": "proved",
   "theorems": [
    "C83_predictions",
    "C83_several_outputs",
    "C83_several_outputs_refuted"
   ],
   "note": "np.concatenate is modelled on the values and shapes of the predictions (bops.py:124-125). The refuted theorem is about models with several outputs, where the array is not the outputs of the model on the dataset."
  },
  {
   "property": "C84",
   "status": "proved",
   "theorems": [
    "C84_adapts",
    "C84_drift",
    "C84_once_refuted"
   ],
   "note": "The expected 'once' is refuted (C84_once_refuted); C84_adapts says exactly what happens in every history, C84_drift what repeated runs do. Tracing itself is taken not to fail."
  },
  {
   "property": "C85",
   "status": "proved",
   "theorems": [
    "C85_forgets",
    "C85_counting",
    "C85_again",
    "C85_loaded",
    "C85_without_reset_refuted"
   ],
   "note": "For the model of trace_minmax in Model/Trace.v and Model/Bops.v; return_predictions is C83. C85_counting discharges the hypothesis that counting BOPs does not read the bops variables. Layers of nested models are not reset (C42), so they must be the same in both states."
  },
  {
   "property": "C86",
   "status": "proved",
   "theorems": [
    "C86_gradients",
    "C86_unique",
    "C86_layer"
   ],
   "note": "Directional derivatives on dual numbers, which is what tf.GradientTape's reverse mode computes for linear combinations of outputs; numbers are exact, ln 2 and 2^f are arbitrary parameters, so nothing depends on their values; 1/sqrt and activation functions enter with the derivative TensorFlow uses for them. The smooth function fixes errors, gates and Jacobians at the values of the step, as straight-through gradients do. The loss terms of BOPs (C63) and L1 are separate. bn_beta of a fused layer is not read in a training step, so it has no gradient (C54). HBatchNormalization is covered after the one-off adaptation of its bitwidths; a scale that is zero would give infinities, the model raises there. The smooth function has the bias of the code, beta - mean / scale (see C56)."
  },
  {
   "property": "C87",
   "status": "proved",
   "theorems": [
    "C87_shapes_axes",
    "C87_trained_axes",
    "C87_exact_bops_axes",
    "C87_over_approximate_axes",
    "C87_training_bops",
    "C87_shapes",
    "C87_axes",
    "C87_exact_bops",
    "C87_over_approximate",
    "C87_first_call"
   ],
   "note": "The theorems named axes hold for any set of axes, the others for one axis (with the position written as a division). Numbers are exact, so weights must be multiples of 2^-31 below 2^64 as in C59. The reported value is that of an inference call without adaptation (first_call: with it; training_bops: in training, for quantizers without noise); 1/sqrt is an arbitrary function."
  },
  {
   "property": "C88",
   "status": "proved",
   "theorems": [
    "C88_switched_off_refuted",
    "C88_first_call",
    "C88_once",
    "C88_functional_refuted",
    "C88_deployed_refuted",
    "C88_saved_refuted"
   ],
   "note": "first_call and once prove the adaptation; the others are refutations: functional (adaptation never happens in functional models), switched_off (center=False or scale=False cannot be trained), deployed (to_proxy_model raises), saved (settings are lost). Which graphs are traced and run is an arbitrary history; tracing itself is assumed not to fail."
  },
  {
   "property": "C89",
   "status": "proved",
   "theorems": [
    "C89_formula",
    "C89_first_call",
    "C89_value_dim",
    "C89_average",
    "C89_set",
    "C89_output_shape_refuted",
    "C89_symbolic_refuted"
   ],
   "note": "Exact numbers; the exponential function is any positive function, the square root any function (the largest score is subtracted before, as tf.nn.softmax does). Masks have one entry per sample, query and key. output_shape and symbolic are refutations."
  },
  {
   "property": "C90",
   "status": "proved",
   "theorems": [
    "C90_network",
    "C90_trace",
    "C90_proxy_model",
    "C90_deployment"
   ],
   "note": "C90_network and C90_trace: any model of HGQ and passive layers; C90_proxy_model and C90_deployment under the hypotheses of C32 (calibrated model, promises kept). The condition is on the calls the model makes on the batch (every_call); C65_wide_refuted and C65_order_refuted show that it is needed. Functions of activations and passive layers are arbitrary and the same in both models. Cover factor 1 for tracing in float32; any cover factor for the proxy of a given calibrated state. BOPs are computed by the exact function."
  },
  {
   "property": "C91",
   "status": "proved",
   "theorems": [
    "C91_nodes",
    "C91_graph",
    "C91_independent",
    "C91_preserves"
   ],
   "note": "Keras' bookkeeping of nodes is taken as given (shows: each node of the model is among the inbound nodes of its layer, parents come earlier); several outputs per node are not distinguished, as in the code. The names are those the layers have at the time (a conversion may rename the layers it goes through, C92)."
  },
  {
   "property": "C92",
   "status": "proved",
   "theorems": [
    "C92_graph",
    "C92_others",
    "C92_again",
    "C92_again_refuted"
   ],
   "note": "Whether the transformer makes a layer anew each time is part of the description of the layer's identity (second component of the names)."
  },
  {
   "property": "C93",
   "status": "proved",
   "theorems": [
    "C93_unseen",
    "C93_calibration",
    "C93_wider",
    "C93_cover_factor",
    "C93_enough",
    "C93_one_value"
   ],
   "note": "proxy exact on every batch inside the calibrated ranges, seen or not; calibration data inside; cover_factor monotone, and sufficient if no range is a point (a point never widens)"
  },
  {
   "property": "C94",
   "status": "proved",
   "theorems": [
    "C94_factors",
    "C94_narrows",
    "C94_prepared",
    "C94_prepared_float32",
    "C94_cover_float32",
    "C94_deployment"
   ],
   "note": "trace_minmax in float32 with a cover_factor (rounded mean, half width, product, sum, then the quantizer in float32); hypotheses: cover_factor between 1 and 2^40, the ends of the data ranges have at most 23 bits, ranges found inside the supported bounds. C94_factors: exactly the positive factors are accepted in single precision."
  },
  {
   "property": "C95",
   "status": "proved",
   "theorems": [
    "C95_traced",
    "C95_firmware",
    "C95_quiet",
    "C95_registered",
    "C95_float32"
   ],
   "note": "C95_traced: trace_minmax leaves a prepared model (Spec/Prepared.v). C95_firmware: on every batch inside the ranges the firmware built from the derived types delivers the outputs of the HGQ model. C95_quiet, C95_registered: the same with the quantizers shrunk by register_qconf, for steady ReLU layers. C95_float32: the HGQ model run in float32 with any accumulator. Assumptions on network, types and firmware arithmetic are those of C78 and C82; look-up tables are not covered (C78_tables covers them on the calibration data)."
  },
  {
   "property": "C96",
   "status": "proved",
   "theorems": [
    "C96_saves",
    "C96_loads",
    "C96_same",
    "C96_registered",
    "C96_any_width_refuted",
    "C96_fusible",
    "C96_lookup"
   ],
   "note": "Whole proxy model as quantizers, overrides and lookup tables over a network. C96_any_width_refuted: a registered proxy whose second quantizer is left with -3 bits delivers -1/4, after saving 0 in memory and loaded. Keras layers and the graph are taken to be restored by keras. C96_fusible: when the stored flag fusible is true."
  },
  {
   "property": "C97",
   "status": "proved",
   "theorems": [
    "C97_modes",
    "C97_half",
    "C97_identity",
    "C97_wide_refuted",
    "C97_layer"
   ],
   "note": "All 35 modes, single elements and whole layers; tf.pow of integers exact as in C58. C97_wide_refuted: WRAP_SM with 24 bits turns 1 into 2."
  },
  {
   "property": "C98",
   "status": "proved",
   "theorems": [
    "C98_wrap",
    "C98_sat",
    "C98_signed",
    "C98_defaults",
    "C98_accumulate",
    "C98_final",
    "C98_nearest_refuted",
    "C98_saturating_refuted"
   ],
   "note": "Values without float rounding errors (C97 for float32). C98_nearest_refuted: double rounding; C98_saturating_refuted: 7+7-7 in a saturating accumulator gives 0."
  }
 ]
}