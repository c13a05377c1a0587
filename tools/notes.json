{
 "C01": [
  "proved",
  "all 7x5 modes, exact rational arithmetic; per element and for the layer on batches, which raises in training"
 ],
 "C02": [
  "proved",
  "identity, idempotence, and the SAT_SYM exception"
 ],
 "C03": [
  "proved",
  "each mode against an independent rule that determines the result; the code comment on RND is refuted"
 ],
 "C04": [
  "proved",
  ""
 ],
 "C05": [
  "proved",
  ""
 ],
 "C06": [
  "proved",
  ""
 ],
 "C07": [
  "proved",
  "element level, layer level (broadcast over a batch) and constructor"
 ],
 "C08": [
  "proved",
  "and wrapping modes shown not monotone"
 ],
 "C09": [
  "proved",
  "legal configurations round-trip; negative widths are clamped, and the unrestricted claim is refuted"
 ],
 "C10": [
  "proved",
  "under the condition that the exported int8 differences do not overflow; refuted without it"
 ],
 "C11": [
  "proved",
  "element and tensor level, all strategies, all real bitwidths"
 ],
 "C12": [
  "proved",
  "determinism and idempotence at tensor level, monotonicity per element"
 ],
 "C13": [
  "proved",
  "plus: an unknown strategy name only raises in training"
 ],
 "C14": [
  "proved",
  "dual-number differentiation; ln 2 and non-integer powers of two arbitrary"
 ],
 "C15": [
  "proved",
  ""
 ],
 "C16": [
  "proved",
  "for the quantizer call, over histories; bias_forward does not clip (refuted there)"
 ],
 "C17": [
  "proved",
  "over all histories of resets, bitwidth updates and calls, for skipped prefixes"
 ],
 "C18": [
  "proved",
  "Same ranges, BOPs, state and concatenated predictions for any two positive batch sizes, for every graph (nested models, shared layers), dataset and cover factor; every sample visited once in order. Needs bitwidths inside their clip range: refuted without (the first batch reads the unclipped bitwidth for the bias)."
 ],
 "C19": [
  "proved",
  "cover, minimality, and end-to-end over calibration histories; refuted beyond 2^32 and below -32 bits"
 ],
 "C20": [
  "proved",
  ""
 ],
 "C21": [
  "proved",
  "iff over histories"
 ],
 "C22": [
  "proved",
  "exact arithmetic; under any rounding of the addition one extra bit at most; float32 minimality and the 2^-32 weight refuted"
 ],
 "C23": [
  "proved",
  "kernel part in exact arithmetic; refuted in float32"
 ],
 "C24": [
  "proved",
  ""
 ],
 "C25": [
  "proved",
  ""
 ],
 "C26": [
  "proved",
  "log2 any function that brackets powers of two"
 ],
 "C27": [
  "proved",
  "finest grid for both channel locations; forward and deployed bias agree (plus the C28 shift); refuted for channels_first convolutions, whose forward ignores channel_loc"
 ],
 "C28": [
  "proved",
  "quantizer level for all formats and overflow modes; layer level for every input, weight and bitwidth"
 ],
 "C29": [
  "proved",
  ""
 ],
 "C30": [
  "proved",
  "layers whose bias location is channel_loc (all but channels_first convolutions, refuted separately); float32 rounding outside the model"
 ],
 "C31": [
  "proved",
  "as C30; heterogeneous bitwidths and both overflow policies"
 ],
 "C32": [
  "proved",
  "trees of nested functional models built from HGQ layers, passive layers, dropout, linear activations and Signature layers; both overflow modes; Signature inputs must keep their declared format; the calibration hypothesis is shown to be needed by an untraced sample"
 ],
 "C33": [
  "proved",
  "graphs whose nested models have one output each; a nested model with several outputs is converted wrongly (refuted separately)"
 ],
 "C34": [
  "proved",
  "order of inputs is covered by C33, which holds for arbitrary layer semantics"
 ],
 "C35": [
  "proved",
  ""
 ],
 "C36": [
  "proved",
  ""
 ],
 "C37": [
  "proved",
  "Lookup is by substring (first match); kernel and bias are the fused quantized ones. Refuted: weights merely named like a kernel or bias are skipped silently; a substring match can shadow the exact name; copying a standalone batch-norm layer raises."
 ],
 "C38": [
  "proved",
  "The cover step keeps the grid and contains the recorded range for factors >= 1, never raises on finite ranges, and factor 1 changes nothing; refuted for factors below 1. C38_factors: exactly the positive factors are accepted; C38_narrows: a factor of at most 1 keeps the range inside the recorded one."
 ],
 "C39": [
  "proved",
  "Corrected ranges for softmax, sigmoid and tanh; quantized attainable values in the traced range stay in it for non-negative fractional bits; refuted for negative fractional bits."
 ],
 "C40": [
  "proved",
  "After trace_minmax any sequence of inference calls of any model over the traced top-level layers leaves the state unchanged; refuted for no_bops_computation; a second trace with rst=False records nothing."
 ],
 "C41": [
  "proved",
  "FreeBOPs is the sum over the layer tree; trace_minmax returns the sum of compute_exact_bops over top-level layers, evaluated at the final state, and agrees with FreeBOPs when nothing is nested; dense layers follow the documented formula; refuted for nested quantized layers."
 ],
 "C42": [
  "proved",
  "reset_minmax reaches exactly the quantized layers at every depth; trace_minmax leaves non-recording nested layers unchanged, and their exact bitwidths raise."
 ],
 "C43": [
  "proved",
  "Reshape, flatten, dropout (inference), concatenate and max pooling proved for all shapes, axes, paddings and data formats, for act_bw_exact; batches of any size. Concatenation and pooling follow the TensorFlow definitions (np.concatenate, tf.nn.max_pool). Permute, average pooling and max pooling over different grids are refuted with concrete witnesses. Concatenate along the batch axis is not covered."
 ],
 "C44": [
  "proved",
  "Proved for all arrays of multiples of 2^-32 in [-2^32, 2^32); arrays outside are refuted (C44_huge_refuted, C44_fine_refuted). log2 is exact in the model (numpy's float log2 may round up next to a power of two)."
 ],
 "C45": [
  "proved",
  "Whole networks, at the state the derivation leaves behind; the _refuted theorems show that each excluded layer kind is really wrong. Float32 rounding of activation outputs is not modelled."
 ],
 "C46": [
  "proved",
  "Uniform quantizers, in the cases listed in the specification predicate 'harmless' (all rounding and overflow modes); every excluded class has a refutation witness."
 ],
 "C47": [
  "proved",
  "Direct consumers (heterogeneous or not) with TRN/RND; network level, using get_result_kifRS; also the input-layer rule. Failures for other rounding modes, mixed signs, no bits and SAT_ZERO inputs are proved."
 ],
 "C48": [
  "proved",
  "64 bits besides the sign; the stricter reading (64 bits in total) is refuted. Accumulator statements are for accum_fp_max_offset = None."
 ],
 "C49": [
  "proved",
  "Element-wise, exact arithmetic; the activation is an arbitrary function (its cast to float32 included). Inputs outside the format wrap after rounding to nearest even. C49_in_network covers a layer followed by one homogeneous quantizer; the other result types are C47. f <= 1074 because 2.**-f underflows beyond."
 ],
 "C50": [
  "proved",
  "A request that admits 4096 entries makes the conversion of a 12-bit input fail instead of keeping the layer (C50_raises_ex). 2^(k+i+f) of the model with a negative exponent (as a Python float) is compared as a rational."
 ],
 "C51": [
  "proved",
  "Strings of ASCII characters; includes a full characterisation of what the parser accepts."
 ],
 "C52": [
  "proved",
  "Programs of get/set/write/delete/new-layer/build statements over dict and regularizer objects with identity. Refuted for dictionaries written to after being passed to a setter, and for the regularizer object, which the shallow copy shares."
 ],
 "C53": [
  "proved",
  "Same program model; any layers built in between. C53_bias_covers says what a covering bias is; C53_named: everything but 'auto' is taken as it stands. Refuted for channels first (the batch dimension is compared with the bias), for a dictionary shared with an activation layer, and for kernel configurations, where 'auto' becomes the invalid strategy -1."
 ],
 "C54": [
  "proved",
  "For any function in place of rsqrt and any per-channel multiply-accumulate operator (dense, grouped convolution). Also shown: exactly when this is batch normalisation of Wx+bias (C54_standard_iff), refuted in general, and refuted for scale=False with center=True."
 ],
 "C55": [
  "proved",
  "For layers with bn_beta zero, center and scale on, or without bias; training values equal inference values for deterministic strategies at exact bitwidths. Refuted for bn_beta non-zero, scale=False with center=True, and center=False with a bias."
 ],
 "C56": [
  "proved",
  "What the layer computes, exactly when that is batch normalisation, and a witness (through the quantizers too) that it is not in general. C56_statistics: the statistics used in training are the means and variances over all axes but the channel's; C56_inference: inference uses the moving ones; C56_elements: the quantized output element by element, for any axes and any sharing of bitwidths."
 ],
 "C57": [
  "proved",
  "Against the documented QKeras functions (QKeras is outside /repo), with at least one magnitude bit. Ternary and po2 raise because their overloads lack the second argument. Refuted: other overflow policies, one-bit signed quantizers, scaled binary quantizers."
 ],
 "C58": [
  "proved",
  "Single precision written out on exact rationals (rn32, proved to be IEEE round-to-nearest-even on |x| < 2^127; overflow, sign of zero and XLA rewrites not modelled), no real-number axioms. Standard round exact except on the two exceptional sets, where it is exactly one step high; floor exact; the proxy quantizer agrees bit for bit. Refuted: exactness at the exceptions, floor of subnormals, training-mode output on the grid, WRAP formats wider than 24 bits."
 ],
 "C59": [
  "proved",
  "Layers read directly from another quantized layer (passive layers in between: C43). Sums exact up to 2^24 in float32. Refuted for channels_first."
 ],
 "C60": [
  "proved",
  "tf.matmul and tf.nn.convolution are modelled from their documentation. C60_convnd: any number of spatial dimensions; conv1d and conv2d spell out one and two. C60_conv_inference is for channels_last (channels_first: C27, C30)."
 ],
 "C61": [
  "proved",
  "Kernels whose shared axes are leading (None, 'all', 'except_last', 'batch'); refuted for other shared axes. Exact arithmetic: float32 can make the exact kernel bits larger (C23_kernel_bits_float32_refuted)."
 ],
 "C62": [
  "proved",
  "Per layer. WRAP with ReLU only inside the layer's widest range (refuted beyond). Output formats are the derived ones (get_bits_exact); exact arithmetic."
 ],
 "C63": [
  "proved",
  "Layer reading one quantized layer (registers calibrated), kernels whose shared axes are leading; sqrt(1/degeneracy), beta and the convolution factor are arbitrary constants."
 ],
 "C64": [
  "proved",
  "Layers that were constructed, built and then changed only in weights, registers, beta and the adaptation flag; keras restores its own arguments, the dictionary values and the weights in order. HBatchNormalization is not covered. Four refutations delimit the batch-norm part and shared dictionaries."
 ],
 "C65": [
  "proved",
  "Layers and proxies at inference; the formats are those of the exact model. The range condition is on the terms of each sum; without it two refutations: the order of summation matters, and a layer and its proxy can differ."
 ],
 "C66": [
  "proved",
  "HDenseBatchNorm and HConvBatchNorm; with scale off the statistics are those of the quantized kernel."
 ],
 "C67": [
  "proved",
  "Models of HGQ layers with top-level quantizers, any data, batch sizes and stores. BOPs monotone under the hypotheses of the exact count (quantized kernels and calibrated ranges within 32 bits)."
 ],
 "C68": [
  "proved",
  "Bitwidths shared over leading axes (every skip_dims of kernels built from a prefix); rsqrt and log2 abstract. About eager calls; C84 treats graphs."
 ],
 "C69": [
  "proved",
  "Layers in the model's order; a layer consuming another one twice is visited once. hls4ml's use of the overrides is not modelled."
 ],
 "C70": [
  "proved",
  "The geometry of every layer (which input elements an output element reads) is a parameter. Derivation without a quantizer to shrink (the state after register_qconf or a first derivation); tables for layers read as described."
 ],
 "C71": [
  "proved",
  "The circuit semantics is a specification (hls4ml is not in the repository): types and table sizes read from the registered configuration, uniform quantizers alone behind their input left out, any order of additions, tables of tanh and sigmoid over [-4, 4) and [-8, 8). Two uniform quantizers in a row (both would be left out) are outside the statement. Geometry is a parameter as in C70."
 ],
 "C72": [
  "proved",
  "Keras classes are parameters (accepted keywords, initial variables, function of settings and variables by name); the meaning of the activations is the one of C57 (QKeras's documentation). Layers with variables other than kernel and bias: C72_other_variables and its refuted companion show that their values are lost."
 ],
 "C73": [
  "proved",
  "The layout of a table (points evenly spaced over the fixed range, floor of the scaled input, clipped to the table) is the one the comments in the code state for hls4ml."
 ],
 "C74": [
  "proved",
  "Two general statements and, for layers called twice, refutations: C74_shared_refuted (for every network) and C74_shared_concat_refuted (a witness)."
 ],
 "C75": [
  "proved",
  "UnaryLUT: configuration plus the stored table; keras is taken to store and assign the variable in both cases."
 ],
 "C76": [
  "proved",
  "Signature: nested lists in the configuration, tf.constant and broadcasting on loading."
 ],
 "C77": [
  "proved",
  "Which activation arguments the constructor takes; proxy = layer iff the activation is the object tf.keras.activations.relu or leaves the reached values alone. Refuted for other functions named relu (tf.nn.relu): the proxy drops the ReLU."
 ],
 "C78": [
  "proved",
  "C78_firmware composes C32_proxy_model_exact and C71_network; C78_tables the same with C71_tables. The network of the derivation (layer kinds, element recipes) is related to the converted model by the predicate describes, layer by layer; C78_kernel discharges it for dense and convolution layers, C78_ex for a whole model. Assumes that registering leaves the quantizers as they are (layer_config returns the state it was given), the firmware arithmetic of Spec/Firmware.v, and the exact arithmetic of the model (float32 effects: C65)."
 ],
 "C79": [
  "proved",
  "C79_same: any fuel, names, overrides, nothing assumed about the inputs but that no quantizer overflows before registration. Assumes all_fine after registration (formats within bounds, C51), honest inputs (float32 values) and tables of the declared format. C79_uniform discharges the condition on shrinking. C79_overflow_refuted, C79_uneven_refuted and C79_symmetric_refuted show that each condition is needed."
 ],
 "C80": [
  "proved",
  "C80_registered: the types come from the states reached when each layer's turn came (registered_at), the quantizers of the circuit are those after the last layer; no settledness is assumed. Conditions: those of C79_same, synthesized (C71) at the moment of registration, and same_fusion, shown necessary by C80_fusion_refuted (a defect: a heterogeneous quantizer that registration makes uniform is removed from the circuit although the layer before it was typed for one that stays). C80_stages: every registered layer has such a moment; with C69_registered its types are the ones filed in the overrides. accum_fp_max_offset is None as in C71_network."
 ],
 "C81": [
  "proved",
  "About construct and build of Model/Serial.v. C81_arguments is one direction: rejected are the arguments of other HGQ classes; which further arguments keras accepts is not modelled. C81_widths gives the resolved skip axes and the shapes of the bitwidths and of the range registers; C81_derived the parallelization factor of dense layers and centering of batch-norm layers; C81_rounding and C81_quantizers the rounding mode, exactness and range of widths of each quantizer from its own configuration."
 ],
 "C82": [
  "proved",
  "From the HGQ model to the firmware without C78's assumption that registration changes no quantizer. C82_quiet: on the calibration data no quantizer of the converted proxy overflows, if ReLU layers are steady (Spec/Steady.v); C82_firmware adds the hypotheses of C80 about the network. Not covered: ReLU units that are never positive on the calibration data, and ReLU layers with rnd_strategy other than 'auto' that round to nearest in the firmware and have no negative unit or a minimum that is the negative of a power of two; there C82_rounding_refuted shows that the first quantizer may overflow (with the right output all the same)."
 ],
 "C83": [
  "proved",
  "np.concatenate is modelled on the values and shapes of the predictions (bops.py:124-125). The refuted theorem is about models with several outputs, where the array is not the outputs of the model on the dataset."
 ],
 "C84": [
  "proved",
  "The expected 'once' is refuted (C84_once_refuted); C84_adapts says exactly what happens in every history, C84_drift what repeated runs do. Tracing itself is taken not to fail."
 ],
 "C85": [
  "proved",
  "For the model of trace_minmax in Model/Trace.v and Model/Bops.v; return_predictions is C83. C85_counting discharges the hypothesis that counting BOPs does not read the bops variables. Layers of nested models are not reset (C42), so they must be the same in both states."
 ],
 "C86": [
  "proved",
  "Directional derivatives on dual numbers, which is what tf.GradientTape's reverse mode computes for linear combinations of outputs; numbers are exact, ln 2 and 2^f are arbitrary parameters, so nothing depends on their values; 1/sqrt and activation functions enter with the derivative TensorFlow uses for them. The smooth function fixes errors, gates and Jacobians at the values of the step, as straight-through gradients do. The loss terms of BOPs (C63) and L1 are separate. bn_beta of a fused layer is not read in a training step, so it has no gradient (C54). HBatchNormalization is covered after the one-off adaptation of its bitwidths; a scale that is zero would give infinities, the model raises there. The smooth function has the bias of the code, beta - mean / scale (see C56)."
 ],
 "C87": [
  "proved",
  "The theorems named axes hold for any set of axes, the others for one axis (with the position written as a division). Numbers are exact, so weights must be multiples of 2^-31 below 2^64 as in C59. The reported value is that of an inference call without adaptation (first_call: with it; training_bops: in training, for quantizers without noise); 1/sqrt is an arbitrary function."
 ],
 "C88": [
  "proved",
  "first_call and once prove the adaptation; the others are refutations: functional (adaptation never happens in functional models), switched_off (center=False or scale=False cannot be trained), deployed (to_proxy_model raises), saved (settings are lost). Which graphs are traced and run is an arbitrary history; tracing itself is assumed not to fail."
 ],
 "C89": [
  "proved",
  "Exact numbers; the exponential function is any positive function, the square root any function (the largest score is subtracted before, as tf.nn.softmax does). Masks have one entry per sample, query and key. output_shape and symbolic are refutations."
 ],
 "C90": [
  "proved",
  "C90_network and C90_trace: any model of HGQ and passive layers; C90_proxy_model and C90_deployment under the hypotheses of C32 (calibrated model, promises kept). The condition is on the calls the model makes on the batch (every_call); C65_wide_refuted and C65_order_refuted show that it is needed. Functions of activations and passive layers are arbitrary and the same in both models. Cover factor 1 for tracing in float32; any cover factor for the proxy of a given calibrated state. BOPs are computed by the exact function."
 ],
 "C91": [
  "proved",
  "Keras' bookkeeping of nodes is taken as given (shows: each node of the model is among the inbound nodes of its layer, parents come earlier); several outputs per node are not distinguished, as in the code. The names are those the layers have at the time (a conversion may rename the layers it goes through, C92)."
 ],
 "C92": [
  "proved",
  "Whether the transformer makes a layer anew each time is part of the description of the layer's identity (second component of the names)."
 ],
 "C93": [
  "proved",
  "proxy exact on every batch inside the calibrated ranges, seen or not; calibration data inside; cover_factor monotone, and sufficient if no range is a point (a point never widens)"
 ],
 "C94": [
  "proved",
  "trace_minmax in float32 with a cover_factor (rounded mean, half width, product, sum, then the quantizer in float32); hypotheses: cover_factor between 1 and 2^40, the ends of the data ranges have at most 23 bits, ranges found inside the supported bounds. C94_factors: exactly the positive factors are accepted in single precision."
 ],
 "C95": [
  "proved",
  "C95_traced: trace_minmax leaves a prepared model (Spec/Prepared.v). C95_firmware: on every batch inside the ranges the firmware built from the derived types delivers the outputs of the HGQ model. C95_quiet, C95_registered: the same with the quantizers shrunk by register_qconf, for steady ReLU layers. C95_float32: the HGQ model run in float32 with any accumulator. Assumptions on network, types and firmware arithmetic are those of C78 and C82; look-up tables are not covered (C78_tables covers them on the calibration data)."
 ],
 "C96": [
  "proved",
  "Whole proxy model as quantizers, overrides and lookup tables over a network. C96_any_width_refuted: a registered proxy whose second quantizer is left with -3 bits delivers -1/4, after saving 0 in memory and loaded. Keras layers and the graph are taken to be restored by keras. C96_fusible: when the stored flag fusible is true."
 ],
 "C97": [
  "proved",
  "All 35 modes, single elements and whole layers; tf.pow of integers exact as in C58. C97_wide_refuted: WRAP_SM with 24 bits turns 1 into 2."
 ],
 "C98": [
  "proved",
  "Values without float rounding errors (C97 for float32). C98_nearest_refuted: double rounding; C98_saturating_refuted: 7+7-7 in a saturating accumulator gives 0."
 ]
}