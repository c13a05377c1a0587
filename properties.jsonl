{"id": "C01", "title": "Proxy quantizer output is always representable", "statement": "For every input value, sign flag k in {0,1}, width b>=1 (b>=k), integer width i, rounding mode and overflow mode, the value produced by the proxy fixed-point quantizer is a number of the form m*2^-(b-i) whose integer m lies in the two's-complement range of b bits (signed if k=1, unsigned if k=0).", "quantifier": "all inputs x, all (k,b,i), all 7 rounding and 5 overflow modes", "why_tests_cant": "Infinite input domain times unbounded widths and 35 mode pairs; tests sample a handful of widths.", "anchors": ["src/HGQ/proxy/fixed_point_quantizer.py:gfixed_quantizer", "src/HGQ/proxy/fixed_point_quantizer.py:SAT", "src/HGQ/proxy/fixed_point_quantizer.py:SAT_ZERO", "src/HGQ/proxy/fixed_point_quantizer.py:SAT_SYM", "src/HGQ/proxy/fixed_point_quantizer.py:WRAP", "src/HGQ/proxy/fixed_point_quantizer.py:WRAP_SM"]}
{"id": "C02", "title": "Proxy quantizer is the identity on representable values, hence idempotent", "statement": "If x is already representable in the declared (k,b,i) format, quantizing it returns x, for every rounding mode and every overflow mode (for the symmetric saturation mode: unless x is the most negative code, which maps to the next one). Applying the quantizer twice gives the same result as once.", "quantifier": "all representable x / all x, all formats and modes", "why_tests_cant": "Ranges over all widths and all codes; off-by-one at the extreme codes is exactly what sampled tests miss.", "anchors": ["src/HGQ/proxy/fixed_point_quantizer.py:gfixed_quantizer"]}
{"id": "C03", "title": "Rounding modes follow the documented tie rules", "statement": "On the scaled value, TRN rounds toward minus infinity, TRN_ZERO toward zero, and RND / RND_ZERO / RND_MIN_INF / RND_INF / RND_CONV round to the nearest integer (error at most 1/2), breaking ties upward / toward zero / downward / away from zero / to even respectively.", "quantifier": "all rational inputs", "why_tests_cant": "Tie points are measure zero and are never hit by random data; the documented tie rule of RND ('ties to even') differs from what is computed.", "anchors": ["src/HGQ/proxy/fixed_point_quantizer.py:TRN", "src/HGQ/proxy/fixed_point_quantizer.py:RND", "src/HGQ/proxy/fixed_point_quantizer.py:RND_CONV", "src/HGQ/proxy/fixed_point_quantizer.py:TRN_ZERO", "src/HGQ/proxy/fixed_point_quantizer.py:RND_ZERO", "src/HGQ/proxy/fixed_point_quantizer.py:RND_MIN_INF", "src/HGQ/proxy/fixed_point_quantizer.py:RND_INF", "src/HGQ/proxy/fixed_point_quantizer.py:RND_MAP"]}
{"id": "C04", "title": "Saturating overflow modes clamp to the format's bounds", "statement": "For every rounded integer v: SAT yields the closest code of the format; SAT_SYM yields the closest code of the symmetric range; SAT_ZERO yields v if v is a code of the format and 0 otherwise.", "quantifier": "all integers v, all (k,b)", "why_tests_cant": "Unbounded v and widths.", "anchors": ["src/HGQ/proxy/fixed_point_quantizer.py:SAT", "src/HGQ/proxy/fixed_point_quantizer.py:SAT_SYM", "src/HGQ/proxy/fixed_point_quantizer.py:SAT_ZERO", "src/HGQ/proxy/fixed_point_quantizer.py:SAT_MAP"]}
{"id": "C05", "title": "WRAP is two's-complement truncation", "statement": "WRAP yields the unique code of the format that is congruent to v modulo 2^b, as ap_fixed hardware does.", "quantifier": "all integers v, all (k,b)", "why_tests_cant": "Unbounded v and widths; uniqueness is a universal statement.", "anchors": ["src/HGQ/proxy/fixed_point_quantizer.py:WRAP"]}
{"id": "C06", "title": "WRAP_SM reflects at the range bounds", "statement": "WRAP_SM is the identity on the format's codes, always lands in the format, has period 2^(b+1) and is symmetric about high+1/2, so neighbouring inputs map to equal or neighbouring codes (no jump).", "quantifier": "all integers v, all (k,b)", "why_tests_cant": "Unbounded periodic domain.", "anchors": ["src/HGQ/proxy/fixed_point_quantizer.py:WRAP_SM"]}
{"id": "C07", "title": "Zero-width elements are exactly zero", "statement": "An element whose configured width is 0 always produces 0 regardless of its input, its stored sign/integer fields and the modes; building the proxy quantizer layer normalises sign and integer width of such elements to 0 and leaves every other element's configuration unchanged.", "quantifier": "all inputs, all per-element configurations", "why_tests_cant": "Universal over inputs and per-element configurations.", "anchors": ["src/HGQ/proxy/fixed_point_quantizer.py:gfixed_quantizer", "src/HGQ/proxy/fixed_point_quantizer.py:FixedPointQuantizer.__init__"]}
{"id": "C08", "title": "Quantization is monotone unless it wraps", "statement": "With an overflow mode SAT or SAT_SYM, x<=y implies Q(x)<=Q(y) for every rounding mode.", "quantifier": "all pairs x<=y, all formats, all rounding modes", "why_tests_cant": "Pairs of reals; order violations at ties are not sampled.", "anchors": ["src/HGQ/proxy/fixed_point_quantizer.py:gfixed_quantizer"]}
{"id": "C09", "title": "Saving and loading a proxy quantizer preserves its function", "statement": "Serialising the proxy quantizer layer to its config, rebuilding it from that config and restoring its stored weights gives a layer computing the same function with the same rounding, overflow mode and overrides, for every configuration with non-negative widths; for a configuration with negative widths the config step changes the layer (widths are clamped to 0).", "quantifier": "all per-element configurations of any shape", "why_tests_cant": "Tests save one model; the claim ranges over all heterogenous configurations, including zero-width and -128 dummy values.", "anchors": ["src/HGQ/proxy/fixed_point_quantizer.py:FixedPointQuantizer.get_config", "src/HGQ/proxy/fixed_point_quantizer.py:FixedPointQuantizer.from_config"]}
{"id": "C10", "title": "Fusible / heterogeneous flags are exact", "statement": "A proxy quantizer is reported heterogeneous exactly when two of its elements differ in sign flag, width or integer width; when it is not heterogeneous the single exported (k,i,f) type is the type of every element, and in general the exported type contains every element's type.", "quantifier": "all per-element configurations", "why_tests_cant": "Universal over tensors.", "anchors": ["src/HGQ/proxy/fixed_point_quantizer.py:FixedPointQuantizer.heterogeneous", "src/HGQ/proxy/fixed_point_quantizer.py:FixedPointQuantizer.fusible", "src/HGQ/proxy/fixed_point_quantizer.py:FixedPointQuantizer.result_t_kif"]}
{"id": "C11", "title": "Inference quantization lands on the declared grid with bounded error", "statement": "At inference HGQ returns a multiple of 2^-round(f). With the floor strategy the result is in (x-2^-round(f), x]; with every other strategy |result-x| <= 2^-(round(f)+1), and ties go up. f is rounded half-to-even.", "quantifier": "all inputs, all real bitwidths f, all strategies", "why_tests_cant": "Continuous inputs and trainable continuous bitwidths.", "anchors": ["src/HGQ/quantizer/quantizer.py:HGQ.forward", "src/HGQ/quantizer/quantizer.py:q_round"]}
{"id": "C12", "title": "Inference quantization is idempotent and deterministic", "statement": "At inference the quantizer applied to its own output returns it unchanged, is monotone in x, and never depends on random numbers even when the training strategy is stochastic.", "quantifier": "all inputs, bitwidths, strategies, random draws", "why_tests_cant": "All random draws must be covered.", "anchors": ["src/HGQ/quantizer/quantizer.py:HGQ.forward"]}
{"id": "C13", "title": "Training-mode rounding strategies stay within their documented envelope", "statement": "During training: stochastic rounding yields floor or floor+1 for every random draw in [0,1) and never moves an integer; noise injection moves a value by at most 1/2 for every draw in [-1/2,1/2] and maps |x|<=1/2 to 0; an unknown strategy raises.", "quantifier": "all inputs and all random draws", "why_tests_cant": "Random draws cannot be enumerated.", "anchors": ["src/HGQ/quantizer/quantizer.py:q_round"]}
{"id": "C14", "title": "Straight-through estimator: value and gradients", "statement": "In training mode the forward value equals the plain quantized value, the derivative with respect to the input is exactly 1, and the derivative with respect to the bitwidth is exactly -(xq-x)*ln2.", "quantifier": "all inputs, bitwidths, tangents", "why_tests_cant": "Gradient tests only check 'non-zero'.", "anchors": ["src/HGQ/quantizer/quantizer.py:HGQ.forward", "src/HGQ/quantizer/quantizer.py:HGQ.bias_forward"]}
{"id": "C15", "title": "Gradient scaling does not change values", "statement": "The gradient-scaling helper used for bitwidths returns its input unchanged and multiplies the derivative by the given factor; the bitwidth regularizer is a non-negative multiple of the sum of bitwidths, hence monotone in every bitwidth.", "quantifier": "all inputs and factors", "why_tests_cant": "Universal over reals.", "anchors": ["src/HGQ/layers/base.py:scale_grad", "src/HGQ/utils/utils.py:MonoL1"]}
{"id": "C16", "title": "Bitwidths stay inside the clip range", "statement": "Whatever sequence of calls, optimiser updates and adaptations is applied, every quantizer call uses bitwidths inside bw_clip, and values already inside are not changed by clipping.", "quantifier": "all histories", "why_tests_cant": "Histories are unbounded.", "anchors": ["src/HGQ/quantizer/quantizer.py:HGQ.__call__"]}
{"id": "C17", "title": "Recorded min/max equal the true extremes since the last reset", "statement": "After any sequence of resets and recording calls on any batches, the recorded minimum (maximum) of each quantizer group is the minimum (maximum) of all quantized values that group produced since the last reset; with no values since the reset it is +inf (-inf). Non-recording calls change nothing.", "quantifier": "all histories of calls", "why_tests_cant": "Histories of unbounded length and batch size.", "anchors": ["src/HGQ/quantizer/quantizer.py:HGQ.forward", "src/HGQ/quantizer/quantizer.py:HGQ.minmax_reg_reset"]}
{"id": "C18", "title": "trace_minmax does not depend on the batch size", "statement": "For every dataset and any two positive batch sizes, tracing leaves the same recorded ranges, hence the same bitwidths; every sample is visited exactly once and in order.", "quantifier": "all datasets, all batch sizes", "why_tests_cant": "Quantifies over pairs of batch sizes and all data.", "anchors": ["src/HGQ/bops/bops.py:trace_minmax"]}
{"id": "C19", "title": "Derived bitwidths cover the calibrated range and are minimal", "statement": "For a quantizer with fractional bits f and recorded grid range [min,max] with values below 2^32, the reported (k,i,f) format contains every grid value in [min,max]; k=1 exactly if min<0; and no smaller integer width would do. An all-zero range is reported as zero bits.", "quantifier": "all recorded ranges on the grid", "why_tests_cant": "All ranges and widths, boundary powers of two in particular.", "anchors": ["src/HGQ/quantizer/quantizer.py:HGQ.get_bits_exact"]}
{"id": "C20", "title": "ReLU-aware bitwidths cover the positive part", "statement": "With pos_only, the reported unsigned format contains max(v,0) for every grid value v<=max, is minimal, and is zero bits exactly if max<=0.", "quantifier": "all recorded ranges", "why_tests_cant": "As above.", "anchors": ["src/HGQ/quantizer/quantizer.py:HGQ.get_bits_exact"]}
{"id": "C21", "title": "Bitwidths cannot be derived from an untraced quantizer", "statement": "Asking for exact bits right after construction or reset raises; after at least one recording call on a non-empty batch it does not raise.", "quantifier": "all histories", "why_tests_cant": "Histories.", "anchors": ["src/HGQ/quantizer/quantizer.py:HGQ.get_bits_exact", "src/HGQ/quantizer/quantizer.py:HGQ.minmax_reg_reset"]}
{"id": "C22", "title": "Exact kernel bitwidths represent each weight exactly", "statement": "For an array of fixed-point weights with at most 31 fractional bits, the per-weight (k,i,f) reported represents that weight exactly, zero weights get zero bits, and i+f is the minimal number of magnitude bits (in exact arithmetic; in float32 one extra bit is reported for weights equal to the largest power of two).", "quantifier": "all weight arrays", "why_tests_cant": "All arrays; per-element result depends on the whole array through the maximum.", "anchors": ["src/HGQ/quantizer/quantizer.py:get_arr_bits", "src/HGQ/quantizer/quantizer.py:HGQ.get_bits_exact", "src/HGQ/layers/base.py:HLayerBase.kernel_bw_exact"]}
{"id": "C23", "title": "Training-time bitwidths over-approximate the exact ones", "statement": "The differentiable activation and kernel bitwidths are never smaller than the exact ones computed from the same records/weights, and by at most one bit larger for activations.", "quantifier": "all ranges, all weights on the grid", "why_tests_cant": "Universal inequality between two formulas.", "anchors": ["src/HGQ/quantizer/quantizer.py:HGQ.get_bits", "src/HGQ/quantizer/quantizer.py:HGQ.get_bits_exact", "src/HGQ/layers/base.py:HLayerBase.act_bw", "src/HGQ/layers/base.py:HLayerBase.kernel_bw"]}
{"id": "C24", "title": "Degeneracy counts how many values share one bitwidth", "statement": "For every tensor shape and every skip_dims specification, degeneracy times the number of bitwidths equals the number of (per-sample) values, and the bitwidth shape broadcasts to the input shape; unknown specification strings raise.", "quantifier": "all shapes, all skip_dims", "why_tests_cant": "All ranks and shapes.", "anchors": ["src/HGQ/quantizer/quantizer.py:HGQ._compute_bw_shape_and_degeneracy"]}
{"id": "C25", "title": "Range recording works exactly for leading skip dims", "statement": "Recording of min/max succeeds when the skipped dimensions are a prefix of the shape (batch, all, except_last); for 'except_1st' on tensors with more than one channel it fails with a shape error.", "quantifier": "all shapes", "why_tests_cant": "Shape arithmetic over all ranks.", "anchors": ["src/HGQ/quantizer/quantizer.py:HGQ.forward", "src/HGQ/quantizer/quantizer.py:HGQ.init_minmax"]}
{"id": "C26", "title": "Kernel bit adaptation equalises the number of bits", "statement": "After adapting to a non-zero kernel with a common starting bitwidth b, each weight w gets fractional bitwidth b-log2|w| (the minimum over its group), so weights of every magnitude get the same number of significant bits up to rounding; zero weights end up at the upper clip after the next call.", "quantifier": "all kernels", "why_tests_cant": "All magnitudes.", "anchors": ["src/HGQ/quantizer/quantizer.py:HGQ.adapt_bw_bits"]}
{"id": "C27", "title": "Bias is quantized on the finest grid of its channel", "statement": "The quantized bias of a channel is a multiple of 2^-round(max f over that channel), so it is representable at every output position's finest grid, and the same value is used at training-time inference and at deployment for channels_last layers.", "quantifier": "all biases, all bitwidth tensors", "why_tests_cant": "Universal.", "anchors": ["src/HGQ/quantizer/quantizer.py:HGQ.bias_forward", "src/HGQ/layers/base.py:HLayerBase.fused_qbias"]}
{"id": "C28", "title": "Pre-biased truncation equals round-to-nearest", "statement": "For a layer whose bias can absorb rounding, adding 2^-(f+1) to the deployed bias and truncating gives, for every input, the value obtained by rounding to nearest without the extra bias.", "quantifier": "all inputs, weights, biases, bitwidths", "why_tests_cant": "Continuous domain; ties.", "anchors": ["src/HGQ/layers/base.py:HLayerBase.fused_qbias", "src/HGQ/layers/base.py:HLayerBase.can_bias_cover_rnd", "src/HGQ/proxy/convert.py:ProxyLayerXFormer.get_kbiRS"]}
{"id": "C29", "title": "Masked bias never changes an output", "statement": "Channels whose deployed bias is forced to zero are channels whose derived width is zero at every position, whose proxy output is 0 and whose HGQ output on calibrated data is 0 (after ReLU, if any).", "quantifier": "all layers and calibrated inputs", "why_tests_cant": "Universal.", "anchors": ["src/HGQ/layers/base.py:HLayerBase.fused_qbias"]}
{"id": "C30", "title": "A converted linear-activation layer reproduces the HGQ layer on calibrated inputs", "statement": "For every dense, convolutional, add, activation or quantize layer without ReLU, every input whose quantized outputs lie in the traced range gives bit-identical outputs in the HGQ layer and in its proxy (layer + quantizer), for both overflow policies.", "quantifier": "all inputs in range, all weights, all strategies, both overflow policies", "why_tests_cant": "End-to-end equality over continuous inputs.", "anchors": ["src/HGQ/proxy/convert.py:ProxyLayerXFormer.__call__", "src/HGQ/proxy/convert.py:ProxyLayerXFormer.get_kbiRS", "src/HGQ/layers/dense.py:HDense.jit_forward", "src/HGQ/layers/conv.py:HConv.jit_forward"]}
{"id": "C31", "title": "A converted ReLU layer reproduces the HGQ layer on calibrated inputs", "statement": "For every layer with ReLU, the proxy chain quantizer -> ReLU -> quantizer gives bit-identical outputs on every input whose pre-activation quantized values lie in the traced range, for homogeneous or per-element bitwidths, for both overflow policies, even when the first quantizer wraps.", "quantifier": "all inputs in range, all per-element bitwidths, both policies", "why_tests_cant": "Guard-bit and wrap interactions at the range boundary have tiny measure.", "anchors": ["src/HGQ/proxy/convert.py:ProxyLayerXFormer.__call__"]}
{"id": "C32", "title": "The proxy model equals the HGQ model on the calibration data", "statement": "After trace_minmax with cover_factor >= 1 on a dataset, to_proxy_model gives a model whose output on every sample of that dataset equals the HGQ model's inference output, for every acyclic layer graph built from supported layers.", "quantifier": "all graphs, all datasets, all weights and bitwidths", "why_tests_cant": "Whole-model equivalence over all architectures.", "anchors": ["src/HGQ/proxy/convert.py:to_proxy_model", "src/HGQ/proxy/convert.py:convert_model", "src/HGQ/bops/bops.py:trace_minmax"]}
{"id": "C33", "title": "Graph conversion preserves the computed function", "statement": "convert_model with a layer transformer that preserves each layer's function returns a model computing the same outputs, for every acyclic graph with several inputs and outputs, shared layers, and models nested to any depth (which are flattened).", "quantifier": "all acyclic graphs, all nesting depths", "why_tests_cant": "All graph topologies.", "anchors": ["src/HGQ/proxy/convert.py:convert_model", "src/HGQ/proxy/convert.py:apply_layer", "src/HGQ/proxy/convert.py:_get_out_tensor", "src/HGQ/proxy/convert.py:solve_dependencies"]}
{"id": "C34", "title": "Every node is converted exactly once", "statement": "During conversion each reachable node of the graph is applied exactly once even when several consumers use it, nodes not reachable from the outputs are not applied, and inputs are used by every consumer in the declared order.", "quantifier": "all acyclic graphs", "why_tests_cant": "All topologies.", "anchors": ["src/HGQ/proxy/convert.py:_get_out_tensor"]}
{"id": "C35", "title": "Layer names in the converted model are unique", "statement": "For every sequence of requested names the generated names are pairwise distinct, each is the requested name or that name plus a numeric suffix, a fresh name is kept, and the generator terminates. In a converted model a layer has the name it asks for unless an earlier layer has it; then the first free number is appended; a layer applied several times asks with the name it got last.", "quantifier": "all sequences of names", "why_tests_cant": "Adversarial name collisions such as a, a, a_0.", "anchors": ["src/HGQ/proxy/convert.py:Namer.next_name"]}
{"id": "C36", "title": "A non-converging layer transformer is reported", "statement": "Conversion applies the transformer until it returns the same layer; if that takes more than 1024 steps an error is raised instead of looping forever, and a transformer returning None removes the layer.", "quantifier": "all transformers", "why_tests_cant": "Non-termination cannot be observed by tests.", "anchors": ["src/HGQ/proxy/convert.py:apply_layer"]}
{"id": "C37", "title": "Deployed weights are the quantized fused weights", "statement": "The converted layer's kernel and bias are exactly the quantized fused kernel and bias of the source layer; other weights are taken from the source weight whose name contains the requested name, and missing ones are reported and left at their initial value.", "quantifier": "all weight lists", "why_tests_cant": "Name matching by substring over all names.", "anchors": ["src/HGQ/proxy/convert.py:copy_fused_weights", "src/HGQ/proxy/convert.py:get_weight"]}
{"id": "C38", "title": "cover_factor >= 1 never shrinks the traced range", "statement": "For every recorded grid range and cover_factor >= 1 the adjusted range is on the grid and contains the recorded one; cover_factor = 1 leaves it unchanged.", "quantifier": "all ranges and factors", "why_tests_cant": "Universal over reals; needs monotone rounding.", "anchors": ["src/HGQ/bops/bops.py:trace_minmax"]}
{"id": "C39", "title": "Range correction for bounded activations keeps all attainable values", "statement": "For softmax the traced range becomes [0,1]; for sigmoid and tanh it is clipped to [0,1] and [-1,1]; values of the activation quantized with a non-negative number of fractional bits that were in the traced range remain in it.", "quantifier": "all ranges", "why_tests_cant": "Universal.", "anchors": ["src/HGQ/bops/bops.py:trace_minmax"]}
{"id": "C40", "title": "Recording is off after tracing", "statement": "After trace_minmax returns normally, later inference calls do not change the recorded ranges. (Fails when no_bops_computation is set: recording stays on; and with rst=False after an earlier trace nothing is recorded.)", "quantifier": "all histories of API calls", "why_tests_cant": "Histories.", "anchors": ["src/HGQ/bops/bops.py:trace_minmax", "src/HGQ/layers/base.py:HLayerBase.call"]}
{"id": "C41", "title": "BOPs are additive over layers and nested models", "statement": "The reported BOPs are the sum over all layers carrying a BOPs value, with nested models contributing the sum of their layers; trace_minmax returns the sum of exact per-layer BOPs; for dense layers this is the sum over all multiplications of input bits times weight bits.", "quantifier": "all model trees", "why_tests_cant": "All nesting structures.", "anchors": ["src/HGQ/bops/bops.py:FreeBOPs._bops", "src/HGQ/bops/bops.py:trace_minmax", "src/HGQ/layers/dense.py:HDense.compute_exact_bops"]}
{"id": "C42", "title": "ResetMinMax reaches every quantized layer", "statement": "The reset callback resets every quantized layer at every nesting depth, whereas trace_minmax resets and enables recording only at top level.", "quantifier": "all model trees", "why_tests_cant": "All nesting structures.", "anchors": ["src/HGQ/bops/bops.py:ResetMinMax.reset_minmax", "src/HGQ/bops/bops.py:trace_minmax"]}
{"id": "C43", "title": "Passive layers propagate bitwidths to the right positions", "statement": "Reshape, flatten, concatenate and max pooling report at each output position the bitwidth of the values that can reach it. (Fails for permute, which reports bitwidths in the unpermuted order, and for average pooling and max pooling over inputs on different grids, whose outputs need more bits than reported: average pooling over 2^L inputs at most L more.) Permute moves the element at given coordinates to the permuted coordinates; pooling looks at the coordinates its windows cover and does not count padding.", "quantifier": "all shapes and bitwidth tensors", "why_tests_cant": "All shapes/permutations.", "anchors": ["src/HGQ/layers/passive_layers.py:PLayerBase.act_bw_exact", "src/HGQ/layers/passive_layers.py:PConcatenate.act_bw_exact", "src/HGQ/layers/passive_layers.py:PPool2D.act_bw_exact", "src/HGQ/layers/passive_layers.py:PPermute"]}
{"id": "C44", "title": "Container derivation for constant arrays is exact and minimal", "statement": "For a not-all-zero array whose elements are multiples of 2^-32 between -2^32 and 2^32, the derived (k,i,f) represents every element; f is the least fractional width above -32; i is least; the sign flag is set exactly if an element is negative; all-zero arrays give (0,1,0).", "quantifier": "all arrays", "why_tests_cant": "Bisection correctness over all arrays.", "anchors": ["src/HGQ/proxy/precision_derivation.py:get_arr_container"]}
{"id": "C45", "title": "Derived produced precision contains every value the layer can produce", "statement": "After deriving the precision of any layer of a proxy network (which may shrink quantizers upstream), every value the layer can output belongs to the derived format, for networks of quantizers, activations with enumerable inputs, softmax, add, signed subtract, concatenate, reshape-like and max-pool layers, average pools of power-of-two size, lookup tables and dense/conv layers whose bias has room; deriving again changes nothing. (Fails for biases that do not fit, unsigned subtract, dot, average pools of other sizes, the signed extreme product and saturating quantizers with differing element formats.)", "quantifier": "all inputs in the input format, all weights", "why_tests_cant": "Worst-case interval analysis.", "anchors": ["src/HGQ/proxy/precision_derivation.py:get_produced_kif", "src/HGQ/proxy/precision_derivation.py:activation_kif_forward"]}
{"id": "C46", "title": "Precision-driven quantizer reduction preserves the quantizer", "statement": "Shrinking an over-wide homogeneous proxy quantizer to the precision of its input does not change its output on any input of that precision, for the sign and width combinations that occur when the input is at most as wide as the quantizer or has the same sign flag. (Fails for heterogeneous quantizers, whose elements can gain fractional bits, and for mixed signs, saturation on wider inputs with fewer fractional bits, symmetric saturation, and formats left without bits.)", "quantifier": "all input values of the given precision", "why_tests_cant": "Universal over values and formats.", "anchors": ["src/HGQ/proxy/precision_derivation.py:get_produced_kif"]}
{"id": "C47", "title": "Merged precision is transparent to the next quantizer", "statement": "Storing a value in the result type derived for its layer (merged available and requested precision, or the input type derived from the following quantizers) before a TRN or RND quantizer does not change that quantizer's result, even on overflow, unless an unsigned value wider than the request meets a signed request. Where only quantizers read a layer, directly or through concatenations and reshapes, its result type has no more fractional bits than one of them keeps plus what its rounding looks at, and, if all wrap around, at most one integer bit more than one of them. (Fails for the other rounding modes, for which two guard bits are not enough, and for types without bits.)", "quantifier": "all values of the available precision, all formats", "why_tests_cant": "Sticky-bit ties and overflow corners.", "anchors": ["src/HGQ/proxy/precision_derivation.py:merge_precision", "src/HGQ/proxy/precision_derivation.py:get_request_kif", "src/HGQ/proxy/precision_derivation.py:get_requested_kif", "src/HGQ/proxy/precision_derivation.py:derive_result_kifRS_from_next_quantizers"]}
{"id": "C48", "title": "Huge or missing precision is rejected", "statement": "The derived per-layer configuration is returned only if every type in it has at most 64 bits besides the sign (so signed types of 65 bits pass); unquantized data (65535-bit placeholders) is rejected with an error; accumulators of wrapping results have only the result's integer bits and may wrap without changing the result, those of saturating results hold every sum.", "quantifier": "all layer precisions", "why_tests_cant": "Universal.", "anchors": ["src/HGQ/proxy/precision_derivation.py:get_config", "src/HGQ/proxy/precision_derivation.py:get_config_wight_accum_result_bias", "src/HGQ/proxy/precision_derivation.py:get_config_table_tablesize_result"]}
{"id": "C49", "title": "A unary LUT equals the activation on every representable input", "statement": "For every activation and input format (k,i,f), calling the LUT on any representable input returns the output-quantized activation of that input; inputs outside the range wrap modulo the table size.", "quantifier": "all formats, all activations, all inputs", "why_tests_cant": "All formats and codes.", "anchors": ["src/HGQ/proxy/unary_lut.py:UnaryLUT.from_activation", "src/HGQ/proxy/unary_lut.py:UnaryLUT.call"]}
{"id": "C50", "title": "LUT conversion respects the table size limits", "statement": "An activation is replaced by a LUT only if its table has at most the requested number of entries and the activation is not softmax/relu/linear; replacement fails with an error if the table reaches the hard limit or the input is constantly zero.", "quantifier": "all formats and limits", "why_tests_cant": "Boundary at exactly the limit.", "anchors": ["src/HGQ/proxy/unary_lut.py:xfr_to_unary_lut", "src/HGQ/proxy/unary_lut.py:UnaryLUT.__init__"]}
{"id": "C51", "title": "Type strings round-trip", "statement": "Formatting (k,i,f) with k in {0,1} and at least one bit, with any rounding/overflow suffix made of word characters, and parsing it back returns (k,i,f). Non-positive widths are printed as one bit and do not round-trip; 'nuke' is never parsed.", "quantifier": "all integers i,f, all suffixes", "why_tests_cant": "Unbounded integers incl. negatives.", "anchors": ["src/HGQ/utils/utils.py:apf_to_tuple", "src/HGQ/utils/utils.py:tuple_to_apf"]}
{"id": "C52", "title": "Default quantizer configurations are isolated and keep their keys", "statement": "For every history of get/set/mutate operations the default configuration always has the original key set; a rejected set leaves it unchanged; mutating a dict returned by get does not affect the defaults. (Mutating a dict after passing it to set does change the defaults: it is stored by reference.)", "quantifier": "all histories", "why_tests_cant": "Aliasing histories.", "anchors": ["src/HGQ/utils/utils.py:get_default_kq_conf", "src/HGQ/utils/utils.py:set_default_kq_conf", "src/HGQ/utils/utils.py:get_default_paq_conf", "src/HGQ/utils/utils.py:set_default_paq_conf"]}
{"id": "C53", "title": "'auto' rounding resolves per layer", "statement": "With rnd_strategy 'auto' a layer uses rounding when its bias can absorb it and floor otherwise, independently of other layers. A bias can absorb it when there is one bitwidth in all or one per bias entry. (Fails for channels_first layers with a bitwidth per channel, since the batch dimension is looked at instead of the channel dimension, and when the same config dict object is shared with an activation layer, which rewrites it in place.)", "quantifier": "all build orders of layers sharing configs", "why_tests_cant": "Build-order dependent aliasing.", "anchors": ["src/HGQ/layers/base.py:HLayerBase.post_build", "src/HGQ/layers/misc.py:HActivation.post_build"]}
{"id": "C54", "title": "Fused batch-norm kernels give the normalised affine map at inference", "statement": "The fused kernel and bias of a batch-norm layer make the layer compute scale*(Wx - moving_mean) + bias + bn_beta with scale = gamma*rsqrt(var+eps), before quantization.", "quantifier": "all weights, statistics, inputs", "why_tests_cant": "Universal over reals.", "anchors": ["src/HGQ/layers/batchnorm_base.py:HBatchNormBase.fused_kernel", "src/HGQ/layers/batchnorm_base.py:HBatchNormBase.fused_bias"]}
{"id": "C55", "title": "Batch-norm training and inference agree when batch and moving statistics agree", "statement": "If the moving statistics equal the batch statistics the training-mode forward value equals the inference value, provided bn_beta is zero and scaling is on. (Fails for non-zero bn_beta, which training ignores, for scale=False, center=True, and for center=False with a bias, which training leaves out.)", "quantifier": "all batches, weights", "why_tests_cant": "Universal.", "anchors": ["src/HGQ/layers/dense.py:HDenseBatchNorm.bn_train_jit_forward", "src/HGQ/layers/conv.py:HConvBatchNorm.bn_train_jit_forward", "src/HGQ/layers/batchnorm_base.py:HBatchNormBase.fused_bias"]}
{"id": "C56", "title": "When the standalone batch-norm layer computes batch normalisation", "statement": "The standalone layer's output before quantization is gamma*(x-mean)*rsqrt(var+eps)+beta exactly on the channels whose mean is zero or whose scale ker is 1 or -1. At inference each output element is the quantized scale of its channel times the input plus a quantized offset, quantized with the bitwidth of the element. (Batch normalisation as documented fails on all others: the code subtracts mean/ker instead of mean*ker.)", "quantifier": "all inputs", "why_tests_cant": "Universal.", "anchors": ["src/HGQ/layers/batchnorm_base.py:HBatchNormalization.forward"]}
{"id": "C57", "title": "QKeras quantizers map to equivalent proxy quantizers", "statement": "quantized_bits(alpha=1) and quantized_relu are converted to proxy layers computing the same function on every input when the saturating policy is used (symmetric quantizers always saturate symmetrically); unsupported quantizers (alpha != 1, po2, use_01) are rejected.", "quantifier": "all inputs and quantizer parameters", "why_tests_cant": "Continuous inputs.", "anchors": ["src/HGQ/proxy/plugins/qkeras.py:qkeras_quantizer_to_layers"]}
{"id": "C58", "title": "Float32 evaluation of the quantizer equals exact arithmetic in range", "statement": "In IEEE single precision, scaling, flooring and unscaling are exact, and the standard-round result equals the exact one for every finite float32 whose scaled magnitude is below 2^23, except for the single value just below 1/2; at or above 2^23 odd integers are moved.", "quantifier": "all finite float32 inputs", "why_tests_cant": "2^32 inputs times bitwidths; tie at pred(1/2).", "anchors": ["src/HGQ/quantizer/quantizer.py:q_round", "src/HGQ/quantizer/quantizer.py:HGQ.forward", "src/HGQ/proxy/fixed_point_quantizer.py:RND"]}
{"id": "C59", "title": "Exact BOPs count every multiplication with the bits of its operands", "statement": "compute_exact_bops of a layer with a kernel is the sum over its multiplications of input bits times weight bits, where pruned weights and inputs that are always zero cost nothing; for a convolution without padding and inputs of equal width it is parallel_factor * width * bits of all weights, whatever the input size; the single-precision sum is exact up to 2^24. (Fails for data_format channels_first, where the number of positions is computed from the wrong dimensions.)", "quantifier": "all layers, kernels, ranges, convolution geometries", "why_tests_cant": "All shapes, strides, dilations, groups and bitwidths.", "anchors": ["src/HGQ/layers/dense.py:HDense.compute_exact_bops", "src/HGQ/layers/conv.py:HConv.compute_exact_bops", "src/HGQ/layers/conv.py:HConv.post_build", "src/HGQ/layers/base.py:HLayerBase.kernel_bw_exact", "src/HGQ/layers/base.py:HLayerBase.act_bw_exact"]}
{"id": "C60", "title": "Quantized dense and convolution layers compute the matrix product and the convolution of the quantized kernel", "statement": "At inference element (r,c) of HDense is the quantizer applied to sum_j x[r,j]*qk[j,c] + qb[c]; HConv1D/HConv2D (HConv of any rank) sum over the kernel window with stride, dilation, zero padding and channel groups; VALID and SAME have the documented output positions and padding.", "quantifier": "all inputs, kernels, geometries", "why_tests_cant": "All shapes and strides.", "anchors": ["src/HGQ/layers/dense.py:HDense.jit_forward", "src/HGQ/layers/conv.py:HConv.convolution_op", "src/HGQ/layers/conv.py:HConv.jit_forward"]}
{"id": "C61", "title": "Reported BOPs over-approximate the exact ones", "statement": "After a call at a given state, the bops a layer reports (and adds to its loss) is finite and at least the exact bit operations at the same state; the trained width of a weight is the least number of magnitude bits that holds every weight sharing its bitwidth. (Fails when a kernel axis behind an unshared axis shares bitwidths: the layer then raises, or with square kernels mixes up the widths and reports too little.)", "quantifier": "all kernels, ranges, shared leading axes", "why_tests_cant": "All weights and shapes.", "anchors": ["src/HGQ/layers/dense.py:HDense.forward", "src/HGQ/layers/conv.py:HConv.forward", "src/HGQ/layers/base.py:HLayerBase._kernel_bw", "src/HGQ/quantizer/quantizer.py:HGQ.get_bits"]}
{"id": "C62", "title": "Outside the calibrated range the proxy applies the chosen overflow policy to the layer's output", "statement": "For every input, including inputs never seen in calibration, each element of the converted layer's output is the HGQ output put through the derived format: equal modulo 2^(k+i) under WRAP, the closest representable value under SAT, 0 where the derived width is 0. Layers with ReLU do so under SAT for every input and under WRAP as long as the value before ReLU stays inside the widest format of the layer. (Beyond that a wrapped value can turn negative before ReLU and come out as 0.)", "quantifier": "all layers, all inputs, both policies", "why_tests_cant": "Inputs outside the calibration data are unbounded.", "anchors": ["src/HGQ/proxy/convert.py:ProxyLayerXFormer.__call__", "src/HGQ/proxy/convert.py:ProxyLayerXFormer.get_kbiRS", "src/HGQ/proxy/fixed_point_quantizer.py:gfixed_quantizer"]}
{"id": "C63", "title": "The BOPs penalty has the gradient of the reported bit operations", "statement": "The loss term of a dense or convolution layer is beta times its reported bit operations; its gradient in a kernel bitwidth is beta times the input bits of every multiplication using a weight of that bitwidth (0 where the weight's width is 0), in an activation bitwidth of the layer read beta times the kernel bits of every multiplication reading it, each divided by the square root of the number of values sharing the bitwidth; it is never negative and does not touch the weights.", "quantifier": "all layers, bitwidths, kernels, directions", "why_tests_cant": "Gradients over all states; straight-through and stop_gradient arrangements are invisible to value tests.", "anchors": ["src/HGQ/layers/base.py:HLayerBase._kernel_bw", "src/HGQ/layers/base.py:HLayerBase.act_bw", "src/HGQ/layers/base.py:scale_grad", "src/HGQ/quantizer/quantizer.py:HGQ.get_bits", "src/HGQ/layers/dense.py:HDense.forward", "src/HGQ/layers/conv.py:HConv.forward"]}
{"id": "C64", "title": "Saving and loading a layer restores its function but not its calibration", "statement": "Loading a saved HDense, HConv, HActivation, HAdd or HQuantize gives a layer with the same configuration, beta, parallel_factor, weights and bitwidths, computing the same outputs on every batch, whatever default configurations are in force when loading; the recorded ranges are gone, so conversion raises until the layer is calibrated again, as if minmax_reg_reset had been called. The same holds for fused batch-norm layers with default epsilon, center and scale. (Fails otherwise: epsilon and momentum silently return to their defaults, layers without center or scale cannot be loaded; the first training call of a loaded HDenseBatchNorm adapts its trained kernel bitwidths again; a configuration dictionary shared with an HActivation is saved with the rounding the activation wrote into it.)", "quantifier": "all layers, configurations, weights, training histories, batches", "why_tests_cant": "All trained states and configurations; equality of functions.", "anchors": ["src/HGQ/layers/base.py:HLayerBase.__init__", "src/HGQ/layers/base.py:HLayerBase.get_config", "src/HGQ/layers/base.py:HLayerBase.init_quantizers", "src/HGQ/layers/dense.py:HDense.get_config", "src/HGQ/layers/dense.py:HDenseBatchNorm.forward", "src/HGQ/layers/conv.py:HConv.get_config", "src/HGQ/layers/batchnorm_base.py:HBatchNormBase.__init__", "src/HGQ/layers/batchnorm_base.py:HBatchNormBase.adapt_fused_bn_kernel_bw_bits"]}
{"id": "C65", "title": "Layers and proxies in float32 equal exact arithmetic when the accumulator fits, whatever the order of summation", "statement": "Evaluated in IEEE single precision, with products added in any order and with or without fused multiply-add, a layer returns the exact result on every input for which the terms summed for each output (products and bias, multiples of some 2^G) have absolute values adding up to at most 2^(G+23); so does its proxy, whose formats have at most 23 bits; hence the two agree in single precision on calibrated inputs although they may add in different orders. (Fails beyond: the order of summation changes the result, and with a 25-bit accumulator layer and proxy differ by one unit although they agree in exact arithmetic.)", "quantifier": "all layers, weights, inputs, orders of summation", "why_tests_cant": "All summation orders and all float32 inputs; back ends differ in the order they use.", "anchors": ["src/HGQ/layers/dense.py:HDense.jit_forward", "src/HGQ/layers/conv.py:HConv.jit_forward", "src/HGQ/proxy/fixed_point_quantizer.py:gfixed_quantizer", "src/HGQ/proxy/fixed_point_quantizer.py:FixedPointQuantizer.call", "src/HGQ/layers/base.py:HLayerBase.fused_qbias", "src/HGQ/proxy/convert.py:ProxyLayerXFormer.__call__"]}
{"id": "C66", "title": "Moving statistics are exponentially weighted averages of the batch statistics", "statement": "After any training run of a fused batch-norm layer, with weights changing between calls, moving_mean and moving_variance are momentum^n times the initial value plus (1 - momentum) times the sum of the batch statistics weighted by powers of momentum, the last batch weighing most; with a momentum in [0, 1] they stay within the range of the initial value and the batch statistics, so the variance never becomes negative; on batches with equal statistics they converge to them.", "quantifier": "all training runs, batches, weights, channels", "why_tests_cant": "All histories; limits.", "anchors": ["src/HGQ/layers/dense.py:HDenseBatchNorm.bn_train_jit_forward", "src/HGQ/layers/conv.py:HConvBatchNorm.bn_train_jit_forward"]}
{"id": "C67", "title": "Calibration depends on the set of samples only; more samples never narrow a range or lower the BOPs", "statement": "Two calibrations (trace_minmax) of the same model on data with the same samples, whatever their order, repetition and batching, leave the same model and report the same bit operations; with further samples (and cover_factor at least 1) no recorded range gets narrower and the exact bit operations do not decrease; before the bit operations are counted, calibration may be continued with rst=False and then equals one calibration on all the data; the CalibratedBOPs callback reports and leaves exactly that, whatever its batch size. (With cover_factor below 1 a further sample can narrow a range; with cover_factor above 1 continuing stretches the first range twice; on an empty array without a batch size the callback raises.)", "quantifier": "all models, stores, datasets, batch sizes, cover factors", "why_tests_cant": "All data sets and their subsets; a test sees one calibration set.", "anchors": ["src/HGQ/bops/bops.py:trace_minmax", "src/HGQ/bops/bops.py:CalibratedBOPs.on_epoch_end", "src/HGQ/quantizer/quantizer.py:HGQ.minmax_reg", "src/HGQ/layers/dense.py:HDense.compute_exact_bops"]}
{"id": "C68", "title": "The first training call of HDenseBatchNorm adapts the kernel bitwidths to the fused kernel, once", "statement": "Executed eagerly (for graphs see C84), in the first training call every kernel bitwidth becomes itself minus the largest log2 |w * gamma / sqrt(v + epsilon)| of the weights sharing it, cut off at the configured limits (groups of zeros go to the upper limit), where v are the channel variances of the layer's inference output on that batch with 32-bit weights; without scale the kernel itself is the reference; nothing else changes, later calls and other layers (also HConvBatchNorm) adapt nothing. A weight of its own keeps its number of bits, up to two, as long as v gives a scale within a factor two of the one training uses. (Not otherwise: v is taken after activation and quantization, so a ReLU neuron whose first batch is negative has v = 0 and its weight is quantized to 0.)", "quantifier": "all layers, kernels, batches, limits", "why_tests_cant": "All weights and batches; the effect depends on the data of the first batch.", "anchors": ["src/HGQ/layers/batchnorm_base.py:HBatchNormBase.adapt_fused_bn_kernel_bw_bits", "src/HGQ/layers/dense.py:HDenseBatchNorm.forward", "src/HGQ/quantizer/quantizer.py:HGQ.adapt_bw_bits"]}
{"id": "C69", "title": "Registered precisions reach the right layer and nothing is lost", "statement": "With skip_precision_reg=False, to_proxy_model files the derived configuration of every layer (except lookup tables) under the layer's name in the overrides of a quantizer: its own if the layer is followed by one, else the first found along the data flow, else against it. No configuration overwrites another one and earlier entries such as parallelization factors stay; nothing else is written; the call fails exactly if no quantizer is connected, no configuration can be derived, or overrides without 'layers' were given. (The parallelization factor of a layer applied twice is filed under the original name only, so its second copy has none.)", "quantifier": "all proxy graphs, names, overrides, quantizer states", "why_tests_cant": "All graphs with branches and layers without quantizers; order of registration.", "anchors": ["src/HGQ/proxy/precision_derivation.py:_get_next_quantizer", "src/HGQ/proxy/precision_derivation.py:_get_last_quantizer", "src/HGQ/proxy/precision_derivation.py:get_whatever_quantizer", "src/HGQ/proxy/precision_derivation.py:register_qconf", "src/HGQ/proxy/convert.py:to_proxy_model", "src/HGQ/proxy/convert.py:ProxyLayerXFormer.__call__"]}
{"id": "C70", "title": "A proxy with lookup tables computes the same outputs", "statement": "On every input, every element of every tensor a proxy computes is a number of the precision derived for its layer. With unary_lut_max_table_size set, to_proxy_model gives a proxy in which every layer outside the tables returns the same tensor on every input as without tables, provided each tabulated activation is read by layers asking for at least its precision, by one uniform quantizer, or by quantizers truncating or rounding half up within the requested range. (Fails otherwise: an activation such as x/3 read by a reshape is rounded in the table, so the outputs differ.)", "quantifier": "all proxy networks, quantizer states, inputs, table limits, conversion orders", "why_tests_cant": "All inputs and networks; a table is right at every point only if the formats derived on both sides are.", "anchors": ["src/HGQ/proxy/unary_lut.py:xfr_to_unary_lut", "src/HGQ/proxy/unary_lut.py:UnaryLUT.from_activation", "src/HGQ/proxy/unary_lut.py:UnaryLUT.call", "src/HGQ/proxy/convert.py:to_proxy_model"]}
{"id": "C71", "title": "Firmware in the registered types computes what the proxy computes", "statement": "Take the types get_config derives for every layer (weight, accumulator, bias, result, table) as the types of a circuit: every layer rounds its result to its result type, uniform quantizers that are the only reader of their input are left out, dense and convolution layers round weights, products and bias to their types and add up in the accumulator type in any order, whatever overflows on the way, tanh and sigmoid are read from tables of the registered size and type, and layers replaced by lookup tables read theirs. Then the outputs of the network are, on every input, bit by bit those of the proxy, if the quantizers have settled, every type has a bit and tensors are read by one uniform quantizer, by layers asking for everything, or by wrapping or sufficiently wide quantizers that truncate or round half up. With accum_fp_max_offset every term of a sum loses less than one unit of the accumulator. (Fails with accum_fp_max_offset too small, for wrapping quantizers with ties to zero, and for a quantizer of zero bits, whose type is printed with one bit.)", "quantifier": "all networks, quantizer states, inputs, orders of addition", "why_tests_cant": "All inputs and all orders of addition, including intermediate overflow; the guarantee 'bit-accurate' is about the whole network.", "anchors": ["src/HGQ/proxy/precision_derivation.py:get_config_wight_accum_result_bias", "src/HGQ/proxy/precision_derivation.py:get_config", "src/HGQ/proxy/precision_derivation.py:get_result_kifRS", "src/HGQ/proxy/precision_derivation.py:result_kifRS_layer_with_fusible_quantizer", "src/HGQ/proxy/precision_derivation.py:derive_result_kifRS_from_next_quantizers", "src/HGQ/proxy/fixed_point_quantizer.py:FixedPointQuantizer.fusible", "src/HGQ/utils/utils.py:tuple_to_apf"]}
{"id": "C72", "title": "A converted QKeras layer computes the function of the QKeras layer", "statement": "With the qkeras plugin, a layer whose variables are a kernel and possibly a bias becomes its Keras base class applied with the quantized kernel and bias, followed by layers equivalent to its activation quantizer: on every input the results are those of the QKeras layer, whatever the base class computes. All settings survive except those whose name contains quantize, kernel_range, bias_range, constraint, activation or initializer. The conversion fails for classes Keras does not have, for settings the base class does not know, and for names containing two of these words. (Fails for layers whose variables have other names, such as depthwise kernels or batch-norm statistics: these are not copied, and the converted layer silently computes with freshly initialised values.)", "quantifier": "all QKeras layers, base classes, configurations, weights, inputs", "why_tests_cant": "All layer classes and settings; which variables are copied depends on their names, so tests with dense and convolution layers cannot see the others.", "anchors": ["src/HGQ/proxy/plugins/qkeras.py:qlayer_to_keras_layer", "src/HGQ/proxy/plugins/qkeras.py:qlayer_to_proxy_layer"]}
{"id": "C73", "title": "Registered table sizes have one entry per input", "statement": "The table of size table_size registered for a tanh (sigmoid), spread over [-4, 4) ([-8, 8)), has as its points exactly the multiples of the resolution derived for its input, each once, if that resolution is at most 4 (8): an input within the range reads the activation at itself, an input outside reads it at the nearest end, so an increasing bounded activation is off by at most its rise beyond the end. Any other activation gets as many entries as there are numbers of the input's precision. (Fails for coarser inputs: with multiples of 8 the table of tanh has one entry, its value at -4, also read for input 0; with multiples of 16 it is registered with 0 entries.)", "quantifier": "all networks, quantizer states, inputs, activations", "why_tests_cant": "All input precisions; the table size is derived far away from the activation it is for.", "anchors": ["src/HGQ/proxy/precision_derivation.py:get_config_table_tablesize_result", "src/HGQ/proxy/precision_derivation.py:get_config", "src/HGQ/proxy/precision_derivation.py:get_input_kifs"]}
{"id": "C74", "title": "Bit operations behind passive layers: every element is priced at its exact width or one bit more", "statement": "Behind any network of reshape, flatten, dropout, permute, concatenate and pooling layers on top of calibrated layers and signatures, the bitwidth each element has during training is the exact one or one bit more, so the bit operations a dense or convolution layer reports are at least the exact ones; every value leaving a network of reshapes, concatenations and max poolings is one of the values entering it, at an exact width at least the one it entered with. A layer that reads the input of the model without a quantizer or signature in between raises. (Fails for passive layers called twice: layers behind a shared reshape, flatten, dropout or pooling silently report no bit operations and pay no penalty, and counting raises; behind a shared concatenation the widths of its first call are counted.)", "quantifier": "all networks of passive layers, ranges, kernels, inputs", "why_tests_cant": "All network topologies; an AssertionError raised anywhere on the way is swallowed, so errors show as missing numbers.", "anchors": ["src/HGQ/layers/base.py:ABSBaseLayer.last_layer", "src/HGQ/layers/base.py:ABSBaseLayer.input_bw", "src/HGQ/layers/base.py:ABSBaseLayer.input_bw_exact", "src/HGQ/layers/base.py:HLayerBase.act_bw", "src/HGQ/layers/base.py:HLayerBase.act_bw_exact", "src/HGQ/layers/passive_layers.py:PLayerBase.act_bw", "src/HGQ/layers/passive_layers.py:PLayerBase.act_bw_exact", "src/HGQ/layers/passive_layers.py:PConcatenate.act_bw", "src/HGQ/layers/passive_layers.py:PConcatenate.input_bw", "src/HGQ/layers/passive_layers.py:PConcatenate.act_bw_exact", "src/HGQ/layers/passive_layers.py:PPool2D.act_bw", "src/HGQ/layers/passive_layers.py:PPool2D.act_bw_exact", "src/HGQ/layers/passive_layers.py:PPool1D.act_bw", "src/HGQ/layers/passive_layers.py:PPool1D.act_bw_exact", "src/HGQ/layers/passive_layers.py:Signature.act_bw", "src/HGQ/layers/dense.py:HDense.forward", "src/HGQ/layers/dense.py:HDense.compute_exact_bops", "src/HGQ/layers/conv.py:HConv.forward", "src/HGQ/layers/conv.py:HConv.compute_exact_bops"]}
{"id": "C75", "title": "Saved lookup tables load to the same function", "statement": "A lookup-table layer that is saved and loaded has the same precisions and gives the same output on every input, although its configuration holds neither the table nor the rounding and overflow modes it was made with; saving it again stores the same. It loads exactly if the loading process allows its size (LUT_SIZE_LIMITATION) and it has one entry for every input value; tables made for an activation always have, so they load under the limit they were made under. A layer made from the configuration alone, without the stored variable, gives 0 on every input.", "quantifier": "all tables, precisions, modes, size limits, inputs", "why_tests_cant": "All tables and inputs; the table is re-created as zeros before the stored values arrive.", "anchors": ["src/HGQ/proxy/unary_lut.py:UnaryLUT.__init__", "src/HGQ/proxy/unary_lut.py:UnaryLUT.build", "src/HGQ/proxy/unary_lut.py:UnaryLUT.get_config", "src/HGQ/proxy/unary_lut.py:UnaryLUT.call"]}
{"id": "C76", "title": "Saved input signatures keep their widths", "statement": "A Signature layer restored from its configuration has the same keep_negative, bits and int_bits for every element as the saved one, whether they were given per tensor, per channel or per element, and whether it was saved before or after it was built (inputs without an axis of length 0, int8 widths).", "quantifier": "all widths, input shapes", "why_tests_cant": "All shapes and broadcasts; the configuration holds nested lists.", "anchors": ["src/HGQ/layers/passive_layers.py:Signature.__init__", "src/HGQ/layers/passive_layers.py:Signature.build", "src/HGQ/layers/passive_layers.py:Signature.get_config"]}
{"id": "C77", "title": "Activations given to dense and convolution layers reach the proxy", "statement": "A layer other than HActivation is constructed exactly with no activation, or with a name or a function whose __name__ is relu or linear in any mix of upper and lower case. With None, 'relu' or 'linear' the proxy of a calibrated layer gives on every input within the calibrated range what the layer gives. With any other accepted function the proxy gives the values before the activation, so it agrees with the layer exactly on the inputs whose values the activation leaves alone. (So with a function called relu that is not tf.keras.activations.relu itself, such as tf.nn.relu, the proxy silently drops the ReLU.)", "quantifier": "all arguments, layers, calibrations, inputs", "why_tests_cant": "All callables: any function may be called relu, and the proxy recognises one object only.", "anchors": ["src/HGQ/layers/base.py:HLayerBase.__init__", "src/HGQ/layers/base.py:HLayerBase._relu_act", "src/HGQ/layers/dense.py:HDense.jit_forward", "src/HGQ/layers/conv.py:HConv.jit_forward", "src/HGQ/proxy/convert.py:to_keras_layer", "src/HGQ/proxy/convert.py:ProxyLayerXFormer.__call__"]}
{"id": "C78", "title": "The firmware gives the outputs of the HGQ model on the calibration data", "statement": "Calibrate a model with trace_minmax, convert it with to_proxy_model and build the circuit whose layers have the types and table sizes register_qconf registers for the proxy. On every batch of samples of the calibration data the circuit delivers, for each sample, bit by bit the outputs the HGQ model gives, however the sums of dense and convolution layers are added up, provided the promises of the input signatures hold, no layer's format is out of bounds and the registered types are those the quantizers end with. The same with tanh, sigmoid and lookup tables in place of activations. Dense and convolution layers of the proxy, with any padding, strides and bias, are layers of the circuit with the kernel's rows in order.", "quantifier": "all models, calibration data, batches, samples, orders of addition", "why_tests_cant": "The whole chain from calibration over conversion and registration to the circuit, for all models; each step has its own conditions, and a test with one network cannot show that they fit together.", "anchors": ["src/HGQ/proxy/convert.py:to_proxy_model", "src/HGQ/proxy/convert.py:ProxyLayerXFormer.__call__", "src/HGQ/utils/utils.py:trace_minmax", "src/HGQ/proxy/precision_derivation.py:register_qconf", "src/HGQ/proxy/precision_derivation.py:get_config", "src/HGQ/proxy/precision_derivation.py:get_produced_kif", "src/HGQ/proxy/precision_derivation.py:get_request_kif"]}
{"id": "C79", "title": "Registering precisions leaves the outputs of the proxy alone where nothing overflows", "statement": "register_qconf shrinks the quantizers of a proxy network to the precision their inputs have. On every input on which no quantizer overflows before (every element, rounded to the resolution of its format, is a number of that format), all layers deliver the same outputs after registration as before, and still no quantizer overflows; in all rounding modes, with WRAP, WRAP_SM, SAT or SAT_ZERO, provided no heterogeneous quantizer loses integer bits on an element with fewer fractional bits than are kept; quantizers that treat all elements alike meet this unless no bits are left. (Fails where a quantizer overflows: a value beyond its range is then saturated to a coarser number; for a heterogeneous quantizer an element may gain fractional bits, so it no longer rounds; with SAT_SYM the most negative number of the smaller format is changed.)", "quantifier": "all proxy networks, quantizer states, inputs, tables", "why_tests_cant": "All networks and formats; the quantizers are changed in place as a side effect of asking for types.", "anchors": ["src/HGQ/proxy/precision_derivation.py:register_qconf", "src/HGQ/proxy/precision_derivation.py:get_config", "src/HGQ/proxy/precision_derivation.py:get_produced_kif", "src/HGQ/proxy/precision_derivation.py:get_input_kifs", "src/HGQ/proxy/fixed_point_quantizer.py:FixedPointQuantizer.call"]}
{"id": "C80", "title": "Firmware in the registered types is right although the quantizers shrink during registration", "statement": "to_proxy_model registers the layers one after the other; each gets types derived from the quantizers as they are at that moment, and quantizers are shrunk on the way, so earlier layers have types for quantizers that no longer exist. Still, on every input on which no quantizer of the proxy as converted overflows, the circuit in the registered types, with the quantizers as they are in the end, delivers bit by bit the outputs of the proxy as converted, however sums are added up, under the conditions on types and readers of the firmware property at the moment of registration and those of the property before, provided no heterogeneous quantizer has become uniform. (Fails if one has: shrinking two formats to the same one makes the quantizer removable, but the layer before it was typed for a quantizer that stays, so the circuit skips the rounding: 5/4 instead of 3/2.)", "quantifier": "all proxy networks, quantizer states, inputs, tables, orders of addition", "why_tests_cant": "All networks and moments of registration; types and quantizers come from different states of the same mutable variables.", "anchors": ["src/HGQ/proxy/precision_derivation.py:register_qconf", "src/HGQ/proxy/precision_derivation.py:get_config", "src/HGQ/proxy/precision_derivation.py:get_result_kifRS", "src/HGQ/proxy/precision_derivation.py:result_kifRS_layer_with_fusible_quantizer", "src/HGQ/proxy/precision_derivation.py:get_produced_kif", "src/HGQ/proxy/precision_derivation.py:get_request_kif", "src/HGQ/proxy/fixed_point_quantizer.py:FixedPointQuantizer.fusible", "src/HGQ/proxy/fixed_point_quantizer.py:FixedPointQuantizer.heterogeneous", "src/HGQ/proxy/fixed_point_quantizer.py:FixedPointQuantizer.get_config", "src/HGQ/proxy/convert.py:to_proxy_model"]}
{"id": "C81", "title": "Layers follow the arguments they are constructed with", "statement": "A class accepts its own arguments only: an argument that another HGQ class takes is rejected, not ignored. A configuration that is left out, None or empty means the default one at that time, any other is used as given. In a built layer the kernel quantizer and the pre-activation quantizer have one width per element of the kernel or of the output, shared along exactly the axes skip_dims names ('all', 'batch', 'none', 'except_last', 'except_1st', None, or a list of axis numbers, counted from the end if negative), and the variables and ranges have that shape. A dense layer without parallel_factor that is applied to several vectors of a sample gets their number; a given parallel_factor stays. A batch-norm layer centers exactly if it is asked to and has a bias.", "quantifier": "all classes, arguments, configurations, shapes", "why_tests_cant": "All shapes, ranks and settings; keras keeps the arguments it is given, and which ones it sees depends on the class hierarchy.", "anchors": ["src/HGQ/layers/base.py:HLayerBase.__init__", "src/HGQ/layers/base.py:HLayerBase.init_quantizers", "src/HGQ/layers/base.py:HLayerBase.post_build", "src/HGQ/quantizer/quantizer.py:HGQ._compute_bw_shape_and_degeneracy", "src/HGQ/layers/dense.py:HDense.post_build"]}
{"id": "C82", "title": "No quantizer of the proxy overflows on the calibration data, and the firmware is right however the quantizers shrink", "statement": "Calibrate a model with trace_minmax (cover_factor at least 1), convert it with to_proxy_model and let it register the precisions, during which quantizers are shrunk. If every unit of every ReLU layer was positive on some calibration sample, and ReLU layers truncate (as with rnd_strategy 'auto') or at least one of their units was negative and no recorded minimum is the negative of a power of two, then on every batch of samples of the calibration data no quantizer of the proxy as converted overflows, and the circuit in the registered types, with the quantizers as they are in the end, delivers bit by bit the outputs of the HGQ model. Layers without ReLU need no condition.", "quantifier": "all models, calibration data, batches, samples, orders of addition", "why_tests_cant": "The whole chain, with quantizers that change during registration; that nothing overflows is a fact about all layers and samples at once.", "anchors": ["src/HGQ/proxy/convert.py:to_proxy_model", "src/HGQ/proxy/convert.py:ProxyLayerXFormer.__call__", "src/HGQ/proxy/convert.py:ProxyLayerXFormer.get_kbiRS", "src/HGQ/utils/utils.py:trace_minmax", "src/HGQ/proxy/precision_derivation.py:register_qconf", "src/HGQ/proxy/precision_derivation.py:get_config", "src/HGQ/proxy/precision_derivation.py:get_produced_kif", "src/HGQ/proxy/fixed_point_quantizer.py:FixedPointQuantizer.call", "src/HGQ/quantizer/quantizer.py:HGQ.get_bits_exact"]}
{"id": "C83", "title": "trace_minmax returns the predictions of the calibrated model", "statement": "With return_predictions=True and a model with one output, row j of the returned array is what the model gives for row j of the dataset in any batch, before and after the calibration, whatever the batch size. For a model with several outputs of one shape, and batches of one size, the array holds the output tensors one after the other, batch by batch; otherwise numpy raises although the calibration is done.", "quantifier": "all models, datasets, batch sizes, cover factors, quantizer states", "why_tests_cant": "All models, data and batch sizes; predictions are made while the ranges are still growing.", "anchors": ["src/HGQ/bops/bops.py:trace_minmax"]}
{"id": "C84", "title": "The one-off bitwidth adaptation of HDenseBatchNorm under tf.function", "statement": "However tracings and runs of graphs (as in model.fit), calls without graph and changes of the weights are interleaved, the kernel bitwidths are adapted by the first training call if it is made without a graph, and otherwise by every run of the graph traced first, each time to its own batch and the weights of that time; nothing else adapts them. So it is not a one-off: running that graph again on the same batch and weights moves every bitwidth by the same amount again until it reaches its limit, and if the graph traced first is not the one that is run, nothing is ever adapted.", "quantifier": "all histories of tracings, runs, calls and updates, layers, batches", "why_tests_cant": "All histories; tests call the layer without a graph, where it does adapt once.", "anchors": ["src/HGQ/layers/dense.py:HDenseBatchNorm.forward", "src/HGQ/layers/batchnorm_base.py:HBatchNormBase.adapt_fused_bn_kernel_bw_bits", "src/HGQ/quantizer/quantizer.py:HGQ.adapt_bw_bits"]}
{"id": "C85", "title": "Calibrating from scratch does not depend on what was recorded before", "statement": "trace_minmax with rst=True depends on the weights, bitwidths and settings of the model's layers only: on two states of a model that agree in those it returns the same BOPs and predictions and leaves the same layers behind, or raises on both. So earlier calibrations, with any data, cover factor and arguments, leave no trace, and a model that was saved and loaded calibrates to the same layers as the one that was saved, and converts to the same proxy. (With rst=False a loaded model records nothing: trace_minmax succeeds, the conversion to a proxy then raises.)", "quantifier": "all models, recorded ranges, datasets, batch sizes, cover factors, numbers of earlier calibrations", "why_tests_cant": "All models and histories; what is recorded is hidden state of each layer, and recording is switched on and off along the way.", "anchors": ["src/HGQ/bops/bops.py:trace_minmax", "src/HGQ/layers/base.py:HLayerBase.reset_minmax", "src/HGQ/layers/base.py:HLayerBase.call", "src/HGQ/quantizer/quantizer.py:HGQ.minmax_reg_reset"]}
{"id": "C86", "title": "The gradients of a training step are those of a smooth function", "statement": "Whenever the forward pass of a training step succeeds, for any network of HGQ layers (dense, convolution, activation, merge, with or without fused batch norm, HBatchNormalization after its first call where no scale is zero) and layers without variables, its gradients with respect to weights, biases, gammas, bitwidths and inputs, in any direction, are the true derivatives of one smooth function: the network without rounding, where each quantizer adds the rounding error it made in this step, shrinking like 2^-f as its bitwidth f grows (to first order); ReLU units that are off stay off; 1/sqrt and activation functions enter with their derivative, and the batch statistics and the scale of batch norm take part. In a dense or convolution layer this means: each quantizer passes the gradient of its input through unchanged and gives its bitwidth the gradient -ln 2 times the rounding error, the bias the same with the largest bitwidth of its channel.", "quantifier": "all networks, weights, bitwidths, batches, directions, rounding modes, random draws", "why_tests_cant": "A statement about derivatives of a composition of arbitrarily many layers; tests can only compare numbers, and finite differences of a rounded network are zero or infinite.", "anchors": ["src/HGQ/quantizer/quantizer.py:HGQ.forward", "src/HGQ/quantizer/quantizer.py:HGQ.bias_forward", "src/HGQ/quantizer/quantizer.py:HGQ.__call__", "src/HGQ/layers/dense.py:HDense.jit_forward", "src/HGQ/layers/dense.py:HDenseBatchNorm.bn_train_jit_forward", "src/HGQ/layers/conv.py:HConv.jit_forward", "src/HGQ/layers/conv.py:HConvBatchNorm.bn_train_jit_forward", "src/HGQ/layers/batchnorm_base.py:HBatchNormalization.forward"]}
{"id": "C87", "title": "Bit operations of HBatchNormalization", "statement": "For an HBatchNormalization over any axes (counted from the front or the end) behind a calibrated layer, compute_exact_bops is the sum over the elements of a sample of the exact bits of the element times the bits of the quantized scale gamma / sqrt(variance + epsilon) at the element's position along those axes, sign not counted; the bops variable after an inference call is at least that (if the call adapts the bitwidths, with the adapted ones). Building the layer succeeds exactly for axes in range other than the batch axis, each given once. In training the moving statistics of each channel move towards the mean and the variance of its elements over the whole batch.", "quantifier": "all ranks, axes, parameters, bitwidths, ranges", "why_tests_cant": "All shapes and axes; the product is a broadcast of two tensors whose shapes have to line up.", "anchors": ["src/HGQ/layers/batchnorm_base.py:HBatchNormalization.forward", "src/HGQ/layers/batchnorm_base.py:HBatchNormalization.compute_exact_bops", "src/HGQ/layers/batchnorm_base.py:HBatchNormalization.post_build", "src/HGQ/quantizer/quantizer.py:HGQ.get_bits_exact"]}
{"id": "C88", "title": "The life of an HBatchNormalization layer", "statement": "The first call of a layer outside a graph, in training or at inference, adapts the bitwidths of the scale to the scale it uses, afterwards no call changes them. (A functional model never adapts them: tracing the layer while the model is built takes the flag down in a graph that is thrown away. With center=False or scale=False every training call raises. to_proxy_model always raises for it. Its configuration holds none of axis, momentum, epsilon, center and scale: after loading, these have their defaults, so weights do not fit or the layer computes something else.)", "quantifier": "all histories of tracings, runs and calls, layers, batches, axes", "why_tests_cant": "All histories and settings; tests call the layer by itself, with the defaults.", "anchors": ["src/HGQ/layers/batchnorm_base.py:HBatchNormalization.forward", "src/HGQ/layers/batchnorm_base.py:HBatchNormalization.post_build", "src/HGQ/layers/batchnorm_base.py:HBatchNormBase._post_build", "src/HGQ/layers/base.py:HLayerBase.get_config", "src/HGQ/layers/base.py:HLayerBase.get_keras_config", "src/HGQ/proxy/convert.py:to_keras_layer"]}
{"id": "C89", "title": "The attention layer attends to a set of keys and values", "statement": "HMultiHeadAttention on inputs of known shape delivers, for every query and head, the average of the projected values with positive weights adding up to one, proportional to the exponential of the scaled product of projected query and key plus the mask, the heads side by side through the output layer. So the result for a query does not depend on the order of the keys and values, on the other queries or on the other samples of the batch, nor on training and dropout (which is never applied). Without value_dim, or with 0, it is key_dim. (Fails for inputs of unknown batch size or length, as in functional models: raises. compute_output_shape gives value_dim * num_heads, the outputs have the width of the values given.)", "quantifier": "all numbers of heads, dimensions, weights, inputs, masks, permutations", "why_tests_cant": "All shapes and permutations; reshapes and transposes line up heads and positions by index arithmetic.", "anchors": ["src/HGQ/layers/experimental/attn.py:HMultiHeadAttention.call", "src/HGQ/layers/experimental/attn.py:HMultiHeadAttention.attn_build", "src/HGQ/layers/experimental/attn.py:HMultiHeadAttention.compute_output_shape"]}
{"id": "C90", "title": "Networks, calibration and proxy models in IEEE single precision", "statement": "If in every layer called the weights, the terms of each sum and the formats leave room in the 24 bits of a float32 significand (terms multiples of 2^G whose absolute values add up to at most 2^(G+23), formats of at most 23 bits), then a whole model evaluated in float32, adding in any order, returns exactly what it returns in exact arithmetic and records the same ranges; trace_minmax with cover factor 1 returns the same BOPs and predictions and leaves the same layers; and the proxy model converted in float32 returns, in float32 and whatever its own order of additions, exactly the output of the model on every batch of calibration samples.", "quantifier": "all models, weights, bitwidths, batches, datasets, orders of summation (fused or not)", "why_tests_cant": "All networks and all orders of summation; which order is used depends on device, batch size and graph optimisation, and the tests compare with a tolerance.", "anchors": ["src/HGQ/layers/base.py:HLayerBase.call", "src/HGQ/layers/dense.py:HDense.jit_forward", "src/HGQ/bops/bops.py:trace_minmax", "src/HGQ/proxy/convert.py:to_proxy_model", "src/HGQ/proxy/convert.py:ProxyLayerXFormer"]}
{"id": "C91", "title": "Converting a model does not depend on other models that share its layers", "statement": "The nodes the conversion finds for a model are the calls of its layers, each once, including calls made in other models. Yet to_proxy_model (convert_model with any layer transformer) delivers the model and the names that the model's own graph determines: two sessions in which the model has the same graph give the same result, whatever other models use its layers, contain it or were built before or after, in whatever order Python goes through the set of nodes; and the converted model computes what the model's graph computes.", "quantifier": "all sessions, graphs, nested models, orders of the set, transformers", "why_tests_cant": "All sessions; the order of a set of objects changes from run to run, and tests convert one model built by itself.", "anchors": ["src/HGQ/proxy/convert.py:get_all_nodes", "src/HGQ/proxy/convert.py:solve_dependencies", "src/HGQ/proxy/convert.py:_get_out_tensor", "src/HGQ/proxy/convert.py:apply_layer", "src/HGQ/proxy/convert.py:convert_model"]}
{"id": "C92", "title": "Converting a model again gives the same model with the same names", "statement": "The graph a conversion delivers does not depend on the names of the layers. It renames no layer that the transformer replaces by a new one. If all layers passed on to the new model are new, or have different names, no layer of the model is renamed, and converting again, any number of times, gives the same model with the same names (in the second case the names the layers have). (Fails when a layer used several times is itself passed on, as by convert_model without transformer, or a plain Keras layer in to_proxy_model: the layer of the original model is renamed, and converting again gives other names.)", "quantifier": "all models, transformers, names", "why_tests_cant": "All models and names; the renaming is a side effect on the original model that shows only when a layer is used twice.", "anchors": ["src/HGQ/proxy/convert.py:Namer.next_name", "src/HGQ/proxy/convert.py:apply_layer", "src/HGQ/proxy/convert.py:convert_model"]}
{"id": "C93", "title": "The proxy model agrees on all data inside the calibrated ranges, and cover_factor widens them", "statement": "After trace_minmax with cover_factor at least 1, to_proxy_model gives a model that agrees bit by bit with the HGQ model on every batch that stays inside the calibrated ranges (calling the model on it with record_minmax on would change no range), whether or not its samples were in the calibration data; the calibration data itself is inside. Increasing cover_factor makes every range wider or leaves it, so data inside stays inside; and if every range has two different ends, any batch the model accepts is inside from some cover_factor on. (A channel that had one single value throughout the calibration gets no margin from any cover_factor.)", "quantifier": "all models, datasets, unseen batches, cover factors", "why_tests_cant": "Quantifies over data that was never seen; tests compare the models on the calibration data or on samples that happen to fit.", "anchors": ["src/HGQ/bops/bops.py:trace_minmax", "src/HGQ/proxy/convert.py:to_proxy_model", "src/HGQ/layers/base.py:HLayerBase.call", "src/HGQ/quantizer/quantizer.py:HGQ.forward"]}
{"id": "C94", "title": "A cover_factor in single precision covers the data, and the proxy agrees", "statement": "Whatever put finite ranges on the grid into the layers (calibration, restored weights, ranges with rounding errors), the proxy model agrees with the model on every batch inside them, in exact arithmetic and, if the layers leave room in the float32 significand, in float32 with any order of additions. In particular for trace_minmax in float32 with any cover_factor from 1 to 2^40, if the ranges of the data have at most 23 bits: the predictions are those of exact arithmetic, every range contains the exact range of the data, and from calibration to proxy model nothing but float32 is needed for the proxy to agree on all data inside the ranges, the calibration data included. A positive cover_factor up to 1 keeps every range inside the recorded one and never turns it around; factors that are not positive are refused. (The ranges themselves need not be those of exact arithmetic: mean and half width times cover_factor are rounded, and both ends can come out nearer to the middle.)", "quantifier": "all models, ranges, datasets, unseen batches, cover factors up to 2^40, orders of summation", "why_tests_cant": "All cover factors and ranges; whether a rounding error cuts off the largest value seen depends on the last bits of three roundings.", "anchors": ["src/HGQ/bops/bops.py:trace_minmax", "src/HGQ/proxy/convert.py:to_proxy_model", "src/HGQ/proxy/convert.py:ProxyLayerXFormer", "src/HGQ/layers/base.py:HLayerBase.call"]}
{"id": "C95", "title": "The firmware agrees with the model on all data inside the calibrated ranges", "statement": "After trace_minmax with cover_factor at least 1 the model is converted, the precisions are derived (and registered, shrinking quantizers), and a firmware is built from the registered types with any order of accumulation. On every batch that stays inside the calibrated ranges, whether or not its samples were in the calibration data, the firmware delivers sample by sample the very outputs of the HGQ model, and also of the HGQ model run in float32 with any order of additions if the layers leave room in the float32 significand; no quantizer of the proxy model overflows on such data if every ReLU layer is steady (C82).", "quantifier": "all models, datasets, unseen batches, cover factors, orders of accumulation", "why_tests_cant": "Quantifies over data never seen and over all models; co-simulation compares a few samples with a tolerance, mostly those used for the calibration.", "anchors": ["src/HGQ/bops/bops.py:trace_minmax", "src/HGQ/proxy/convert.py:to_proxy_model", "src/HGQ/layers/base.py:HLayerBase.call", "src/HGQ/proxy/precision_derivation.py:get_config", "src/HGQ/proxy/precision_derivation.py:register_qconf"]}
{"id": "C96", "title": "A saved proxy model loads to the same function and the same registered precisions", "statement": "A proxy model can be saved exactly when all sign flags are 0 or 1 and every quantizer is called once, on one layer. What load_model returns is the model as it is in memory after saving: same overrides (the precisions and factors registered for every layer), same lookup tables (if the process that loads allows their size), negative widths set to 0. So if no width is negative the loaded model has the same outputs on all inputs, the same registered configuration, and is stored the same again. That is the case after registering the precisions if the quantizers shrink evenly; then the loaded proxy delivers what the proxy delivered before the registration wherever nothing overflowed. (Otherwise not: registering can leave a quantizer with a negative number of bits, and then get_config, which saving calls, changes the outputs of the model in memory and of the loaded one.)", "quantifier": "all proxy networks, quantizers, tables, overrides, inputs", "why_tests_cant": "All networks; tests save single layers, and the change made by get_config needs a quantizer that the registration left without bits.", "anchors": ["src/HGQ/proxy/fixed_point_quantizer.py:FixedPointQuantizer.get_config", "src/HGQ/proxy/fixed_point_quantizer.py:FixedPointQuantizer.from_config", "src/HGQ/proxy/unary_lut.py:UnaryLUT.get_config", "src/HGQ/proxy/precision_derivation.py:register_qconf"]}
{"id": "C97", "title": "Every mode of the proxy quantizer in IEEE single precision", "statement": "gfixed_quantizer evaluated in float32 returns exactly the value it returns without rounding errors, in each of the 7 rounding and 5 overflow modes, for every format of at most 22 bits and every float whose scaled value is a float: the wrapping modes below 2^22 steps, the saturating ones without bound. A call of a FixedPointQuantizer on a batch likewise returns the tensor it returns without rounding errors. The only exceptions are the float next below 1/2 as scaled value under RND and RND_INF and its negative under RND_MIN_INF and RND_INF: there the result is one step where it should be 0. Every value of such a format passes unchanged. (Width 22 is not arbitrary: in a signed format of 24 bits WRAP_SM turns 1 into 2.)", "quantifier": "all floats, formats, rounding and overflow modes", "why_tests_cant": "2^32 inputs times all formats and 35 modes; the exceptional inputs are single floats.", "anchors": ["src/HGQ/proxy/fixed_point_quantizer.py:gfixed_quantizer", "src/HGQ/proxy/fixed_point_quantizer.py:RND", "src/HGQ/proxy/fixed_point_quantizer.py:RND_ZERO", "src/HGQ/proxy/fixed_point_quantizer.py:RND_MIN_INF", "src/HGQ/proxy/fixed_point_quantizer.py:RND_INF", "src/HGQ/proxy/fixed_point_quantizer.py:RND_CONV", "src/HGQ/proxy/fixed_point_quantizer.py:TRN", "src/HGQ/proxy/fixed_point_quantizer.py:TRN_ZERO", "src/HGQ/proxy/fixed_point_quantizer.py:SAT", "src/HGQ/proxy/fixed_point_quantizer.py:SAT_ZERO", "src/HGQ/proxy/fixed_point_quantizer.py:SAT_SYM", "src/HGQ/proxy/fixed_point_quantizer.py:WRAP", "src/HGQ/proxy/fixed_point_quantizer.py:WRAP_SM"]}
{"id": "C98", "title": "Casts through finer and wider types change nothing, and a wrapping accumulator may overflow", "statement": "fixed, ufixed and gfixed in their default modes (TRN, WRAP): a cast through any type with at least as many integer and fractional bits, signed or not, gives what the direct cast gives, for every value. The same with SAT if the inner range covers the outer one. ufixed and fixed of one width read the same bits. Numbers on the grid of a wrapping accumulator, added one by one with a cast after each addition, give the true sum if the accumulator can hold it, and after a cast to a type of at most as many integer bits the cast of the true sum, however often the accumulator overflowed. (Fails for every mode that rounds to nearest: two roundings are not one; and for a saturating accumulator, which is off after an overflow.)", "quantifier": "all values, pairs of types, lists of terms", "why_tests_cant": "All pairs of types, all values far outside of them, sums of any length; double rounding shows on a few values only.", "anchors": ["src/HGQ/proxy/fixed_point_quantizer.py:gfixed", "src/HGQ/proxy/fixed_point_quantizer.py:ufixed", "src/HGQ/proxy/fixed_point_quantizer.py:fixed", "src/HGQ/proxy/fixed_point_quantizer.py:gfixed_quantizer", "src/HGQ/proxy/fixed_point_quantizer.py:TRN", "src/HGQ/proxy/fixed_point_quantizer.py:WRAP", "src/HGQ/proxy/fixed_point_quantizer.py:SAT"]}
