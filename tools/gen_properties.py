#!/usr/bin/env python3
"""Writes /verif/properties.jsonl.  One P(...) per property; ids are assigned in order and never reused."""
import json
OUT = []
def P(title, statement, quantifier, why, anchors):
    OUT.append(dict(id=f"C{len(OUT)+1:02d}", title=title, statement=statement, quantifier=quantifier,
                    why_tests_cant=why, anchors=anchors))
FPQ="src/HGQ/proxy/fixed_point_quantizer.py"; QZ="src/HGQ/quantizer/quantizer.py"; CV="src/HGQ/proxy/convert.py"
PD="src/HGQ/proxy/precision_derivation.py"; UL="src/HGQ/proxy/unary_lut.py"; UT="src/HGQ/utils/utils.py"
BASE="src/HGQ/layers/base.py"; DN="src/HGQ/layers/dense.py"; CONV="src/HGQ/layers/conv.py"; BN="src/HGQ/layers/batchnorm_base.py"
MS="src/HGQ/layers/misc.py"; PL="src/HGQ/layers/passive_layers.py"; BO="src/HGQ/bops/bops.py"; QK="src/HGQ/proxy/plugins/qkeras.py"
def a(f,*s): return [f"{f}:{x}" for x in s]

# ---- the ap_fixed emulator
P("Proxy quantizer output is always representable",
  "For every input value, sign flag k in {0,1}, width b>=1 (b>=k), integer width i, rounding mode and overflow mode, the value produced by the proxy fixed-point quantizer is a number of the form m*2^-(b-i) whose integer m lies in the two's-complement range of b bits (signed if k=1, unsigned if k=0).",
  "all inputs x, all (k,b,i), all 7 rounding and 5 overflow modes",
  "Infinite input domain times unbounded widths and 35 mode pairs; tests sample a handful of widths.",
  a(FPQ,"gfixed_quantizer","SAT","SAT_ZERO","SAT_SYM","WRAP","WRAP_SM"))
P("Proxy quantizer is the identity on representable values, hence idempotent",
  "If x is already representable in the declared (k,b,i) format, quantizing it returns x, for every rounding mode and every overflow mode (for the symmetric saturation mode: unless x is the most negative code, which maps to the next one). Applying the quantizer twice gives the same result as once.",
  "all representable x / all x, all formats and modes", "Ranges over all widths and all codes; off-by-one at the extreme codes is exactly what sampled tests miss.",
  a(FPQ,"gfixed_quantizer"))
P("Rounding modes follow the documented tie rules",
  "On the scaled value, TRN rounds toward minus infinity, TRN_ZERO toward zero, and RND / RND_ZERO / RND_MIN_INF / RND_INF / RND_CONV round to the nearest integer (error at most 1/2), breaking ties upward / toward zero / downward / away from zero / to even respectively.",
  "all rational inputs", "Tie points are measure zero and are never hit by random data; the documented tie rule of RND ('ties to even') differs from what is computed.",
  a(FPQ,"TRN","RND","RND_CONV","TRN_ZERO","RND_ZERO","RND_MIN_INF","RND_INF","RND_MAP"))
P("Saturating overflow modes clamp to the format's bounds",
  "For every rounded integer v: SAT yields the closest code of the format; SAT_SYM yields the closest code of the symmetric range; SAT_ZERO yields v if v is a code of the format and 0 otherwise.",
  "all integers v, all (k,b)", "Unbounded v and widths.", a(FPQ,"SAT","SAT_SYM","SAT_ZERO","SAT_MAP"))
P("WRAP is two's-complement truncation",
  "WRAP yields the unique code of the format that is congruent to v modulo 2^b, as ap_fixed hardware does.",
  "all integers v, all (k,b)", "Unbounded v and widths; uniqueness is a universal statement.", a(FPQ,"WRAP"))
P("WRAP_SM reflects at the range bounds",
  "WRAP_SM is the identity on the format's codes, always lands in the format, has period 2^(b+1) and is symmetric about high+1/2, so neighbouring inputs map to equal or neighbouring codes (no jump).",
  "all integers v, all (k,b)", "Unbounded periodic domain.", a(FPQ,"WRAP_SM"))
P("Zero-width elements are exactly zero",
  "An element whose configured width is 0 always produces 0 regardless of its input, its stored sign/integer fields and the modes; building the proxy quantizer layer normalises sign and integer width of such elements to 0 and leaves every other element's configuration unchanged.",
  "all inputs, all per-element configurations", "Universal over inputs and per-element configurations.", a(FPQ,"gfixed_quantizer","FixedPointQuantizer.__init__"))
P("Quantization is monotone unless it wraps",
  "With an overflow mode SAT or SAT_SYM, x<=y implies Q(x)<=Q(y) for every rounding mode.",
  "all pairs x<=y, all formats, all rounding modes", "Pairs of reals; order violations at ties are not sampled.", a(FPQ,"gfixed_quantizer"))
P("Saving and loading a proxy quantizer preserves its function",
  "Serialising the proxy quantizer layer to its config, rebuilding it from that config and restoring its stored weights gives a layer computing the same function with the same rounding, overflow mode and overrides, for every configuration with non-negative widths; for a configuration with negative widths the config step changes the layer (widths are clamped to 0).",
  "all per-element configurations of any shape", "Tests save one model; the claim ranges over all heterogenous configurations, including zero-width and -128 dummy values.",
  a(FPQ,"FixedPointQuantizer.get_config","FixedPointQuantizer.from_config"))
P("Fusible / heterogeneous flags are exact",
  "A proxy quantizer is reported heterogeneous exactly when two of its elements differ in sign flag, width or integer width; when it is not heterogeneous the single exported (k,i,f) type is the type of every element, and in general the exported type contains every element's type.",
  "all per-element configurations", "Universal over tensors.", a(FPQ,"FixedPointQuantizer.heterogeneous","FixedPointQuantizer.fusible","FixedPointQuantizer.result_t_kif"))
# ---- HGQ quantizer
P("Inference quantization lands on the declared grid with bounded error",
  "At inference HGQ returns a multiple of 2^-round(f). With the floor strategy the result is in (x-2^-round(f), x]; with every other strategy |result-x| <= 2^-(round(f)+1), and ties go up. f is rounded half-to-even.",
  "all inputs, all real bitwidths f, all strategies", "Continuous inputs and trainable continuous bitwidths.", a(QZ,"HGQ.forward","q_round"))
P("Inference quantization is idempotent and deterministic",
  "At inference the quantizer applied to its own output returns it unchanged, is monotone in x, and never depends on random numbers even when the training strategy is stochastic.",
  "all inputs, bitwidths, strategies, random draws", "All random draws must be covered.", a(QZ,"HGQ.forward"))
P("Training-mode rounding strategies stay within their documented envelope",
  "During training: stochastic rounding yields floor or floor+1 for every random draw in [0,1) and never moves an integer; noise injection moves a value by at most 1/2 for every draw in [-1/2,1/2] and maps |x|<=1/2 to 0; an unknown strategy raises.",
  "all inputs and all random draws", "Random draws cannot be enumerated.", a(QZ,"q_round"))
P("Straight-through estimator: value and gradients",
  "In training mode the forward value equals the plain quantized value, the derivative with respect to the input is exactly 1, and the derivative with respect to the bitwidth is exactly -(xq-x)*ln2.",
  "all inputs, bitwidths, tangents", "Gradient tests only check 'non-zero'.", a(QZ,"HGQ.forward","HGQ.bias_forward"))
P("Gradient scaling does not change values",
  "The gradient-scaling helper used for bitwidths returns its input unchanged and multiplies the derivative by the given factor; the bitwidth regularizer is a non-negative multiple of the sum of bitwidths, hence monotone in every bitwidth.",
  "all inputs and factors", "Universal over reals.", a(BASE,"scale_grad")+a(UT,"MonoL1"))
P("Bitwidths stay inside the clip range",
  "Whatever sequence of calls, optimiser updates and adaptations is applied, every quantizer call uses bitwidths inside bw_clip, and values already inside are not changed by clipping.",
  "all histories", "Histories are unbounded.", a(QZ,"HGQ.__call__"))
P("Recorded min/max equal the true extremes since the last reset",
  "After any sequence of resets and recording calls on any batches, the recorded minimum (maximum) of each quantizer group is the minimum (maximum) of all quantized values that group produced since the last reset; with no values since the reset it is +inf (-inf). Non-recording calls change nothing.",
  "all histories of calls", "Histories of unbounded length and batch size.", a(QZ,"HGQ.forward","HGQ.minmax_reg_reset"))
P("trace_minmax does not depend on the batch size",
  "For every dataset and any two positive batch sizes, tracing leaves the same recorded ranges, hence the same bitwidths; every sample is visited exactly once and in order.",
  "all datasets, all batch sizes", "Quantifies over pairs of batch sizes and all data.", a(BO,"trace_minmax"))
P("Derived bitwidths cover the calibrated range and are minimal",
  "For a quantizer with fractional bits f and recorded grid range [min,max] with values below 2^32, the reported (k,i,f) format contains every grid value in [min,max]; k=1 exactly if min<0; and no smaller integer width would do. An all-zero range is reported as zero bits.",
  "all recorded ranges on the grid", "All ranges and widths, boundary powers of two in particular.", a(QZ,"HGQ.get_bits_exact"))
P("ReLU-aware bitwidths cover the positive part",
  "With pos_only, the reported unsigned format contains max(v,0) for every grid value v<=max, is minimal, and is zero bits exactly if max<=0.",
  "all recorded ranges", "As above.", a(QZ,"HGQ.get_bits_exact"))
P("Bitwidths cannot be derived from an untraced quantizer",
  "Asking for exact bits right after construction or reset raises; after at least one recording call on a non-empty batch it does not raise.",
  "all histories", "Histories.", a(QZ,"HGQ.get_bits_exact","HGQ.minmax_reg_reset"))
P("Exact kernel bitwidths represent each weight exactly",
  "For an array of fixed-point weights with at most 31 fractional bits, the per-weight (k,i,f) reported represents that weight exactly, zero weights get zero bits, and i+f is the minimal number of magnitude bits (in exact arithmetic; in float32 one extra bit is reported for weights equal to the largest power of two).",
  "all weight arrays", "All arrays; per-element result depends on the whole array through the maximum.", a(QZ,"get_arr_bits","HGQ.get_bits_exact")+a(BASE,"HLayerBase.kernel_bw_exact"))
P("Training-time bitwidths over-approximate the exact ones",
  "The differentiable activation and kernel bitwidths are never smaller than the exact ones computed from the same records/weights, and by at most one bit larger for activations.",
  "all ranges, all weights on the grid", "Universal inequality between two formulas.", a(QZ,"HGQ.get_bits","HGQ.get_bits_exact")+a(BASE,"HLayerBase.act_bw","HLayerBase.kernel_bw"))
P("Degeneracy counts how many values share one bitwidth",
  "For every tensor shape and every skip_dims specification, degeneracy times the number of bitwidths equals the number of (per-sample) values, and the bitwidth shape broadcasts to the input shape; unknown specification strings raise.",
  "all shapes, all skip_dims", "All ranks and shapes.", a(QZ,"HGQ._compute_bw_shape_and_degeneracy"))
P("Range recording works exactly for leading skip dims",
  "Recording of min/max succeeds when the skipped dimensions are a prefix of the shape (batch, all, except_last); for 'except_1st' on tensors with more than one channel it fails with a shape error.",
  "all shapes", "Shape arithmetic over all ranks.", a(QZ,"HGQ.forward","HGQ.init_minmax"))
P("Kernel bit adaptation equalises the number of bits",
  "After adapting to a non-zero kernel with a common starting bitwidth b, each weight w gets fractional bitwidth b-log2|w| (the minimum over its group), so weights of every magnitude get the same number of significant bits up to rounding; zero weights end up at the upper clip after the next call.",
  "all kernels", "All magnitudes.", a(QZ,"HGQ.adapt_bw_bits"))
P("Bias is quantized on the finest grid of its channel",
  "The quantized bias of a channel is a multiple of 2^-round(max f over that channel), so it is representable at every output position's finest grid, and the same value is used at training-time inference and at deployment for channels_last layers.",
  "all biases, all bitwidth tensors", "Universal.", a(QZ,"HGQ.bias_forward")+a(BASE,"HLayerBase.fused_qbias"))
# ---- layer -> proxy
P("Pre-biased truncation equals round-to-nearest",
  "For a layer whose bias can absorb rounding, adding 2^-(f+1) to the deployed bias and truncating gives, for every input, the value obtained by rounding to nearest without the extra bias.",
  "all inputs, weights, biases, bitwidths", "Continuous domain; ties.", a(BASE,"HLayerBase.fused_qbias","HLayerBase.can_bias_cover_rnd")+a(CV,"ProxyLayerXFormer.get_kbiRS"))
P("Masked bias never changes an output",
  "Channels whose deployed bias is forced to zero are channels whose derived width is zero at every position, whose proxy output is 0 and whose HGQ output on calibrated data is 0 (after ReLU, if any).",
  "all layers and calibrated inputs", "Universal.", a(BASE,"HLayerBase.fused_qbias"))
P("A converted linear-activation layer reproduces the HGQ layer on calibrated inputs",
  "For every dense, convolutional, add, activation or quantize layer without ReLU, every input whose quantized outputs lie in the traced range gives bit-identical outputs in the HGQ layer and in its proxy (layer + quantizer), for both overflow policies.",
  "all inputs in range, all weights, all strategies, both overflow policies", "End-to-end equality over continuous inputs.",
  a(CV,"ProxyLayerXFormer.__call__","ProxyLayerXFormer.get_kbiRS")+a(DN,"HDense.jit_forward")+a(CONV,"HConv.jit_forward"))
P("A converted ReLU layer reproduces the HGQ layer on calibrated inputs",
  "For every layer with ReLU, the proxy chain quantizer -> ReLU -> quantizer gives bit-identical outputs on every input whose pre-activation quantized values lie in the traced range, for homogeneous or per-element bitwidths, for both overflow policies, even when the first quantizer wraps.",
  "all inputs in range, all per-element bitwidths, both policies", "Guard-bit and wrap interactions at the range boundary have tiny measure.",
  a(CV,"ProxyLayerXFormer.__call__"))
P("The proxy model equals the HGQ model on the calibration data",
  "After trace_minmax with cover_factor >= 1 on a dataset, to_proxy_model gives a model whose output on every sample of that dataset equals the HGQ model's inference output, for every acyclic layer graph built from supported layers.",
  "all graphs, all datasets, all weights and bitwidths", "Whole-model equivalence over all architectures.",
  a(CV,"to_proxy_model","convert_model")+a(BO,"trace_minmax"))
P("Graph conversion preserves the computed function",
  "convert_model with a layer transformer that preserves each layer's function returns a model computing the same outputs, for every acyclic graph with several inputs and outputs, shared layers, and models nested to any depth (which are flattened).",
  "all acyclic graphs, all nesting depths", "All graph topologies.", a(CV,"convert_model","apply_layer","_get_out_tensor","solve_dependencies"))
P("Every node is converted exactly once",
  "During conversion each reachable node of the graph is applied exactly once even when several consumers use it, nodes not reachable from the outputs are not applied, and inputs are used by every consumer in the declared order.",
  "all acyclic graphs", "All topologies.", a(CV,"_get_out_tensor"))
P("Layer names in the converted model are unique",
  "For every sequence of requested names the generated names are pairwise distinct, each is the requested name or that name plus a numeric suffix, a fresh name is kept, and the generator terminates. In a converted model a layer has the name it asks for unless an earlier layer has it; then the first free number is appended; a layer applied several times asks with the name it got last.",
  "all sequences of names", "Adversarial name collisions such as a, a, a_0.", a(CV,"Namer.next_name"))
P("A non-converging layer transformer is reported",
  "Conversion applies the transformer until it returns the same layer; if that takes more than 1024 steps an error is raised instead of looping forever, and a transformer returning None removes the layer.",
  "all transformers", "Non-termination cannot be observed by tests.", a(CV,"apply_layer"))
P("Deployed weights are the quantized fused weights",
  "The converted layer's kernel and bias are exactly the quantized fused kernel and bias of the source layer; other weights are taken from the source weight whose name contains the requested name, and missing ones are reported and left at their initial value.",
  "all weight lists", "Name matching by substring over all names.", a(CV,"copy_fused_weights","get_weight"))
# ---- tracing
P("cover_factor >= 1 never shrinks the traced range",
  "For every recorded grid range and cover_factor >= 1 the adjusted range is on the grid and contains the recorded one; cover_factor = 1 leaves it unchanged.",
  "all ranges and factors", "Universal over reals; needs monotone rounding.", a(BO,"trace_minmax"))
P("Range correction for bounded activations keeps all attainable values",
  "For softmax the traced range becomes [0,1]; for sigmoid and tanh it is clipped to [0,1] and [-1,1]; values of the activation quantized with a non-negative number of fractional bits that were in the traced range remain in it.",
  "all ranges", "Universal.", a(BO,"trace_minmax"))
P("Recording is off after tracing",
  "After trace_minmax returns normally, later inference calls do not change the recorded ranges. (Fails when no_bops_computation is set: recording stays on; and with rst=False after an earlier trace nothing is recorded.)",
  "all histories of API calls", "Histories.", a(BO,"trace_minmax")+a(BASE,"HLayerBase.call"))
P("BOPs are additive over layers and nested models",
  "The reported BOPs are the sum over all layers carrying a BOPs value, with nested models contributing the sum of their layers; trace_minmax returns the sum of exact per-layer BOPs; for dense layers this is the sum over all multiplications of input bits times weight bits.",
  "all model trees", "All nesting structures.", a(BO,"FreeBOPs._bops","trace_minmax")+a(DN,"HDense.compute_exact_bops"))
P("ResetMinMax reaches every quantized layer",
  "The reset callback resets every quantized layer at every nesting depth, whereas trace_minmax resets and enables recording only at top level.",
  "all model trees", "All nesting structures.", a(BO,"ResetMinMax.reset_minmax","trace_minmax"))
P("Passive layers propagate bitwidths to the right positions",
  "Reshape, flatten, concatenate and max pooling report at each output position the bitwidth of the values that can reach it. (Fails for permute, which reports bitwidths in the unpermuted order, and for average pooling and max pooling over inputs on different grids, whose outputs need more bits than reported: average pooling over 2^L inputs at most L more.) Permute moves the element at given coordinates to the permuted coordinates; pooling looks at the coordinates its windows cover and does not count padding.",
  "all shapes and bitwidth tensors", "All shapes/permutations.", a(PL,"PLayerBase.act_bw_exact","PConcatenate.act_bw_exact","PPool2D.act_bw_exact","PPermute"))
# ---- precision derivation
P("Container derivation for constant arrays is exact and minimal",
  "For a not-all-zero array whose elements are multiples of 2^-32 between -2^32 and 2^32, the derived (k,i,f) represents every element; f is the least fractional width above -32; i is least; the sign flag is set exactly if an element is negative; all-zero arrays give (0,1,0).",
  "all arrays", "Bisection correctness over all arrays.", a(PD,"get_arr_container"))
P("Derived produced precision contains every value the layer can produce",
  "After deriving the precision of any layer of a proxy network (which may shrink quantizers upstream), every value the layer can output belongs to the derived format, for networks of quantizers, activations with enumerable inputs, softmax, add, signed subtract, concatenate, reshape-like and max-pool layers, average pools of power-of-two size, lookup tables and dense/conv layers whose bias has room; deriving again changes nothing. (Fails for biases that do not fit, unsigned subtract, dot, average pools of other sizes, the signed extreme product and saturating quantizers with differing element formats.)",
  "all inputs in the input format, all weights", "Worst-case interval analysis.", a(PD,"get_produced_kif","activation_kif_forward"))
P("Precision-driven quantizer reduction preserves the quantizer",
  "Shrinking an over-wide homogeneous proxy quantizer to the precision of its input does not change its output on any input of that precision, for the sign and width combinations that occur when the input is at most as wide as the quantizer or has the same sign flag. (Fails for heterogeneous quantizers, whose elements can gain fractional bits, and for mixed signs, saturation on wider inputs with fewer fractional bits, symmetric saturation, and formats left without bits.)",
  "all input values of the given precision", "Universal over values and formats.", a(PD,"get_produced_kif"))
P("Merged precision is transparent to the next quantizer",
  "Storing a value in the result type derived for its layer (merged available and requested precision, or the input type derived from the following quantizers) before a TRN or RND quantizer does not change that quantizer's result, even on overflow, unless an unsigned value wider than the request meets a signed request. Where only quantizers read a layer, directly or through concatenations and reshapes, its result type has no more fractional bits than one of them keeps plus what its rounding looks at, and, if all wrap around, at most one integer bit more than one of them. (Fails for the other rounding modes, for which two guard bits are not enough, and for types without bits.)",
  "all values of the available precision, all formats", "Sticky-bit ties and overflow corners.", a(PD,"merge_precision","get_request_kif","get_requested_kif","derive_result_kifRS_from_next_quantizers"))
P("Huge or missing precision is rejected",
  "The derived per-layer configuration is returned only if every type in it has at most 64 bits besides the sign (so signed types of 65 bits pass); unquantized data (65535-bit placeholders) is rejected with an error; accumulators of wrapping results have only the result's integer bits and may wrap without changing the result, those of saturating results hold every sum.",
  "all layer precisions", "Universal.", a(PD,"get_config","get_config_wight_accum_result_bias","get_config_table_tablesize_result"))
P("A unary LUT equals the activation on every representable input",
  "For every activation and input format (k,i,f), calling the LUT on any representable input returns the output-quantized activation of that input; inputs outside the range wrap modulo the table size.",
  "all formats, all activations, all inputs", "All formats and codes.", a(UL,"UnaryLUT.from_activation","UnaryLUT.call"))
P("LUT conversion respects the table size limits",
  "An activation is replaced by a LUT only if its table has at most the requested number of entries and the activation is not softmax/relu/linear; replacement fails with an error if the table reaches the hard limit or the input is constantly zero.",
  "all formats and limits", "Boundary at exactly the limit.", a(UL,"xfr_to_unary_lut","UnaryLUT.__init__"))
# ---- utils
P("Type strings round-trip",
  "Formatting (k,i,f) with k in {0,1} and at least one bit, with any rounding/overflow suffix made of word characters, and parsing it back returns (k,i,f). Non-positive widths are printed as one bit and do not round-trip; 'nuke' is never parsed.",
  "all integers i,f, all suffixes", "Unbounded integers incl. negatives.", a(UT,"apf_to_tuple","tuple_to_apf"))
P("Default quantizer configurations are isolated and keep their keys",
  "For every history of get/set/mutate operations the default configuration always has the original key set; a rejected set leaves it unchanged; mutating a dict returned by get does not affect the defaults. (Mutating a dict after passing it to set does change the defaults: it is stored by reference.)",
  "all histories", "Aliasing histories.", a(UT,"get_default_kq_conf","set_default_kq_conf","get_default_paq_conf","set_default_paq_conf"))
P("'auto' rounding resolves per layer",
  "With rnd_strategy 'auto' a layer uses rounding when its bias can absorb it and floor otherwise, independently of other layers. A bias can absorb it when there is one bitwidth in all or one per bias entry. (Fails for channels_first layers with a bitwidth per channel, since the batch dimension is looked at instead of the channel dimension, and when the same config dict object is shared with an activation layer, which rewrites it in place.)",
  "all build orders of layers sharing configs", "Build-order dependent aliasing.", a(BASE,"HLayerBase.post_build")+a(MS,"HActivation.post_build"))
# ---- batch norm
P("Fused batch-norm kernels give the normalised affine map at inference",
  "The fused kernel and bias of a batch-norm layer make the layer compute scale*(Wx - moving_mean) + bias + bn_beta with scale = gamma*rsqrt(var+eps), before quantization.",
  "all weights, statistics, inputs", "Universal over reals.", a(BN,"HBatchNormBase.fused_kernel","HBatchNormBase.fused_bias"))
P("Batch-norm training and inference agree when batch and moving statistics agree",
  "If the moving statistics equal the batch statistics the training-mode forward value equals the inference value, provided bn_beta is zero and scaling is on. (Fails for non-zero bn_beta, which training ignores, for scale=False, center=True, and for center=False with a bias, which training leaves out.)",
  "all batches, weights", "Universal.", a(DN,"HDenseBatchNorm.bn_train_jit_forward")+a(CONV,"HConvBatchNorm.bn_train_jit_forward")+a(BN,"HBatchNormBase.fused_bias"))
P("When the standalone batch-norm layer computes batch normalisation",
  "The standalone layer's output before quantization is gamma*(x-mean)*rsqrt(var+eps)+beta exactly on the channels whose mean is zero or whose scale ker is 1 or -1. At inference each output element is the quantized scale of its channel times the input plus a quantized offset, quantized with the bitwidth of the element. (Batch normalisation as documented fails on all others: the code subtracts mean/ker instead of mean*ker.)",
  "all inputs", "Universal.", a(BN,"HBatchNormalization.forward"))
# ---- qkeras
P("QKeras quantizers map to equivalent proxy quantizers",
  "quantized_bits(alpha=1) and quantized_relu are converted to proxy layers computing the same function on every input when the saturating policy is used (symmetric quantizers always saturate symmetrically); unsupported quantizers (alpha != 1, po2, use_01) are rejected.",
  "all inputs and quantizer parameters", "Continuous inputs.", a(QK,"qkeras_quantizer_to_layers"))
# ---- float32
P("Float32 evaluation of the quantizer equals exact arithmetic in range",
  "In IEEE single precision, scaling, flooring and unscaling are exact, and the standard-round result equals the exact one for every finite float32 whose scaled magnitude is below 2^23, except for the single value just below 1/2; at or above 2^23 odd integers are moved.",
  "all finite float32 inputs", "2^32 inputs times bitwidths; tie at pred(1/2).", a(QZ,"q_round","HGQ.forward")+a(FPQ,"RND"))
# ---- operators and bit operations
P("Exact BOPs count every multiplication with the bits of its operands",
  "compute_exact_bops of a layer with a kernel is the sum over its multiplications of input bits times weight bits, where pruned weights and inputs that are always zero cost nothing; for a convolution without padding and inputs of equal width it is parallel_factor * width * bits of all weights, whatever the input size; the single-precision sum is exact up to 2^24. (Fails for data_format channels_first, where the number of positions is computed from the wrong dimensions.)",
  "all layers, kernels, ranges, convolution geometries", "All shapes, strides, dilations, groups and bitwidths.", a(DN,"HDense.compute_exact_bops")+a(CONV,"HConv.compute_exact_bops","HConv.post_build")+a(BASE,"HLayerBase.kernel_bw_exact","HLayerBase.act_bw_exact"))
P("Quantized dense and convolution layers compute the matrix product and the convolution of the quantized kernel",
  "At inference element (r,c) of HDense is the quantizer applied to sum_j x[r,j]*qk[j,c] + qb[c]; HConv1D/HConv2D (HConv of any rank) sum over the kernel window with stride, dilation, zero padding and channel groups; VALID and SAME have the documented output positions and padding.",
  "all inputs, kernels, geometries", "All shapes and strides.", a(DN,"HDense.jit_forward")+a(CONV,"HConv.convolution_op","HConv.jit_forward"))
P("Reported BOPs over-approximate the exact ones",
  "After a call at a given state, the bops a layer reports (and adds to its loss) is finite and at least the exact bit operations at the same state; the trained width of a weight is the least number of magnitude bits that holds every weight sharing its bitwidth. (Fails when a kernel axis behind an unshared axis shares bitwidths: the layer then raises, or with square kernels mixes up the widths and reports too little.)",
  "all kernels, ranges, shared leading axes", "All weights and shapes.", a(DN,"HDense.forward")+a(CONV,"HConv.forward")+a(BASE,"HLayerBase._kernel_bw")+a(QZ,"HGQ.get_bits"))
P("Outside the calibrated range the proxy applies the chosen overflow policy to the layer's output",
  "For every input, including inputs never seen in calibration, each element of the converted layer's output is the HGQ output put through the derived format: equal modulo 2^(k+i) under WRAP, the closest representable value under SAT, 0 where the derived width is 0. Layers with ReLU do so under SAT for every input and under WRAP as long as the value before ReLU stays inside the widest format of the layer. (Beyond that a wrapped value can turn negative before ReLU and come out as 0.)",
  "all layers, all inputs, both policies", "Inputs outside the calibration data are unbounded.", a(CV,"ProxyLayerXFormer.__call__","ProxyLayerXFormer.get_kbiRS")+a(FPQ,"gfixed_quantizer"))
P("The BOPs penalty has the gradient of the reported bit operations",
  "The loss term of a dense or convolution layer is beta times its reported bit operations; its gradient in a kernel bitwidth is beta times the input bits of every multiplication using a weight of that bitwidth (0 where the weight's width is 0), in an activation bitwidth of the layer read beta times the kernel bits of every multiplication reading it, each divided by the square root of the number of values sharing the bitwidth; it is never negative and does not touch the weights.",
  "all layers, bitwidths, kernels, directions", "Gradients over all states; straight-through and stop_gradient arrangements are invisible to value tests.", a(BASE,"HLayerBase._kernel_bw","HLayerBase.act_bw","scale_grad")+a(QZ,"HGQ.get_bits")+a(DN,"HDense.forward")+a(CONV,"HConv.forward"))
# ---- saving and loading
P("Saving and loading a layer restores its function but not its calibration",
  "Loading a saved HDense, HConv, HActivation, HAdd or HQuantize gives a layer with the same configuration, beta, parallel_factor, weights and bitwidths, computing the same outputs on every batch, whatever default configurations are in force when loading; the recorded ranges are gone, so conversion raises until the layer is calibrated again, as if minmax_reg_reset had been called. The same holds for fused batch-norm layers with default epsilon, center and scale. (Fails otherwise: epsilon and momentum silently return to their defaults, layers without center or scale cannot be loaded; the first training call of a loaded HDenseBatchNorm adapts its trained kernel bitwidths again; a configuration dictionary shared with an HActivation is saved with the rounding the activation wrote into it.)",
  "all layers, configurations, weights, training histories, batches", "All trained states and configurations; equality of functions.", a(BASE,"HLayerBase.__init__","HLayerBase.get_config","HLayerBase.init_quantizers")+a(DN,"HDense.get_config","HDenseBatchNorm.forward")+a(CONV,"HConv.get_config")+a(BN,"HBatchNormBase.__init__","HBatchNormBase.adapt_fused_bn_kernel_bw_bits"))
# ---- layers in float32
P("Layers and proxies in float32 equal exact arithmetic when the accumulator fits, whatever the order of summation",
  "Evaluated in IEEE single precision, with products added in any order and with or without fused multiply-add, a layer returns the exact result on every input for which the terms summed for each output (products and bias, multiples of some 2^G) have absolute values adding up to at most 2^(G+23); so does its proxy, whose formats have at most 23 bits; hence the two agree in single precision on calibrated inputs although they may add in different orders. (Fails beyond: the order of summation changes the result, and with a 25-bit accumulator layer and proxy differ by one unit although they agree in exact arithmetic.)",
  "all layers, weights, inputs, orders of summation", "All summation orders and all float32 inputs; back ends differ in the order they use.", a(DN,"HDense.jit_forward")+a(CONV,"HConv.jit_forward")+a(FPQ,"gfixed_quantizer","FixedPointQuantizer.call")+a(BASE,"HLayerBase.fused_qbias")+a(CV,"ProxyLayerXFormer.__call__"))
# ---- moving statistics
P("Moving statistics are exponentially weighted averages of the batch statistics",
  "After any training run of a fused batch-norm layer, with weights changing between calls, moving_mean and moving_variance are momentum^n times the initial value plus (1 - momentum) times the sum of the batch statistics weighted by powers of momentum, the last batch weighing most; with a momentum in [0, 1] they stay within the range of the initial value and the batch statistics, so the variance never becomes negative; on batches with equal statistics they converge to them.",
  "all training runs, batches, weights, channels", "All histories; limits.", a(DN,"HDenseBatchNorm.bn_train_jit_forward")+a(CONV,"HConvBatchNorm.bn_train_jit_forward"))
# ---- calibration data
P("Calibration depends on the set of samples only; more samples never narrow a range or lower the BOPs",
  "Two calibrations (trace_minmax) of the same model on data with the same samples, whatever their order, repetition and batching, leave the same model and report the same bit operations; with further samples (and cover_factor at least 1) no recorded range gets narrower and the exact bit operations do not decrease; before the bit operations are counted, calibration may be continued with rst=False and then equals one calibration on all the data; the CalibratedBOPs callback reports and leaves exactly that, whatever its batch size. (With cover_factor below 1 a further sample can narrow a range; with cover_factor above 1 continuing stretches the first range twice; on an empty array without a batch size the callback raises.)",
  "all models, stores, datasets, batch sizes, cover factors", "All data sets and their subsets; a test sees one calibration set.", a(BO,"trace_minmax","CalibratedBOPs.on_epoch_end")+a(QZ,"HGQ.minmax_reg")+a(DN,"HDense.compute_exact_bops"))
# ---- adaptation of bitwidths to the fused kernel
P("The first training call of HDenseBatchNorm adapts the kernel bitwidths to the fused kernel, once",
  "Executed eagerly (for graphs see C84), in the first training call every kernel bitwidth becomes itself minus the largest log2 |w * gamma / sqrt(v + epsilon)| of the weights sharing it, cut off at the configured limits (groups of zeros go to the upper limit), where v are the channel variances of the layer's inference output on that batch with 32-bit weights; without scale the kernel itself is the reference; nothing else changes, later calls and other layers (also HConvBatchNorm) adapt nothing. A weight of its own keeps its number of bits, up to two, as long as v gives a scale within a factor two of the one training uses. (Not otherwise: v is taken after activation and quantization, so a ReLU neuron whose first batch is negative has v = 0 and its weight is quantized to 0.)",
  "all layers, kernels, batches, limits", "All weights and batches; the effect depends on the data of the first batch.", a(BN,"HBatchNormBase.adapt_fused_bn_kernel_bw_bits")+a(DN,"HDenseBatchNorm.forward")+a(QZ,"HGQ.adapt_bw_bits"))
# ---- registration of the precision configurations
P("Registered precisions reach the right layer and nothing is lost",
  "With skip_precision_reg=False, to_proxy_model files the derived configuration of every layer (except lookup tables) under the layer's name in the overrides of a quantizer: its own if the layer is followed by one, else the first found along the data flow, else against it. No configuration overwrites another one and earlier entries such as parallelization factors stay; nothing else is written; the call fails exactly if no quantizer is connected, no configuration can be derived, or overrides without 'layers' were given. (The parallelization factor of a layer applied twice is filed under the original name only, so its second copy has none.)",
  "all proxy graphs, names, overrides, quantizer states", "All graphs with branches and layers without quantizers; order of registration.", a(PD,"_get_next_quantizer","_get_last_quantizer","get_whatever_quantizer","register_qconf")+a(CV,"to_proxy_model","ProxyLayerXFormer.__call__"))
# ---- networks with lookup tables
P("A proxy with lookup tables computes the same outputs",
  "On every input, every element of every tensor a proxy computes is a number of the precision derived for its layer. With unary_lut_max_table_size set, to_proxy_model gives a proxy in which every layer outside the tables returns the same tensor on every input as without tables, provided each tabulated activation is read by layers asking for at least its precision, by one uniform quantizer, or by quantizers truncating or rounding half up within the requested range. (Fails otherwise: an activation such as x/3 read by a reshape is rounded in the table, so the outputs differ.)",
  "all proxy networks, quantizer states, inputs, table limits, conversion orders", "All inputs and networks; a table is right at every point only if the formats derived on both sides are.", a(UL,"xfr_to_unary_lut","UnaryLUT.from_activation","UnaryLUT.call")+a(CV,"to_proxy_model"))
# ---- firmware in the registered types
P("Firmware in the registered types computes what the proxy computes",
  "Take the types get_config derives for every layer (weight, accumulator, bias, result, table) as the types of a circuit: every layer rounds its result to its result type, uniform quantizers that are the only reader of their input are left out, dense and convolution layers round weights, products and bias to their types and add up in the accumulator type in any order, whatever overflows on the way, tanh and sigmoid are read from tables of the registered size and type, and layers replaced by lookup tables read theirs. Then the outputs of the network are, on every input, bit by bit those of the proxy, if the quantizers have settled, every type has a bit and tensors are read by one uniform quantizer, by layers asking for everything, or by wrapping or sufficiently wide quantizers that truncate or round half up. With accum_fp_max_offset every term of a sum loses less than one unit of the accumulator. (Fails with accum_fp_max_offset too small, for wrapping quantizers with ties to zero, and for a quantizer of zero bits, whose type is printed with one bit.)",
  "all networks, quantizer states, inputs, orders of addition", "All inputs and all orders of addition, including intermediate overflow; the guarantee 'bit-accurate' is about the whole network.", a(PD,"get_config_wight_accum_result_bias","get_config","get_result_kifRS","result_kifRS_layer_with_fusible_quantizer","derive_result_kifRS_from_next_quantizers")+a(FPQ,"FixedPointQuantizer.fusible")+a(UT,"tuple_to_apf"))
# ---- QKeras layers
P("A converted QKeras layer computes the function of the QKeras layer",
  "With the qkeras plugin, a layer whose variables are a kernel and possibly a bias becomes its Keras base class applied with the quantized kernel and bias, followed by layers equivalent to its activation quantizer: on every input the results are those of the QKeras layer, whatever the base class computes. All settings survive except those whose name contains quantize, kernel_range, bias_range, constraint, activation or initializer. The conversion fails for classes Keras does not have, for settings the base class does not know, and for names containing two of these words. (Fails for layers whose variables have other names, such as depthwise kernels or batch-norm statistics: these are not copied, and the converted layer silently computes with freshly initialised values.)",
  "all QKeras layers, base classes, configurations, weights, inputs", "All layer classes and settings; which variables are copied depends on their names, so tests with dense and convolution layers cannot see the others.", a(QK,"qlayer_to_keras_layer","qlayer_to_proxy_layer"))
# ---- sizes of the tables of activations
P("Registered table sizes have one entry per input",
  "The table of size table_size registered for a tanh (sigmoid), spread over [-4, 4) ([-8, 8)), has as its points exactly the multiples of the resolution derived for its input, each once, if that resolution is at most 4 (8): an input within the range reads the activation at itself, an input outside reads it at the nearest end, so an increasing bounded activation is off by at most its rise beyond the end. Any other activation gets as many entries as there are numbers of the input's precision. (Fails for coarser inputs: with multiples of 8 the table of tanh has one entry, its value at -4, also read for input 0; with multiples of 16 it is registered with 0 entries.)",
  "all networks, quantizer states, inputs, activations", "All input precisions; the table size is derived far away from the activation it is for.", a(PD,"get_config_table_tablesize_result","get_config","get_input_kifs"))
# ---- bit operations behind passive layers
P("Bit operations behind passive layers: every element is priced at its exact width or one bit more",
  "Behind any network of reshape, flatten, dropout, permute, concatenate and pooling layers on top of calibrated layers and signatures, the bitwidth each element has during training is the exact one or one bit more, so the bit operations a dense or convolution layer reports are at least the exact ones; every value leaving a network of reshapes, concatenations and max poolings is one of the values entering it, at an exact width at least the one it entered with. A layer that reads the input of the model without a quantizer or signature in between raises. (Fails for passive layers called twice: layers behind a shared reshape, flatten, dropout or pooling silently report no bit operations and pay no penalty, and counting raises; behind a shared concatenation the widths of its first call are counted.)",
  "all networks of passive layers, ranges, kernels, inputs", "All network topologies; an AssertionError raised anywhere on the way is swallowed, so errors show as missing numbers.", a(BASE,"ABSBaseLayer.last_layer","ABSBaseLayer.input_bw","ABSBaseLayer.input_bw_exact","HLayerBase.act_bw","HLayerBase.act_bw_exact")+a(PL,"PLayerBase.act_bw","PLayerBase.act_bw_exact","PConcatenate.act_bw","PConcatenate.input_bw","PConcatenate.act_bw_exact","PPool2D.act_bw","PPool2D.act_bw_exact","PPool1D.act_bw","PPool1D.act_bw_exact","Signature.act_bw")+a(DN,"HDense.forward","HDense.compute_exact_bops")+a(CONV,"HConv.forward","HConv.compute_exact_bops"))
# ---- saving tables and signatures
P("Saved lookup tables load to the same function",
  "A lookup-table layer that is saved and loaded has the same precisions and gives the same output on every input, although its configuration holds neither the table nor the rounding and overflow modes it was made with; saving it again stores the same. It loads exactly if the loading process allows its size (LUT_SIZE_LIMITATION) and it has one entry for every input value; tables made for an activation always have, so they load under the limit they were made under. A layer made from the configuration alone, without the stored variable, gives 0 on every input.",
  "all tables, precisions, modes, size limits, inputs", "All tables and inputs; the table is re-created as zeros before the stored values arrive.", a(UL,"UnaryLUT.__init__","UnaryLUT.build","UnaryLUT.get_config","UnaryLUT.call"))
P("Saved input signatures keep their widths",
  "A Signature layer restored from its configuration has the same keep_negative, bits and int_bits for every element as the saved one, whether they were given per tensor, per channel or per element, and whether it was saved before or after it was built (inputs without an axis of length 0, int8 widths).",
  "all widths, input shapes", "All shapes and broadcasts; the configuration holds nested lists.", a(PL,"Signature.__init__","Signature.build","Signature.get_config"))
# ---- the activation argument
P("Activations given to dense and convolution layers reach the proxy",
  "A layer other than HActivation is constructed exactly with no activation, or with a name or a function whose __name__ is relu or linear in any mix of upper and lower case. With None, 'relu' or 'linear' the proxy of a calibrated layer gives on every input within the calibrated range what the layer gives. With any other accepted function the proxy gives the values before the activation, so it agrees with the layer exactly on the inputs whose values the activation leaves alone. (So with a function called relu that is not tf.keras.activations.relu itself, such as tf.nn.relu, the proxy silently drops the ReLU.)",
  "all arguments, layers, calibrations, inputs", "All callables: any function may be called relu, and the proxy recognises one object only.", a(BASE,"HLayerBase.__init__","HLayerBase._relu_act")+a(DN,"HDense.jit_forward")+a(CONV,"HConv.jit_forward")+a(CV,"to_keras_layer","ProxyLayerXFormer.__call__"))
# ---- from the HGQ model to the firmware
P("The firmware gives the outputs of the HGQ model on the calibration data",
  "Calibrate a model with trace_minmax, convert it with to_proxy_model and build the circuit whose layers have the types and table sizes register_qconf registers for the proxy. On every batch of samples of the calibration data the circuit delivers, for each sample, bit by bit the outputs the HGQ model gives, however the sums of dense and convolution layers are added up, provided the promises of the input signatures hold, no layer's format is out of bounds and the registered types are those the quantizers end with. The same with tanh, sigmoid and lookup tables in place of activations. Dense and convolution layers of the proxy, with any padding, strides and bias, are layers of the circuit with the kernel's rows in order.",
  "all models, calibration data, batches, samples, orders of addition", "The whole chain from calibration over conversion and registration to the circuit, for all models; each step has its own conditions, and a test with one network cannot show that they fit together.", a(CV,"to_proxy_model","ProxyLayerXFormer.__call__")+a(UT,"trace_minmax")+a(PD,"register_qconf","get_config","get_produced_kif","get_request_kif"))
# ---- registration and the outputs of the proxy
P("Registering precisions leaves the outputs of the proxy alone where nothing overflows",
  "register_qconf shrinks the quantizers of a proxy network to the precision their inputs have. On every input on which no quantizer overflows before (every element, rounded to the resolution of its format, is a number of that format), all layers deliver the same outputs after registration as before, and still no quantizer overflows; in all rounding modes, with WRAP, WRAP_SM, SAT or SAT_ZERO, provided no heterogeneous quantizer loses integer bits on an element with fewer fractional bits than are kept; quantizers that treat all elements alike meet this unless no bits are left. (Fails where a quantizer overflows: a value beyond its range is then saturated to a coarser number; for a heterogeneous quantizer an element may gain fractional bits, so it no longer rounds; with SAT_SYM the most negative number of the smaller format is changed.)",
  "all proxy networks, quantizer states, inputs, tables", "All networks and formats; the quantizers are changed in place as a side effect of asking for types.", a(PD,"register_qconf","get_config","get_produced_kif","get_input_kifs")+a(FPQ,"FixedPointQuantizer.call"))
# ---- firmware in the types registered while the quantizers shrink
P("Firmware in the registered types is right although the quantizers shrink during registration",
  "to_proxy_model registers the layers one after the other; each gets types derived from the quantizers as they are at that moment, and quantizers are shrunk on the way, so earlier layers have types for quantizers that no longer exist. Still, on every input on which no quantizer of the proxy as converted overflows, the circuit in the registered types, with the quantizers as they are in the end, delivers bit by bit the outputs of the proxy as converted, however sums are added up, under the conditions on types and readers of the firmware property at the moment of registration and those of the property before, provided no heterogeneous quantizer has become uniform. (Fails if one has: shrinking two formats to the same one makes the quantizer removable, but the layer before it was typed for a quantizer that stays, so the circuit skips the rounding: 5/4 instead of 3/2.)",
  "all proxy networks, quantizer states, inputs, tables, orders of addition", "All networks and moments of registration; types and quantizers come from different states of the same mutable variables.", a(PD,"register_qconf","get_config","get_result_kifRS","result_kifRS_layer_with_fusible_quantizer","get_produced_kif","get_request_kif")+a(FPQ,"FixedPointQuantizer.fusible","FixedPointQuantizer.heterogeneous","FixedPointQuantizer.get_config")+a(CV,"to_proxy_model"))
# ---- arguments of a layer
P("Layers follow the arguments they are constructed with",
  "A class accepts its own arguments only: an argument that another HGQ class takes is rejected, not ignored. A configuration that is left out, None or empty means the default one at that time, any other is used as given. In a built layer the kernel quantizer and the pre-activation quantizer have one width per element of the kernel or of the output, shared along exactly the axes skip_dims names ('all', 'batch', 'none', 'except_last', 'except_1st', None, or a list of axis numbers, counted from the end if negative), and the variables and ranges have that shape. A dense layer without parallel_factor that is applied to several vectors of a sample gets their number; a given parallel_factor stays. A batch-norm layer centers exactly if it is asked to and has a bias.",
  "all classes, arguments, configurations, shapes", "All shapes, ranks and settings; keras keeps the arguments it is given, and which ones it sees depends on the class hierarchy.", a(BASE,"HLayerBase.__init__","HLayerBase.init_quantizers","HLayerBase.post_build")+a(QZ,"HGQ._compute_bw_shape_and_degeneracy")+a(DN,"HDense.post_build"))
# ---- no overflow on the calibration data
P("No quantizer of the proxy overflows on the calibration data, and the firmware is right however the quantizers shrink",
  "Calibrate a model with trace_minmax (cover_factor at least 1), convert it with to_proxy_model and let it register the precisions, during which quantizers are shrunk. If every unit of every ReLU layer was positive on some calibration sample, and ReLU layers truncate (as with rnd_strategy 'auto') or at least one of their units was negative and no recorded minimum is the negative of a power of two, then on every batch of samples of the calibration data no quantizer of the proxy as converted overflows, and the circuit in the registered types, with the quantizers as they are in the end, delivers bit by bit the outputs of the HGQ model. Layers without ReLU need no condition.",
  "all models, calibration data, batches, samples, orders of addition", "The whole chain, with quantizers that change during registration; that nothing overflows is a fact about all layers and samples at once.", a(CV,"to_proxy_model","ProxyLayerXFormer.__call__","ProxyLayerXFormer.get_kbiRS")+a(UT,"trace_minmax")+a(PD,"register_qconf","get_config","get_produced_kif")+a(FPQ,"FixedPointQuantizer.call")+a(QZ,"HGQ.get_bits_exact"))
# ---- predictions of trace_minmax
P("trace_minmax returns the predictions of the calibrated model",
  "With return_predictions=True and a model with one output, row j of the returned array is what the model gives for row j of the dataset in any batch, before and after the calibration, whatever the batch size. For a model with several outputs of one shape, and batches of one size, the array holds the output tensors one after the other, batch by batch; otherwise numpy raises although the calibration is done.",
  "all models, datasets, batch sizes, cover factors, quantizer states", "All models, data and batch sizes; predictions are made while the ranges are still growing.", a(BO,"trace_minmax"))
# ---- adaptation in graphs
P("The one-off bitwidth adaptation of HDenseBatchNorm under tf.function",
  "However tracings and runs of graphs (as in model.fit), calls without graph and changes of the weights are interleaved, the kernel bitwidths are adapted by the first training call if it is made without a graph, and otherwise by every run of the graph traced first, each time to its own batch and the weights of that time; nothing else adapts them. So it is not a one-off: running that graph again on the same batch and weights moves every bitwidth by the same amount again until it reaches its limit, and if the graph traced first is not the one that is run, nothing is ever adapted.",
  "all histories of tracings, runs, calls and updates, layers, batches", "All histories; tests call the layer without a graph, where it does adapt once.", a(DN,"HDenseBatchNorm.forward")+a(BN,"HBatchNormBase.adapt_fused_bn_kernel_bw_bits")+a(QZ,"HGQ.adapt_bw_bits"))
# ---- calibrating again
P("Calibrating from scratch does not depend on what was recorded before",
  "trace_minmax with rst=True depends on the weights, bitwidths and settings of the model's layers only: on two states of a model that agree in those it returns the same BOPs and predictions and leaves the same layers behind, or raises on both. So earlier calibrations, with any data, cover factor and arguments, leave no trace, and a model that was saved and loaded calibrates to the same layers as the one that was saved, and converts to the same proxy. (With rst=False a loaded model records nothing: trace_minmax succeeds, the conversion to a proxy then raises.)",
  "all models, recorded ranges, datasets, batch sizes, cover factors, numbers of earlier calibrations", "All models and histories; what is recorded is hidden state of each layer, and recording is switched on and off along the way.", a(BO,"trace_minmax")+a(BASE,"HLayerBase.reset_minmax","HLayerBase.call")+a(QZ,"HGQ.minmax_reg_reset"))
# ---- gradients of a training step
P("The gradients of a training step are those of a smooth function",
  "Whenever the forward pass of a training step succeeds, for any network of HGQ layers (dense, convolution, activation, merge, with or without fused batch norm, HBatchNormalization after its first call where no scale is zero) and layers without variables, its gradients with respect to weights, biases, gammas, bitwidths and inputs, in any direction, are the true derivatives of one smooth function: the network without rounding, where each quantizer adds the rounding error it made in this step, shrinking like 2^-f as its bitwidth f grows (to first order); ReLU units that are off stay off; 1/sqrt and activation functions enter with their derivative, and the batch statistics and the scale of batch norm take part. In a dense or convolution layer this means: each quantizer passes the gradient of its input through unchanged and gives its bitwidth the gradient -ln 2 times the rounding error, the bias the same with the largest bitwidth of its channel.",
  "all networks, weights, bitwidths, batches, directions, rounding modes, random draws", "A statement about derivatives of a composition of arbitrarily many layers; tests can only compare numbers, and finite differences of a rounded network are zero or infinite.", a(QZ,"HGQ.forward","HGQ.bias_forward","HGQ.__call__")+a(DN,"HDense.jit_forward","HDenseBatchNorm.bn_train_jit_forward")+a(CONV,"HConv.jit_forward","HConvBatchNorm.bn_train_jit_forward")+a(BN,"HBatchNormalization.forward"))
# ---- the standalone batch normalisation layer
P("Bit operations of HBatchNormalization",
  "For an HBatchNormalization over any axes (counted from the front or the end) behind a calibrated layer, compute_exact_bops is the sum over the elements of a sample of the exact bits of the element times the bits of the quantized scale gamma / sqrt(variance + epsilon) at the element's position along those axes, sign not counted; the bops variable after an inference call is at least that (if the call adapts the bitwidths, with the adapted ones). Building the layer succeeds exactly for axes in range other than the batch axis, each given once. In training the moving statistics of each channel move towards the mean and the variance of its elements over the whole batch.",
  "all ranks, axes, parameters, bitwidths, ranges", "All shapes and axes; the product is a broadcast of two tensors whose shapes have to line up.", a(BN,"HBatchNormalization.forward","HBatchNormalization.compute_exact_bops","HBatchNormalization.post_build")+a(QZ,"HGQ.get_bits_exact"))
P("The life of an HBatchNormalization layer",
  "The first call of a layer outside a graph, in training or at inference, adapts the bitwidths of the scale to the scale it uses, afterwards no call changes them. (A functional model never adapts them: tracing the layer while the model is built takes the flag down in a graph that is thrown away. With center=False or scale=False every training call raises. to_proxy_model always raises for it. Its configuration holds none of axis, momentum, epsilon, center and scale: after loading, these have their defaults, so weights do not fit or the layer computes something else.)",
  "all histories of tracings, runs and calls, layers, batches, axes", "All histories and settings; tests call the layer by itself, with the defaults.", a(BN,"HBatchNormalization.forward","HBatchNormalization.post_build","HBatchNormBase._post_build")+a(BASE,"HLayerBase.get_config","HLayerBase.get_keras_config")+a(CV,"to_keras_layer"))
# ---- attention
P("The attention layer attends to a set of keys and values",
  "HMultiHeadAttention on inputs of known shape delivers, for every query and head, the average of the projected values with positive weights adding up to one, proportional to the exponential of the scaled product of projected query and key plus the mask, the heads side by side through the output layer. So the result for a query does not depend on the order of the keys and values, on the other queries or on the other samples of the batch, nor on training and dropout (which is never applied). Without value_dim, or with 0, it is key_dim. (Fails for inputs of unknown batch size or length, as in functional models: raises. compute_output_shape gives value_dim * num_heads, the outputs have the width of the values given.)",
  "all numbers of heads, dimensions, weights, inputs, masks, permutations", "All shapes and permutations; reshapes and transposes line up heads and positions by index arithmetic.", a("src/HGQ/layers/experimental/attn.py","HMultiHeadAttention.call","HMultiHeadAttention.attn_build","HMultiHeadAttention.compute_output_shape"))
# ---- networks in single precision
P("Networks, calibration and proxy models in IEEE single precision",
  "If in every layer called the weights, the terms of each sum and the formats leave room in the 24 bits of a float32 significand (terms multiples of 2^G whose absolute values add up to at most 2^(G+23), formats of at most 23 bits), then a whole model evaluated in float32, adding in any order, returns exactly what it returns in exact arithmetic and records the same ranges; trace_minmax with cover factor 1 returns the same BOPs and predictions and leaves the same layers; and the proxy model converted in float32 returns, in float32 and whatever its own order of additions, exactly the output of the model on every batch of calibration samples.",
  "all models, weights, bitwidths, batches, datasets, orders of summation (fused or not)", "All networks and all orders of summation; which order is used depends on device, batch size and graph optimisation, and the tests compare with a tolerance.", a(BASE,"HLayerBase.call")+a(DN,"HDense.jit_forward")+a(BO,"trace_minmax")+a(CV,"to_proxy_model","ProxyLayerXFormer"))
# ---- models that share layers
P("Converting a model does not depend on other models that share its layers",
  "The nodes the conversion finds for a model are the calls of its layers, each once, including calls made in other models. Yet to_proxy_model (convert_model with any layer transformer) delivers the model and the names that the model's own graph determines: two sessions in which the model has the same graph give the same result, whatever other models use its layers, contain it or were built before or after, in whatever order Python goes through the set of nodes; and the converted model computes what the model's graph computes.",
  "all sessions, graphs, nested models, orders of the set, transformers", "All sessions; the order of a set of objects changes from run to run, and tests convert one model built by itself.", a(CV,"get_all_nodes","solve_dependencies","_get_out_tensor","apply_layer","convert_model"))
# ---- conversion and the names of the layers
P("Converting a model again gives the same model with the same names",
  "The graph a conversion delivers does not depend on the names of the layers. It renames no layer that the transformer replaces by a new one. If all layers passed on to the new model are new, or have different names, no layer of the model is renamed, and converting again, any number of times, gives the same model with the same names (in the second case the names the layers have). (Fails when a layer used several times is itself passed on, as by convert_model without transformer, or a plain Keras layer in to_proxy_model: the layer of the original model is renamed, and converting again gives other names.)",
  "all models, transformers, names", "All models and names; the renaming is a side effect on the original model that shows only when a layer is used twice.", a(CV,"Namer.next_name","apply_layer","convert_model"))
# ---- data the model was not calibrated on
P("The proxy model agrees on all data inside the calibrated ranges, and cover_factor widens them",
  "After trace_minmax with cover_factor at least 1, to_proxy_model gives a model that agrees bit by bit with the HGQ model on every batch that stays inside the calibrated ranges (calling the model on it with record_minmax on would change no range), whether or not its samples were in the calibration data; the calibration data itself is inside. Increasing cover_factor makes every range wider or leaves it, so data inside stays inside; and if every range has two different ends, any batch the model accepts is inside from some cover_factor on. (A channel that had one single value throughout the calibration gets no margin from any cover_factor.)",
  "all models, datasets, unseen batches, cover factors", "Quantifies over data that was never seen; tests compare the models on the calibration data or on samples that happen to fit.", a(BO,"trace_minmax")+a(CV,"to_proxy_model")+a(BASE,"HLayerBase.call")+a(QZ,"HGQ.forward"))
# ---- cover_factor in single precision
P("A cover_factor in single precision covers the data, and the proxy agrees",
  "Whatever put finite ranges on the grid into the layers (calibration, restored weights, ranges with rounding errors), the proxy model agrees with the model on every batch inside them, in exact arithmetic and, if the layers leave room in the float32 significand, in float32 with any order of additions. In particular for trace_minmax in float32 with any cover_factor from 1 to 2^40, if the ranges of the data have at most 23 bits: the predictions are those of exact arithmetic, every range contains the exact range of the data, and from calibration to proxy model nothing but float32 is needed for the proxy to agree on all data inside the ranges, the calibration data included. A positive cover_factor up to 1 keeps every range inside the recorded one and never turns it around; factors that are not positive are refused. (The ranges themselves need not be those of exact arithmetic: mean and half width times cover_factor are rounded, and both ends can come out nearer to the middle.)",
  "all models, ranges, datasets, unseen batches, cover factors up to 2^40, orders of summation", "All cover factors and ranges; whether a rounding error cuts off the largest value seen depends on the last bits of three roundings.", a(BO,"trace_minmax")+a(CV,"to_proxy_model","ProxyLayerXFormer")+a(BASE,"HLayerBase.call"))
# ---- the firmware on data the model was not calibrated on
P("The firmware agrees with the model on all data inside the calibrated ranges",
  "After trace_minmax with cover_factor at least 1 the model is converted, the precisions are derived (and registered, shrinking quantizers), and a firmware is built from the registered types with any order of accumulation. On every batch that stays inside the calibrated ranges, whether or not its samples were in the calibration data, the firmware delivers sample by sample the very outputs of the HGQ model, and also of the HGQ model run in float32 with any order of additions if the layers leave room in the float32 significand; no quantizer of the proxy model overflows on such data if every ReLU layer is steady (C82).",
  "all models, datasets, unseen batches, cover factors, orders of accumulation", "Quantifies over data never seen and over all models; co-simulation compares a few samples with a tolerance, mostly those used for the calibration.", a(BO,"trace_minmax")+a(CV,"to_proxy_model")+a(BASE,"HLayerBase.call")+a(PD,"get_config","register_qconf"))
# ---- saving whole proxy models
P("A saved proxy model loads to the same function and the same registered precisions",
  "A proxy model can be saved exactly when all sign flags are 0 or 1 and every quantizer is called once, on one layer. What load_model returns is the model as it is in memory after saving: same overrides (the precisions and factors registered for every layer), same lookup tables (if the process that loads allows their size), negative widths set to 0. So if no width is negative the loaded model has the same outputs on all inputs, the same registered configuration, and is stored the same again. That is the case after registering the precisions if the quantizers shrink evenly; then the loaded proxy delivers what the proxy delivered before the registration wherever nothing overflowed. (Otherwise not: registering can leave a quantizer with a negative number of bits, and then get_config, which saving calls, changes the outputs of the model in memory and of the loaded one.)",
  "all proxy networks, quantizers, tables, overrides, inputs", "All networks; tests save single layers, and the change made by get_config needs a quantizer that the registration left without bits.", a(FPQ,"FixedPointQuantizer.get_config","FixedPointQuantizer.from_config")+a(UL,"UnaryLUT.get_config")+a(PD,"register_qconf"))
# ---- all modes in single precision
P("Every mode of the proxy quantizer in IEEE single precision",
  "gfixed_quantizer evaluated in float32 returns exactly the value it returns without rounding errors, in each of the 7 rounding and 5 overflow modes, for every format of at most 22 bits and every float whose scaled value is a float: the wrapping modes below 2^22 steps, the saturating ones without bound. A call of a FixedPointQuantizer on a batch likewise returns the tensor it returns without rounding errors. The only exceptions are the float next below 1/2 as scaled value under RND and RND_INF and its negative under RND_MIN_INF and RND_INF: there the result is one step where it should be 0. Every value of such a format passes unchanged. (Width 22 is not arbitrary: in a signed format of 24 bits WRAP_SM turns 1 into 2.)",
  "all floats, formats, rounding and overflow modes", "2^32 inputs times all formats and 35 modes; the exceptional inputs are single floats.", a(FPQ,"gfixed_quantizer","RND","RND_ZERO","RND_MIN_INF","RND_INF","RND_CONV","TRN","TRN_ZERO","SAT","SAT_ZERO","SAT_SYM","WRAP","WRAP_SM"))
# ---- casts
P("Casts through finer and wider types change nothing, and a wrapping accumulator may overflow",
  "fixed, ufixed and gfixed in their default modes (TRN, WRAP): a cast through any type with at least as many integer and fractional bits, signed or not, gives what the direct cast gives, for every value. The same with SAT if the inner range covers the outer one. ufixed and fixed of one width read the same bits. Numbers on the grid of a wrapping accumulator, added one by one with a cast after each addition, give the true sum if the accumulator can hold it, and after a cast to a type of at most as many integer bits the cast of the true sum, however often the accumulator overflowed. (Fails for every mode that rounds to nearest: two roundings are not one; and for a saturating accumulator, which is off after an overflow.)",
  "all values, pairs of types, lists of terms", "All pairs of types, all values far outside of them, sums of any length; double rounding shows on a few values only.", a(FPQ,"gfixed","ufixed","fixed","gfixed_quantizer","TRN","WRAP","SAT"))
with open('/verif/properties.jsonl','w') as f:
    for o in OUT: f.write(json.dumps(o)+"\n")
print(len(OUT))
