# Formal model of HGQ: design

Target: `/repo` (calad0i/HGQ at the pinned commit), Python, read as text.
Prover: Rocq/Coq 8.16.1.  Model and proofs: `rocq/theories/` (logical name `Verif`).

## 1. What is modelled and how

Layout of `rocq/theories`:

| directory | content |
|---|---|
| `Base/`   | number vocabulary (`Num.v`: definitions only; `NumFacts.v`: lemmas) |
| `Model/`  | executable Gallina transcription of the Python, branch by branch; every definition cites file and lines of `/repo`; no proofs |
| `Spec/`   | small independent vocabulary in which the properties are stated (fixed-point formats, nearest-rounding, grids, ...); mentions no model helper |
| `Proofs/` | lemmas |
| `Props/`  | the theorems named after the property ids (`C01_...`), each followed by `Print Assumptions`, with an `Example` showing a concrete non-trivial instance of the hypotheses |

Naming: `Cxx_...` is a full proof of (the named part of) the property, `Cxx_..._partial`
a proof of a part of a claim that is not fully covered, `Cxx_..._refuted` a proof that the
claimed behaviour does *not* hold in the model (a concrete counterexample reproducing a
defect of the code).

### Modelling decisions (simplifications)

* **Numbers.** float32/float64 scalars are exact rationals (`Qc`, canonical rationals of the
  standard library, Leibniz equality, computable).  Rounding errors of float arithmetic are
  not modelled, except in the float32 layer (`Model/Float32.v`, C58; `Model/FloatLayer.v`, C65; `Model/FloatNet.v`, C90) which
  shows when the arithmetic of quantizers, layers, proxies and networks is exact; float32 numbers there are the rationals m*2^e.  int8 storage of bitwidths is modelled where a wrap-around is
  observable, otherwise widths are unbounded integers.
* **log2.** `floor(log2 x)`, `ceil(log2 x)` are computed exactly (`flog2`, `clog2`); numpy's
  float log2 agrees with them on the values with at most 20 significant bits; beyond that it
  is trusted.
* **Tensors.** A tensor is its row-major list of elements, with its shape where the shape
  matters.  Broadcasting of bitwidth tensors is a map from element position to bitwidth index.
* **Exceptions.** Python exceptions (assert, raise, shape errors) are the value `Raise`.
* **Randomness** (stochastic rounding, noise) is an explicit argument: theorems hold for all draws.
* **Gradients** are dual numbers (value, tangent); `stop_gradient` zeroes the tangent; `ln 2`
  is an arbitrary constant.
* **Transcendental functions** (rsqrt, sigmoid, tanh, softmax, user activations) are arbitrary
  functions: theorems quantify over them.
* **Mutable state** (min/max registers, record flag, default configs, names, memo tables) is
  explicit state; "histories" are lists of operations interpreted by the model.
* **Keras/TensorFlow/numpy** themselves are not modelled beyond the functions the code calls
  (floor, round, clip_by_value, floormod, reduce_max, matmul, bias_add, ...), whose documented
  meaning is transcribed in `Base/Num.v` and at their use.

### Which code is modelled

| model file | code |
|---|---|
| `Model/FixedPoint.v` | `proxy/fixed_point_quantizer.py` (all rounding and overflow modes, `gfixed_quantizer`, the `FixedPointQuantizer` layer: constructor, call, result_t_kif, heterogeneous, fusible, get_config/from_config) |
| `Model/Quantizer.v` | `quantizer/quantizer.py` (`q_round`, `get_arr_bits`, `HGQ`: bitwidth shapes, forward with gradients, min/max registers, `get_bits`, `get_bits_exact`, `bias_forward`, `adapt_bw_bits`), `scale_grad` of `layers/base.py`, `MonoL1` of `utils/utils.py` |
| `Model/Float32.v` | inference path of `HGQ.forward` and of `gfixed_quantizer` in single precision |
| `Model/Layers.v` | inference of `layers/base.py`, `dense.py`, `conv.py`, `misc.py`; proxies: `to_keras_layer`, `copy_fused_weights`, `ProxyLayerXFormer` of `proxy/convert.py` |
| `Model/Graph.v`, `Model/Convert.v` | Keras graphs with nested models; `Namer`, `solve_dependencies`, `_get_out_tensor`, `apply_layer`, `convert_model` of `proxy/convert.py` |
| `Model/Weights.v` | `get_weight`, `copy_fused_weights` by weight names |
| `Model/Trace.v` | `bops/bops.py` (`trace_minmax`, FreeBOPs, ResetMinMax; with `no_bops_computation` the code returns -1 alone, the model the triple of -1, predictions and store) |
| `Model/Predict.v` | the predictions returned by `trace_minmax` |
| `Model/Callbacks.v` | `bops/bops.py` (`CalibratedBOPs`) |
| `Model/Precision.v` | `proxy/precision_derivation.py` |
| `Model/Register.v` | `_get_next_quantizer`, `_get_last_quantizer`, `get_whatever_quantizer`, `register_qconf` of `proxy/precision_derivation.py`; the last loop of `to_proxy_model`, the overrides given by `ProxyLayerXFormer` |
| `Model/Lut.v` | `proxy/unary_lut.py`, and the second conversion in `to_proxy_model` (convert.py:372-373) |
| `Model/Apf.v` | type strings of `utils/utils.py` |
| `Model/Conf.v` | configuration dictionaries of `utils/utils.py`, their use by layers |
| `Model/BatchNorm.v` | `layers/batchnorm_base.py` and the fused layers of `dense.py`, `conv.py` |
| `Model/Bops.v` | `compute_exact_bops` of `HLayerBase`, `HDense`, `HConv`; `tf.matmul` and `tf.nn.convolution` as index lists; `act_bw_exact`, `kernel_bw_exact` |
| `Model/TrainBops.v` | `HDense.forward`, `HConv.forward` (value of `bops` at inference), `HLayerBase._kernel_bw`, `HGQ.get_bits` with a reference |
| `Model/BopsGrad.v` | the same and `act_bw` on dual numbers: the loss term of `HDense.forward` and `HConv.forward` and its gradient; sqrt(1/degeneracy) is a constant |
| `Model/TrainGrad.v` | training steps on dual numbers: `jit_forward` (dense.py, conv.py), the forward passes of misc.py, `bn_train_jit_forward`, networks of them; TensorFlow's gradients of relu (0 at 0), reduce_max (shared equally among the maxima), rsqrt; activation functions and other layers with their Jacobian as a parameter |
| `Model/Serial.v` | constructors, `build` and `get_config` of the layers of `base.py`, `dense.py`, `conv.py`, `misc.py` and of the fused batch-norm layers; the one-off bitwidth adaptation of `HDenseBatchNorm`.  Keras is a parameter: it restores its own arguments and the values in the two dictionaries, and assigns the stored weights in order, checking number and shapes |
| `Model/BnLayer.v` | `HBatchNormalization` around `Model/BatchNorm.v`: `post_build`, the adaptation of the bitwidths, `bops`, `compute_exact_bops`, histories of tracings, runs and calls, conversion to keras, saving; simplified: default initializers, an axis list with the batch axis is refused, tracing does not fail |
| `Model/Attn.v` | `layers/experimental/attn.py`: `HMultiHeadAttention` in exact numbers, exponential and square root as parameters; unknown dimensions as None |
| `Model/Tracing.v` | training calls of `HDenseBatchNorm` under `tf.function`: python statements run when a graph is traced, tensor operations whenever it is run (dense.py:161-163); which graphs are traced and run when (keras, optimizer) is an arbitrary history |
| `Model/FloatLayer.v` | `jit_forward`, `fused_qbias` and the proxy's keras layer and quantizers in IEEE single precision; the dot product is any function returning one of the values the relation `sums_to` allows (any order, any association, fused or not).  Overflow, signed zeros and the float32 computation of the formats are not modelled |
| `Model/FloatNet.v` | calls of layer objects and models, `trace_minmax` and `to_proxy_model` (with `ProxyLayerXFormer`) in IEEE single precision; functions of activations and passive layers are arbitrary functions (TensorFlow's own float32 ones); BOPs and formats are those of the exact model |
| `Model/Nodes.v` | `proxy/convert.py`: `get_all_nodes`, `solve_dependencies`, `_get_out_tensor`, `apply_layer` on models, `convert_model`, on the nodes Keras keeps (`_inbound_nodes`, `_outbound_nodes`, `parent_nodes`); the set of nodes in an arbitrary order; a model returned by the transformer is new, so `Model/Convert.v` serves for it |
| `Model/Passive.v` | `layers/passive_layers.py` |
| `Model/PassiveNet.v` | `ABSBaseLayer.last_layer`, `input_bw`, `input_bw_exact`, `act_bw` and `act_bw_exact` of the passive layers through a network, and the counts of `HDense` and `HConv` that read them (the assertion in `get_bits_exact` is not told apart from other exceptions; axes of concatenations are counted from the batch axis) |
| `Model/SaveProxy.v` | constructor, `build`, `call` and `get_config` of `UnaryLUT`, constructor, `build` and `get_config` of `Signature`, and loading them (keras is taken to store the variable `table`; `tf.constant` of a number outside int8 is taken to raise) |
| `Model/SaveNet.v` | saving a whole proxy model: `get_config` of every quantizer in its place in the network, the stored variables, `from_config` and assignment on loading, lookup tables (keras layers, the connections and JSON of string/integer dictionaries are taken to be restored; a quantizer of the store that is not in the network, which keras would leave out, raises) |
| `Model/FloatModes.v` | the remaining rounding and overflow modes and `gfixed_quantizer` in float32 (`fixed_point_quantizer.py:13-129`), the call of the layer (178-182); exact: negation, absolute value, sign, floor, round, products with signs and masks; no overflow to infinity |
| `Model/Casts.v` | `gfixed`, `ufixed`, `fixed` and their default modes (`fixed_point_quantizer.py:132-143`) |
| `Model/Activation.v` | the check of the `activation` argument in `HLayerBase.__init__`, `_relu_act`, the forward pass with an arbitrary activation (looking up names is keras's `activations.get`, a parameter; `str.lower` for ASCII only) |
| `Model/Qkeras.v` | `qkeras_quantizer_to_layers` of `proxy/plugins/qkeras.py` |
| `Model/QkerasLayer.v` | `qlayer_to_keras_layer`, `qlayer_to_proxy_layer` of `proxy/plugins/qkeras.py`; the classes of `keras.layers` are parameters |

### Not modelled

Debug prints, `test`s, `docs`,
hls4ml itself (only the precision strings and configs handed to it), Keras training loops and
optimisers (represented by arbitrary updates of the bitwidth variables), `tf.function`/XLA
compilation, file formats of `save`/`load`, warnings text, type annotations.

## 2. Trusted base

* The Coq kernel (8.16.1) and the standard library.
* The transcription: that the definitions in `Model/` say what the cited Python lines do.
* For C71 and C73 only: the meaning of the configuration handed to hls4ml (`Spec/Firmware.v`).  hls4ml is
  not part of the repository; assumed is what the names of the types and the docstring of `fusible`
  ("Delete this quantizer if no heterogeneity is detected") say.
* Axioms: what `Print Assumptions` prints beneath each theorem in `Props/`.  The whole
  development is axiom-free ("Closed under the global context").
* No `Axiom`, `Parameter`, `Admitted`, section-less `Variable`, functor, module type, plugin or
  kernel-flag change is used.

## 3. Plan per property

| id | modelled / how proved |
|---|---|
| C01 | `gfixed_quantizer` on `Qc` element-wise for the 7x5 modes; each rounding gives an integer, each overflow mode maps integers into `[lo,hi]`; conclusion via `representable` of Spec |
| C02 | rounding is the identity on integers, overflow identity on codes; idempotence from C01 (SAT_SYM's exception handled) |
| C03 | each mode against an independent relational spec (nearest, tie rule) |
| C04 | SAT/SAT_SYM closest-point spec; SAT_ZERO |
| C05 | existence and uniqueness of the congruent code, via `floormod` = `Z.modulo` |
| C06 | identity, range, period, reflection, Lipschitz for WRAP_SM |
| C07 | gfixed with b=0; constructor of the layer on lists |
| C08 | monotonicity of each rounding composed with clip |
| C09 | config record + weights; from_config with dummy -128 then weight restore |
| C10 | reduce_max over lists; iff |
| C11 | `HGQ.forward` inference path; grid and error bounds |
| C12 | idempotence, monotonicity, independence of draws |
| C13 | `q_round` strategies with draws as arguments |
| C14 | dual numbers |
| C15 | dual numbers for `scale_grad`; `MonoL1` |
| C16 | `__call__` clip over histories |
| C17 | state machine over histories, per group |
| C18 | batching of the dataset list, fold homomorphism |
| C19 | `get_bits_exact` against `fits`, minimality by counter-model |
| C20 | same, pos_only |
| C21 | state machine |
| C22 | `get_arr_bits` exact arithmetic, trailing zeros and magnitude |
| C23 | comparison of floor(log2)+1 and ceil(log2) |
| C24 | shape arithmetic over lists |
| C25 | broadcasting predicate over shapes |
| C26 | log2 as an abstract function with its defining properties, reduce-min |
| C27 | `bias_forward` |
| C28 | floor(x+1/2) identity with channel-constant f |
| C29 | mask of `fused_qbias` |
| C30 | layer evaluation on both sides, dense/conv as linear maps given by index lists |
| C31 | nested quantizer argument |
| C32 | composition over an acyclic graph and a dataset |
| C33 | graph of nodes with nested models, memoised evaluation |
| C34 | trace of applications |
| C35 | Namer as a state machine over strings; `Spec/Names.v` says what a layer asks for and gets, proved as an invariant of the conversion |
| C36 | fuelled loop |
| C37 | weight lists with names (substring search) |
| C38 | arithmetic of the range update + re-quantization |
| C39 | as C38 |
| C40 | API state machine |
| C41 | tree fold |
| C42 | tree fold |
| C43 | index maps |
| C44 | bisection loop |
| C45 | per-layer interval arithmetic |
| C46 | quantizer algebra |
| C47 | quantizer algebra; the request of a layer is attained by a quantizer it leads to (`Spec/Request.v`) |
| C48 | config predicates |
| C49 | table construction and index arithmetic |
| C50 | branch logic |
| C51 | printer/parser on strings |
| C52 | store of dict references |
| C53 | store of dict references |
| C54 | algebra |
| C55 | algebra + witnesses |
| C56 | algebra + witness; elementwise output through the quantizers, composing broadcast indices |
| C57 | case analysis |
| C58 | round-to-nearest-even on rationals m*2^e, proved to be the IEEE rounding; error analysis of each operation |
| C59 | widths of the calibrated range and of each weight; sums over index lists, re-indexing of the kernel; float32 sums of integers below 2^24 |
| C60 | index lists of matmul and convolution against indexed sums with zero padding (any rank: `Spec/ConvN.v`); inference of dense and convolution layers |
| C61 | universal property of the reduced maximum (an upper bound iff a bound of every member); products of non-negative bounds |
| C62 | the overflow step of the proxy quantizer on codes outside the format; two-quantizer ReLU chain with saturation; residues modulo 2^(k+i) |
| C63 | dual numbers through get_bits, relu, scale_grad, broadcasting and the sum over multiplications |
| C64 | the loaded object in closed form: constructor and build are idempotent on get_config of a built layer; registers do not influence calls that do not record |
| C65 | sums of multiples of 2^G bounded by 2^(G+23) never round, so every order gives the exact sum; then element-wise exactness of the quantizers (C58) lifted through the tensors |
| C66 | induction over the run with the one-step update; closed form of the linear recurrence; Bernoulli's inequality for the limit |
| C67 | minimum and maximum over a set of samples; the cover step and the softmax/ReLU corrections are monotone in the range (for a factor of at least 1); integer bits are monotone in the range and the count is a sum of products of non-negative widths; two runs of the registers composed |
| C68 | the adaptation of C26 applied to the scaled kernel, coordinate by coordinate; variances by their defining equations (C55) |
| C69 | reachability of quantizers as inductive relations; dictionaries by lookup; the loop by splitting the list of layers at the layer in question |
| C70 | networks evaluated on tensors by recipes (which elements each output element is computed from); an invariant relating the runs with and without tables; replacements one at a time, the store unchanged because it can only shrink and ends where it began |
| C71 | an independent semantics of circuits in the printed types (`Spec/Firmware.v`): types read back from the strings, sums as any tree of additions each cast to the accumulator; truncation and wrap-around commute with addition, so the accumulator equals the exact sum modulo its range; an invariant over the network: a stored tensor is the proxy's tensor cast to the result type |
| C72 | dictionaries as association lists; the two loops by splitting the configuration at the current key; then lookup of every variable by name, and C57 for the activation |
| C73 | tables of `Spec/Firmware.v` (points, index of an input); size = range / resolution is a power of two, so the index of a multiple of the resolution is exact; enumeration of the numbers of a format |
| C74 | networks of passive layers with their calls, AssertionError apart from other exceptions (`Model/PassiveNet.v`); two tensors with related elements stay related through reshape, concatenation and pooling; C61 for the last layer |
| C75 | the loaded layer in closed form; a table of zeros looked up anywhere is 0 (`Model/SaveProxy.v`) |
| C76 | `tf.constant` undoes `tolist` for arrays without empty axes; broadcasting to the own shape changes nothing |
| C77 | lower-casing against an inductive relation on strings; C30/C31 with the activation as a parameter: the proxy returns the pre-activation values unless `_relu_act` |
| C78 | composition of C32 (HGQ model = proxy on calibration data) and C71 (firmware = proxy): `Spec/EndToEnd.v` says when a network as the derivation sees it describes a converted model; induction over the layers, sample by sample |
| C79 | `Spec/Quiet.v`: runs in which no quantizer overflows; a quantizer shrunk to (k,i,f) agrees with the unshrunk one on values that fit its input's precision and are in its format; induction over the layers with the state invariant "each quantizer is the original or reduced once to what it produces"; refuted without quietness, for uneven shrinking and for SAT_SYM |
| C80 | `Spec/Staged.v`: the store at the moment a layer is registered; deriving again at that store gives the same types (locality: a layer's types depend on quantizers behind it, which are untouched so far); the simulation of C71 with one store per layer for the types and the final store for the quantizers, on runs that are quiet (C79); refuted if a quantizer becomes uniform |
| C81 | `Spec/Build.v`: the arguments of each class, the axes a skip_dims setting merges, the shape of the widths; facts about the constructor and `build` of `Model/Serial.v` |
| C82 | `Spec/Steady.v`: the condition on ReLU layers; a guarded semantics of the proxy that raises as soon as an element leaves its format (`gsem`), shown to run through on the calibration data with the HGQ model's outputs (same induction as C32, with the exact values of every pre-activation instead of their range only); hence the run of the network is quiet and C80 applies; refuted (quietness, not the outputs) for ReLU layers that round to nearest and have no negative unit |
| C83 | `Spec/Predict.v`: number of outputs, rows of a dataset; predictions compared with calls of the model before and after the calibration (`Model/Predict.v` on top of the calibration of `Model/Trace.v`) |
| C84 | `Spec/Tracing.v`: which events of a history run the python statements of forward, which adapt; invariant of the flag and of the graphs over histories of `Model/Tracing.v`; the repeated adaptation as an iterated cut |
| C85 | `Spec/Recalibrate.v`: two states of a model that agree except in ranges, recording flags and BOPs; simulation of `trace_minmax` on the two, using that counting only writes the bops variables; the loaded model by C64 |
| C86 | `Spec/TrainGrad.v`: epsilon-delta derivative, the smooth network with the observed rounding errors, paths of its inputs and outputs; calculus on Qc (sums, products, quotients), each layer and then every network follow the path; closed form of a layer by uniqueness of derivatives |
| C87 | `Spec/BnLayer.v`: shape of a per-channel parameter; position of an element along the axis by division; `Spec/BnAxes.v`: shape and position for any set of axes; sums of `Spec/Bops.v` |
| C88 | `Spec/BnLayer.v`, `Spec/BnStats.v`: the scale of the first call from the statistics of its batch, group-wise least bitwidth; invariants of the flag and of the shapes over histories of `Model/BnLayer.v` |
| C89 | `Spec/Attn.v`: projections, scores and softmax as formulas on indices, softmax by its defining equations, permutations of positions; `Model/Attn.v` goes through reshapes, transposes and matrix products of flat tensors |
| C90 | `Spec/FloatNet.v`: the log of the layer calls a model makes, the condition of C65 on each; simulation of the float32 run by the exact run along the log; for the proxy, each layer with its proxy (C65_proxy), then the conversion of graphs (C32) |
| C91 | `Spec/Nodes.v`: what it means that an object of the session is a model with a given graph (an injective topological numbering of its nodes), saying nothing about other nodes; simulation of the conversion on nodes by the conversion on the graph (Model/Convert.v) |
| C92 | relations between two conversions (names arbitrary; names equal on all layers), and the exact names of C35 (`Spec/Names.v`), for layers made anew each time and layers passed on; witness with a layer used twice |
| C93 | `inside` (`Spec/Unseen.v`): a call with record_minmax on in every layer leaves the store as it is; the outputs of proxy and HGQ model on such batches are compared (C32's vocabulary), ranges with `wider_store` (`Spec/Calib.v`) and `holds_range` |
| C94 | `prepared` and `roomy` (`Spec/Prepared.v`): recording off, finite ranges on the grid; ends of at most 23 bits. Outputs and ranges are compared as in C93 and C90; C94_not_exact shows that the float32 ranges differ from the exact ones |
| C95 | composition of C94 (a prepared model and its proxy agree on all data inside the ranges), C71 and C80 (firmware = proxy, before and after registering): the batch is an arbitrary one for which `inside` and `promises_kept` hold, not one taken from the calibration data; C95_ex and C95_registered_ex run samples that were not in the data |
| C96 | C09 and C75 lifted to networks: which nodes call a quantizer (`calls`) decides `fusible`; `get_config` in closed form; loading gives the model after saving; widths stay non-negative under registering by `register_reduced` of C79 (`Model/SaveNet.v`) |
| C97 | each rounding mode against the exact one: equal below 2^22 by the lemma on adding 1/2 (C58), beyond 2^22 both outside every format; each overflow mode exact on integers up to 2^22; `half_case` (`Spec/FloatModes.v`) lists the exceptions, C97_half shows that they are ones |
| C98 | code of a cast = overflow policy of a floor; floors nest; WRAP is the residue modulo 2^b, the range of the inner type a multiple of the outer one's; SAT by cases; accumulation by induction, the register equals the true sum up to multiples of 2^i (`Spec/Casts.v`: `after`, `accumulate`, `total`) |

### Wrong programs (`seeded/LOG.jsonl`)

Each line is one edit of one definition of `Model/`, made in a scratch copy.  `lemmas_failed` are
the lemmas and theorems whose own proof was rejected (each was replaced by an assumption in the
scratch copy so that the rest could be checked).  `theorems_failed` are the theorems of `Props/`
among these and those that use one of them.  `files_not_compiled` are files that could not be
checked past the rejected lemma; all their theorems are counted as failed, which is weaker
evidence than a rejected lemma.  A rejected proof shows that the edit is noticed; it does not by
itself show that the statement became false.

## 4. Status

Generated by `tools/gen_status.py` from `MANIFEST.json`.

`Print Assumptions` answers "Closed under the global context" for every theorem listed here:
no axiom, from the standard library or elsewhere, is used by any of them.

| id | status | theorems (all closed under the global context) | file |
|---|---|---|---|
| C01 | proved | `quantizer_output_representable`, `quantizer_raises_iff_unknown_mode`, `layer` | P_FixedPoint.v |
| C02 | proved | `quantizer_identity_on_representable`, `sat_sym_most_negative`, `quantizer_idempotent` | P_FixedPoint.v |
| C03 | proved | `rounding_modes_follow_rules`, `RND_ties_to_even_refuted` | P_FixedPoint.v |
| C04 | proved | `SAT_is_closest_code`, `SAT_SYM_is_closest_symmetric_code`, `SAT_ZERO_zeroes_overflow`, `names` | P_FixedPoint.v |
| C05 | proved | `WRAP_is_twos_complement` | P_FixedPoint.v |
| C06 | proved | `WRAP_SM_reflects` | P_FixedPoint.v |
| C07 | proved | `zero_width_is_zero`, `zero_width_elements_of_layer`, `constructor_normalises` | P_FixedPoint.v |
| C08 | proved | `quantizer_monotone`, `wrapping_not_monotone` | P_FixedPoint.v |
| C09 | proved | `save_load_preserves`, `save_load_clamps_negative_widths`, `save_load_preserves_any_width_refuted` | P_FixedPoint.v |
| C10 | proved | `heterogeneous_iff`, `fusible_iff`, `homogeneous_type_exact`, `exported_type_contains_elements`, `exported_type_int8_refuted` | P_FixedPoint.v |
| C11 | proved | `inference_grid_and_error`, `inference_tensor`, `spec_deterministic` | P_Quantizer.v |
| C12 | proved | `inference_ignores_draws`, `inference_idempotent`, `inference_monotone` | P_Quantizer.v |
| C13 | proved | `unknown_strategy_raises`, `stochastic_envelope`, `stochastic_up_probability`, `noise_envelope`, `unknown_name_only_raises_in_training` | P_Quantizer.v |
| C14 | proved | `training_value_and_gradients`, `each_derivative`, `training_value_is_quantized_value`, `inference_gradients` | P_Quantizer.v |
| C15 | proved | `scale_grad`, `scale_grad_value`, `regularizer_monotone`, `regularizer_value` | P_Quantizer.v |
| C16 | proved | `call_uses_clipped_bitwidths`, `history`, `bias_uses_clipped_bitwidths_refuted` | P_Quantizer.v |
| C17 | proved | `registers_are_extremes`, `log_meaning`, `nonrecording_calls_change_nothing` | P_Range.v |
| C18 | proved | `batch_size_irrelevant`, `every_sample_once_in_order`, `unclipped_bits_refuted` | P_Trace.v |
| C19 | proved | `bits_cover_and_minimal`, `calibrated_values_fit`, `large_values_refuted`, `coarse_grid_refuted` | P_Range.v |
| C20 | proved | `pos_only_cover_and_minimal` | P_Range.v |
| C21 | proved | `untraced_raises`, `reset_raises`, `raises_iff_nothing_recorded` | P_Range.v |
| C22 | proved | `weight_bits_exact_and_minimal`, `weight_bits_rounded`, `minimal_in_float32_refuted`, `finest_weight_refuted` | P_Range.v |
| C23 | proved | `activation_bits_over_approximate`, `relu_bits_agree`, `kernel_bits_over_approximate`, `kernel_bits_float32_refuted` | P_Range.v |
| C24 | proved | `degeneracy`, `bitwidth_shape`, `raises_iff` | P_Quantizer.v |
| C25 | proved | `prefix_recording_succeeds`, `prefix_specs`, `except_1st_raises` | P_Range.v |
| C26 | proved | `adapt_group_minimum`, `same_number_of_bits`, `zero_weights_to_upper_clip` | P_Quantizer.v |
| C27 | proved | `deployed_bias`, `channels_first_refuted`, `bias_finest_grid_channels_last`, `bias_finest_grid_channels_first` | P_Layers.v, P_Quantizer.v |
| C28 | proved | `truncating_prebiased_is_rounding`, `layer_prebias` | P_Layers.v |
| C29 | proved | `masked_positions_are_zero` | P_Layers.v |
| C30 | proved | `linear_layer_proxy`, `channels_first_refuted` | P_Layers.v |
| C31 | proved | `relu_layer_proxy` | P_Layers.v |
| C32 | proved | `proxy_model_exact`, `proxy_model_exact_quantized_inputs`, `untraced_sample_differs` | P_ProxyModel.v |
| C33 | proved | `conversion_preserves`, `conversion_succeeds`, `several_outputs_refuted` | P_Convert.v |
| C34 | proved | `each_needed_node_once`, `top_level` | P_Convert.v |
| C35 | proved | `next_name`, `sequences_distinct`, `converted_names_distinct`, `names_exact` | P_Convert.v |
| C36 | proved | `converges_or_raises`, `none_removes` | P_Convert.v |
| C37 | proved | `lookup`, `kernel_and_bias`, `other_weights`, `reported`, `silently_skipped_refuted`, `substring_refuted`, `standalone_batchnorm_raises` | P_Weights.v |
| C38 | proved | `factors`, `narrows`, `cover_never_shrinks`, `cover_total`, `cover_one`, `below_one_refuted` | P_Factors.v, P_Trace.v |
| C39 | proved | `corrected_ranges`, `attainable_values_kept`, `negative_fraction_refuted` | P_Trace.v |
| C40 | proved | `inference_changes_nothing`, `no_bops_refuted`, `retrace_records_nothing` | P_Trace.v |
| C41 | proved | `dense_formula`, `trace_returns_exact_bops`, `without_counting`, `free_bops_is_sum`, `trace_returns_sum`, `callbacks_agree`, `nested_not_counted_refuted` | P_Bops.v, P_Trace.v |
| C42 | proved | `reset_reaches_every_layer`, `reset_total`, `trace_top_level_only`, `nested_calibration_refuted` | P_Trace.v |
| C43 | proved | `reshape`, `reshape_mismatch`, `concatenate`, `max_pool`, `pool_position`, `max_pool_suffices`, `permute_refuted`, `permute_uniform`, `average_refuted`, `mixed_grids_refuted`, `permute_values`, `pool_window`, `average_needs` | P_Passive.v |
| C44 | proved | `container`, `all_zero`, `huge_refuted`, `fine_refuted` | P_Precision.v |
| C45 | proved | `idempotent`, `produced_contains`, `bias_refuted`, `extreme_refuted`, `subtract_refuted`, `dot_refuted`, `average_refuted`, `heterogeneous_refuted` | P_Precision.v |
| C46 | proved | `preserved`, `wrap_unsigned_refuted`, `wrap_signed_refuted`, `saturation_refuted`, `symmetric_refuted`, `top_refuted`, `no_bits_refuted`, `heterogeneous_refuted` | P_Reduce.v |
| C47 | proved | `result_type`, `exact`, `input`, `unsigned_refuted`, `no_bits_refuted`, `other_rounding_refuted`, `input_sat_zero_refuted`, `economy` | P_Merge.v, P_Request.v |
| C48 | proved | `width`, `rejected`, `65_bits_refuted`, `accumulator`, `accumulator_full` | P_Merge.v |
| C49 | proved | `representable`, `wraps`, `output_format`, `in_network` | P_Lut.v |
| C50 | proved | `replaced`, `kept`, `raises` | P_Lut.v |
| C51 | proved | `round_trip`, `no_bits_changed`, `nuke_not_parsed`, `parser`, `parser_reads` | P_Apf.v |
| C52 | proved | `keys`, `rejected`, `copy`, `isolated`, `stays`, `by_reference_refuted`, `regularizer_refuted` | P_Conf.v |
| C53 | proved | `auto`, `activation`, `default`, `named`, `shared_refuted`, `kernel_refuted`, `covers_agree`, `bias_covers`, `channels_first_refuted` | P_Conf.v |
| C54 | proved | `affine`, `scale_only`, `in_layer`, `standard_iff`, `standard_refuted`, `center_only_refuted` | P_BatchNorm.v |
| C55 | proved | `training_formula`, `training_is_inference`, `beta_refuted`, `center_only_refuted`, `bias_dropped_refuted` | P_BatchNorm.v |
| C56 | proved | `value`, `correct_iff`, `refuted`, `statistics`, `inference`, `elements` | P_BatchNorm.v, P_BnElem.v |
| C57 | proved | `quantized_bits`, `quantized_relu`, `binary`, `rejected`, `wrap_refuted`, `one_bit_refuted`, `binary_alpha_refuted` | P_Qkeras.v |
| C58 | proved | `rounding_is_ieee`, `standard_round`, `standard_round_exceptions`, `exact_round_refuted`, `floor`, `floor_underflow_refuted`, `training_refuted`, `proxy_same`, `proxy_exact`, `wide_wrap_refuted` | P_Float32.v |
| C59 | proved | `layer_bops`, `weight_costs`, `model_bops`, `conv_bops`, `conv_bops_padded`, `channels_first_refuted`, `float_sum_exact` | P_Bops.v |
| C60 | proved | `dense_is_matrix_product`, `conv1d`, `conv2d`, `conv1d_channels_first`, `conv2d_channels_first`, `output_positions`, `same_padding`, `dense_inference`, `convnd`, `convnd_channels_first`, `conv_inference` | P_Bops.v, P_ConvN.v |
| C61 | proved | `shared_kernel_bits`, `bops_over_approximate`, `inner_axis_refuted` | P_TrainBops.v |
| C62 | proved | `layer_any_input`, `relu_wrap`, `relu_wrap_refuted` | P_Overflow.v |
| C63 | proved | `gradient`, `kernel_bitwidth`, `activation_bitwidth`, `never_negative` | P_BopsGrad.v |
| C64 | proved | `save_load`, `load_environment`, `same_outputs`, `needs_calibration`, `batchnorm_training`, `stored_shapes`, `epsilon_refuted`, `center_scale_refuted`, `bits_readapted_refuted`, `shared_configuration_refuted` | P_Serial.v |
| C65 | proved | `accumulation`, `order_refuted`, `layer`, `proxy`, `layer_and_proxy`, `wide_refuted` | P_FloatLayer.v |
| C66 | proved | `moving_statistics`, `bounded`, `variance_not_negative`, `converges` | P_Moving.v |
| C67 | proved | `same_samples`, `more_samples_wider_ranges`, `more_samples_more_bops`, `cover_below_one_refuted`, `in_steps`, `cover_in_steps_refuted`, `callback`, `callback_empty` | P_Calib.v |
| C68 | proved | `first_call`, `without_scale`, `once`, `only_dense`, `same_number_of_bits`, `activation_refuted` | P_Adapt.v |
| C69 | proved | `where`, `own_quantizer`, `registered`, `nothing_else`, `raises`, `reused_layer_refuted` | P_Register.v |
| C70 | proved | `tensors_fit`, `same_outputs`, `unquantized_refuted` | P_Tables.v |
| C71 | proved | `kernel`, `offset`, `network`, `tables`, `offset_refuted`, `rounding_refuted`, `zero_bits_refuted` | P_Firmware.v |
| C72 | proved | `same_function`, `activation_layer`, `settings`, `converts`, `needs`, `other_variables`, `other_variables_refuted` | P_QkerasLayer.v |
| C73 | proved | `points`, `reads`, `error`, `other`, `coarse_refuted` | P_TableSize.v |
| C74 | proved | `widths`, `bops`, `origin`, `shared_refuted`, `shared_concat_refuted`, `unquantized_input`, `no_products` | P_PassiveNet.v |
| C75 | proved | `loads`, `same`, `activation`, `config_only` | P_SaveProxy.v |
| C76 | proved | `built`, `unbuilt` | P_SaveProxy.v |
| C77 | proved | `accepts`, `hactivation`, `proxy`, `documented`, `proxy_refuted` | P_Activation.v |
| C78 | proved | `firmware`, `tables`, `kernel` | P_EndToEnd.v |
| C79 | proved | `same`, `uniform`, `overflow_refuted`, `uneven_refuted`, `symmetric_refuted` | P_Quiet.v |
| C80 | proved | `registered`, `stages`, `fusion_refuted` | P_Staged.v |
| C81 | proved | `arguments`, `configurations`, `widths`, `derived`, `rounding`, `quantizers` | P_Build.v |
| C82 | proved | `quiet`, `firmware`, `rounding_refuted` | P_Steady.v |
| C83 | proved | `predictions`, `several_outputs`, `several_outputs_refuted` | P_Predict.v |
| C84 | proved | `adapts`, `drift`, `once_refuted` | P_Tracing.v |
| C85 | proved | `forgets`, `counting`, `again`, `loaded`, `without_reset_refuted` | P_Recalibrate.v |
| C86 | proved | `gradients`, `unique`, `layer` | P_TrainGrad.v |
| C87 | proved | `shapes_axes`, `trained_axes`, `exact_bops_axes`, `over_approximate_axes`, `training_bops`, `shapes`, `axes`, `exact_bops`, `over_approximate`, `first_call` | P_BnAxes.v, P_BnLayer.v |
| C88 | proved | `switched_off_refuted`, `first_call`, `once`, `functional_refuted`, `deployed_refuted`, `saved_refuted` | P_BnLayer.v |
| C89 | proved | `formula`, `first_call`, `value_dim`, `average`, `set`, `output_shape_refuted`, `symbolic_refuted` | P_Attn.v |
| C90 | proved | `network`, `trace`, `proxy_model`, `deployment` | P_FloatNet.v |
| C91 | proved | `nodes`, `graph`, `independent`, `preserves` | P_Nodes.v |
| C92 | proved | `graph`, `others`, `again`, `again_refuted` | P_Rename.v |
| C93 | proved | `unseen`, `calibration`, `wider`, `cover_factor`, `enough`, `one_value` | P_Unseen.v |
| C94 | proved | `factors`, `narrows`, `prepared`, `prepared_float32`, `cover_float32`, `deployment` | P_Factors.v, P_FloatCover.v |
| C95 | proved | `traced`, `firmware`, `quiet`, `registered`, `float32` | P_Field.v |
| C96 | proved | `saves`, `loads`, `same`, `registered`, `any_width_refuted`, `fusible`, `lookup` | P_SaveNet.v |
| C97 | proved | `modes`, `half`, `identity`, `wide_refuted`, `layer` | P_FloatModes.v |
| C98 | proved | `wrap`, `sat`, `signed`, `defaults`, `accumulate`, `final`, `nearest_refuted`, `saturating_refuted` | P_Casts.v |

Theorem names are given without their `Cxx_` prefix.

### Notes

* **C01** all 7x5 modes, exact rational arithmetic; per element and for the layer on batches, which raises in training
* **C02** identity, idempotence, and the SAT_SYM exception
* **C03** each mode against an independent rule that determines the result; the code comment on RND is refuted
* **C07** element level, layer level (broadcast over a batch) and constructor
* **C08** and wrapping modes shown not monotone
* **C09** legal configurations round-trip; negative widths are clamped, and the unrestricted claim is refuted
* **C10** under the condition that the exported int8 differences do not overflow; refuted without it
* **C11** element and tensor level, all strategies, all real bitwidths
* **C12** determinism and idempotence at tensor level, monotonicity per element
* **C13** plus: an unknown strategy name only raises in training
* **C14** dual-number differentiation; ln 2 and non-integer powers of two arbitrary
* **C16** for the quantizer call, over histories; bias_forward does not clip (refuted there)
* **C17** over all histories of resets, bitwidth updates and calls, for skipped prefixes
* **C18** Same ranges, BOPs, state and concatenated predictions for any two positive batch sizes, for every graph (nested models, shared layers), dataset and cover factor; every sample visited once in order. Needs bitwidths inside their clip range: refuted without (the first batch reads the unclipped bitwidth for the bias).
* **C19** cover, minimality, and end-to-end over calibration histories; refuted beyond 2^32 and below -32 bits
* **C21** iff over histories
* **C22** exact arithmetic; under any rounding of the addition one extra bit at most; float32 minimality and the 2^-32 weight refuted
* **C23** kernel part in exact arithmetic; refuted in float32
* **C26** log2 any function that brackets powers of two
* **C27** finest grid for both channel locations; forward and deployed bias agree (plus the C28 shift); refuted for channels_first convolutions, whose forward ignores channel_loc
* **C28** quantizer level for all formats and overflow modes; layer level for every input, weight and bitwidth
* **C30** layers whose bias location is channel_loc (all but channels_first convolutions, refuted separately); float32 rounding outside the model
* **C31** as C30; heterogeneous bitwidths and both overflow policies
* **C32** trees of nested functional models built from HGQ layers, passive layers, dropout, linear activations and Signature layers; both overflow modes; Signature inputs must keep their declared format; the calibration hypothesis is shown to be needed by an untraced sample
* **C33** graphs whose nested models have one output each; a nested model with several outputs is converted wrongly (refuted separately)
* **C34** order of inputs is covered by C33, which holds for arbitrary layer semantics
* **C37** Lookup is by substring (first match); kernel and bias are the fused quantized ones. Refuted: weights merely named like a kernel or bias are skipped silently; a substring match can shadow the exact name; copying a standalone batch-norm layer raises.
* **C38** The cover step keeps the grid and contains the recorded range for factors >= 1, never raises on finite ranges, and factor 1 changes nothing; refuted for factors below 1. C38_factors: exactly the positive factors are accepted; C38_narrows: a factor of at most 1 keeps the range inside the recorded one.
* **C39** Corrected ranges for softmax, sigmoid and tanh; quantized attainable values in the traced range stay in it for non-negative fractional bits; refuted for negative fractional bits.
* **C40** After trace_minmax any sequence of inference calls of any model over the traced top-level layers leaves the state unchanged; refuted for no_bops_computation; a second trace with rst=False records nothing.
* **C41** FreeBOPs is the sum over the layer tree; trace_minmax returns the sum of compute_exact_bops over top-level layers, evaluated at the final state, and agrees with FreeBOPs when nothing is nested; dense layers follow the documented formula; refuted for nested quantized layers.
* **C42** reset_minmax reaches exactly the quantized layers at every depth; trace_minmax leaves non-recording nested layers unchanged, and their exact bitwidths raise.
* **C43** Reshape, flatten, dropout (inference), concatenate and max pooling proved for all shapes, axes, paddings and data formats, for act_bw_exact; batches of any size. Concatenation and pooling follow the TensorFlow definitions (np.concatenate, tf.nn.max_pool). Permute, average pooling and max pooling over different grids are refuted with concrete witnesses. Concatenate along the batch axis is not covered.
* **C44** Proved for all arrays of multiples of 2^-32 in [-2^32, 2^32); arrays outside are refuted (C44_huge_refuted, C44_fine_refuted). log2 is exact in the model (numpy's float log2 may round up next to a power of two).
* **C45** Whole networks, at the state the derivation leaves behind; the _refuted theorems show that each excluded layer kind is really wrong. Float32 rounding of activation outputs is not modelled.
* **C46** Uniform quantizers, in the cases listed in the specification predicate 'harmless' (all rounding and overflow modes); every excluded class has a refutation witness.
* **C47** Direct consumers (heterogeneous or not) with TRN/RND; network level, using get_result_kifRS; also the input-layer rule. Failures for other rounding modes, mixed signs, no bits and SAT_ZERO inputs are proved.
* **C48** 64 bits besides the sign; the stricter reading (64 bits in total) is refuted. Accumulator statements are for accum_fp_max_offset = None.
* **C49** Element-wise, exact arithmetic; the activation is an arbitrary function (its cast to float32 included). Inputs outside the format wrap after rounding to nearest even. C49_in_network covers a layer followed by one homogeneous quantizer; the other result types are C47. f <= 1074 because 2.**-f underflows beyond.
* **C50** A request that admits 4096 entries makes the conversion of a 12-bit input fail instead of keeping the layer (C50_raises_ex). 2^(k+i+f) of the model with a negative exponent (as a Python float) is compared as a rational.
* **C51** Strings of ASCII characters; includes a full characterisation of what the parser accepts.
* **C52** Programs of get/set/write/delete/new-layer/build statements over dict and regularizer objects with identity. Refuted for dictionaries written to after being passed to a setter, and for the regularizer object, which the shallow copy shares.
* **C53** Same program model; any layers built in between. C53_bias_covers says what a covering bias is; C53_named: everything but 'auto' is taken as it stands. Refuted for channels first (the batch dimension is compared with the bias), for a dictionary shared with an activation layer, and for kernel configurations, where 'auto' becomes the invalid strategy -1.
* **C54** For any function in place of rsqrt and any per-channel multiply-accumulate operator (dense, grouped convolution). Also shown: exactly when this is batch normalisation of Wx+bias (C54_standard_iff), refuted in general, and refuted for scale=False with center=True.
* **C55** For layers with bn_beta zero, center and scale on, or without bias; training values equal inference values for deterministic strategies at exact bitwidths. Refuted for bn_beta non-zero, scale=False with center=True, and center=False with a bias.
* **C56** What the layer computes, exactly when that is batch normalisation, and a witness (through the quantizers too) that it is not in general. C56_statistics: the statistics used in training are the means and variances over all axes but the channel's; C56_inference: inference uses the moving ones; C56_elements: the quantized output element by element, for any axes and any sharing of bitwidths.
* **C57** Against the documented QKeras functions (QKeras is outside /repo), with at least one magnitude bit. Ternary and po2 raise because their overloads lack the second argument. Refuted: other overflow policies, one-bit signed quantizers, scaled binary quantizers.
* **C58** Single precision written out on exact rationals (rn32, proved to be IEEE round-to-nearest-even on |x| < 2^127; overflow, sign of zero and XLA rewrites not modelled), no real-number axioms. Standard round exact except on the two exceptional sets, where it is exactly one step high; floor exact; the proxy quantizer agrees bit for bit. Refuted: exactness at the exceptions, floor of subnormals, training-mode output on the grid, WRAP formats wider than 24 bits.
* **C59** Layers read directly from another quantized layer (passive layers in between: C43). Sums exact up to 2^24 in float32. Refuted for channels_first.
* **C60** tf.matmul and tf.nn.convolution are modelled from their documentation. C60_convnd: any number of spatial dimensions; conv1d and conv2d spell out one and two. C60_conv_inference is for channels_last (channels_first: C27, C30).
* **C61** Kernels whose shared axes are leading (None, 'all', 'except_last', 'batch'); refuted for other shared axes. Exact arithmetic: float32 can make the exact kernel bits larger (C23_kernel_bits_float32_refuted).
* **C62** Per layer. WRAP with ReLU only inside the layer's widest range (refuted beyond). Output formats are the derived ones (get_bits_exact); exact arithmetic.
* **C63** Layer reading one quantized layer (registers calibrated), kernels whose shared axes are leading; sqrt(1/degeneracy), beta and the convolution factor are arbitrary constants.
* **C64** Layers that were constructed, built and then changed only in weights, registers, beta and the adaptation flag; keras restores its own arguments, the dictionary values and the weights in order. HBatchNormalization is not covered. Four refutations delimit the batch-norm part and shared dictionaries.
* **C65** Layers and proxies at inference; the formats are those of the exact model. The range condition is on the terms of each sum; without it two refutations: the order of summation matters, and a layer and its proxy can differ.
* **C66** HDenseBatchNorm and HConvBatchNorm; with scale off the statistics are those of the quantized kernel.
* **C67** Models of HGQ layers with top-level quantizers, any data, batch sizes and stores. BOPs monotone under the hypotheses of the exact count (quantized kernels and calibrated ranges within 32 bits).
* **C68** Bitwidths shared over leading axes (every skip_dims of kernels built from a prefix); rsqrt and log2 abstract. About eager calls; C84 treats graphs.
* **C69** Layers in the model's order; a layer consuming another one twice is visited once. hls4ml's use of the overrides is not modelled.
* **C70** The geometry of every layer (which input elements an output element reads) is a parameter. Derivation without a quantizer to shrink (the state after register_qconf or a first derivation); tables for layers read as described.
* **C71** The circuit semantics is a specification (hls4ml is not in the repository): types and table sizes read from the registered configuration, uniform quantizers alone behind their input left out, any order of additions, tables of tanh and sigmoid over [-4, 4) and [-8, 8). Two uniform quantizers in a row (both would be left out) are outside the statement. Geometry is a parameter as in C70.
* **C72** Keras classes are parameters (accepted keywords, initial variables, function of settings and variables by name); the meaning of the activations is the one of C57 (QKeras's documentation). Layers with variables other than kernel and bias: C72_other_variables and its refuted companion show that their values are lost.
* **C73** The layout of a table (points evenly spaced over the fixed range, floor of the scaled input, clipped to the table) is the one the comments in the code state for hls4ml.
* **C74** Two general statements and, for layers called twice, refutations: C74_shared_refuted (for every network) and C74_shared_concat_refuted (a witness).
* **C75** UnaryLUT: configuration plus the stored table; keras is taken to store and assign the variable in both cases.
* **C76** Signature: nested lists in the configuration, tf.constant and broadcasting on loading.
* **C77** Which activation arguments the constructor takes; proxy = layer iff the activation is the object tf.keras.activations.relu or leaves the reached values alone. Refuted for other functions named relu (tf.nn.relu): the proxy drops the ReLU.
* **C78** C78_firmware composes C32_proxy_model_exact and C71_network; C78_tables the same with C71_tables. The network of the derivation (layer kinds, element recipes) is related to the converted model by the predicate describes, layer by layer; C78_kernel discharges it for dense and convolution layers, C78_ex for a whole model. Assumes that registering leaves the quantizers as they are (layer_config returns the state it was given), the firmware arithmetic of Spec/Firmware.v, and the exact arithmetic of the model (float32 effects: C65).
* **C79** C79_same: any fuel, names, overrides, nothing assumed about the inputs but that no quantizer overflows before registration. Assumes all_fine after registration (formats within bounds, C51), honest inputs (float32 values) and tables of the declared format. C79_uniform discharges the condition on shrinking. C79_overflow_refuted, C79_uneven_refuted and C79_symmetric_refuted show that each condition is needed.
* **C80** C80_registered: the types come from the states reached when each layer's turn came (registered_at), the quantizers of the circuit are those after the last layer; no settledness is assumed. Conditions: those of C79_same, synthesized (C71) at the moment of registration, and same_fusion, shown necessary by C80_fusion_refuted (a defect: a heterogeneous quantizer that registration makes uniform is removed from the circuit although the layer before it was typed for one that stays). C80_stages: every registered layer has such a moment; with C69_registered its types are the ones filed in the overrides. accum_fp_max_offset is None as in C71_network.
* **C81** About construct and build of Model/Serial.v. C81_arguments is one direction: rejected are the arguments of other HGQ classes; which further arguments keras accepts is not modelled. C81_widths gives the resolved skip axes and the shapes of the bitwidths and of the range registers; C81_derived the parallelization factor of dense layers and centering of batch-norm layers; C81_rounding and C81_quantizers the rounding mode, exactness and range of widths of each quantizer from its own configuration.
* **C82** From the HGQ model to the firmware without C78's assumption that registration changes no quantizer. C82_quiet: on the calibration data no quantizer of the converted proxy overflows, if ReLU layers are steady (Spec/Steady.v); C82_firmware adds the hypotheses of C80 about the network. Not covered: ReLU units that are never positive on the calibration data, and ReLU layers with rnd_strategy other than 'auto' that round to nearest in the firmware and have no negative unit or a minimum that is the negative of a power of two; there C82_rounding_refuted shows that the first quantizer may overflow (with the right output all the same).
* **C83** np.concatenate is modelled on the values and shapes of the predictions (bops.py:124-125). The refuted theorem is about models with several outputs, where the array is not the outputs of the model on the dataset.
* **C84** The expected 'once' is refuted (C84_once_refuted); C84_adapts says exactly what happens in every history, C84_drift what repeated runs do. Tracing itself is taken not to fail.
* **C85** For the model of trace_minmax in Model/Trace.v and Model/Bops.v; return_predictions is C83. C85_counting discharges the hypothesis that counting BOPs does not read the bops variables. Layers of nested models are not reset (C42), so they must be the same in both states.
* **C86** Directional derivatives on dual numbers, which is what tf.GradientTape's reverse mode computes for linear combinations of outputs; numbers are exact, ln 2 and 2^f are arbitrary parameters, so nothing depends on their values; 1/sqrt and activation functions enter with the derivative TensorFlow uses for them. The smooth function fixes errors, gates and Jacobians at the values of the step, as straight-through gradients do. The loss terms of BOPs (C63) and L1 are separate. bn_beta of a fused layer is not read in a training step, so it has no gradient (C54). HBatchNormalization is covered after the one-off adaptation of its bitwidths; a scale that is zero would give infinities, the model raises there. The smooth function has the bias of the code, beta - mean / scale (see C56).
* **C87** The theorems named axes hold for any set of axes, the others for one axis (with the position written as a division). Numbers are exact, so weights must be multiples of 2^-31 below 2^64 as in C59. The reported value is that of an inference call without adaptation (first_call: with it; training_bops: in training, for quantizers without noise); 1/sqrt is an arbitrary function.
* **C88** first_call and once prove the adaptation; the others are refutations: functional (adaptation never happens in functional models), switched_off (center=False or scale=False cannot be trained), deployed (to_proxy_model raises), saved (settings are lost). Which graphs are traced and run is an arbitrary history; tracing itself is assumed not to fail.
* **C89** Exact numbers; the exponential function is any positive function, the square root any function (the largest score is subtracted before, as tf.nn.softmax does). Masks have one entry per sample, query and key. output_shape and symbolic are refutations.
* **C90** C90_network and C90_trace: any model of HGQ and passive layers; C90_proxy_model and C90_deployment under the hypotheses of C32 (calibrated model, promises kept). The condition is on the calls the model makes on the batch (every_call); C65_wide_refuted and C65_order_refuted show that it is needed. Functions of activations and passive layers are arbitrary and the same in both models. Cover factor 1 for tracing in float32; any cover factor for the proxy of a given calibrated state. BOPs are computed by the exact function.
* **C91** Keras' bookkeeping of nodes is taken as given (shows: each node of the model is among the inbound nodes of its layer, parents come earlier); several outputs per node are not distinguished, as in the code. The names are those the layers have at the time (a conversion may rename the layers it goes through, C92).
* **C92** Whether the transformer makes a layer anew each time is part of the description of the layer's identity (second component of the names).
* **C93** proxy exact on every batch inside the calibrated ranges, seen or not; calibration data inside; cover_factor monotone, and sufficient if no range is a point (a point never widens)
* **C94** trace_minmax in float32 with a cover_factor (rounded mean, half width, product, sum, then the quantizer in float32); hypotheses: cover_factor between 1 and 2^40, the ends of the data ranges have at most 23 bits, ranges found inside the supported bounds. C94_factors: exactly the positive factors are accepted in single precision.
* **C95** C95_traced: trace_minmax leaves a prepared model (Spec/Prepared.v). C95_firmware: on every batch inside the ranges the firmware built from the derived types delivers the outputs of the HGQ model. C95_quiet, C95_registered: the same with the quantizers shrunk by register_qconf, for steady ReLU layers. C95_float32: the HGQ model run in float32 with any accumulator. Assumptions on network, types and firmware arithmetic are those of C78 and C82; look-up tables are not covered (C78_tables covers them on the calibration data).
* **C96** Whole proxy model as quantizers, overrides and lookup tables over a network. C96_any_width_refuted: a registered proxy whose second quantizer is left with -3 bits delivers -1/4, after saving 0 in memory and loaded. Keras layers and the graph are taken to be restored by keras. C96_fusible: when the stored flag fusible is true.
* **C97** All 35 modes, single elements and whole layers; tf.pow of integers exact as in C58. C97_wide_refuted: WRAP_SM with 24 bits turns 1 into 2.
* **C98** Values without float rounding errors (C97 for float32). C98_nearest_refuted: double rounding; C98_saturating_refuted: 7+7-7 in a saturating accumulator gives 0.

### Behaviours refuted

Each `_refuted` theorem exhibits, in the model, inputs on which the behaviour one would expect fails:

* `C03_RND_ties_to_even_refuted`
* `C09_save_load_preserves_any_width_refuted`
* `C10_exported_type_int8_refuted`
* `C16_bias_uses_clipped_bitwidths_refuted`
* `C18_unclipped_bits_refuted`
* `C19_large_values_refuted`
* `C19_coarse_grid_refuted`
* `C22_minimal_in_float32_refuted`
* `C22_finest_weight_refuted`
* `C23_kernel_bits_float32_refuted`
* `C27_channels_first_refuted`
* `C30_channels_first_refuted`
* `C33_several_outputs_refuted`
* `C37_silently_skipped_refuted`
* `C37_substring_refuted`
* `C38_below_one_refuted`
* `C39_negative_fraction_refuted`
* `C40_no_bops_refuted`
* `C41_nested_not_counted_refuted`
* `C42_nested_calibration_refuted`
* `C43_permute_refuted`
* `C43_average_refuted`
* `C43_mixed_grids_refuted`
* `C44_huge_refuted`
* `C44_fine_refuted`
* `C45_bias_refuted`
* `C45_extreme_refuted`
* `C45_subtract_refuted`
* `C45_dot_refuted`
* `C45_average_refuted`
* `C45_heterogeneous_refuted`
* `C46_wrap_unsigned_refuted`
* `C46_wrap_signed_refuted`
* `C46_saturation_refuted`
* `C46_symmetric_refuted`
* `C46_top_refuted`
* `C46_no_bits_refuted`
* `C46_heterogeneous_refuted`
* `C47_unsigned_refuted`
* `C47_no_bits_refuted`
* `C47_other_rounding_refuted`
* `C47_input_sat_zero_refuted`
* `C48_65_bits_refuted`
* `C52_by_reference_refuted`
* `C52_regularizer_refuted`
* `C53_shared_refuted`
* `C53_kernel_refuted`
* `C53_channels_first_refuted`
* `C54_standard_refuted`
* `C54_center_only_refuted`
* `C55_beta_refuted`
* `C55_center_only_refuted`
* `C55_bias_dropped_refuted`
* `C56_refuted`
* `C57_wrap_refuted`
* `C57_one_bit_refuted`
* `C57_binary_alpha_refuted`
* `C58_exact_round_refuted`
* `C58_floor_underflow_refuted`
* `C58_training_refuted`
* `C58_wide_wrap_refuted`
* `C59_channels_first_refuted`
* `C61_inner_axis_refuted`
* `C62_relu_wrap_refuted`
* `C64_epsilon_refuted`
* `C64_center_scale_refuted`
* `C64_bits_readapted_refuted`
* `C64_shared_configuration_refuted`
* `C65_order_refuted`
* `C65_wide_refuted`
* `C67_cover_below_one_refuted`
* `C67_cover_in_steps_refuted`
* `C68_activation_refuted`
* `C69_reused_layer_refuted`
* `C70_unquantized_refuted`
* `C71_offset_refuted`
* `C71_rounding_refuted`
* `C71_zero_bits_refuted`
* `C72_other_variables_refuted`
* `C73_coarse_refuted`
* `C74_shared_refuted`
* `C74_shared_concat_refuted`
* `C77_proxy_refuted`
* `C79_overflow_refuted`
* `C79_uneven_refuted`
* `C79_symmetric_refuted`
* `C80_fusion_refuted`
* `C82_rounding_refuted`
* `C83_several_outputs_refuted`
* `C84_once_refuted`
* `C85_without_reset_refuted`
* `C88_switched_off_refuted`
* `C88_functional_refuted`
* `C88_deployed_refuted`
* `C88_saved_refuted`
* `C89_output_shape_refuted`
* `C89_symbolic_refuted`
* `C92_again_refuted`
* `C96_any_width_refuted`
* `C97_wide_refuted`
* `C98_nearest_refuted`
* `C98_saturating_refuted`
