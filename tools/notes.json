{
 "C01": {
  "note": "For single-assignment graphs with exact consumer lists (established by update_tensor_relations; C01b derives the hypotheses from reordering)."
 },
 "C06": {
  "note": "Refuted for outputs that are also consumed (block reused); proved for unconsumed outputs."
 },
 "C07": {
  "note": "Refuted universally: after reordering dynamics holds only produced tensors, so pure inputs never get a block."
 },
 "C08": {
  "note": "Refuted: ZeroDivisionError when no intermediate bytes exist; exact outcome proved otherwise."
 },
 "C10": {
  "note": "Exact characterisation of dropped nodes; refuted for graphs using the empty name for omitted operands."
 },
 "C13": {
  "note": "Exact when no declared output is also read by a node; refuted otherwise (recursive removal takes the producer of a declared output)."
 },
 "C14": {
  "note": "Refuted for every graph: outputs made inside the fused set are undeclared; all others kept; wiring of the fused graph exact."
 },
 "C15": {
  "note": "Exact interface proved; refuted for declared outputs read only inside the set."
 },
 "C16": {
  "note": "Proved when the skipped tensor is read and not declared, or is unread and its operand has no other reader; refuted in the remaining cases."
 },
 "C57": {
  "note": "Proved for convex (contiguously schedulable) sets; refuted for non-convex sets, which the code accepts."
 },
 "C58": {
  "note": "Refuted: 2^N-1 visits on a chain of N squarings."
 },
 "C20": {
  "note": "Proved when one operand already has the broadcast shape; refuted for mutually broadcasting operands and for empty dimensions."
 },
 "C21": {
  "note": "Proved when one batch shape is the broadcast; refuted: K mismatch accepted by MatMul, mutual batch broadcast wrong, batch rank dropped."
 },
 "C22": {
  "note": "Exact window count incl. binary64 rounding for sizes < 2^50; refuted for kernels two strides too large (negative size), VALID with dilations, 3-D pooling with asymmetric pads, VALID on rank 5."
 },
 "C23": {
  "note": "Proved for 1 and 2 spatial axes; refuted for rank 5 (result truncated to rank 3)."
 },
 "C24": {
  "note": "Proved for whole Slice nodes; missing only dim = 0 with a negative step, refuted (size 1)."
 },
 "C25": {
  "note": "Exact (iff) for positive sources and valid requests; refuted for two -1s, empty sources and scalars."
 },
 "C26": {
  "note": "Proved for given sizes and for the default split whenever the last chunk is non-negative; refuted otherwise (5 into 4) and for the default axis (TypeError)."
 },
 "C30": {
  "note": "Proved for compatible positive shapes; refuted: incompatible shapes accepted, 0 against 1."
 },
 "C31": {
  "note": "Proved per operator; refuted: Reduce without axes sets no shape, Flatten with a negative axis."
 },
 "C39": {
  "note": "Proved for graphs within the format's ranges (int32 attributes, NUL-free names, homogeneous non-empty attribute lists, supported array types), floats up to binary32 rounding; refuted for tensor attributes (dropped and unreadable), scalar-vs-list, int64 attributes (OverflowError), empty lists, unsupported array types."
 },
 "C40": {
  "note": "Exact for coefficients up to 2^24; refuted beyond (binary32 rounding merges distinct engines)."
 },
 "C42": {
  "note": "Proved for NUL-free names; refuted for names containing NUL."
 },
 "C32": {
  "note": "The fitted expression is exact for all x; refuted at the API: shape_regress fits outputs relative to the first computed input, which need not divide (Concat of 3x and x)."
 },
 "C33": {
  "note": "Proved for one variable, integer-linear dimensions with dividing slopes; refuted for two variables (the last variable's expression overwrites)."
 },
 "C34": {
  "note": "Proved when expressions are added after the variables they read (the order shape_regress uses); refuted for other orders via add_expr."
 },
 "C60": {
  "note": "Proved (incl. binary64 rounding, 48-bit sizes) when some sample is not a multiple of the stride and the top remainder is under half a window; refuted otherwise (rounding direction and offset guessed wrongly)."
 },
 "C35": {
  "note": "Proved with binary32 rounding for every layout, 2-8 bits, groups not all below 2^-119; bound is 1/2 + 2^(bits-25) steps (exactly 1/2 refuted by a concrete tie); refuted for more than 8 bits."
 },
 "C36": {
  "note": "8 bits: full claim. Fewer bits: code 2^bits can occur (refuted), error bound still proved."
 },
 "C37": {
  "note": "Lossless for signed codes and even last dimension; refuted for codes >= 8 (all asymmetric 4-bit tensors) and odd widths."
 },
 "C38": {
  "note": "Success proved for groups with a weight of at least 2^-117 and range at most 2^127; refuted for all-zero groups (ValueError), underflow (OverflowError), infinite scale."
 },
 "C44": {
  "note": "Exact: every numeric array reads back except non-zero scalars of int8/uint8/int16/uint16/bool, which read back as 0; string arrays cannot be saved."
 },
 "C46": {
  "note": "Node conditions and distinctness for all patterns; full match property for the ConvBN pattern; edges refuted in general (serial chains of three, forks)."
 },
 "C47": {
  "note": "Proved for ConvBN; refuted in general."
 },
 "C61": {
  "note": "Proved for raw storage of all numeric types and typed storage of float16/32/64, int32/64; refuted for typed int8/uint8/int16/uint16/bool."
 },
 "C62": {
  "note": "Refuted: 8-byte types become float64, typed data become zeros; other sizes are refused (proved)."
 },
 "C63": {
  "note": "Proved for ConvBN; refuted for serial patterns."
 },
 "C64": {
  "note": "Termination proved for all graphs and patterns; refuted for exceptions (1-D kernels, edges into weights)."
 },
 "C45": {
  "note": "Proved over the reals for every graph whose matched pairs have no bias operand, writable weights, and private conv result and weight; the excluded cases are refuted (bias operand raises, read-only weights raise, declared outputs dropped, shared results orphaned, shared weights rescaled). Float32 rounding not modelled."
 },
 "C48": {
  "note": "Sums exact for totals up to 2^53; above, the float MAC total depends on set iteration order (refuted)."
 },
 "C49": {
  "note": "Exact dependence on the history proved; refuted (exclude_ops of a default call leaks into all later default calls)."
 },
 "C53": {
  "note": "Views inside the pool proved for non-negative dimensions; refuted for negative dimensions."
 },
 "C54": {
  "note": "Frame and read-back proved; filling a padded block raises (refuted)."
 },
 "C55": {
  "note": "Collision characterised exactly; refuted for names that differ only in replaced characters and for names escaping the folder."
 },
 "C65": {
  "note": "Proved when no tensor is narrower than the engine's element size; refuted otherwise (1-byte tensors get overlapping views)."
 },
 "C66": {
  "note": "Proved with nothing hidden; with hidden operators Dedup Params can exceed Params (refuted)."
 },
 "C67": {
  "note": "Proved for uniform element sizes and operators using the default profile; refuted for mixed element sizes."
 },
 "C68": {
  "note": "Proved for cells without comma and newline; refuted otherwise."
 },
 "C50": {
  "note": "Exact effect of the history proved (which flags leak through the shared architecture table); independence proved when earlier Builders of the same architecture pass no overriding flags; refuted otherwise."
 },
 "C51": {
  "note": "Roofline sum, per-class formulas and lower bound by both totals proved in binary64; adding devices can make the estimate slower (example)."
 },
 "C56": {
  "note": "Termination, honesty when the block tiles the tensor and passed its own test, one-sided error always; refuted for rank 2 (square fallback) and rank 4 (stale ratio, block that does not tile)."
 },
 "C69": {
  "note": "Proved for weight maps with distinct names; refuted for a post-attention norm with the default map (nodes lost) and GPT-2 with the default map (KeyError). Zero heads / zero o_groups (ZeroDivisionError) and the vision builder are outside the model."
 },
 "C74": {
  "note": "Injectivity of OpType_i proved for all operator names and indices; exact criterion when renaming is off; the clash Relu_1 / unnamed second Relu is refuted (known bug: a node silently disappears)."
 },
 "C75": {
  "note": "Proved except the declared-inputs part: equal as a set when every declared input is read and no operand is omitted (C75_inputs_partial); order, unread inputs and the empty name are refuted."
 },
 "C76": {
  "note": "Proved for all files; outputs are equal when each declared output is produced, read or stored; refuted otherwise: a pass-through output disappears and an unread initializer is written as a required input without its value. Tensor payload encoding is C43/C44/C61/C62; node attributes are not modelled here."
 },
 "C77": {
  "note": "Proved for arbitrary operator semantics; refuted part: a declared output that is itself constant loses its tensor and is missing from the saved file."
 },
 "C78": {
  "note": "Proved for every consistent configuration. Refuted: hidden_act 'gegelu' outside phi3 records an output as wide as its input; linear-attention per-head norms use the attention head size even when linear_key_head_dim differs."
 },
 "C79": {
  "note": "Proved, except that Dedup Params is always 0 on a fresh builder graph (C79_dedup_refuted): the readers are recorded only by graph_reorder_nodes, after which it is exact (C79_dedup_after_reorder)."
 },
 "C80": {
  "note": "Proved as the exact formulas of the code. Refuted as the cost of the model: linear-attention nodes are charged again with the projections that are separate nodes and with a projection that has no weight; MoE nodes without shared expert are charged with its gate; latent attention ignores the KV cache."
 },
 "C81": {
  "note": "Proved for a weight with exactly one reader (the rewiring and the decoded values for 8-bit symmetric, 8-bit asymmetric and 4-bit symmetric codes). Refuted: weights read twice (AttributeError, because the reader table gets a bare string), weights nothing reads (KeyError), the recorded readers of the new tensors, and 4-bit groups of tiny weights (the float16 scale is 0). 4-bit asymmetric codes are refuted under C36/C37."
 },
 "C82": {
  "note": "Proved: the loop ends and quantizes exactly the weights in the explicit list `reached`; this is every weight when no two float weights are neighbours. Refuted in general: the weight after a quantized one is passed over, so of adjacent weights every second one stays float."
 },
 "C83": {
  "note": "Proved exactly for Conv (any rank, groups, bias), Gemm (both transpositions, third input; alpha and beta scaling is not counted) and MatMul (broadcast batches). ConvTranspose: proved right if and only if the output has as many elements as the input; refuted otherwise. Integer convolutions: exact for 1-D and 2-D kernels, refuted for 3-D. QLinearMatMul: exact when the first operand is not broadcast, refuted when it is."
 },
 "C84": {
  "note": "Exact for 1-D and 2-D pooling, global average pooling, two-input element-wise operators and Sum. Refuted: a 3-D pooling window is counted by its first side only, and n-ary Max/Min/Mean with three or more inputs report the cost of two."
 },
 "C85": {
  "note": "Exact for one direction. Refuted: with two directions the gate arithmetic of the second direction is missing (180 and 110 steps per hidden value); without the optional bias the profile raises IndexError."
 },
 "C86": {
  "note": "Exact for two operands without ellipsis, repeated labels included. Refuted: a third operand is ignored, one operand or an ellipsis over more dimensions than labels raises IndexError, a broadcast size 1 in the second operand hides the other size."
 },
 "C87": {
  "note": "Proved: Slice with non-negative axes up to 4 and steps (negative steps with start >= -dim), Unsqueeze/Squeeze for ascending non-negative axes or one axis of either sign, Split with a positive last piece, GatherElements when the indices' dtype holds the values. Refuted: negative axes or axes > 4 of Slice are ignored, Slice without axes slices axis 0 only, reversed Slice starting before the array, Unsqueeze/Squeeze with several negative or unsorted axes, Squeeze without axes, an empty last Split piece, Split without axis, GatherElements casts to the index dtype."
 },
 "C88": {
  "note": "Proved: 2-D Conv with one group and explicit pads (first run, or with a bias), MaxPool of non-negative data without dilation on the first run, Gemm with alpha = beta = 1, the averages of GlobalAveragePool. Refuted: a second Conv without bias adds to the old output, auto_pad is ignored by the loop, MaxPool starts from zero (wrong for negative data), keeps the maximum of earlier runs and ignores dilations, Gemm ignores alpha and beta, GlobalAveragePool drops the spatial axes; groups and other ranks raise NotImplementedError."
 },
 "C89": {
  "note": "Proved: Div for operands of equal sign or exact quotients, Mod with fmod = 0, Max, Sum, Clip with both bound inputs listed, NonZero when some element is non-zero. Refuted: Div floors negative quotients, fmod is ignored, Min returns a negated truth value or raises, Clip with fewer than three inputs raises, LeakyRelu fails on more than one element, NonZero of zeros lists every position."
 },
 "C90": {
  "note": "Proved on the inputs where both follow ONNX; refuted for negative Slice axes, Slice without axes, several negative Unsqueeze or Squeeze axes, and GlobalAveragePool."
 },
 "C91": {
  "note": "Proved: the marked nodes are exactly the needed ones for every graph and iteration order, within 2|nodes|+1 levels, for the operand table the library has. Refuted parts: operands missing from the table; exponential number of visits."
 },
 "C92": {
  "note": "Proved for all graphs in dependency order and all operators whose shape operands are in the library's table; refuted for the omitted operands and for nodes listed out of order."
 },
 "C93": {
  "note": "Positive theorems for the per-operator sizes and for kv_params right after build_graph/add_kv_cache; refuted after set_past_kv_length and for linear-attention layers. The MLA operator's own kv accounting is not covered here."
 },
 "C95": {
  "note": "Proved for graphs where no node has two outputs that are both read or declared, declared outputs are unread and no node is named like a tensor; each of these conditions is shown necessary, and the change made to the original graph is proved for every call. Termination: enough fuel exists for every acyclic graph.",
  "status": "partial"
 },
 "C97": {
  "note": "Refuted parts: an If result that is a model output is never an output of the loaded graph; second results of an If, branch outputs read inside the branch, branches that pass an outer tensor through, operands shared by a condition and another If's branch, and nodes computing a condition and something else lose a producer; an unnamed branch node or a condition computed from another If makes loading fail; equal tensor names in two branches collide; branch nodes are appended after their readers. Initializers of branches are not modelled (the code ignores them)."
 },
 "C98": {
  "note": "Proved for batch_dims 0, reduction none, values [0,1] and indices in range, select_last_index 0. Refuted by proof: GatherND with batch_dims gathers other elements than the operator's definition; ScatterND ignores the reduction attribute; OneHot ignores the off/on values and raises on an index out of range; ArgMax ignores select_last_index."
 },
 "C99": {
  "note": "Proved for the modelled default cases. Refuted by proof: Pad without a mode attribute, with pads as attribute (opset < 11) or with mode reflect/edge gives no value or raises; axes input of Pad is ignored; negative pads raise; axes given as attribute make ReduceSum raise; an empty axes list does not reduce all axes; ConstantOfShape without value raises; Shape ignores start/end."
 },
 "C100": {
  "note": "Proved for ellipses at the start of terms, matching operands and positive sizes. Refuted by proof: labels before an ellipsis give a shape of wrong rank; a result ellipsis that is not first is moved to the front; contradictory sizes and operands with too many dimensions are accepted; size 0 against 1 gives 1."
 },
 "C101": {
  "note": "Proved for the language-model builder; the vision tower is not modelled. Position embeddings must not be combined with rotary ones (see C69)."
 },
 "C102": {
  "note": "Proved for layout 0, given RoiAlign sizes, one class and image, equal kinds of shape sequences. Refuted by proof: layout 1 is ignored; a GRU with one output always raises; RoiAlign without the defaulted sizes raises; NonMaxSuppression ignores the classes; GridSample raises when only one operand has a stored value; Scan accepts no node with fewer than five outputs; TopK without axis raises except at rank 1; ArrayFeatureExtractor drops the leading dimensions."
 },
 "C103": {
  "note": "Proved: with scales every dimension is the floor of the exact product or one more (only when rounding carries it over), exact when the product is representable, exact for integer scales; sizes exact for ranks other than 2. Refuted by proof: two sizes are added to the first two dimensions; other counts give the empty shape; missing scales drop dimensions; one input raises."
 },
 "C104": {
  "note": "Proved without hypotheses on the configuration."
 },
 "C105": {
  "note": "Proved for configurations whose described projections fit the attention (the same sanity hypotheses as C78)."
 },
 "C106": {
  "note": "Proved when the recursion limit exceeds the number of nodes. Refuted by proof: on every graph whose dependency chains exceed the recursion limit the call fails with RecursionError; the number of calls is exponential in the number of nodes for chains that use each result twice."
 },
 "C107": {
  "note": "CumSum proved without its flags (exclusive/reverse raise NotImplementedError: proved); Range below 2^53 (above, elements can be lost: refuted by an example); Expand: shape inference accepts shapes that do not broadcast, where the value is an error (refuted)."
 },
 "C108": {
  "note": "Wiring and self-match proved for every selection. That the search finds the selection is proved for chains; refuted in general: two selected nodes with the same operator reading the same tensor leave the placeholder 'a' in the match, and fuse_subgraph_iotensors then fails with KeyError."
 },
 "C109": {
  "note": "Proved for ASCII requests of rank at least one, sizes below 2^63, names without the letter x that do not read as numbers. Refuted: names containing x (maxlen is split into two names), scalar inputs, and the shapes recorded for intermediate tensors go stale (a Relu of a 2x3 input still declared 1x3)."
 },
 "C110": {
  "note": "Refuted for every model and every non-empty request: get_subgraph and model_subgraph build Graph without its required configuration, model_opfusion passes a keyword 'name' that neither fusion method has; Python's argument binding (modelled, with a specification) raises TypeError before any file is written. Proved: an empty request does nothing."
 },
 "C111": {
  "note": "Proved when each reshaping node has one dynamic operand and its result is read by a node. Refuted: a target shape computed at run time, a reshape result that is a model output, and a graph that went through update_tensor_relations before (any fusion pass), which forgets that graph inputs are dynamic: in each the node goes and its readers or the output dangle."
 },
 "C112": {
  "note": "C112_tokens_refuted: the patch embedding is reshaped without a transpose, so tokens are not patches (except one patch or hidden size 1). C112_default_refuted / C112_no_patch_size_refuted: zero heads fail even when head_dim is given; patch size 0 raises ZeroDivisionError."
 },
 "C113": {
  "note": "Refuted parts: the channel count is never checked, a batch of two images of the right size is refused, and a graph for an image smaller than one patch is built but never infers."
 },
 "C115": {
  "note": "Refuted parts: VALID padding and three spatial axes give a rank-0 result; without a bias QLinearConv takes the type of y_scale; QLinearMatMul ignores the batch of the second operand and the inner size; QuantizeLinear needs the optional zero point."
 },
 "C116": {
  "note": "Refuted parts: Softmax without the axis attribute raises AttributeError and ignores the pre-13 coercion to two dimensions; HardSigmoid and HardSwish raise ValueError unless the array has one element, and a clipped HardSigmoid loses its shape."
 },
 "C117": {
  "note": "Refuted parts: BatchNormalization of a vector raises IndexError; ReduceL2 ignores axes given as an input."
 },
 "C118": {
  "note": "Proved: with folding a refresh changes nothing; without folding it changes nothing but two lists. Refuted: those two lists (initials, dynamics) grow by a copy at every refresh, and an unread initializer is then saved as two graph inputs of one name; the constant search is skipped for every node (they keep the verdict of loading), so no constant that appears after loading is ever folded."
 },
 "C59": {
  "note": "C59_node: one to three spatial axes, attributes given or default. Refuted parts: an output_shape attribute replaces the spatial sizes whatever they are; other ranks get the empty shape; three axes with default strides, dilations or pads raise."
 },
 "C119": {
  "note": "Table, cells and csv proved. REFUTED for the unit: the column headed 'Projected Latency(ms)' holds seconds (a node of 2000 ms is listed as 2.00000; every node under 5 microseconds as 0.00000). Python's text of a float (Total memory and latency) is abstract; tabulate is not modelled."
 },
 "C120": {
  "note": "Proved by a relation between the first run and a run that starts from any state left by an earlier one. C120_executable_refuted and C120_position_refuted record the two defects."
 },
 "C121": {
  "note": "C121_dump_all_refuted and C121_dumped_survives_refuted record the two defects: the plan ignores the dump, and dumping every intermediate makes the planner divide by zero."
 }
}