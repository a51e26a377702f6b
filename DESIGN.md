# Design: a Rocq (Coq 8.16.1) model of ThanatosShinji/onnx-tool

## Approach

Shallow, executable Gallina models of the Python functions, branch by branch.

* Python `dict`: insertion-ordered association list (`PyBase.dict`); a missing key raises.
* Python exceptions: values (`sres`: `SOk` / `SRaise`, or `option`), so that "never raises" is a theorem.
* Python `int`: `Z`; numpy fixed-width integers: `Z` with the wrap/overflow of the dtype where it matters.
* Python/numpy `float`: binary64 (or binary32) rounding over `R` with Flocq (`FloatPy`, `QuantFloat`, ...) wherever
  rounding is observable; exact rationals `Q` only where the file says so.
* Objects and shared mutable state (module-level tables, default arguments, memory pools): explicit state,
  histories are lists of calls.
* Python sets and hash order: a relation over all orders (`iteration_order`).

Files in `rocq/theories`:

* `*Model.v` (and `GraphModel`, `LlmModel`, `LlmCost`, `LlmPerf`, `FloatPy`): the executable models; every definition cites the
  file and lines it models and says where it simplifies.
* `*Spec.v`: small independent specifications, in terms of the API's observable effects.
* `*Proofs.v` and others: lemmas.
* `Props_*.v`: the property theorems `Cnn_...`, with `..._applies` examples showing that the hypotheses are met by
  concrete, non-trivial inputs.

Suffixes: `_refuted` proves that the code violates the clause (a concrete input, or all inputs of a class);
`_partial` proves a restriction of the property (the comment says what is missing).

## Trusted base

1. Coq's kernel, version 8.16.1 (including its conversion by virtual machine, `vm_compute`, used in examples and in finite checks).
2. The fidelity of the hand-written models to the cited Python lines: there is no extraction from Python. The seeded
   bugs of `seeded/LOG.jsonl` test the theorems, not the fidelity.
3. The axioms of the standard library listed at the end, only in the theorems named there. No axiom is declared
   in this development, no `Admitted`, no functor or module type, no kernel check switched off. Flocq is used as a
   library of definitions and lemmas; it adds no axiom.

## What is modelled

* `onnx_tool/graph.py`: construction from a protobuf (nodes, tensors, initializers, inputs, outputs; constant search, replacement of
  constant `If` nodes, removal of dangling nodes), producer/consumer relations, `topsort`/`graph_reorder_nodes`, `get_iotensors`, `remove_node`,
  `remove_subtree`, `remove_dangling_nodes`, `skip_node`, `get_subgraph`, `fuse_subgraph_node_names`, `fuse_postop_node_names`,
  `get_compute_graph` (partition and the dual shape/compute graphs), `compress_memory`, `shape_infer`, `value_infer`, `shape_regress`,
  `profile`, `print_node_map` totals, `make_graph_onnx`/`save_model`, `get_onnxgraph_by_nodenames`.
* `onnx_tool/node.py`: shape functions of broadcasting, convolution and pooling, transposed convolution, slicing, concatenation, split,
  reshape, transpose, gather, reduction, matrix products, einsum, TopK, pad, resize...; the value functions of the operators that can sit
  between a shape and a reshape (arithmetic, comparison, Gather, Slice, Concat, Cast, Range, Where, ConstantOfShape, Unsqueeze, ...);
  the cost methods of the operators of `llm.Builder` and of the common convolutional and element-wise operators.
* `onnx_tool/tensor.py`: element types, TensorProto to numpy and back, `volume`, `shape_of_tensor`, sparsity search.
* `onnx_tool/fusion.py`: `FusionPattern` search, pattern descriptions from selections and tensors, Conv+BN folding, element-wise groups, `removeShapeOps`.
* `onnx_tool/llm.py`: architecture tables, `Builder.__init__`, `build_graph` (wiring, shapes, cost), `add_kv_cache`, `set_past_kv_length`,
  `profile`, and the vision encoders (`build_vision_graph`).
* `onnx_tool/quantization.py`, `serialization.py`, `utils.py` (registry, tables), `__init__.py` (`model_profile`, `model_io_modify`,
  `model_subgraph`, `model_opfusion`, export).
* `inference/memory_pool.py`, `inference/infer.py` (views into the pool).

Each definition cites the lines it models, with the simplifications it makes. The table below says which property uses which model.

## What is not modelled

* The value functions of the floating-point operators (convolution, pooling, normalisation, activation...): `value_infer` of each operator is an
  uninterpreted function in C03, C18 and C58, which therefore hold for any operator semantics.
* The protobuf wire format, file systems beyond path strings, `tabulate`, timing, warnings, threads.
* numpy itself: its array operations are modelled by their documented effect on shapes, elements and dtypes.
* `Builder.build_multimodal_graph`-style compositions that only glue the modelled parts, and the benchmark scripts, except where a property cites them.

## Outcome per property

`refuted`: a theorem exhibits an input on which the code violates the clause; the remaining theorems state what does hold.
| id | property | file | model and proof | status | note |
|----|----|----|----|----|----|
| C01 | Live tensors never share memory | Props_Memory.v | `compress_memory` (liveness pass, release/merge, best fit, split, append); invariant over block lists (contiguous tiling, distinct tags, live tensors tagged), induction over nodes | proved | For single-assignment graphs with exact consumer lists (established by update_tensor_relations; C01b derives the hypotheses from reordering). |
| C02 | Planned blocks are in bounds, aligned and large enough | Props_Memory.v | `compress_memory` (liveness pass, release/merge, best fit, split, append); invariant over block lists (contiguous tiling, distinct tags, live tensors tagged), induction over nodes | proved |  |
| C03 | Running through the planned pool gives the same values as private buffers | Props_Memory.v | the same plus a shared store and an operator interpretation; simulation between store and environment | proved |  |
| C04 | Every live activation gets a block | Props_Memory.v | `compress_memory` (liveness pass, release/merge, best fit, split, append); invariant over block lists (contiguous tiling, distinct tags, live tensors tagged), induction over nodes | proved |  |
| C05 | The plan is never larger than private buffers and never smaller than the peak | Props_Memory.v | `compress_memory` (liveness pass, release/merge, best fit, split, append); invariant over block lists (contiguous tiling, distinct tags, live tensors tagged), induction over nodes | proved |  |
| C06 | Graph outputs survive until the end of the run | Props_Memory.v | same model; witnesses and the strongest restriction | partial (refuted clause) | Refuted for outputs that are also consumed (block reused); proved for unconsumed outputs. |
| C07 | Reordering nodes does not take memory away from graph inputs | Props_Memory.v | same model; witnesses and the strongest restriction | partial (refuted clause) | Refuted universally: after reordering dynamics holds only produced tensors, so pure inputs never get a block. |
| C08 | Memory planning completes for every valid graph | Props_Memory.v | same model; witnesses and the strongest restriction | partial (refuted clause) | Refuted: ZeroDivisionError when no intermediate bytes exist; exact outcome proved otherwise. |
| C09 | Reordering yields a dependency-respecting permutation | Props_Order.v | `topsort` rounds with counters; counter invariants, measure on remaining nodes | proved |  |
| C10 | Reordering never loses a node | Props_Order.v | `topsort` rounds with counters; counter invariants, measure on remaining nodes | partial (refuted clause) | Exact characterisation of dropped nodes; refuted for graphs using the empty name for omitted operands. |
| C11 | Reordering does not change what the graph computes | Props_Order.v | `topsort` rounds with counters; counter invariants, measure on remaining nodes | proved |  |
| C12 | Producer/consumer relations are exactly the node wiring | Props_Order.v | `__update_consumer_producer__`; closed form by induction over nodes and inputs | proved |  |
| C13 | Dead-node removal keeps producers of graph outputs | Props_Edit.v | graph editing methods; closed forms, frame conditions, witnesses | partial (refuted clause) | Exact when no declared output is also read by a node; refuted otherwise (recursive removal takes the producer of a declared output). |
| C14 | Fusing a subgraph keeps the graph's declared outputs | Props_Edit.v | graph editing methods; closed forms, frame conditions, witnesses | partial (refuted clause) | Refuted for every graph: outputs made inside the fused set are undeclared; all others kept; wiring of the fused graph exact. |
| C15 | A fused region's interface is complete | Props_Edit.v | graph editing methods; closed forms, frame conditions, witnesses | partial (refuted clause) | Exact interface proved; refuted for declared outputs read only inside the set. |
| C16 | Skipping an identity node keeps the values its consumers see | Props_Edit.v | graph editing methods; closed forms, frame conditions, witnesses | partial (refuted clause) | Proved when the skipped tensor is read and not declared, or is unread and its operand has no other reader; refuted in the remaining cases. |
| C17 | Graph partitioning by tensors loses and duplicates no node | Props_Edit.v | `__get_subnodes_byio__`; partition proof | proved |  |
| C18 | Constant search marks only nodes that do not depend on runtime inputs | Props_Edit.v | `__constant_search__`; inductive dependency relation | proved |  |
| C19 | Broadcasting follows the ONNX/NumPy rule | Props_Shape.v | shape functions over `list Z`; induction on shapes, specifications by element counting or index maps | proved |  |
| C20 | Element-wise operators infer the broadcast shape | Props_Shape.v | shape functions over `list Z`; induction on shapes, specifications by element counting or index maps | partial (refuted clause) | Proved when one operand already has the broadcast shape; refuted for mutually broadcasting operands and for empty dimensions. |
| C21 | MatMul infers the broadcast batch shape and checks the inner dimension | Props_Shape.v | shape functions over `list Z`; induction on shapes, specifications by element counting or index maps | partial (refuted clause) | Proved when one batch shape is the broadcast; refuted: K mismatch accepted by MatMul, mutual batch broadcast wrong, batch rank dropped. |
| C22 | Convolution and pooling sizes count the valid window positions | Props_Shape.v | shape functions over `list Z`; induction on shapes, specifications by element counting or index maps | partial (refuted clause) | Exact window count incl. binary64 rounding for sizes < 2^50; refuted for kernels two strides too large (negative size), VALID with dilations, 3-D pooling with asymmetric pads, VALID on rank 5. |
| C23 | SAME padding yields ceil(input/stride) | Props_Shape.v | shape functions over `list Z`; induction on shapes, specifications by element counting or index maps | partial (refuted clause) | Proved for 1 and 2 spatial axes; refuted for rank 5 (result truncated to rank 3). |
| C24 | Slice sizes equal the number of selected indices | Props_Shape.v | shape functions over `list Z`; induction on shapes, specifications by element counting or index maps | partial (refuted clause) | Proved for whole Slice nodes; missing only dim = 0 with a negative step, refuted (size 1). |
| C25 | Reshape preserves the number of elements | Props_Shape.v | shape functions over `list Z`; induction on shapes, specifications by element counting or index maps | partial (refuted clause) | Exact (iff) for positive sources and valid requests; refuted for two -1s, empty sources and scalars. |
| C26 | Split sizes are non-negative and add up to the axis | Props_Shape.v | shape functions over `list Z`; induction on shapes, specifications by element counting or index maps | partial (refuted clause) | Proved for given sizes and for the default split whenever the last chunk is non-negative; refuted otherwise (5 into 4) and for the default axis (TypeError). |
| C27 | Transpose permutes dimensions reversibly | Props_Shape.v | shape functions over `list Z`; induction on shapes, specifications by element counting or index maps | proved |  |
| C28 | Squeeze undoes Unsqueeze and both preserve volume | Props_Shape.v | shape functions over `list Z`; induction on shapes, specifications by element counting or index maps | proved |  |
| C29 | Concat adds along one axis | Props_Shape.v | shape functions over `list Z`; induction on shapes, specifications by element counting or index maps | proved |  |
| C30 | Expand infers the broadcast of input and target shape | Props_Shape.v | shape functions over `list Z`; induction on shapes, specifications by element counting or index maps | partial (refuted clause) | Proved for compatible positive shapes; refuted: incompatible shapes accepted, 0 against 1. |
| C31 | Flatten, Gather, Pad and Reduce infer ONNX shapes | Props_Shape.v | shape functions over `list Z`; induction on shapes, specifications by element counting or index maps | partial (refuted clause) | Proved per operator; refuted: Reduce without axes sets no shape, Flatten with a negative axis. |
| C32 | Regressed dimension expressions are exact for integer-linear dimensions | Props_Regress.v | `ValueExpr`, `ShapeEngine`, `shape_regress` in binary64; least squares algebra, list induction | partial (refuted clause) | The fitted expression is exact for all x; refuted at the API: shape_regress fits outputs relative to the first computed input, which need not divide (Concat of 3x and x). |
| C33 | Regressed shapes agree with the real shape at every input size | Props_Regress.v | `ValueExpr`, `ShapeEngine`, `shape_regress` in binary64; least squares algebra, list induction | partial (refuted clause) | Proved for one variable, integer-linear dimensions with dividing slopes; refuted for two variables (the last variable's expression overwrites). |
| C34 | Updating a shape engine once is enough | Props_Regress.v | `ValueExpr`, `ShapeEngine`, `shape_regress` in binary64; least squares algebra, list induction | partial (refuted clause) | Proved when expressions are added after the variables they read (the order shape_regress uses); refuted for other orders via add_expr. |
| C35 | Symmetric block quantization error is at most half a step | Props_Quant.v | `quantization.py` in binary64/binary32; rounding lemmas, 4-bit packing over bits | partial (refuted clause) | Proved with binary32 rounding for every layout, 2-8 bits, groups not all below 2^-119; bound is 1/2 + 2^(bits-25) steps (exactly 1/2 refuted by a concrete tie); refuted for more than 8 bits. |
| C36 | Asymmetric quantization stays in the code range | Props_Quant.v | `quantization.py` in binary64/binary32; rounding lemmas, 4-bit packing over bits | partial (refuted clause) | 8 bits: full claim. Fewer bits: code 2^bits can occur (refuted), error bound still proved. |
| C37 | 4-bit packing is lossless | Props_Quant.v | `quantization.py` in binary64/binary32; rounding lemmas, 4-bit packing over bits | partial (refuted clause) | Lossless for signed codes and even last dimension; refuted for codes >= 8 (all asymmetric 4-bit tensors) and odd widths. |
| C38 | Quantization of any tensor succeeds | Props_Quant.v | `quantization.py` in binary64/binary32; rounding lemmas, 4-bit packing over bits | partial (refuted clause) | Success proved for groups with a weight of at least 2^-117 and range at most 2^127; refuted for all-zero groups (ValueError), underflow (OverflowError), infinite scale. |
| C39 | A serialized compute graph can be read back | Props_Serial.v | `serialization.py` as byte lists; independent decoder, round trip by induction | partial (refuted clause) | Proved for graphs within the format's ranges (int32 attributes, NUL-free names, homogeneous non-empty attribute lists, supported array types), floats up to binary32 rounding; refuted for tensor attributes (dropped and unreadable), scalar-vs-list, int64 attributes (OverflowError), empty lists, unsupported array types. |
| C40 | A serialized shape engine can be read back | Props_Serial.v | `serialization.py` as byte lists; independent decoder, round trip by induction | partial (refuted clause) | Exact for coefficients up to 2^24; refuted beyond (binary32 rounding merges distinct engines). |
| C41 | A serialized memory plan can be read back | Props_Serial.v | `serialization.py` as byte lists; independent decoder, round trip by induction | proved |  |
| C42 | Distinct names serialize distinctly | Props_Serial.v | `serialization.py` as byte lists; independent decoder, round trip by induction | partial (refuted clause) | Proved for NUL-free names; refuted for names containing NUL. |
| C43 | Data type mapping is a bijection | Props_Proto.v | dtype tables and TensorProto paths; byte round trips | proved |  |
| C44 | A saved tensor reloads with the same values | Props_Proto.v | dtype tables and TensorProto paths; byte round trips | partial (refuted clause) | Exact: every numeric array reads back except non-zero scalars of int8/uint8/int16/uint16/bool, which read back as 0; string arrays cannot be saved. |
| C45 | Folding batch normalization into convolution preserves values | Props_ConvBN.v | `ConvBNFusion`; algebra over R and binary64 error terms | partial (refuted clause) | Proved over the reals for every graph whose matched pairs have no bias operand, writable weights, and private conv result and weight; the excluded cases are refuted (bias operand raises, read-only weights raise, declared outputs dropped, shared results orphaned, shared weights rescaled). Float32 rounding not modelled. |
| C46 | Pattern search returns only real matches | Props_Fusion.v | `FusionPattern` search as a worklist; soundness and completeness against an independent match relation | partial (refuted clause) | Node conditions and distinctness for all patterns; full match property for the ConvBN pattern; edges refuted in general (serial chains of three, forks). |
| C47 | Matches of a pattern are disjoint | Props_Fusion.v | `FusionPattern` search as a worklist; soundness and completeness against an independent match relation | partial (refuted clause) | Proved for ConvBN; refuted in general. |
| C48 | Graph totals equal the sum of the listed nodes | Props_Profile.v | `Graph.profile`, totals in binary64; fold invariants | partial (refuted clause) | Sums exact for totals up to 2^53; above, the float MAC total depends on set iteration order (refuted). |
| C49 | Profiling one model does not change the result for another | Props_Profile.v | module-level state; histories as lists of calls | partial (refuted clause) | Exact dependence on the history proved; refuted (exclude_ops of a default call leaks into all later default calls). |
| C50 | Building one LLM does not change another | Props_Llm.v | module-level state; histories as lists of calls | partial (refuted clause) | Exact effect of the history proved (which flags leak through the shared architecture table); independence proved when earlier Builders of the same architecture pass no overriding flags; refuted otherwise. |
| C51 | The LLM latency estimate is the roofline sum | Props_LlmPerf.v | `Builder.profile` in binary64; fold invariants, monotonicity | proved | Roofline sum, per-class formulas and lower bound by both totals proved in binary64; adding devices can make the estimate slower (example). |
| C52 | Operator registration is last-wins lookup | Props_Registry.v | module-level state; histories as lists of calls | proved |  |
| C53 | Pool views stay inside the pool | Props_Pool.v | `memory_pool.py`, `infer.py` views; arithmetic and frame lemmas | partial (refuted clause) | Views inside the pool proved for non-negative dimensions; refuted for negative dimensions. |
| C54 | Writing one tensor leaves disjoint tensors unchanged | Props_Pool.v | `memory_pool.py`, `infer.py` views; arithmetic and frame lemmas | partial (refuted clause) | Frame and read-back proved; filling a padded block raises (refuted). |
| C55 | Exported tensor files do not collide | Props_Export.v | export paths as strings; injectivity, escape witnesses | partial (refuted clause) | Collision characterised exactly; refuted for names that differ only in replaced characters and for names escaping the folder. |
| C56 | Reported block sparsity is the sparsity of the reported block | Props_Sparse.v | sparsity search; per-block counting | partial (refuted clause) | Termination, honesty when the block tiles the tensor and passed its own test, one-sided error always; refuted for rank 2 (square fallback) and rank 4 (stale ratio, block that does not tile). |
| C57 | Fusing a subgraph preserves what the graph computes | Props_Edit.v | graph editing methods; closed forms, frame conditions, witnesses | partial (refuted clause) | Proved for convex (contiguously schedulable) sets; refuted for non-convex sets, which the code accepts. |
| C58 | Constant search takes polynomially many steps | Props_Edit.v | `__constant_search__`; inductive dependency relation | partial (refuted clause) | Refuted: 2^N-1 visits on a chain of N squarings. |
| C59 | ConvTranspose sizes invert Conv sizes | Props_ConvT.v | shape functions over `list Z`; induction on shapes, specifications by element counting or index maps | partial (refuted clause) | C59_node: one to three spatial axes, attributes given or default. Refuted parts: an output_shape attribute replaces the spatial sizes whatever they are; other ranks get the empty shape; three axes with default strides, dilations or pads raise. |
| C60 | Regressed expressions are exact for strided dimensions | Props_Regress.v | `ValueExpr`, `ShapeEngine`, `shape_regress` in binary64; least squares algebra, list induction | partial (refuted clause) | Proved (incl. binary64 rounding, 48-bit sizes) when some sample is not a multiple of the stride and the top remainder is under half a window; refuted otherwise (rounding direction and offset guessed wrongly). |
| C61 | A loaded initializer holds the values stored in the model | Props_Proto.v | dtype tables and TensorProto paths; byte round trips | partial (refuted clause) | Proved for raw storage of all numeric types and typed storage of float16/32/64, int32/64; refuted for typed int8/uint8/int16/uint16/bool. |
| C62 | Tensors of unsupported types are refused | Props_Proto.v | dtype tables and TensorProto paths; byte round trips | partial (refuted clause) | Refuted: 8-byte types become float64, typed data become zeros; other sizes are refused (proved). |
| C63 | Pattern search finds every occurrence | Props_Fusion.v | `FusionPattern` search as a worklist; soundness and completeness against an independent match relation | partial (refuted clause) | Proved for ConvBN; refuted for serial patterns. |
| C64 | Pattern search always returns | Props_Fusion.v | `FusionPattern` search as a worklist; soundness and completeness against an independent match relation | partial (refuted clause) | Termination proved for all graphs and patterns; refuted for exceptions (1-D kernels, edges into weights). |
| C65 | The engine sees each tensor inside its planned block | Props_Pool.v | `memory_pool.py`, `infer.py` views; arithmetic and frame lemmas | partial (refuted clause) | Proved when no tensor is narrower than the engine's element size; refuted otherwise (1-byte tensors get overlapping views). |
| C66 | Shared weights explain the gap between Params and Dedup Params | Props_Profile.v | `Graph.profile`, totals in binary64; fold invariants | partial (refuted clause) | Proved with nothing hidden; with hidden operators Dedup Params can exceed Params (refuted). |
| C67 | Node memory is the bytes of its outputs and weights | Props_Profile.v | `Graph.profile`, totals in binary64; fold invariants | partial (refuted clause) | Proved for uniform element sizes and operators using the default profile; refuted for mixed element sizes. |
| C68 | The CSV report reads back | Props_Profile.v | `Graph.profile`, totals in binary64; fold invariants | partial (refuted clause) | Proved for cells without comma and newline; refuted otherwise. |
| C69 | LLM builder graphs are executable | Props_LlmGraph.v | `llm.Builder` as a logging monad; weakest preconditions over names | partial (refuted clause) | Proved for weight maps with distinct names; refuted for a post-attention norm with the default map (nodes lost) and GPT-2 with the default map (KeyError). Zero heads / zero o_groups (ZeroDivisionError) and the vision builder are outside the model. |
| C70 | Two-node pattern search is exact | Props_Pairs.v | `FusionPattern` search as a worklist; soundness and completeness against an independent match relation | partial (refuted clause) |  |
| C71 | Post-op fusion of disjoint matches | Props_PostOp.v | `fuse_postop_node_names` and the benchmark fusion loop; graph rewriting semantics | partial (refuted clause) |  |
| C72 | Reader bookkeeping after post-op fusion | Props_PostOp.v | `fuse_postop_node_names` and the benchmark fusion loop; graph rewriting semantics | partial (refuted clause) |  |
| C73 | Fused post-operations can be read back | Props_PostOp.v | `fuse_postop_node_names` and the benchmark fusion loop; graph rewriting semantics | partial (refuted clause) |  |
| C74 | Loading a model keeps every node | Props_Load.v | loader, saver, reload, constant folding; environment semantics | partial (refuted clause) | Injectivity of OpType_i proved for all operator names and indices; exact criterion when renaming is off; the clash Relu_1 / unnamed second Relu is refuted (known bug: a node silently disappears). |
| C75 | The loaded graph describes the file | Props_Load.v | loader, saver, reload, constant folding; environment semantics | partial (refuted clause) | Proved except the declared-inputs part: equal as a set when every declared input is read and no operand is omitted (C75_inputs_partial); order, unread inputs and the empty name are refuted. |
| C76 | Saving and reloading gives the same graph | Props_Load.v | loader, saver, reload, constant folding; environment semantics | partial (refuted clause) | Proved for all files; outputs are equal when each declared output is produced, read or stored; refuted otherwise: a pass-through output disappears and an unread initializer is written as a required input without its value. Tensor payload encoding is C43/C44/C61/C62; node attributes are not modelled here. |
| C77 | Constant folding preserves results | Props_Load.v | loader, saver, reload, constant folding; environment semantics | partial (refuted clause) | Proved for arbitrary operator semantics; refuted part: a declared output that is itself constant loses its tensor and is missing from the saved file. |
| C78 | The shapes recorded in a built LLM graph fit its operators | Props_LlmCost.v | `llm.Builder` log plus the operators' cost methods; one weakest-precondition pass carrying shapes, weights and costs | partial (refuted clause) | Proved for every consistent configuration. Refuted: hidden_act 'gegelu' outside phi3 records an output as wide as its input; linear-attention per-head norms use the attention head size even when linear_key_head_dim differs. |
| C79 | The weights of a built LLM graph are the model's parameters | Props_LlmCost.v | `llm.Builder` log plus the operators' cost methods; one weakest-precondition pass carrying shapes, weights and costs | partial (refuted clause) | Proved, except that Dedup Params is always 0 on a fresh builder graph (C79_dedup_refuted): the readers are recorded only by graph_reorder_nodes, after which it is exact (C79_dedup_after_reorder). |
| C80 | The cost report of a built LLM graph is the cost of the model | Props_LlmCost.v | `llm.Builder` log plus the operators' cost methods; one weakest-precondition pass carrying shapes, weights and costs | partial (refuted clause) | Proved as the exact formulas of the code. Refuted as the cost of the model: linear-attention nodes are charged again with the projections that are separate nodes and with a projection that has no weight; MoE nodes without shared expert are charged with its gate; latent attention ignores the KV cache. |
| C81 | Quantizing a weight of a graph stores it where its readers find it | Props_QGraph.v | `graph_quantize` over graphs with real float32 weights, and the loop that calls it while editing the list it walks; step lemma with a frame, float16 rounding by Flocq | partial (refuted clause) | Proved for a weight with exactly one reader (the rewiring and the decoded values for 8-bit symmetric, 8-bit asymmetric and 4-bit symmetric codes). Refuted: weights read twice (AttributeError, because the reader table gets a bare string), weights nothing reads (KeyError), the recorded readers of the new tensors, and 4-bit groups of tiny weights (the float16 scale is 0). 4-bit asymmetric codes are refuted under C36/C37. |
| C82 | The documented quantization loop reaches every weight | Props_QGraph.v | `graph_quantize` over graphs with real float32 weights, and the loop that calls it while editing the list it walks; step lemma with a frame, float16 rounding by Flocq | partial (refuted clause) | Proved: the loop ends and quantizes exactly the weights in the explicit list `reached`; this is every weight when no two float weights are neighbours. Refuted in general: the weight after a quantized one is passed over, so of adjacent weights every second one stays float. |
| C83 | MACs of convolutions and matrix products are the MACs of the computation | Props_Cost.v | CostModel.v transcribes the _profile_core functions; CostSpec.v is an independent step-counting semantics: loop nests over an arbitrary element type that compute the operator (examples run them) while counting each multiply-accumulate, addition, comparison and weighted special function; CostProofs.v computes their totals by induction over the index sets and Props_Cost.v equates them with the reported number, or refutes it. | partial (refuted clause) | Proved exactly for Conv (any rank, groups, bias), Gemm (both transpositions, third input; alpha and beta scaling is not counted) and MatMul (broadcast batches). ConvTranspose: proved right if and only if the output has as many elements as the input; refuted otherwise. Integer convolutions: exact for 1-D and 2-D kernels, refuted for 3-D. QLinearMatMul: exact when the first operand is not broadcast, refuted when it is. |
| C84 | MACs of pooling and element-wise operators are the steps of the computation | Props_Cost.v | CostModel.v transcribes the _profile_core functions; CostSpec.v is an independent step-counting semantics: loop nests over an arbitrary element type that compute the operator (examples run them) while counting each multiply-accumulate, addition, comparison and weighted special function; CostProofs.v computes their totals by induction over the index sets and Props_Cost.v equates them with the reported number, or refutes it. | partial (refuted clause) | Exact for 1-D and 2-D pooling, global average pooling, two-input element-wise operators and Sum. Refuted: a 3-D pooling window is counted by its first side only, and n-ary Max/Min/Mean with three or more inputs report the cost of two. |
| C85 | MACs of LSTM and GRU are the steps of the recurrence | Props_Cost.v | CostModel.v transcribes the _profile_core functions; CostSpec.v is an independent step-counting semantics: loop nests over an arbitrary element type that compute the operator (examples run them) while counting each multiply-accumulate, addition, comparison and weighted special function; CostProofs.v computes their totals by induction over the index sets and Props_Cost.v equates them with the reported number, or refutes it. | partial (refuted clause) | Exact for one direction. Refuted: with two directions the gate arithmetic of the second direction is missing (180 and 110 steps per hidden value); without the optional bias the profile raises IndexError. |
| C86 | MACs of Einsum are the label assignments of the equation | Props_Cost.v | CostModel.v transcribes the _profile_core functions; CostSpec.v is an independent step-counting semantics: loop nests over an arbitrary element type that compute the operator (examples run them) while counting each multiply-accumulate, addition, comparison and weighted special function; CostProofs.v computes their totals by induction over the index sets and Props_Cost.v equates them with the reported number, or refutes it. | partial (refuted clause) | Exact for two operands without ellipsis, repeated labels included. Refuted: a third operand is ignored, one operand or an ellipsis over more dimensions than labels raises IndexError, a broadcast size 1 in the second operand hides the other size. |
| C87 | Values of data-moving operators follow ONNX | Props_Tight.v | value_infer of single operators: numpy arrays as a shape and an index function, numpy primitives after the numpy manual; specifications index by index (ValueSpec.v) and reference loop nests (CostSpec.v) | partial (refuted clause) | Proved: Slice with non-negative axes up to 4 and steps (negative steps with start >= -dim), Unsqueeze/Squeeze for ascending non-negative axes or one axis of either sign, Split with a positive last piece, GatherElements when the indices' dtype holds the values. Refuted: negative axes or axes > 4 of Slice are ignored, Slice without axes slices axis 0 only, reversed Slice starting before the array, Unsqueeze/Squeeze with several negative or unsorted axes, Squeeze without axes, an empty last Split piece, Split without axis, GatherElements casts to the index dtype. |
| C88 | Values of Conv, MaxPool, Gemm and GlobalAveragePool follow ONNX | Props_Value.v | value_infer of single operators: numpy arrays as a shape and an index function, numpy primitives after the numpy manual; specifications index by index (ValueSpec.v) and reference loop nests (CostSpec.v) | partial (refuted clause) | Proved: 2-D Conv with one group and explicit pads (first run, or with a bias), MaxPool of non-negative data without dilation on the first run, Gemm with alpha = beta = 1, the averages of GlobalAveragePool. Refuted: a second Conv without bias adds to the old output, auto_pad is ignored by the loop, MaxPool starts from zero (wrong for negative data), keeps the maximum of earlier runs and ignores dilations, Gemm ignores alpha and beta, GlobalAveragePool drops the spatial axes; groups and other ranks raise NotImplementedError. |
| C89 | Values of element-wise operators follow ONNX | Props_Value.v | value_infer of single operators: numpy arrays as a shape and an index function, numpy primitives after the numpy manual; specifications index by index (ValueSpec.v) and reference loop nests (CostSpec.v) | partial (refuted clause) | Proved: Div for operands of equal sign or exact quotients, Mod with fmod = 0, Max, Sum, Clip with both bound inputs listed, NonZero when some element is non-zero. Refuted: Div floors negative quotients, fmod is ignored, Min returns a negated truth value or raises, Clip with fewer than three inputs raises, LeakyRelu fails on more than one element, NonZero of zeros lists every position. |
| C90 | Shape inference and value inference agree on shapes | Props_Value.v | value_infer of single operators: numpy arrays as a shape and an index function, numpy primitives after the numpy manual; specifications index by index (ValueSpec.v) and reference loop nests (CostSpec.v) | partial (refuted clause) | Proved on the inputs where both follow ONNX; refuted for negative Slice axes, Slice without axes, several negative Unsqueeze or Squeeze axes, and GlobalAveragePool. |
| C91 | Exactly the computations that shapes depend on are evaluated by value | Props_Infer.v | InferModel.v models the shape-operand table, the breadth-first marking (with the set's iteration order as a parameter) and the loops of Graph.shape_infer / Graph.value_infer over abstract operator rules; InferSpec.v states, per ONNX operator, which operands fix shapes by value, which nodes are needed by value, and when a rule is right for a run-time semantics; InferProofs.v proves the marking exact with an explicit termination measure, InferLoop.v the soundness of the loops and their independence of earlier calls, InferWork.v the exponential lower bound. Concrete operators (Shape, Identity, Relu, Reshape, ReduceMax on (shape, data) values) meet the hypotheses in the cases. | partial (refuted clause) | Proved: the marked nodes are exactly the needed ones for every graph and iteration order, within 2/nodes/+1 levels, for the operand table the library has. Refuted parts: operands missing from the table; exponential number of visits. |
| C92 | Graph shape inference finds the shapes of every run | Props_Infer.v | InferModel.v models the shape-operand table, the breadth-first marking (with the set's iteration order as a parameter) and the loops of Graph.shape_infer / Graph.value_infer over abstract operator rules; InferSpec.v states, per ONNX operator, which operands fix shapes by value, which nodes are needed by value, and when a rule is right for a run-time semantics; InferProofs.v proves the marking exact with an explicit termination measure, InferLoop.v the soundness of the loops and their independence of earlier calls, InferWork.v the exponential lower bound. Concrete operators (Shape, Identity, Relu, Reshape, ReduceMax on (shape, data) values) meet the hypotheses in the cases. | partial (refuted clause) | Proved for all graphs in dependency order and all operators whose shape operands are in the library's table; refuted for the omitted operands and for nodes listed out of order. |
| C93 | The KV cache sizes reported by the LLM builder and by attention operators are the sizes of the keys and values kept | Props_LlmKv.v | LlmKv.v models Builder.kv_params through a history of build_graph/add_kv_cache/set_past_kv_length calls and the kv_size an attention node computes from the shapes of its operands; the shape invariants of the builder (LlmCostProofs) give the operand shapes of every attention node, hence its size, for all configurations. Stale kv_params and charged linear-attention layers are exhibited. | partial (refuted clause) | Positive theorems for the per-operator sizes and for kv_params right after build_graph/add_kv_cache; refuted after set_past_kv_length and for linear-attention layers. The MLA operator's own kv accounting is not covered here. |
| C94 | Planning with a separate KV-cache pool is safe and keeps the cache intact across runs | Props_Dual.v | DualModel.v models benchmark/llm_test.py:9-173 on top of the shared liveness/release/best-fit definitions; DualProofs.v shows that without duplicate names the pool loop equals the planner's, that each pool is the plan of the graph restricted to its tensors, and that two such plans laid side by side form one valid plan, so the C01-C05 lemmas apply; cache survival is a frame property of the pool execution. | partial (refuted clause) |  |
| C95 | The compute graph drops the shape arithmetic and nothing else | Props_Compute.v | ComputeModel.v models get_compute_graph on the shared graph records and remove_node of EditModel; ComputeSpec.v defines the dropped nodes inductively from the wiring alone; ComputeProofs.v shows the scan collects exactly these (termination by an exact visit count on acyclic graphs); ComputeTop.v shows values of kept nodes by induction on the dependency rank. | partial (refuted clause) | Proved for graphs where no node has two outputs that are both read or declared, declared outputs are unread and no node is named like a tensor; each of these conditions is shown necessary, and the change made to the original graph is proved for every call. Termination: enough fuel exists for every acyclic graph. |
| C96 | Fixing K rewrites exactly the TopK nodes and drops only what computed their K | Props_TopK.v | TopKModel.v models __set_fixed_topk; TopKSpec.v defines the nodes that only compute some K inductively from the wiring; TopKProofs.v lifts the remove_node lemmas to a graph with rewritten operands and reuses the exact visit count of ComputeProofs.v for termination; values by induction on the dependency rank. | partial (refuted clause) |  |
| C97 | Loading with a fixed branch replaces every If by that branch and keeps the values | Props_If.v | IfModel follows __remove_if__ with remove_node from EditModel: the condition chain, the tables, the added branch and the renamed output, pass by pass. IfProofs traces every node of every state back to a node of the model (invariant over passes); values follow by induction over a rank of tensors. IfFlat keeps, for graphs without nested Ifs, an invariant that says exactly what the tables and the removal list hold; IfTotal shows that no exception and no endless chain can occur. Not modelled: branch initializers, prevnodes/nextnodes. | partial (refuted clause) | Refuted parts: an If result that is a model output is never an output of the loaded graph; second results of an If, branch outputs read inside the branch, branches that pass an outer tensor through, operands shared by a condition and another If's branch, and nodes computing a condition and something else lose a producer; an unnamed branch node or a condition computed from another If makes loading fail; equal tensor names in two branches collide; branch nodes are appended after their readers. Initializers of branches are not modelled (the code ignores them). |
| C98 | Values of the indexing operators (GatherND, ScatterND, OneHot, ArgMax) | Props_Value2.v | ValueModel3 follows gather_nd_impl, scatter_nd_impl, one_hot and ArgMaxNode over arrays given as shape plus element function (ValueModel), with the index loops of the code. ValueSpec3 states the operators of the ONNX definition position by position. Proof by induction over the outer dimensions (ValueProofs6). | partial (refuted clause) | Proved for batch_dims 0, reduction none, values [0,1] and indices in range, select_last_index 0. Refuted by proof: GatherND with batch_dims gathers other elements than the operator's definition; ScatterND ignores the reduction attribute; OneHot ignores the off/on values and raises on an index out of range; ArgMax ignores select_last_index. |
| C99 | Values of Pad, Reshape, ReduceSum, ConstantOfShape and Shape | Props_Value2.v | ValueModel3 follows the value_infer methods; ValueSpec3 says what element each position holds. Reshape goes through the bijection between positions and row-major offsets, reductions through the list of positions projecting to a result position (ValueProofs7). | partial (refuted clause) | Proved for the modelled default cases. Refuted by proof: Pad without a mode attribute, with pads as attribute (opset < 11) or with mode reflect/edge gives no value or raises; axes input of Pad is ignored; negative pads raise; axes given as attribute make ReduceSum raise; an empty axes list does not reduce all axes; ConstantOfShape without value raises; Shape ignores start/end. |
| C100 | Einsum result shape | Props_Einsum.v | EinsumModel follows the parser (split on '->' and ',', ellipsis search, implicit result labels) and shape_infer over lists of characters. EinsumSpec describes the text of an equation by its terms and the result by label sizes. Proof: splitting inverts joining; entries of the label table by induction over operands; sorted duplicate-free lists with the same members are equal. | partial (refuted clause) | Proved for ellipses at the start of terms, matching operands and positive sizes. Refuted by proof: labels before an ellipsis give a shape of wrong rank; a result ellipsis that is not first is moved to the front; contradictory sizes and operands with too many dimensions are accepted; size 0 against 1 gives 1. |
| C101 | Builder graphs are wired as the described transformer | Props_LlmWire.v | LlmWireSpec states, switch by switch, which node computes what from what (relations layer, layers, transformer over the finished graph). Proof: the builder is a writer of events; C69's invariant shows that no event is overwritten, so every event is in the final graph; inversion of each builder function, induction over the layers. | proved | Proved for the language-model builder; the vision tower is not modelled. Position embeddings must not be combined with rotary ones (see C69). |
| C102 | Shapes of recurrent, detection and sampling operators | Props_Shape2.v | ShapeModel2 follows the shape_infer methods (index errors, assertions, the kind of sequence a shape is held in); ShapeSpec2 states the ONNX shapes. Proof by computation on symbolic dimensions and list lemmas. | partial (refuted clause) | Proved for layout 0, given RoiAlign sizes, one class and image, equal kinds of shape sequences. Refuted by proof: layout 1 is ignored; a GRU with one output always raises; RoiAlign without the defaulted sizes raises; NonMaxSuppression ignores the classes; GridSample raises when only one operand has a stored value; Scan accepts no node with fewer than five outputs; TopK without axis raises except at rank 1; ArrayFeatureExtractor drops the leading dimensions. |
| C103 | Resize result shape | Props_Shape2.v | ShapeModel2.resize_shape, parameterised by the rounding of the product; ShapeSpec2 names NumPy's two roundings with Flocq. Proof: rounding is monotone and fixes integers up to 2^precision. | partial (refuted clause) | Proved: with scales every dimension is the floor of the exact product or one more (only when rounding carries it over), exact when the product is representable, exact for integer scales; sizes exact for ranks other than 2. Refuted by proof: two sizes are added to the first two dimensions; other counts give the empty shape; missing scales drop dimensions; one input raises. |
| C104 | A built LLM graph does not depend on batch size and sequence length | Props_LlmInfer.v | LlmRel runs the builder model twice in lockstep and keeps a relation between the two recorded graphs, by induction over the layers; no hypotheses. | proved | Proved without hypotheses on the configuration. |
| C105 | Shape inference on a built LLM graph reproduces the builder's shapes | Props_LlmInfer.v | LlmInfer models the shape rules of the operators the builder emits and Graph.shape_infer over them; the proof pairs the lockstep relation (C104) with the shape invariant of C78 and an induction over the node list. | proved | Proved for configurations whose described projections fit the attention (the same sanity hypotheses as C78). |
| C106 | Removing a subtree removes exactly the dependents | Props_Subtree.v | SubtreeModel: the recursion with an explicit recursion limit, the set as a duplicate-free list, its iteration order an arbitrary permutation. Proof by induction on the limit with the position in the node list as measure; removal by the lemmas of C14. | partial (refuted clause) | Proved when the recursion limit exceeds the number of nodes. Refuted by proof: on every graph whose dependency chains exceed the recursion limit the call fails with RecursionError; the number of calls is exponential in the number of nodes for chains that use each result twice. |
| C107 | Values of Gather, Expand, Where, Tile, Trilu, CumSum, Compress and Range | Props_Value3.v | ValueModel4 models the numpy calls the methods make; ValueSpec4 states what ONNX says element by element. Proofs by list lemmas on index tuples, C19 for broadcasting, C31/C30 for the shapes, binary64 rounding lemmas for arange's length. | partial (refuted clause) | CumSum proved without its flags (exclusive/reverse raise NotImplementedError: proved); Range below 2^53 (above, elements can be lost: refuted by an example); Expand: shape inference accepts shapes that do not broadcast, where the value is an error (refuted). |
| C108 | A pattern taken from nodes describes those nodes, and finds them | Props_Desc.v | DescModel: the two loops with the dictionaries produced_by/consumed_by. Proof: the loop only adds edges (ext), each input adds the edge of its unique producer; chains by induction on the rest of the chain through the search's own recursion. | partial (refuted clause) | Wiring and self-match proved for every selection. That the search finds the selection is proved for chains; refuted in general: two selected nodes with the same operator reading the same tensor leave the placeholder 'a' in the match, and fuse_subgraph_iotensors then fails with KeyError. |
| C109 | Requested input and output shapes are what the saved file declares | Props_IoMod.v | IoModModel: str.split, isnumeric, int and the two loops over the declared inputs and outputs, around C75/C76's loader and saver. Proof: splitting a joined request gives the words back, numerals by DecimalN, then the loader's description (loaded_plain) of the edited file. | partial (refuted clause) | Proved for ASCII requests of rank at least one, sizes below 2^63, names without the letter x that do not read as numbers. Refuted: names containing x (maxlen is split into two names), scalar inputs, and the shapes recorded for intermediate tensors go stale (a Relu of a 2x3 input still declared 1x3). |
| C110 | The sub-model and fusion entry points deliver a file | Props_Api.v | ApiModel: Python's keyword binding for functions without *args, and the entry points over callees with arbitrary behaviour. Proof: binding equals its specification; case analysis over the run. | partial (refuted clause) | Refuted for every model and every non-empty request: get_subgraph and model_subgraph build Graph without its required configuration, model_opfusion passes a keyword 'name' that neither fusion method has; Python's argument binding (modelled, with a specification) raises TypeError before any file is written. Proved: an empty request does nothing. |
| C111 | Removing reshaping nodes keeps the rest of the graph and its numbers | Props_ShapeOps.v | ShapeOpsModel over C16's skip_node. Proof: a weaker table invariant than exact bookkeeping (readers of dynamic tensors listed exactly) is kept by each removal although stale entries stay; induction over the removed nodes with the composed renaming. | partial (refuted clause) | Proved when each reshaping node has one dynamic operand and its result is read by a node. Refuted: a target shape computed at run time, a reshape result that is a model output, and a graph that went through update_tensor_relations before (any fusion pass), which forgets that graph inputs are dynamic: in each the node goes and its readers or the output dangle. |
| C112 | build_vision_graph describes a vision transformer | Props_Vision.v | VisionModel: the emitting functions of llm.py 782-989 over the builder state. Proof: VisionGraph writes the graph as a list of items per layer, and VisionWire reads each described step off the items by induction on the layers. | partial (refuted clause) | C112_tokens_refuted: the patch embedding is reshaped without a transpose, so tokens are not patches (except one patch or hidden size 1). C112_default_refuted / C112_no_patch_size_refuted: zero heads fail even when head_dim is given; patch size 0 raises ZeroDivisionError. |
| C113 | Vision graphs accept the images they should | Props_Vision.v | VisionInfer runs C91's shape_infer on the whole vision graph with the shape functions of C19-C31 (Conv and Slice divide in IEEE doubles); VisionFits proves each node keeps its recorded shape, by induction on the layers. | partial (refuted clause) | Refuted parts: the channel count is never checked, a batch of two images of the right size is refused, and a graph for an image smaller than one patch is built but never infers. |
| C114 | Vision encoder parameters, MACs and memory are the textbook ones | Props_Vision.v | VisionCost: C66/C67's profile loop over the items with the per-node functions of C83-C86; sums by induction on the layers against the closed formulas. | proved |  |
| C115 | Quantised operators infer the shapes of their float counterparts | Props_QOps.v | QOpsModel: the shape_infer methods on typed operands. Proof: by case analysis they equal C22/C23's convolution and C21's product where those are right; operands named as in the ONNX tables. | partial (refuted clause) | Refuted parts: VALID padding and three spatial axes give a rank-0 result; without a bias QLinearConv takes the type of y_scale; QLinearMatMul ignores the batch of the second operand and the inner size; QuantizeLinear needs the optional zero point. |
| C116 | Activation values are what the operators define | Props_Act.v | ActModel over Coq's real numbers; Python's min/max on arrays through the truth value of an array. Proof: sums over the axis by induction on lists, field arithmetic. | partial (refuted clause) | Refuted parts: Softmax without the axis attribute raises AttributeError and ignores the pre-13 coercion to two dimensions; HardSigmoid and HardSwish raise ValueError unless the array has one element, and a clipped HardSigmoid loses its shape. |
| C117 | Normalisation values are what the operators define | Props_Act.v | ActModel: the element loop with its lookups, and numpy.sum as in C99. Proof: element-wise; the statistics by induction over the channel's elements. | partial (refuted clause) | Refuted parts: BatchNormalization of a vector raises IndexError; ReduceL2 ignores axes given as an input. |
| C118 | Refreshing a loaded graph | Props_Refresh.v | RefreshModel over LoadModel's passes, with the per-node attribute `constant` kept. Proof: the search keeps every verdict (monotone dictionary, induction on the work list); with nothing left to search, list equalities by no-op lemmas for the two scans, and C77's characterisation of run-time tensors for the folded case. | partial (refuted clause) | Proved: with folding a refresh changes nothing; without folding it changes nothing but two lists. Refuted: those two lists (initials, dynamics) grow by a copy at every refresh, and an unread initializer is then saved as two graph inputs of one name; the constant search is skipped for every node (they keep the verdict of loading), so no constant that appears after loading is ever folded. |
| C119 | The printed report of an LLM states its profile | Props_LlmReport.v | Model LlmReportModel.v: the rows and header print_profile builds, over LlmPerf's llm_profile (binary64), with Python's str/',' / '.5f' formats and utils' csv writer. Proved against readers of decimal text written in Props_LlmReport.v (Horner on digits, decimal fraction, sizes) and C68's csv reader. The unit is refuted on a concrete node. | partial (refuted clause) | Table, cells and csv proved. REFUTED for the unit: the column headed 'Projected Latency(ms)' holds seconds (a node of 2000 ms is listed as 2.00000; every node under 5 microseconds as 0.00000). Python's text of a float (Total memory and latency) is abstract; tabulate is not modelled. |
| C120 | Building a model graph a second time on the same builder | Props_LlmRebuild.v | Model LlmRebuildModel.v: build_graph called once per pair of sizes on one state of LlmModel's builder monad. LlmRebuild.v relates, event by event, a run from the initial state and a run from a state with the rotary tables or the position input already present (a permutation removes the skipped events). Props_LlmRebuild.v replays the second log into the first graph: nodes already present are rewritten equal, tensors are looked up in the fresh graph, lists are appended. | partial (refuted clause) | Proved by a relation between the first run and a run that starts from any state left by an earlier one. C120_executable_refuted and C120_position_refuted record the two defects. |
| C121 | Dumping intermediate tensors | Props_Dump.v | Model DumpModel.v: add_dump_tensors as a fold over GraphModel's graph. The specification `additions` in Props_Dump.v says which names are added and in which order; the run by value is InferModel's graph_value_infer, the file LoadModel's save_graph, the plan CompressModel's compress_memory. Proved by induction on the request and on the node list; the defects by the executed plan of a three-node chain and by the planner's own outcome lemma. | partial (refuted clause) | C121_dump_all_refuted and C121_dumped_survives_refuted record the two defects: the plan ignores the dump, and dumping every intermediate makes the planner divide by zero. |

## What Print Assumptions lists

Every theorem not named below is closed under the global context.

Theorems that use `ClassicalDedekindReals.sig_forall_dec`, `ClassicalDedekindReals.sig_not_dec`, `Classical_Prop.classic`, `FunctionalExtensionality.functional_extensionality_dep` (Coq standard library: Reals and the classical facts under it):

C103_integer_scales, C103_scales_partial, C105_reinfer, C105_reproduces, C107_range_case, C107_range_large_refuted, C107_range_partial, C113_as_built, C113_batch_refuted, C113_channels_refuted, C113_infer, C113_small_image_refuted, C114_report, C115_conv_integer, C115_no_bias_refuted, C115_qlinear_conv, C115_same, C115_valid_refuted, C116_softmax_order, C116_softplus, C119_cells, C119_csv_reads_back, C119_latency, C119_latency_unit_refuted, C119_table, C119_total_flops, C22_conv_counts_windows_partial, C22_oversized_kernel_refuted, C22_pool3d_pads_refuted, C22_pool_ceil_mode, C22_pool_counts_windows_partial, C22_valid_counts_windows_partial, C22_valid_ignores_dilation_refuted, C22_valid_rank5_refuted, C23_conv_same_partial, C23_pool_same_partial, C23_rank5_refuted, C24_axis_counts_partial, C24_empty_reversed_refuted, C24_slice_counts_partial, C24_slice_defaults_partial, C32_linear_expression_exact, C32_relative_fit_refuted, C33_independent_variables_partial, C33_one_variable_partial, C33_two_variables_refuted, C34_history_independent, C34_idempotent, C34_regressed_engine, C34_unordered_refuted, C34_update_partial, C35_half_step_refuted, C35_symmetric_error_partial, C35_wide_codes_refuted, C36_asymmetric_error_partial, C36_code_16_refuted, C36_eight_bits, C38_all_zero_refuted, C38_infinite_scale_refuted, C38_success_partial, C38_underflow_refuted, C38_zero_row_refuted, C39_array_type_refuted, C39_empty_list_refuted, C39_float_exact, C39_graph_file_partial, C39_graph_injective, C39_int64_attribute_refuted, C39_scalar_or_list_refuted, C39_tensor_attribute_refuted, C40_engine_file_partial, C40_large_coefficient_refuted, C40_success_faithful_partial, C48_order_refuted, C48_printed_totals, C48_totals, C49_history_refuted, C49_independent_partial, C49_report_by_set, C51_context_parts, C51_faster_device, C51_more_devices_can_be_slower, C51_no_link, C51_not_below, C51_sum_of_rooflines, C56_2d_refuted, C56_4d_refuted, C56_4d_tiling_refuted, C56_honest_2d_partial, C56_honest_partial, C56_never_understates, C56_shape_4d, C56_terminates, C60_ceil_exact_partial, C60_even_samples_refuted, C60_floor_exact_partial, C60_pool_partial, C60_remainder_refuted, C66_hidden_refuted, C66_sharing_partial, C80_latent_cache_refuted, C80_report, C80_report_cached, C81_asym8_values, C81_readers_refuted, C81_rewired_partial, C81_shared_weight_refuted, C81_small_weights_refuted, C81_sym4_values, C81_sym8_values, C81_unread_weight_refuted, C81_untouched, C82_loop, C82_neighbours_refuted, C88_conv_auto_pad_refuted, C88_conv_bias_partial, C88_conv_partial, C88_conv_rerun_refuted, C88_conv_unsupported, C88_maxpool_dilation_refuted, C88_maxpool_negative_refuted, C88_maxpool_partial, C88_maxpool_rerun_refuted, C90_disagreements_refuted, C90_slice_partial

Theorems that use `ClassicalDedekindReals.sig_forall_dec`, `ClassicalDedekindReals.sig_not_dec`, `FunctionalExtensionality.functional_extensionality_dep` (Coq standard library: Reals and the classical facts under it):

C116_elu, C116_sigmoid, C116_softmax, C116_softmax_coerced_refuted, C116_softmax_probabilities, C116_softmax_shift, C117_batch_norm, C117_batch_norm_statistics, C117_batch_norm_vector_refuted, C117_reduce_l2, C117_reduce_l2_all, C117_reduce_l2_input_refuted, C45_bias_refuted, C45_fold_preserves_partial, C45_output_refuted, C45_readonly_refuted, C45_shared_result_refuted, C45_shared_weight_refuted

Theorems that use `ClassicalDedekindReals.sig_forall_dec`, `FunctionalExtensionality.functional_extensionality_dep` (Coq standard library: Reals and the classical facts under it):

C103_nothing_refuted, C103_short_scales_refuted, C103_sizes_partial, C103_sizes_refuted, C116_hard_refuted, C116_hard_sigmoid_partial, C116_hard_swish_partial, C116_relu, C116_relu6

