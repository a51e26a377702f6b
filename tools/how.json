{
 "C01,C02,C04,C05": "`compress_memory` (liveness pass, release/merge, best fit, split, append); invariant over block lists (contiguous tiling, distinct tags, live tensors tagged), induction over nodes",
 "C03": "the same plus a shared store and an operator interpretation; simulation between store and environment",
 "C06,C07,C08": "same model; witnesses and the strongest restriction",
 "C09,C10,C11": "`topsort` rounds with counters; counter invariants, measure on remaining nodes",
 "C12": "`__update_consumer_producer__`; closed form by induction over nodes and inputs",
 "C13,C14,C15,C16,C57": "graph editing methods; closed forms, frame conditions, witnesses",
 "C17": "`__get_subnodes_byio__`; partition proof",
 "C18,C58": "`__constant_search__`; inductive dependency relation",
 "C19,C20,C21,C22,C23,C24,C25,C26,C27,C28,C29,C30,C31,C59": "shape functions over `list Z`; induction on shapes, specifications by element counting or index maps",
 "C32,C33,C34,C60": "`ValueExpr`, `ShapeEngine`, `shape_regress` in binary64; least squares algebra, list induction",
 "C35,C36,C37,C38": "`quantization.py` in binary64/binary32; rounding lemmas, 4-bit packing over bits",
 "C39,C40,C41,C42": "`serialization.py` as byte lists; independent decoder, round trip by induction",
 "C43,C44,C61,C62": "dtype tables and TensorProto paths; byte round trips",
 "C45": "`ConvBNFusion`; algebra over R and binary64 error terms",
 "C46,C47,C63,C64,C70": "`FusionPattern` search as a worklist; soundness and completeness against an independent match relation",
 "C48,C66,C67,C68": "`Graph.profile`, totals in binary64; fold invariants",
 "C49,C50,C52": "module-level state; histories as lists of calls",
 "C51": "`Builder.profile` in binary64; fold invariants, monotonicity",
 "C53,C54,C65": "`memory_pool.py`, `infer.py` views; arithmetic and frame lemmas",
 "C55": "export paths as strings; injectivity, escape witnesses",
 "C56": "sparsity search; per-block counting",
 "C69": "`llm.Builder` as a logging monad; weakest preconditions over names",
 "C71,C72,C73": "`fuse_postop_node_names` and the benchmark fusion loop; graph rewriting semantics",
 "C74,C75,C76,C77": "loader, saver, reload, constant folding; environment semantics",
 "C78,C79,C80": "`llm.Builder` log plus the operators' cost methods; one weakest-precondition pass carrying shapes, weights and costs",
 "C81,C82": "`graph_quantize` over graphs with real float32 weights, and the loop that calls it while editing the list it walks; step lemma with a frame, float16 rounding by Flocq",
 "C83,C84,C85,C86": "CostModel.v transcribes the _profile_core functions; CostSpec.v is an independent step-counting semantics: loop nests over an arbitrary element type that compute the operator (examples run them) while counting each multiply-accumulate, addition, comparison and weighted special function; CostProofs.v computes their totals by induction over the index sets and Props_Cost.v equates them with the reported number, or refutes it.",
 "C87,C88,C89,C90": "value_infer of single operators: numpy arrays as a shape and an index function, numpy primitives after the numpy manual; specifications index by index (ValueSpec.v) and reference loop nests (CostSpec.v)",
 "C91,C92": "InferModel.v models the shape-operand table, the breadth-first marking (with the set's iteration order as a parameter) and the loops of Graph.shape_infer / Graph.value_infer over abstract operator rules; InferSpec.v states, per ONNX operator, which operands fix shapes by value, which nodes are needed by value, and when a rule is right for a run-time semantics; InferProofs.v proves the marking exact with an explicit termination measure, InferLoop.v the soundness of the loops and their independence of earlier calls, InferWork.v the exponential lower bound. Concrete operators (Shape, Identity, Relu, Reshape, ReduceMax on (shape, data) values) meet the hypotheses in the cases.",
 "C93": "LlmKv.v models Builder.kv_params through a history of build_graph/add_kv_cache/set_past_kv_length calls and the kv_size an attention node computes from the shapes of its operands; the shape invariants of the builder (LlmCostProofs) give the operand shapes of every attention node, hence its size, for all configurations. Stale kv_params and charged linear-attention layers are exhibited.",
 "C94": "DualModel.v models benchmark/llm_test.py:9-173 on top of the shared liveness/release/best-fit definitions; DualProofs.v shows that without duplicate names the pool loop equals the planner's, that each pool is the plan of the graph restricted to its tensors, and that two such plans laid side by side form one valid plan, so the C01-C05 lemmas apply; cache survival is a frame property of the pool execution.",
 "C95": "ComputeModel.v models get_compute_graph on the shared graph records and remove_node of EditModel; ComputeSpec.v defines the dropped nodes inductively from the wiring alone; ComputeProofs.v shows the scan collects exactly these (termination by an exact visit count on acyclic graphs); ComputeTop.v shows values of kept nodes by induction on the dependency rank.",
 "C96": "TopKModel.v models __set_fixed_topk; TopKSpec.v defines the nodes that only compute some K inductively from the wiring; TopKProofs.v lifts the remove_node lemmas to a graph with rewritten operands and reuses the exact visit count of ComputeProofs.v for termination; values by induction on the dependency rank.",
 "C97": "IfModel follows __remove_if__ with remove_node from EditModel: the condition chain, the tables, the added branch and the renamed output, pass by pass. IfProofs traces every node of every state back to a node of the model (invariant over passes); values follow by induction over a rank of tensors. IfFlat keeps, for graphs without nested Ifs, an invariant that says exactly what the tables and the removal list hold; IfTotal shows that no exception and no endless chain can occur. Not modelled: branch initializers, prevnodes/nextnodes.",
 "C98": "ValueModel3 follows gather_nd_impl, scatter_nd_impl, one_hot and ArgMaxNode over arrays given as shape plus element function (ValueModel), with the index loops of the code. ValueSpec3 states the operators of the ONNX definition position by position. Proof by induction over the outer dimensions (ValueProofs6).",
 "C99": "ValueModel3 follows the value_infer methods; ValueSpec3 says what element each position holds. Reshape goes through the bijection between positions and row-major offsets, reductions through the list of positions projecting to a result position (ValueProofs7).",
 "C100": "EinsumModel follows the parser (split on '->' and ',', ellipsis search, implicit result labels) and shape_infer over lists of characters. EinsumSpec describes the text of an equation by its terms and the result by label sizes. Proof: splitting inverts joining; entries of the label table by induction over operands; sorted duplicate-free lists with the same members are equal.",
 "C101": "LlmWireSpec states, switch by switch, which node computes what from what (relations layer, layers, transformer over the finished graph). Proof: the builder is a writer of events; C69's invariant shows that no event is overwritten, so every event is in the final graph; inversion of each builder function, induction over the layers.",
 "C102": "ShapeModel2 follows the shape_infer methods (index errors, assertions, the kind of sequence a shape is held in); ShapeSpec2 states the ONNX shapes. Proof by computation on symbolic dimensions and list lemmas.",
 "C103": "ShapeModel2.resize_shape, parameterised by the rounding of the product; ShapeSpec2 names NumPy's two roundings with Flocq. Proof: rounding is monotone and fixes integers up to 2^precision.",
 "C104": "LlmRel runs the builder model twice in lockstep and keeps a relation between the two recorded graphs, by induction over the layers; no hypotheses.",
 "C105": "LlmInfer models the shape rules of the operators the builder emits and Graph.shape_infer over them; the proof pairs the lockstep relation (C104) with the shape invariant of C78 and an induction over the node list.",
 "C106": "SubtreeModel: the recursion with an explicit recursion limit, the set as a duplicate-free list, its iteration order an arbitrary permutation. Proof by induction on the limit with the position in the node list as measure; removal by the lemmas of C14.",
 "C107": "ValueModel4 models the numpy calls the methods make; ValueSpec4 states what ONNX says element by element. Proofs by list lemmas on index tuples, C19 for broadcasting, C31/C30 for the shapes, binary64 rounding lemmas for arange's length.",
 "C108": "DescModel: the two loops with the dictionaries produced_by/consumed_by. Proof: the loop only adds edges (ext), each input adds the edge of its unique producer; chains by induction on the rest of the chain through the search's own recursion.",
 "C109": "IoModModel: str.split, isnumeric, int and the two loops over the declared inputs and outputs, around C75/C76's loader and saver. Proof: splitting a joined request gives the words back, numerals by DecimalN, then the loader's description (loaded_plain) of the edited file.",
 "C110": "ApiModel: Python's keyword binding for functions without *args, and the entry points over callees with arbitrary behaviour. Proof: binding equals its specification; case analysis over the run.",
 "C111": "ShapeOpsModel over C16's skip_node. Proof: a weaker table invariant than exact bookkeeping (readers of dynamic tensors listed exactly) is kept by each removal although stale entries stay; induction over the removed nodes with the composed renaming.",
 "C112": "VisionModel: the emitting functions of llm.py 782-989 over the builder state. Proof: VisionGraph writes the graph as a list of items per layer, and VisionWire reads each described step off the items by induction on the layers.",
 "C113": "VisionInfer runs C91's shape_infer on the whole vision graph with the shape functions of C19-C31 (Conv and Slice divide in IEEE doubles); VisionFits proves each node keeps its recorded shape, by induction on the layers.",
 "C114": "VisionCost: C66/C67's profile loop over the items with the per-node functions of C83-C86; sums by induction on the layers against the closed formulas.",
 "C115": "QOpsModel: the shape_infer methods on typed operands. Proof: by case analysis they equal C22/C23's convolution and C21's product where those are right; operands named as in the ONNX tables.",
 "C116": "ActModel over Coq's real numbers; Python's min/max on arrays through the truth value of an array. Proof: sums over the axis by induction on lists, field arithmetic.",
 "C117": "ActModel: the element loop with its lookups, and numpy.sum as in C99. Proof: element-wise; the statistics by induction over the channel's elements.",
 "C118": "RefreshModel over LoadModel's passes, with the per-node attribute `constant` kept. Proof: the search keeps every verdict (monotone dictionary, induction on the work list); with nothing left to search, list equalities by no-op lemmas for the two scans, and C77's characterisation of run-time tensors for the folded case.",
 "C119": "Model LlmReportModel.v: the rows and header print_profile builds, over LlmPerf's llm_profile (binary64), with Python's str/',' / '.5f' formats and utils' csv writer. Proved against readers of decimal text written in Props_LlmReport.v (Horner on digits, decimal fraction, sizes) and C68's csv reader. The unit is refuted on a concrete node.",
 "C120": "Model LlmRebuildModel.v: build_graph called once per pair of sizes on one state of LlmModel's builder monad. LlmRebuild.v relates, event by event, a run from the initial state and a run from a state with the rotary tables or the position input already present (a permutation removes the skipped events). Props_LlmRebuild.v replays the second log into the first graph: nodes already present are rewritten equal, tensors are looked up in the fresh graph, lists are appended.",
 "C121": "Model DumpModel.v: add_dump_tensors as a fold over GraphModel's graph. The specification `additions` in Props_Dump.v says which names are added and in which order; the run by value is InferModel's graph_value_infer, the file LoadModel's save_graph, the plan CompressModel's compress_memory. Proved by induction on the request and on the node list; the defects by the executed plan of a three-node chain and by the planner's own outcome lemma."
}