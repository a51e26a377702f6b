{"id": "C01", "title": "Live tensors never share memory", "statement": "For every graph, the [offset, size) ranges that Graph.compress_memory returns for two different tensors that are both alive at the same node never intersect.", "quantifier": "all node lists, tensor sizes, consumer relations and positive paddings", "why_tests_cant": "a counterexample depends on a particular interleaving of sizes and lifetimes; the planner has unboundedly many states", "anchors": ["onnx_tool/graph.py:Graph.compress_memory"]}
{"id": "C02", "title": "Planned blocks are in bounds, aligned and large enough", "statement": "Every block returned by Graph.compress_memory starts at a non-negative multiple of the padding, is at least as large as the tensor's byte size rounded up to the padding, and ends at or before the returned total size.", "quantifier": "all graphs, sizes and positive paddings", "why_tests_cant": "requires an invariant over every allocate/free/merge/split history", "anchors": ["onnx_tool/graph.py:Graph.compress_memory"]}
{"id": "C03", "title": "Running through the planned pool gives the same values as private buffers", "statement": "For a topologically ordered single-assignment graph, executing nodes one by one with every activation stored at its planned range of one shared memory produces, at every node, the same operand values as giving each tensor its own buffer.", "quantifier": "all graphs, all node semantics, all input values", "why_tests_cant": "needs a refinement between a shared byte store and an environment over the whole execution", "anchors": ["onnx_tool/graph.py:Graph.compress_memory", "inference/memory_pool.py:MemoryPool.get"]}
{"id": "C04", "title": "Every live activation gets a block", "statement": "Each graph input or node output that is a dynamic tensor of non-zero byte size and appears in a node's live set has an entry in the returned plan.", "quantifier": "all graphs", "why_tests_cant": "absence over all inputs", "anchors": ["onnx_tool/graph.py:Graph.compress_memory"]}
{"id": "C05", "title": "The plan is never larger than private buffers and never smaller than the peak", "statement": "The returned total is at most the sum of the padded sizes of the planned tensors and at least the sum of the padded sizes of the tensors alive at any one node.", "quantifier": "all graphs with single-assignment tensors", "why_tests_cant": "bounds over all allocation histories", "anchors": ["onnx_tool/graph.py:Graph.compress_memory"]}
{"id": "C06", "title": "Graph outputs survive until the end of the run", "statement": "The memory planned for a tensor declared as graph output is not handed to another tensor before execution ends.", "quantifier": "all graphs and declared outputs", "why_tests_cant": "depends on lifetimes of outputs that also feed other nodes", "anchors": ["onnx_tool/graph.py:Graph.compress_memory"]}
{"id": "C07", "title": "Reordering nodes does not take memory away from graph inputs", "statement": "After Graph.graph_reorder_nodes, Graph.compress_memory still plans a block for each graph input of non-zero size.", "quantifier": "all graphs", "why_tests_cant": "history property over two API calls", "anchors": ["onnx_tool/graph.py:Graph.graph_reorder_nodes", "onnx_tool/graph.py:Graph.update_tensor_relations", "onnx_tool/graph.py:Graph.compress_memory"]}
{"id": "C08", "title": "Memory planning completes for every valid graph", "statement": "Graph.compress_memory returns a plan (raises nothing) for every graph whose tensors have known shapes.", "quantifier": "all graphs", "why_tests_cant": "a failing graph has a rare shape (no intermediate tensor)", "anchors": ["onnx_tool/graph.py:Graph.compress_memory"]}
{"id": "C09", "title": "Reordering yields a dependency-respecting permutation", "statement": "For an acyclic graph whose tensors have one producer each, Graph.graph_reorder_nodes keeps exactly the same nodes, each once, and places each producer before its consumers.", "quantifier": "all acyclic graphs and all initial node orders", "why_tests_cant": "all DAGs and orders", "anchors": ["onnx_tool/graph.py:Graph.topsort_nodes", "onnx_tool/graph.py:Graph.graph_reorder_nodes"]}
{"id": "C10", "title": "Reordering never loses a node", "statement": "The set of nodes after Graph.graph_reorder_nodes equals the set before; where it does not (cycles), exactly the nodes depending on a cycle are missing.", "quantifier": "all graphs, including cyclic", "why_tests_cant": "requires fixpoint reasoning about Kahn's rounds", "anchors": ["onnx_tool/graph.py:Graph.topsort_nodes"]}
{"id": "C11", "title": "Reordering does not change what the graph computes", "statement": "For every interpretation of the operators, executing the nodes in the order after Graph.graph_reorder_nodes yields the same value for each tensor as executing them in any other dependency-respecting order.", "quantifier": "all acyclic graphs, operator semantics and inputs", "why_tests_cant": "semantics over all interpretations", "anchors": ["onnx_tool/graph.py:Graph.topsort_nodes", "onnx_tool/graph.py:Graph.graph_reorder_nodes"]}
{"id": "C12", "title": "Producer/consumer relations are exactly the node wiring", "statement": "After Graph.update_tensor_relations, a tensor's recorded consumers (producers) are exactly the nodes listing it as input (output), once per occurrence, in node order.", "quantifier": "all node maps", "why_tests_cant": "all graphs", "anchors": ["onnx_tool/graph.py:Graph.__update_consumer_producer__", "onnx_tool/graph.py:Graph.update_tensor_relations"]}
{"id": "C13", "title": "Dead-node removal keeps producers of graph outputs", "statement": "Graph.remove_dangling_nodes never removes a node that a declared graph output depends on.", "quantifier": "all graphs and output lists", "why_tests_cant": "depends on recursion order over removed consumers", "anchors": ["onnx_tool/graph.py:Graph.remove_dangling_nodes", "onnx_tool/graph.py:Graph.remove_subtree", "onnx_tool/graph.py:Graph.remove_node"]}
{"id": "C14", "title": "Fusing a subgraph keeps the graph's declared outputs", "statement": "After Graph.fuse_subgraph_node_names, each tensor that was declared as graph output and is still produced is still declared as graph output.", "quantifier": "all graphs and node subsets", "why_tests_cant": "all subsets of all graphs", "anchors": ["onnx_tool/graph.py:Graph.fuse_subgraph_node_names", "onnx_tool/graph.py:Graph.remove_node"]}
{"id": "C15", "title": "A fused region's interface is complete", "statement": "The input list computed by Graph.get_iotensors for a set of nodes is exactly the tensors the set reads and does not produce (other than parameters and omitted operands), and the output list is exactly the tensors it produces that a node outside reads or that nobody reads; a graph output produced by the set is part of the output list.", "quantifier": "all graphs and node sets", "why_tests_cant": "all subsets of all graphs", "anchors": ["onnx_tool/graph.py:Graph.get_iotensors"]}
{"id": "C16", "title": "Skipping an identity node keeps the values its consumers see", "statement": "After Graph.skip_node on a node with one dynamic input and one output, each former consumer reads a tensor with the same value.", "quantifier": "all graphs, all interpretations in which the node is the identity", "why_tests_cant": "depends on other consumers of the producer's output", "anchors": ["onnx_tool/graph.py:Graph.skip_node"]}
{"id": "C17", "title": "Graph partitioning by tensors loses and duplicates no node", "statement": "Splitting a graph by input/output tensor names assigns each node to exactly one of the three parts.", "quantifier": "all graphs and boundary tensors", "why_tests_cant": "all graphs and cuts", "anchors": ["onnx_tool/graph.py:Graph.__get_subnodes_byio__"]}
{"id": "C18", "title": "Constant search marks only nodes that do not depend on runtime inputs", "statement": "A node reported as constant has no transitive dependence on a graph input.", "quantifier": "all graphs", "why_tests_cant": "transitive property over all graphs", "anchors": ["onnx_tool/graph.py:Graph.__constant_search__", "onnx_tool/graph.py:Graph.__is_node_constant__"]}
{"id": "C19", "title": "Broadcasting follows the ONNX/NumPy rule", "statement": "The inferred shape of a broadcasting binary operator equals the multidirectional broadcast of the two input shapes whenever it exists, is independent of operand order, and incompatible shapes are rejected.", "quantifier": "all pairs of shapes of any rank", "why_tests_cant": "unboundedly many ranks and dims", "anchors": ["onnx_tool/node.py:_broadcast_shape"]}
{"id": "C20", "title": "Element-wise operators infer the broadcast shape", "statement": "The output shape inferred for an element-wise operator is the broadcast of its input shapes.", "quantifier": "all lists of input shapes", "why_tests_cant": "wrong only when each operand is expanded on a different axis", "anchors": ["onnx_tool/node.py:PWNode", "onnx_tool/node.py:_max_shape"]}
{"id": "C21", "title": "MatMul infers the broadcast batch shape and checks the inner dimension", "statement": "The output shape inferred for MatMul is broadcast(batch dims) ++ [M, N], and K mismatches are rejected.", "quantifier": "all pairs of shapes", "why_tests_cant": "wrong only for mutually expanding batch dims", "anchors": ["onnx_tool/node.py:MatMulNode", "onnx_tool/node.py:GemmNode"]}
{"id": "C22", "title": "Convolution and pooling sizes count the valid window positions", "statement": "The inferred spatial size of Conv/Pool equals the number of positions at which the dilated kernel fits in the padded input (floor mode), per axis.", "quantifier": "all sizes, kernels, strides, dilations, pads", "why_tests_cant": "integer arithmetic over all parameters, including degenerate ones", "anchors": ["onnx_tool/node.py:_conv_output_shape", "onnx_tool/node.py:_pooling_shape_calc", "onnx_tool/node.py:ConvNode", "onnx_tool/node.py:PoolBase"]}
{"id": "C23", "title": "SAME padding yields ceil(input/stride)", "statement": "With auto_pad=SAME_UPPER/SAME_LOWER the inferred size is ceil(in/stride).", "quantifier": "all sizes, kernels and strides", "why_tests_cant": "integer arithmetic over all parameters", "anchors": ["onnx_tool/node.py:_conv_output_shape", "onnx_tool/node.py:_auto_pad_valid_shape_calc", "onnx_tool/node.py:_auto_pad_same_shape_calc"]}
{"id": "C24", "title": "Slice sizes equal the number of selected indices", "statement": "For every start, end and non-zero step the inferred size of a sliced axis equals the number of elements the ONNX Slice definition selects.", "quantifier": "all integers dim>=0, start, end, step<>0", "why_tests_cant": "edge cases at clamped ends and negative steps", "anchors": ["onnx_tool/node.py:SliceNode"]}
{"id": "C25", "title": "Reshape preserves the number of elements", "statement": "Whenever Reshape reports a shape, it has the same number of elements as the input, each 0 is copied from the input and at most one dimension is inferred.", "quantifier": "all shapes and reshape targets", "why_tests_cant": "all combinations of 0 and -1", "anchors": ["onnx_tool/node.py:ReshapeNode"]}
{"id": "C26", "title": "Split sizes are non-negative and add up to the axis", "statement": "The sizes inferred by Split are non-negative and sum to the axis length.", "quantifier": "all axis lengths and split counts", "why_tests_cant": "fails only for particular residues", "anchors": ["onnx_tool/node.py:SplitNode"]}
{"id": "C27", "title": "Transpose permutes dimensions reversibly", "statement": "Transposing with a permutation and then with its inverse returns the original shape; the number of elements never changes.", "quantifier": "all shapes and permutations", "why_tests_cant": "all ranks", "anchors": ["onnx_tool/node.py:TransposeNode"]}
{"id": "C28", "title": "Squeeze undoes Unsqueeze and both preserve volume", "statement": "For every shape and valid distinct axes, Squeeze with the same axes after Unsqueeze returns the original shape.", "quantifier": "all shapes and axis lists (including negative ones)", "why_tests_cant": "all ranks and axis lists", "anchors": ["onnx_tool/node.py:UnsqueezeNode", "onnx_tool/node.py:SqueezeNode", "onnx_tool/node.py:_axes_neg2pos"]}
{"id": "C29", "title": "Concat adds along one axis", "statement": "The inferred Concat shape has the sum of the inputs' sizes on the axis and the first input's size elsewhere, so its element count is the sum of the inputs' when the other axes agree.", "quantifier": "all non-empty lists of shapes and axes", "why_tests_cant": "all ranks and counts", "anchors": ["onnx_tool/node.py:ConcatNode"]}
{"id": "C30", "title": "Expand infers the broadcast of input and target shape", "statement": "Expand's inferred shape is the multidirectional broadcast of the input and requested shapes, and incompatible requests are rejected.", "quantifier": "all shapes", "why_tests_cant": "fails only at incompatible or zero dims", "anchors": ["onnx_tool/node.py:ExpandNode"]}
{"id": "C31", "title": "Flatten, Gather, Pad and Reduce infer ONNX shapes", "statement": "Flatten's result has two dims with the input's volume; Gather's rank is r+q-1 with indices' dims spliced in at the axis; Pad adds both pads on each axis; Reduce replaces or removes exactly the reduced axes.", "quantifier": "all shapes, axes and keepdims", "why_tests_cant": "all ranks and axes", "anchors": ["onnx_tool/node.py:FlattenNode", "onnx_tool/node.py:GatherNode", "onnx_tool/node.py:PadNode", "onnx_tool/node.py:ReductionNode"]}
{"id": "C32", "title": "Regressed dimension expressions are exact for integer-linear dimensions", "statement": "If a dimension is a*x+b (a>=1 integers) of one input variable, the expression inferred by Graph.shape_regress evaluates to that dimension for every value of the variable, not just the sampled ones.", "quantifier": "all a, b, sampled ranges and all values x", "why_tests_cant": "extrapolation beyond samples", "anchors": ["onnx_tool/graph.py:ValueExpr", "onnx_tool/graph.py:Graph.shape_regress"]}
{"id": "C33", "title": "Regressed shapes agree with the real shape at every input size", "statement": "For every graph the shape engine's tensor shapes equal shape inference at every value of the variables.", "quantifier": "all graphs and variable assignments", "why_tests_cant": "dimensions that depend on two variables", "anchors": ["onnx_tool/graph.py:Graph.shape_regress", "onnx_tool/graph.py:ShapeEngine"]}
{"id": "C34", "title": "Updating a shape engine once is enough", "statement": "ShapeEngine.update_variables leaves every derived variable equal to its expression of its source variable, whatever values were stored before.", "quantifier": "all engines and previous states", "why_tests_cant": "all histories of updates", "anchors": ["onnx_tool/graph.py:ShapeEngine.update_variables"]}
{"id": "C35", "title": "Symmetric block quantization error is at most half a step", "statement": "Each weight quantized and dequantized symmetrically differs from the original by at most scale/2.", "quantifier": "all blocks of weights, all bit widths >= 2", "why_tests_cant": "all reals in a block", "anchors": ["onnx_tool/quantization.py:quantize_sym"]}
{"id": "C36", "title": "Asymmetric quantization stays in the code range", "statement": "The asymmetric codes of each block lie in [0, 2^bits-1] and dequantize to within one step of the original.", "quantifier": "all blocks and bit widths", "why_tests_cant": "fails only at rounding corner cases", "anchors": ["onnx_tool/quantization.py:quantize_asym"]}
{"id": "C37", "title": "4-bit packing is lossless", "statement": "Unpacking a 4-bit packed tensor returns the packed codes.", "quantifier": "all code tensors", "why_tests_cant": "parity of the last dim and sign of codes", "anchors": ["onnx_tool/quantization.py:pack_4bits"]}
{"id": "C38", "title": "Quantization of any tensor succeeds", "statement": "Quantizing a weight tensor yields finite scales and codes for every finite input.", "quantifier": "all tensors", "why_tests_cant": "fails only for an all-zero block", "anchors": ["onnx_tool/quantization.py:quantize_sym"]}
{"id": "C39", "title": "A serialized compute graph can be read back", "statement": "There is a decoder recovering graph structure, names, attributes and order from the bytes Graph serialization writes, for every graph within the format's ranges.", "quantifier": "all graphs with int32 sizes and NUL-free names", "why_tests_cant": "injectivity over all graphs", "anchors": ["onnx_tool/serialization.py:serialize_graph"]}
{"id": "C40", "title": "A serialized shape engine can be read back", "statement": "There is a decoder recovering variables, expressions and tensor shape descriptors from the bytes written.", "quantifier": "all engines within int32 ranges and NUL-free names", "why_tests_cant": "injectivity over all engines", "anchors": ["onnx_tool/serialization.py:serialize_shape_engine"]}
{"id": "C41", "title": "A serialized memory plan can be read back", "statement": "There is a decoder recovering the total and every tensor's offset and size.", "quantifier": "all plans", "why_tests_cant": "injectivity over all plans", "anchors": ["onnx_tool/serialization.py:serialize_memory_compression"]}
{"id": "C42", "title": "Distinct names serialize distinctly", "statement": "Two different name sequences never serialize to the same bytes.", "quantifier": "all strings", "why_tests_cant": "only names with NUL bytes collide", "anchors": ["onnx_tool/serialization.py"]}
{"id": "C43", "title": "Data type mapping is a bijection", "statement": "onnxdtype2npdtype and npdtype2onnxdtype invert each other on the supported types.", "quantifier": "all supported types", "why_tests_cant": "all types; stability under extension", "anchors": ["onnx_tool/tensor.py:onnxdtype2npdtype", "onnx_tool/tensor.py:npdtype2onnxdtype"]}
{"id": "C44", "title": "A saved tensor reloads with the same values", "statement": "Reading back the TensorProto produced for an array gives the same type, shape and elements.", "quantifier": "all shapes, types and contents", "why_tests_cant": "only scalars of some types fail", "anchors": ["onnx_tool/tensor.py:Tensor.make_tensor_proto", "onnx_tool/tensor.py:tensorproto2ndarray"]}
{"id": "C45", "title": "Folding batch normalization into convolution preserves values", "statement": "After ConvBNFusion the convolution's outputs equal the original conv followed by batch norm, for all weights and inputs.", "quantifier": "all weights, statistics, inputs (exact arithmetic)", "why_tests_cant": "all real values", "anchors": ["onnx_tool/fusion.py:ConvBNFusion"]}
{"id": "C46", "title": "Pattern search returns only real matches", "statement": "Each node set FusionPattern.search_pattern returns satisfies every node condition and every edge of the pattern.", "quantifier": "all graphs and patterns", "why_tests_cant": "all graphs", "anchors": ["onnx_tool/fusion.py:FusionPattern.search_pattern", "onnx_tool/fusion.py:FusionPattern.search_node"]}
{"id": "C47", "title": "Matches of a pattern are disjoint", "statement": "Two different matches returned by one search share no node.", "quantifier": "all graphs and patterns", "why_tests_cant": "all graphs", "anchors": ["onnx_tool/fusion.py:FusionPattern.search_pattern"]}
{"id": "C48", "title": "Graph totals equal the sum of the listed nodes", "statement": "Total MACs, memory and parameters reported by Graph.profile are the sums of the reported per-node values.", "quantifier": "all graphs", "why_tests_cant": "all graphs", "anchors": ["onnx_tool/graph.py:Graph.profile"]}
{"id": "C49", "title": "Profiling one model does not change the result for another", "statement": "model_profile's report depends only on its arguments, not on earlier calls.", "quantifier": "all call histories", "why_tests_cant": "history property", "anchors": ["onnx_tool/__init__.py:model_profile"]}
{"id": "C50", "title": "Building one LLM does not change another", "statement": "The graph built by llm.Builder depends only on its configuration, not on Builders created earlier.", "quantifier": "all sequences of configurations", "why_tests_cant": "history property", "anchors": ["onnx_tool/llm.py:Builder.__init__"]}
{"id": "C51", "title": "The LLM latency estimate is the roofline sum", "statement": "The estimated latency is the sum over operators of max(compute time, memory time) plus the synchronisation cost and never below either total.", "quantifier": "all profiles and devices", "why_tests_cant": "all profiles", "anchors": ["onnx_tool/llm.py:Builder.profile"]}
{"id": "C52", "title": "Operator registration is last-wins lookup", "statement": "After any sequence of registrations, get returns the last class registered under the name and None for a name never registered; indexing raises KeyError for such names; create_node falls back to the generic node class.", "quantifier": "all registration histories", "why_tests_cant": "history property", "anchors": ["onnx_tool/utils.py:Registry"]}
{"id": "C53", "title": "Pool views stay inside the pool", "statement": "MemoryPool.get returns only views that lie inside the allocated pool, or raises.", "quantifier": "all plans, shapes and dtypes", "why_tests_cant": "all plans", "anchors": ["inference/memory_pool.py:MemoryPool.get"]}
{"id": "C54", "title": "Writing one tensor leaves disjoint tensors unchanged", "statement": "Filling one tensor in the pool does not change any tensor whose planned range is disjoint.", "quantifier": "all plans, tensors and contents", "why_tests_cant": "frame property over all memories", "anchors": ["inference/memory_pool.py:MemoryPool.fill_tensor"]}
{"id": "C55", "title": "Exported tensor files do not collide", "statement": "Exporting tensors writes different tensors to different files.", "quantifier": "all pairs of tensor names", "why_tests_cant": "names are arbitrary strings", "anchors": ["onnx_tool/__init__.py:model_export_tensors_numpy"]}
{"id": "C56", "title": "Reported block sparsity is the sparsity of the reported block", "statement": "The (block size, ratio) pair found by the sparsity search is such that the ratio is the zero-block fraction at that block size.", "quantifier": "all tensors", "why_tests_cant": "depends on the search path", "anchors": ["onnx_tool/tensor.py:search_sparse_blocksize"]}
{"id": "C57", "title": "Fusing a subgraph preserves what the graph computes", "statement": "If the fused operator computes what the selected nodes compute from their inputs, the graph after Graph.fuse_subgraph_node_names gives every tensor outside the fused region (and every region output) the same value, and stays executable.", "quantifier": "every graph, every selected node set, every operator semantics, every input", "why_tests_cant": "ranges over all graphs, node sets and operator semantics", "anchors": ["onnx_tool/graph.py: Graph.fuse_subgraph_node_names, Graph.get_iotensors, Graph.remove_node"]}
{"id": "C58", "title": "Constant search takes polynomially many steps", "statement": "Loading a graph visits each constant node a bounded number of times, so the constant search takes a number of steps polynomial in the number of nodes.", "quantifier": "every graph, of every size", "why_tests_cant": "an asymptotic claim about all graph sizes", "anchors": ["onnx_tool/graph.py: Graph.__constant_search__"]}
{"id": "C59", "title": "ConvTranspose sizes invert Conv sizes", "statement": "On every spatial axis, the size inferred for a ConvTranspose is one on which a Conv with the same kernel, stride, dilation and pads has exactly the original number of window positions.", "quantifier": "all sizes >= 1, kernels, dilations, pads, strides > 0 and output paddings 0 <= op < stride", "why_tests_cant": "integer arithmetic over all parameters", "anchors": ["onnx_tool/node.py:ConvTransposeNode", "onnx_tool/node.py:_convtranspose_output_shape"]}
{"id": "C60", "title": "Regressed expressions are exact for strided dimensions", "statement": "If a dimension is floor(x/k)+c or ceil(x/k)+c of one variable (strided convolution or pooling), the expression inferred by Graph.shape_regress evaluates to that dimension for every value of the variable.", "quantifier": "all strides k, offsets c, sampled ranges and all values x", "why_tests_cant": "The expression is fitted from three samples and evaluated in floating point; whether it extrapolates depends on every (k, c, range, x) combination.", "anchors": ["onnx_tool/graph.py:ValueExpr", "onnx_tool/graph.py:Graph.shape_regress"]}
{"id": "C61", "title": "A loaded initializer holds the values stored in the model", "statement": "Loading a TensorProto gives the elements the ONNX format assigns to it, whether they are stored in raw_data or in a typed field.", "quantifier": "all tensor protos of supported types", "why_tests_cant": "all storage forms, types, shapes and contents", "anchors": ["onnx_tool/tensor.py:tensorproto2ndarray"]}
{"id": "C62", "title": "Tensors of unsupported types are refused", "statement": "Loading a TensorProto whose type the library does not support raises an error instead of returning other values.", "quantifier": "all unsupported type codes, shapes and contents", "why_tests_cant": "all type codes and sizes", "anchors": ["onnx_tool/tensor.py:onnxdtype2npdtype", "onnx_tool/tensor.py:tensorproto2ndarray"]}
{"id": "C63", "title": "Pattern search finds every occurrence", "statement": "If a graph contains nodes that meet every condition and edge of a pattern, search_pattern reports a match starting at that node.", "quantifier": "all graphs and patterns", "why_tests_cant": "all graphs; depends on sibling inputs", "anchors": ["onnx_tool/fusion.py:FusionPattern.search_pattern", "onnx_tool/fusion.py:FusionPattern.search_node"]}
{"id": "C64", "title": "Pattern search always returns", "statement": "search_pattern terminates with recursion depth bounded by the number of nodes and raises nothing on a consistent graph.", "quantifier": "all graphs and patterns", "why_tests_cant": "termination over all graphs", "anchors": ["onnx_tool/fusion.py:FusionPattern.search_pattern", "onnx_tool/fusion.py:NodeCondition.is_node"]}
{"id": "C65", "title": "The engine sees each tensor inside its planned block", "statement": "The memory views the inference engine takes for tensors that are live together lie in their planned blocks and do not overlap.", "quantifier": "all planned graphs, element sizes and execution steps", "why_tests_cant": "ranges over every plan and step", "anchors": ["inference/infer.py:GraphInfer", "inference/memory_pool.py:MemoryPool.get"]}
{"id": "C66", "title": "Shared weights explain the gap between Params and Dedup Params", "statement": "Reported parameters minus de-duplicated parameters equal the shared size announced in the sharing notice, and de-duplicated parameters never exceed the parameters.", "quantifier": "all graphs and exclusion sets", "why_tests_cant": "sums over arbitrary sharing patterns", "anchors": ["onnx_tool/graph.py:Graph.profile", "onnx_tool/graph.py:Graph.print_node_map"]}
{"id": "C67", "title": "Node memory is the bytes of its outputs and weights", "statement": "The memory reported for a node is the byte size of its outputs plus the byte size of its static operands.", "quantifier": "all nodes, shapes and element types", "why_tests_cant": "every mix of element types", "anchors": ["onnx_tool/graph.py:Graph.profile", "onnx_tool/node.py:Node.profile"]}
{"id": "C68", "title": "The CSV report reads back", "statement": "Splitting the saved csv report at newlines and commas gives back the header and the rows of the table.", "quantifier": "all node names and values", "why_tests_cant": "cells are arbitrary strings", "anchors": ["onnx_tool/utils.py:print_table", "onnx_tool/graph.py:Graph.print_node_map"]}
{"id": "C69", "title": "LLM builder graphs are executable", "statement": "llm.Builder(**config).build_graph(ids_shape) returns a graph with distinct node names in which every tensor is an input, a weight, or the result of exactly one node, every node reads only tensors that exist before it in construction order, every tensor is described, and the declared output is a node's result of shape (batch, sequence, vocabulary); add_kv_cache keeps this and only adds two inputs; reordering keeps every node and establishes the memory planner's preconditions. With the shipped tables building succeeds after any history of builders for every architecture but GPT-2.", "quantifier": "every configuration (sizes, number and types of layers, architecture flags, biases, experts, latent attention), weight-name map with distinct names, history of earlier builders", "why_tests_cant": "layer counts and flag combinations are unbounded; a name collision between two layers or two kinds of layers silently overwrites a node", "anchors": ["onnx_tool/llm.py:Builder.build_graph", "onnx_tool/llm.py:Builder.add_layers", "onnx_tool/llm.py:Builder.add_kv_cache", "onnx_tool/llm.py:WeightMap"]}
{"id": "C70", "title": "Two-node pattern search is exact", "statement": "Searching a two-node pattern 'operator A whose first output is the first operand of operator B' never raises, and with in-place matching it returns exactly the pairs (A,B) whose intermediate tensor is read once, by B, each pair once; without in-place matching every returned pair is a genuine A->B pair and every A with a matching reader heads exactly one pair. Matches can share a node.", "quantifier": "all consistent graphs without a node feeding itself, all operator conditions (single, list, Any)", "why_tests_cant": "all graph topologies and fan-outs", "anchors": ["onnx_tool/fusion.py:FusionPattern.search_pattern", "onnx_tool/fusion.py:FusionPattern.search_node", "onnx_tool/fusion.py:Fused_Element"]}
{"id": "C71", "title": "Post-op fusion of disjoint matches", "statement": "Running fuse_postop_node_names over any list of pairwise disjoint, non-empty groups of existing nodes never raises; nodes outside the groups are untouched; each group is replaced by exactly one node with the first node's name and operator that reads exactly what the group read from outside and produces exactly what was used outside or nowhere; values still produced are unchanged when the composite computes what the group computed. The loop the benchmarks run can raise KeyError because pattern matches may overlap.", "quantifier": "all consistent graphs, all lists of disjoint groups, all orders", "why_tests_cant": "all graphs and all sequences of fusions with incrementally maintained tables", "anchors": ["onnx_tool/graph.py:fuse_postop_node_names", "onnx_tool/graph.py:get_iotensors", "benchmark/do_fusion.py"]}
{"id": "C72", "title": "Reader bookkeeping after post-op fusion", "statement": "After post-op fusions the graph's table of readers is exact for every tensor, so later interface queries, searches and removals see every reader. (It is only exact-or-silent: a tensor whose readers were all fused together is forgotten, and a later interface query then reports an internal tensor as a result; rebuilding the relations restores exactness.)", "quantifier": "all consistent graphs, all sequences of disjoint fusions, all tensors", "why_tests_cant": "invariant over all histories of edits", "anchors": ["onnx_tool/graph.py:fuse_postop_node_names", "onnx_tool/graph.py:remove_node", "onnx_tool/graph.py:update_tensor_relations"]}
{"id": "C73", "title": "Fused post-operations can be read back", "statement": "However often post-operations are fused into a node (append_attr=True), its attributes keep distinct names, keep the node's own attributes and the keyword arguments, postop_count is the number of fused nodes, and the i-th fused node's operator and attributes are found under postop_i and postop_i_<attr>. Attributes of the node itself that start with postop_ break this.", "quantifier": "all histories of fusions, all attribute names and values", "why_tests_cant": "unbounded histories and arbitrary names", "anchors": ["onnx_tool/graph.py:fuse_postop_node_names"]}
{"id": "C74", "title": "Loading a model keeps every node", "statement": "Model(file).graph holds one node per node of the file, with the same operator, inputs and outputs. With node_rename=True the i-th node is always registered as OpType_i whatever the file's names are; with node_rename=False all nodes are kept exactly when no two nodes end up with the same name (an unnamed node number i counts as OpType_i). A file whose node is literally called like the automatic name of another loses a node.", "quantifier": "all node lists of all lengths, any names (empty, duplicate, digits, underscores), any operators", "why_tests_cant": "name collisions depend on decimal numbering and arbitrary user strings; no finite set of files excludes them", "anchors": ["onnx_tool/graph.py:Graph.__init_graph_from_onnxproto__", "onnx_tool/utils.py:ModelConfig"]}
{"id": "C75", "title": "The loaded graph describes the file", "statement": "For every valid acyclic file, loading terminates without error; graph.initials are the file's initializers; graph.input are exactly the tensors read but neither produced nor stored, without duplicates; graph.output are the declared outputs (remove_dangling=True) or the produced-but-unread tensors (False); every tensor that is stored, read or produced has an entry with the file's data, and it is STATIC exactly when its value does not depend on run-time inputs. A user also expects graph.input to be the declared inputs in the declared order.", "quantifier": "all valid files (any number of nodes, initializers, declared tensors), both rename and remove_dangling settings", "why_tests_cant": "it ranges over all graphs and all orders in which the constant search visits them", "anchors": ["onnx_tool/graph.py:Graph.__init__", "onnx_tool/graph.py:Graph.__init_graph_from_onnxproto__", "onnx_tool/graph.py:Graph.__constant_search__", "onnx_tool/graph.py:Graph.__update_nodes_tensors__", "onnx_tool/tensor.py:Tensor.__init__"]}
{"id": "C76", "title": "Saving and reloading gives the same graph", "statement": "save_model followed by loading gives the same nodes under the same names, the same graph inputs in the same order, the same data, types and kinds for every tensor a node reads or produces, and the same outputs.", "quantifier": "all valid files loaded without folding, with or without renaming", "why_tests_cant": "a fixpoint statement over all graphs; tests only cover particular files", "anchors": ["onnx_tool/graph.py:Graph.save_model", "onnx_tool/graph.py:Graph.make_graph_onnx", "onnx_tool/graph.py:Graph.get_initials_from_nodenames", "onnx_tool/tensor.py:Tensor.make_value_proto"]}
{"id": "C77", "title": "Constant folding preserves results", "statement": "With constant_folding=True the loaded graph keeps exactly the nodes that depend on run-time data, needs the same run-time inputs, and computes for every tensor of the kept nodes the same value as the original model on the same inputs; the stored value of every folded tensor is the value the removed nodes would compute. Declared outputs remain available.", "quantifier": "all valid acyclic files, any operator semantics (an arbitrary evaluation function), any inputs", "why_tests_cant": "ranges over all graphs, all operator semantics and all inputs; the work list may evaluate a node several times and in any order", "anchors": ["onnx_tool/graph.py:Graph.__constant_search__", "onnx_tool/graph.py:Graph.__is_node_constant__", "onnx_tool/graph.py:Graph.__update_nodes_tensors__"]}
{"id": "C78", "title": "The shapes recorded in a built LLM graph fit its operators", "statement": "For every configuration, batch size and sequence length, each node of the graph made by llm.Builder.build_graph has operands and a result whose recorded shapes obey the shape rule of its operator (inner dimensions of matrix products agree, norm scales divide the normalised axis, attention/MoE/MLA operands have the widths the operator expects).", "quantifier": "all configurations whose sizes are consistent (non-negative head counts, output groups dividing the query width, linear-attention width a multiple of the head size, halving activation only with a fused gate-up projection), all weight-name maps with distinct names, all batch sizes and sequence lengths", "why_tests_cant": "the number of layers, the sizes and the combinations of architecture flags are unbounded", "anchors": ["onnx_tool/llm.py: Builder.build_graph, add_layers, add_qkv, add_qkv_gated, add_mlp, add_moe, add_mla, add_gdn, add_qk_norm, add_mm", "onnx_tool/node.py: MatMulNode, LayerNormalizationNode, SDPANode, MoENode, MLANode, GDNNode"]}
{"id": "C79", "title": "The weights of a built LLM graph are the model's parameters", "statement": "The total size of the initializers of a built graph equals the parameter count of the architecture (embedding, per-layer projections/norms/experts, head, one pair of rotary tables), whatever the batch and sequence length; every initializer is read by a node; Graph.profile's Params exceeds it exactly by the extra uses of the shared rotary tables, and Dedup Params equals it.", "quantifier": "all configurations of all architectures, all weight-name maps with distinct names, all input shapes, with and without a KV cache", "why_tests_cant": "configurations are unbounded in every size and in the number and kinds of layers", "anchors": ["onnx_tool/llm.py: Builder.build_graph, add_kv_cache", "onnx_tool/graph.py: Graph.profile, graph_reorder_nodes"]}
{"id": "C80", "title": "The cost report of a built LLM graph is the cost of the model", "statement": "Profiling a built graph (with or without a KV cache) never fails and reports the MACs, parameters and bytes given by closed formulas in the configuration, the batch, the number of new tokens and the number of cached tokens; each matrix product costs one MAC per token and parameter; MACs are additive over the batch and grow with the filled cache exactly by the longer attention.", "quantifier": "all configurations of all architectures, all batch sizes, sequence lengths and cache fillings within the context length", "why_tests_cant": "the formulas range over unbounded sizes, layer mixtures and cache states", "anchors": ["onnx_tool/llm.py: Builder.profile, add_kv_cache, set_past_kv_length", "onnx_tool/node.py: GemmNode, LayerNormalizationNode, SDPANode.profile, GatherNode.profile, RopeNode.profile, GDNNode.profile, MoENode.profile, MLANode.profile", "onnx_tool/graph.py: Graph.profile"]}
{"id": "C81", "title": "Quantizing a weight of a graph stores it where its readers find it", "statement": "graph_quantize(g, t, block, type, bits) on a two-dimensional float weight removes t from the graph, adds the code, scale (and zero point) tensors, puts them in t's place in every node that reads t, changes nothing else, and the stored tensors decode to the weight (transposed for Gemm/MatMul) within half a step; other tensors are left alone.", "quantifier": "for every graph, weight, group layout, symmetric or asymmetric type and bit width", "why_tests_cant": "the rewiring depends on how many nodes read the weight and at which position, and the error bound must hold for every float in every position of a matrix of any size", "anchors": ["onnx_tool/quantization.py:graph_quantize", "onnx_tool/quantization.py:quantize", "onnx_tool/quantization.py:pack_4bits", "onnx_tool/graph.py:Graph.add_initial"]}
{"id": "C82", "title": "The documented quantization loop reaches every weight", "statement": "for key in g.initials: graph_quantize(g, key, ...) ends and leaves no two-dimensional float weight unquantized.", "quantifier": "for every graph and every order of its weights", "why_tests_cant": "the loop edits the list it iterates over, so which weights it reaches depends on the order of all weights", "anchors": ["benchmark/examples.py:weight_compression", "onnx_tool/quantization.py:graph_quantize"]}
{"id": "C83", "title": "MACs of convolutions and matrix products are the MACs of the computation", "statement": "The MAC count reported for Conv, ConvTranspose, Gemm, MatMul and their integer variants equals the number of multiply-accumulates (plus one addition per output element for a bias) of the loop nest that computes the operator's output, for every rank, group, stride, dilation, padding, transposition and batch broadcasting.", "quantifier": "all shapes, attributes, tensor values and element types", "why_tests_cant": "The shapes and attributes are unbounded; tests compare a few known networks.", "anchors": ["onnx_tool/node.py: ConvNode._profile_core, ConvTransposeNode._profile_core, GemmNode._profile_core, MatMulNode, QLinearMatMulNode, QLinearConvNode, ConvIntegerNode"]}
{"id": "C84", "title": "MACs of pooling and element-wise operators are the steps of the computation", "statement": "The MAC count reported for pooling, global average pooling and element-wise operators equals the number of comparisons or additions (and divisions, at their stated weight) that compute the output.", "quantifier": "all shapes, kernels and numbers of inputs", "why_tests_cant": "Kernel ranks and numbers of inputs are unbounded.", "anchors": ["onnx_tool/node.py: PoolBase._profile_core, GlobalAveragePoolNode._profile_core, PWNode, NpMathBase, SumNode"]}
{"id": "C85", "title": "MACs of LSTM and GRU are the steps of the recurrence", "statement": "The MAC count reported for LSTM and GRU equals the weighted number of arithmetic steps of the recurrence over the whole sequence and batch, in each direction.", "quantifier": "all sequence lengths, batch sizes, input and hidden sizes, directions, weights and states", "why_tests_cant": "Sizes are unbounded; no test covers bidirectional cells or cells without bias.", "anchors": ["onnx_tool/node.py: LSTMNode._profile_core, GRUNode._profile_core"]}
{"id": "C86", "title": "MACs of Einsum are the label assignments of the equation", "statement": "The MAC count reported for Einsum equals the number of products accumulated: one per assignment of values to the labels of the equation.", "quantifier": "all equations, operand shapes and values", "why_tests_cant": "Equations are unbounded strings.", "anchors": ["onnx_tool/node.py: EinsumNode._profile_core"]}
{"id": "C87", "title": "Values of data-moving operators follow ONNX", "statement": "When a node is evaluated (constant folding, Graph.value_infer, shape-calculating nodes in Graph.shape_infer), Slice, Unsqueeze, Squeeze, Split and GatherElements put exactly the input element ONNX prescribes at every output index, and give the output the prescribed shape.", "quantifier": "all arrays (any element type, any rank), all axes, starts, ends, steps, split sizes, index arrays", "why_tests_cant": "The index arithmetic of every combination of axis, sign, step and clamping has to be right; tests visit a few.", "anchors": ["onnx_tool/node.py:SliceNode.value_infer", "onnx_tool/node.py:UnsqueezeNode.value_infer", "onnx_tool/node.py:SqueezeNode.value_infer", "onnx_tool/node.py:SplitNode.value_infer", "onnx_tool/node.py:GatherElementsNode.value_infer"]}
{"id": "C88", "title": "Values of Conv, MaxPool, Gemm and GlobalAveragePool follow ONNX", "statement": "Evaluating Conv, MaxPool, Gemm or GlobalAveragePool yields the result of the operator's reference loop nest (padding positions read as zero, resp. left out of the maximum), whatever was evaluated before.", "quantifier": "all arrays and all kernel, stride, dilation, padding and transpose settings; any element type with the stated laws; any previous content of the output tensor", "why_tests_cant": "Holds for all shapes and values and across repeated evaluations.", "anchors": ["onnx_tool/node.py:ConvNode.value_infer", "onnx_tool/node.py:MaxPoolNode.value_infer", "onnx_tool/node.py:GemmNode.value_infer", "onnx_tool/node.py:GlobalAveragePoolNode.value_infer", "onnx_tool/tensor.py:Tensor.get_numpy"]}
{"id": "C89", "title": "Values of element-wise operators follow ONNX", "statement": "Evaluating Div, Mod, Max, Min, Sum, Clip, LeakyRelu or NonZero yields what ONNX defines: truncating integer division, sign conventions of Mod and fmod, the largest, smallest, sum of the inputs, clipping to the given bounds, the positions of the non-zero elements.", "quantifier": "all integers, all numbers of inputs, all combinations of present and omitted bounds", "why_tests_cant": "Sign and arity corner cases over all inputs.", "anchors": ["onnx_tool/node.py:DivNode", "onnx_tool/node.py:ModNode", "onnx_tool/node.py:MaxNode", "onnx_tool/node.py:MinNode", "onnx_tool/node.py:SumNode", "onnx_tool/node.py:ClipNode", "onnx_tool/node.py:LeakyReluNode", "onnx_tool/node.py:NonZeroNode"]}
{"id": "C90", "title": "Shape inference and value inference agree on shapes", "statement": "For the same inputs, the shape the tool infers for the output of a Slice, Unsqueeze, Squeeze, Split or GlobalAveragePool is the shape of the value it computes; so shapes do not depend on whether a node lies on a shape-calculating path.", "quantifier": "all arrays, axes, starts, ends, steps and split sizes", "why_tests_cant": "Two independent implementations have to agree for every input.", "anchors": ["onnx_tool/node.py:SliceNode", "onnx_tool/node.py:UnsqueezeNode", "onnx_tool/node.py:SqueezeNode", "onnx_tool/node.py:SplitNode", "onnx_tool/node.py:GlobalAveragePoolNode", "onnx_tool/graph.py:Graph.shape_infer"]}
{"id": "C91", "title": "Exactly the computations that shapes depend on are evaluated by value", "statement": "When a loaded graph is analysed, the nodes that shape inference will evaluate by value are exactly those whose result some shape depends on: a node that computes (not stores) a shape operand of an operator, or computes an operand of such a node other than a Shape node. The analysis ends and gives the same nodes in whatever order the set of shape operands is iterated. (Refuted in part: the axes operand of ReduceProd/ReduceMin/ReduceMax, pads of a 4-operand Pad and the box limit of a 3-operand NonMaxSuppression are never found; and the number of visits can be exponential in the number of nodes.)", "quantifier": "every graph with single producers and consistent relations, every iteration order of the set of shape operands", "why_tests_cant": "The search is a fixpoint over arbitrary graphs and depends on the hash order of a set of strings; tests see a few graphs and one order.", "anchors": ["onnx_tool/graph.py:_SHAPE_TENSORS", "onnx_tool/graph.py:_contains_shape_tensor", "onnx_tool/graph.py:Graph.__find_shape_tensors__"]}
{"id": "C92", "title": "Graph shape inference finds the shapes of every run", "statement": "If each operator's shape inference is right given the operand shapes and the values of its shape operands, each operator's value inference is right, nodes are listed in dependency order and the inputs are given, then Graph.shape_infer succeeds and leaves every tensor with the shape it has in a run on these inputs (and shape-determining tensors with their value), also after any number of earlier successful calls with other inputs; Graph.value_infer returns the output values of the run. (Refuted: with ReduceMax axes computed in the graph, and for nodes listed out of order, the call succeeds with wrong shapes.)", "quantifier": "every graph, operator semantics, input values and history of earlier calls", "why_tests_cant": "Soundness of a mixed shape/value evaluation over all graphs and all operator semantics, including stale state from earlier calls, is not covered by any finite set of models.", "anchors": ["onnx_tool/graph.py:Graph.shape_infer", "onnx_tool/graph.py:Graph.value_infer", "onnx_tool/graph.py:Graph.update_input_by_map", "onnx_tool/graph.py:Graph.check_inputs"]}
{"id": "C93", "title": "The KV cache sizes reported by the LLM builder and by attention operators are the sizes of the keys and values kept", "statement": "For every shipped or custom LLM configuration, batch and sequence length, every attention operator of a graph made by llm.Builder.build_graph reports (in its kv_size) exactly two tensors of batch x positions x kv heads x head size, where positions is the sequence length, or the past length plus the sequence length after add_kv_cache; and Builder.kv_params right after build_graph or add_kv_cache is that size times the number of layers (non-MLA). The stronger reading fails: set_past_kv_length changes what the operators read without updating kv_params, so the size printed for a later decoding step is stale, and linear-attention layers, which keep no keys and values, are charged as if they did.", "quantifier": "all model configurations, weight maps, batch sizes, sequence lengths, past lengths, context sizes and attention nodes of the built graph", "why_tests_cant": "It ranges over all architectures flags, dimensions and layer counts, and over the history of build_graph / add_kv_cache / set_past_kv_length calls; a test prints a table for a few models.", "anchors": ["onnx_tool/llm.py: Builder.build_graph", "onnx_tool/llm.py: Builder.add_kv_cache", "onnx_tool/llm.py: Builder.set_past_kv_length", "onnx_tool/node.py: SDPANode._profile_core", "benchmark/llm_test.py"]}
{"id": "C94", "title": "Planning with a separate KV-cache pool is safe and keeps the cache intact across runs", "statement": "For every graph in the form the planner expects and every positive padding, compress_memory_with_kv_cache gives live activations disjoint, aligned, in-bounds blocks of the activation pool, and kv_cache (alone) the whole KV pool; every live sized tensor has a block; executing the nodes in the two pools gives every operator the same operands as private buffers; no run of nodes that do not output kv_cache changes a byte of it (with the single-pool Graph.compress_memory a run can overwrite it); total_pool lies between the live peak and the sum of padded sizes; the overlap warning never fires. Refuted: called on graphs prepared as the docstring asks (update_tensor_relations) no cache block is made, and for graphs straight from llm.Builder, as in benchmark/llm_test.py, the call always raises ZeroDivisionError.", "quantifier": "all graphs, paddings, operator semantics, initial pool contents and node sequences", "why_tests_cant": "Disjointness and non-interference must hold at every node of every graph, for all sizes and all operator behaviours; the benchmark only prints sizes for a handful of models.", "anchors": ["benchmark/llm_test.py: compress_memory_with_kv_cache", "inference/infer.py: GraphInfer.__init__", "onnx_tool/graph.py: Graph.update_tensor_relations"]}
{"id": "C95", "title": "The compute graph drops the shape arithmetic and nothing else", "statement": "Graph.get_compute_graph() returns, for every acyclic graph with correct relation tables, a graph whose nodes are exactly the original nodes, in order, minus the nodes that compute shapes and the nodes that exist only to feed them; fed with the same inputs and shape values it computes every remaining tensor exactly as the original graph does; declared outputs that are not shape results stay declared and keep their producer; and the result satisfies the preconditions of compress_memory, with every non-empty tensor taking part in the plan. Known exceptions: the graph the method is called on loses the same nodes (so a later shape_infer on it keeps stale shapes), a node with two used outputs may be dropped although one output is still read, an output that is measured by Shape nodes only is dropped, a shape that is also used as data loses its producer, a node feeding two dropped nodes stays, and a node named like one of its outputs hides its other outputs from memory planning.", "quantifier": "all acyclic graphs, all sets of shape nodes, all operator semantics and values", "why_tests_cant": "The result depends on the whole wiring of the graph and the order of its nodes; tests look at node counts of a few models and never compare values or later use of the original graph.", "anchors": ["onnx_tool/graph.py: Graph.get_compute_graph, Graph.remove_node", "onnx_tool/__init__.py: model_shape_regress", "inference/infer.py: GraphInfer"]}
{"id": "C96", "title": "Fixing K rewrites exactly the TopK nodes and drops only what computed their K", "statement": "Loading a model with mcfg.fixed_topk > 0 replaces operand 1 of every TopK node by one new constant initializer, removes exactly the nodes whose results only served to compute a replaced K, and leaves every other node as it is and in order; for every acyclic graph in which this succeeds the remaining nodes compute, for all operator semantics, what the graph with replaced K operands computes (hence the same as before if K had that value), declared outputs stay declared and computed, and the tables rebuilt by the loader are right. Known exceptions: a K that is an initializer or graph input read by one TopK only always raises KeyError (so re-loading a saved, rewritten model with one TopK fails), an opset-1 TopK with a single operand always raises, a K computed from another TopK raises, a node that computes K and something else is removed although the other result is read, and a declared output read only as K is dropped.", "quantifier": "all acyclic graphs with correct relation tables, all operator semantics and values", "why_tests_cant": "Whether a node may be removed depends on the whole wiring; tests load one detection model and look at the profile.", "anchors": ["onnx_tool/graph.py: Graph.__set_fixed_topk, Graph.add_initial, Graph.remove_node", "onnx_tool/utils.py: ModelConfig.fixed_topk"]}
{"id": "C97", "title": "Loading with a fixed branch replaces every If by that branch and keeps the values", "statement": "When a model is loaded and If nodes are replaced by their selected (then or else) branch, the loaded graph contains no If node at any nesting depth; each of its nodes is a node of the model or of a selected branch, with unchanged name, operator and operands; every assignment of values that the model computes when all Ifs take the selected branch is a solution of the loaded graph, and if no operand lost its producer it is the only one for the given inputs. For Ifs whose branches hold no further If, with one condition and one result computed in the branch, unique names and proper scoping: the loaded graph consists of exactly the nodes that are kept and all branch nodes, the branch output carrying the name of the If's result; only nodes that serve conditions alone are removed; every tensor has the value the model gives it; declared outputs that are not results of Ifs stay; and the call succeeds if no condition depends on an If.", "quantifier": "all graphs with any number of If nodes, any branches and nesting, all operators and all values; for the exact result, all flat graphs as described", "why_tests_cant": "which nodes are dropped depends on the reader counts left by all Ifs treated before, and the equality of values ranges over all operators and inputs; tests show single models", "anchors": ["onnx_tool/graph.py: Graph.__remove_if__ (333-383)", "onnx_tool/graph.py: Graph.__add_node_from_proto__ (416-434)", "onnx_tool/graph.py: Graph.remove_node (638-675)"]}
{"id": "C98", "title": "Values of the indexing operators (GatherND, ScatterND, OneHot, ArgMax)", "statement": "When the library evaluates them on concrete data: GatherND without batch dimensions returns, for every position of the index array, the element or sub-array named by the index tuple there (negative entries counting from the end), and raises IndexError when an index is out of range or a tuple is longer than the rank of the data; ScatterND without a reduction returns the data with exactly the addressed sub-arrays replaced by the updates, when no two updates address the same place and the shapes fit, and raises otherwise when an index is outside; OneHot with values [0,1] and indices in range puts 1 exactly at the indexed position of the new axis; ArgMax returns the first position of the maximum along the axis, with the axis kept as 1 or dropped according to keepdims.", "quantifier": "all array shapes of any rank, all contents, all index arrays, axes and depths", "why_tests_cant": "indices, ranks and contents range over infinite sets; the wrong cases (batch dimensions, reductions, off/on values other than 0/1, select_last_index, out of range indices) appear only for particular attribute and index combinations", "anchors": ["onnx_tool/node.py: gather_nd_impl (2361-2404), GatherNDNode (2421-2462)", "onnx_tool/node.py: scatter_nd_impl (2332-2357), ScatterNDNode (2408-2419)", "onnx_tool/node.py: one_hot (1083-1096), OneHotNode (1098-1120)", "onnx_tool/node.py: ArgMaxNode (1670-1690)"]}
{"id": "C99", "title": "Values of Pad, Reshape, ReduceSum, ConstantOfShape and Shape", "statement": "When the library evaluates them on concrete data: Pad in mode 'constant' returns the data surrounded by the pad value, every element moved by the leading pads; Reshape keeps the row-major sequence of elements and its result shape is the one shape inference gives, with 0 copying a dimension and -1 inferred; ReduceSum over given axes gives at each remaining position the sum over all positions that project to it, over no given axes the total; ConstantOfShape gives the requested shape filled with the value; Shape gives the dimensions.", "quantifier": "all shapes of any rank, all contents, all pads, requests and axis lists", "why_tests_cant": "sizes, ranks, pads and axes are unbounded, and equality must hold element by element", "anchors": ["onnx_tool/node.py: PadNode (1568-1606)", "onnx_tool/node.py: ReshapeNode (2739-2775)", "onnx_tool/node.py: ReduceSumNode and other reductions (1908-2001)", "onnx_tool/node.py: ConstantOfShapeNode (2838-2853)", "onnx_tool/node.py: ShapeNode (1331-1334)"]}
{"id": "C100", "title": "Einsum result shape", "statement": "For an Einsum equation whose terms use letters, with an optional ellipsis at the start of each term, and operands that match it (each label has one size, or 1 for broadcasting, and the ellipsis dimensions broadcast), the inferred shape is the broadcast of the ellipsis dimensions followed by the sizes of the result labels; without '->' the result labels are those that occur exactly once, in alphabetical order. An operand without a term, or with fewer dimensions than labels, is rejected.", "quantifier": "all equation texts of the described form (any number of terms, labels, spaces), all operand shapes of any rank with positive dimensions", "why_tests_cant": "equations and ranks are unbounded; which equations go wrong (labels before the ellipsis, ellipsis not first in the result, contradictory sizes) depends on the text and the shapes together", "anchors": ["onnx_tool/node.py: EinsumNode._parse_equation (1145-1177)", "onnx_tool/node.py: EinsumNode.shape_infer (1193-1247)"]}
{"id": "C101", "title": "Builder graphs are wired as the described transformer", "statement": "When the LLM builder returns a graph, its declared output is computed from the token ids by exactly the chain of nodes the configuration and architecture switches describe: embedding (plus position embedding if switched on); for each of num_hidden_layers layers, in order, the input norm, the attention of that layer (softmax with optional gate, query/key norms and rotary embedding; linear; or latent), optional output norm, residual add with the layer's input, second norm, feed-forward or experts, optional norm, residual add; then final norm, head, optional soft-capping. Each of these nodes has the named operator, reads the results of the named nodes in order, reads weights of the described names and shapes, and each slice cuts the described range of columns.", "quantifier": "all configurations (any number of layers, sizes, layer types), all architecture tables and weight-name maps with distinct names, all batch and sequence lengths, any history of builders for the shipped tables", "why_tests_cant": "layer counts and combinations of switches are unbounded; a single residual edge read from the wrong tensor in one combination leaves all shapes and parameter counts unchanged", "anchors": ["onnx_tool/llm.py: Builder.build_graph (1235-1262)", "onnx_tool/llm.py: add_layers (1014-1090)", "onnx_tool/llm.py: add_qkv, add_qkv_gated, add_mlp, add_moe, add_mla, add_gdn, add_lm_head (437-763)"]}
{"id": "C102", "title": "Shapes of recurrent, detection and sampling operators", "statement": "LSTM, GRU, RoiAlign, NonMaxSuppression, GridSample, TopK without an axis, SDPA: shape inference gives the output shapes of the ONNX definition for the listed outputs, for default attribute values and every layout, and rejects operands that contradict each other.", "quantifier": "all dimensions, numbers of directions, gates, boxes, classes and spatial axes; all subsets of listed outputs and given attributes", "why_tests_cant": "which combination of optional outputs, defaulted attributes, layouts, classes or storage kinds goes wrong is a statement about all of them", "anchors": ["onnx_tool/node.py: LSTMNode.shape_infer (2087-2103)", "onnx_tool/node.py: GRUNode.shape_infer (2802-2812)", "onnx_tool/node.py: RoiAlignNode.shape_infer (2307-2319)", "onnx_tool/node.py: NonMaxSuppressionNode.shape_infer (734-746)", "onnx_tool/node.py: GridSampleNode.shape_infer (1062-1066)", "onnx_tool/node.py: ScanNode.shape_infer (2037-2053)", "onnx_tool/node.py: TopKNode.shape_infer (2010-2024)"]}
{"id": "C103", "title": "Resize result shape", "statement": "Resize (and Upsample) with scales gives floor(dimension * scale) on every axis, with sizes exactly the sizes, and the result has the rank of the input.", "quantifier": "all input shapes, all scales (real numbers held in float arrays) and sizes, both NumPy product roundings (float32, float64), all numbers of inputs", "why_tests_cant": "the product is rounded before the floor, so correctness depends on every pair of dimension and scale; which numbers of sizes go wrong is a statement about all ranks", "anchors": ["onnx_tool/node.py: ResizeNode.shape_infer (1339-1366)", "onnx_tool/tensor.py: is_valid_ndarray (183-193)"]}
{"id": "C104", "title": "A built LLM graph does not depend on batch size and sequence length", "statement": "Building the graph of a language model for another batch size or sequence length gives the same nodes, wiring, weights, interface and slice bounds, fails in exactly the same cases with the same error, and changes only the leading two dimensions of tensors that are not weights.", "quantifier": "all configurations, architecture tables, weight maps, layer roots, and all pairs of batch sizes and sequence lengths", "why_tests_cant": "the builder computes every shape from the sizes; that no decision and no weight depends on them is a statement about all configurations and all pairs of sizes", "anchors": ["onnx_tool/llm.py: Builder.build_graph (1235-1262)", "onnx_tool/llm.py: Builder.add_layers (1014-1090)", "onnx_tool/llm.py: Builder.add_mla, add_moe, add_gdn (518-757)"]}
{"id": "C105", "title": "Shape inference on a built LLM graph reproduces the builder's shapes", "statement": "Graph.shape_infer on a graph made by the LLM builder succeeds and leaves on every tensor the shape the builder recorded; given ids and positions of another batch size and sequence length it leaves the shapes that building for those sizes records.", "quantifier": "all sane configurations, names, batch sizes and sequence lengths with dimensions below 2^53 - 1, all input values", "why_tests_cant": "two independent computations of each shape (builder arithmetic and operator shape rules) agree over all layer kinds and numbers of layers", "anchors": ["onnx_tool/graph.py: Graph.shape_infer (1025-1058)", "onnx_tool/llm.py: Builder.build_graph (1235-1262)", "onnx_tool/node.py: SliceNode, MatMulNode, SDPANode, GDNNode, MoENode, MLANode shape_infer"]}
{"id": "C106", "title": "Removing a subtree removes exactly the dependents", "statement": "Graph.remove_subtree removes the named node and every node that depends on it, nothing else, in whatever order Python iterates over the set; declared outputs produced by removed nodes are undeclared, the others kept; what remains reads nothing that was removed.", "quantifier": "all graphs whose nodes are listed in execution order, all names, all set iteration orders, all recursion limits", "why_tests_cant": "the iteration order of a set of strings changes from run to run; depth and sharing of the graph decide whether the recursion ends", "anchors": ["onnx_tool/graph.py: Graph.remove_subtree (677-695)", "onnx_tool/graph.py: Graph.remove_node (638-675)"]}
{"id": "C107", "title": "Values of Gather, Expand, Where, Tile, Trilu, CumSum, Compress and Range", "statement": "When value inference evaluates one of these operators on concrete operands, the tensor it stores is the one ONNX defines, with the shape shape inference reports where the two are computed separately: Gather takes the selected slices with negative indices counted from the end; Expand and Where broadcast; Tile repeats; Trilu keeps the upper or lower triangle relative to diagonal k; CumSum adds up along its axis; Compress keeps the slices whose condition holds, in order, or works on the flattened tensor without axis; Range lists start, start+delta, ... short of the limit. Operands ONNX forbids (an index outside, shapes that do not broadcast, a zero step) raise an error instead of giving a wrong value.", "quantifier": "all tensors of all ranks and sizes, all index tensors, axes, repeats, conditions and flags; Range over all integers whose distance is below 2^53", "why_tests_cant": "every element of tensors of every shape; sample tensors exercise a few index combinations only", "anchors": ["onnx_tool/node.py: GatherNode, ExpandNode, WhereNode, TileNode, TriluNode, CumSumNode, CompressNode, RangeNode"]}
{"id": "C108", "title": "A pattern taken from nodes describes those nodes, and finds them", "statement": "create_descs_from_nodenames returns one descriptor per selected node, in order, with the node's operator and exactly the wires between selected nodes (which output feeds which input), so the selected nodes are themselves a match; an unknown name is a KeyError. Searching the graph with that pattern finds the selected nodes again, so fuse_subgraph_iotensors can replace them.", "quantifier": "all graphs with exact bookkeeping and every selection of distinct node names", "why_tests_cant": "quantifies over all graphs and all selections; the search works on some selections and fails on others", "anchors": ["onnx_tool/fusion.py: create_descs_from_nodenames, FusionPattern.search_pattern", "onnx_tool/graph.py: Graph.fuse_subgraph_iotensors"]}
{"id": "C109", "title": "Requested input and output shapes are what the saved file declares", "statement": "model_io_modify(m, file, custom_io) saves a model with the same nodes and stored tensors in which every graph input or output named in custom_io has exactly the requested dimensions (numbers as sizes, other words as symbolic names), every other one keeps its dimensions, element types and all other descriptions are unchanged; a request of the wrong rank is refused and nothing is written.", "quantifier": "all valid model files and all requests, any ranks, sizes and names", "why_tests_cant": "a claim about every file, every request and every tensor not named in it", "anchors": ["onnx_tool/__init__.py: model_io_modify", "onnx_tool/graph.py: Graph.__init__, save_model, make_graph_onnx", "onnx_tool/tensor.py: shape_of_tensor, Tensor.make_value_proto"]}
{"id": "C110", "title": "The sub-model and fusion entry points deliver a file", "statement": "model_subgraph(m, ins, outs, nodes) writes the extracted sub-models and model_opfusion(m, ..., file) writes the fused model, for every request that names tensors or nodes; asked for nothing they do nothing.", "quantifier": "all models and all requests", "why_tests_cant": "the claim is about every model and request; a crash in one test could be the request's fault", "anchors": ["onnx_tool/__init__.py: model_subgraph, model_opfusion", "onnx_tool/graph.py: Graph.__init__, get_subgraph, fuse_subgraph_iotensors, fuse_subgraph_node_names"]}
{"id": "C111", "title": "Removing reshaping nodes keeps the rest of the graph and its numbers", "statement": "removeShapeOps(g) removes exactly the Flatten, Reshape, Unsqueeze and Squeeze nodes; every other node stays, in the same order, and each of its operands becomes the tensor found by following removed nodes backwards along their data operand; the bookkeeping is exact afterwards, and flat data that solves the graph solves the reduced graph.", "quantifier": "all graphs, any number and arrangement of reshaping nodes, in any listing order", "why_tests_cant": "chains and trees of reshaping nodes in every listing order, with the stale tables one removal leaves to the next", "anchors": ["onnx_tool/fusion.py: removeShapeOps", "onnx_tool/graph.py: Graph.skip_node, update_tensor_relations"]}
{"id": "C112", "title": "build_vision_graph describes a vision transformer", "statement": "For every vision configuration, build_vision_graph([C,H,W]) yields an executable graph whose only input is pixel_values and whose only output has shape [1, patches, hidden size of the LLM]: patch embedding, positions, the configured number of blocks (norm, attention with q/k/v as thirds of one projection, residual, norm, MLP, residual), final norm and the linear or MLP projector, each token being one patch, with every weight of the stated shape, and nothing else.", "quantifier": "all vision configurations (given or missing fields) and image sizes, any number of layers", "why_tests_cant": "the number of layers is unbounded and the sizes interact; a test builds a handful of configurations", "anchors": ["onnx_tool/llm.py: Builder.build_vision_graph, add_vision_encoder, add_vision_transformer_layer, add_vision_attention, add_vision_mlp, add_vision_mm, add_vision_layernorm, add_vision_conv2d"]}
{"id": "C113", "title": "Vision graphs accept the images they should", "statement": "In a graph from build_vision_graph every recorded shape fits its node; shape inference with no argument reproduces every recorded shape, and with an image or batch given it succeeds, changing only the shapes of the image and the patch embedding, when the number of patches is the one built for, and otherwise raises ValueError.", "quantifier": "all vision configurations and all image and batch sizes below the range of exact double division", "why_tests_cant": "every configuration and image size, including rounding of the patch grid in floating point", "anchors": ["onnx_tool/llm.py: Builder.build_vision_graph", "onnx_tool/graph.py: Graph.shape_infer", "onnx_tool/node.py: ConvNode, ReshapeNode, SliceNode, SDPANode, MatMulNode, LayerNormalizationNode, GeluNode"]}
{"id": "C114", "title": "Vision encoder parameters, MACs and memory are the textbook ones", "statement": "profile() of a vision graph reports, one row per node, totals equal to the closed formulas for parameters, MACs and bytes of a vision transformer with projector; only attention grows faster than the image, and the image size enters the parameter count through the position table alone.", "quantifier": "all vision configurations and image sizes", "why_tests_cant": "closed formulas over all configurations and any number of layers", "anchors": ["onnx_tool/llm.py: Builder.build_vision_graph", "onnx_tool/graph.py: Graph.profile", "onnx_tool/node.py: ConvNode.profile, SDPANode.profile, MatMulNode.profile, LayerNormalizationNode.profile, GeluNode.profile"]}
{"id": "C115", "title": "Quantised operators infer the shapes of their float counterparts", "statement": "For QLinearConv, ConvInteger, QLinearMatMul, MatMulInteger, QuantizeLinear and DequantizeLinear the inferred shape is that of the float operator on the same data operands (windows counted, batch dimensions broadcast), and the inferred element type is the one ONNX prescribes (that of the output zero point, int32, or the scale).", "quantifier": "all operand shapes, window attributes, padding modes and operand counts", "why_tests_cant": "unbounded shapes and attributes, optional operands; needs agreement with the float operator for every case", "anchors": ["onnx_tool/node.py: QLinearConvNode, ConvIntegerNode, QLinearMatMulNode, MatMulIntegerNode, QuantizeLinearNode, DequantizeLinearNode"]}
{"id": "C116", "title": "Activation values are what the operators define", "statement": "Value inference of Softmax (for every axis), Sigmoid, Softplus, Elu, Relu, Relu6, HardSigmoid and HardSwish gives, for every array, the array of the same shape with the values of the ONNX definition; Softmax lines are probabilities that keep the order of the inputs and do not change when a constant is added.", "quantifier": "all arrays of real numbers of any rank and size, all axes and attribute values (exact arithmetic)", "why_tests_cant": "all shapes, axes and real values", "anchors": ["onnx_tool/node.py: SoftmaxNode, SigmoidNode, SoftplusNode, EluNode, ReluNode, Relu6Node, HardSigmoidNode, HardSwishNode: value_infer"]}
{"id": "C117", "title": "Normalisation values are what the operators define", "statement": "Value inference of BatchNormalization computes scale (x - mean) / sqrt(var + epsilon) + bias with the parameters of each element's channel, so a channel with the stored statistics gets mean bias; ReduceL2 gives the Euclidean norms over the requested axes, with the shape ONNX prescribes.", "quantifier": "all arrays of real numbers of any rank and size, all parameters and axes (exact arithmetic)", "why_tests_cant": "all shapes, parameters and axes", "anchors": ["onnx_tool/node.py: BatchNormalizationNode.value_infer, ReduceL2Node.value_infer"]}
{"id": "C118", "title": "Refreshing a loaded graph", "statement": "Graph.update_graph on a graph that was just loaded leaves it as it is (nodes, tensors, inputs, outputs, initializers), and called after a tensor has become a stored constant it folds the nodes that are constant now, as loading the changed model would.", "quantifier": "every valid model file, every configuration, every change to the tensor map after loading, every operator semantics", "why_tests_cant": "ranges over all graphs and all edits of the tensors; no test calls update_graph", "anchors": ["onnx_tool/graph.py: Graph.update_graph, Graph.__constant_search__, Graph.__update_nodes_tensors__"]}
{"id": "C119", "title": "The printed report of an LLM states its profile", "statement": "Builder.print_profile lists one row per node plus a Total row, all as long as the header; the csv file read back at commas and newlines is that table; the FLOPs, memory and shape cells read back (thousands separators removed) as the node's FLOPs, its whole bytes and its sizes, the Total FLOPs as the sum of the column; the latency column is present exactly when there is a latency, and holds each node's projected latency in the unit of its heading (milliseconds).", "quantifier": "all builders after profile(), with or without a device, all node lists, sizes, FLOPs and memory, both formats", "why_tests_cant": "Cells are texts of unbounded numbers; digit grouping and rounding must be right for each of them.", "anchors": ["onnx_tool/llm.py: Builder.print_profile, Builder.profile", "onnx_tool/utils.py: num2str, tuple2str, print_table"]}
{"id": "C120", "title": "Building a model graph a second time on the same builder", "statement": "Calling build_graph again on a Builder that has already built, with other batch and sequence sizes, does not raise when the first call did not. The nodes stay exactly those of the first call. Every tensor of the graph then has the record a new builder makes for the second sizes, with one exception: the 'position' input of a rotary model keeps the sizes of the first call. The input list, the initializer list and the output list are appended to, not replaced: each initializer but the rotary tables is listed twice, 'ids' is listed twice among the inputs and the logits twice among the outputs, so the graph is no longer one with distinct names. Likewise add_kv_cache called again for another context length leaves exactly the cache record of the last call, but the cache inputs are then listed twice among the inputs and among the operands of every attention node.", "quantifier": "every configuration and architecture the builder accepts, every weight-name map giving distinct names, and all batch and sequence sizes of both calls", "why_tests_cant": "The shipped scripts build once per Builder; what survives from call to call (the two '_added' marks, the appended lists) depends on the architecture flags and the layer types, over any number of layers and experts.", "anchors": ["onnx_tool/llm.py: Builder.build_graph", "onnx_tool/llm.py: Builder.add_rope (the _rope_cos_sin_added and _position_added marks)", "onnx_tool/llm.py: Builder.add_kv_cache"]}
{"id": "C121", "title": "Dumping intermediate tensors", "statement": "After graph.add_dump_tensors(names) the outputs are the old ones followed by exactly the requested tensors that the graph has and that were not outputs already, once each, in the order in which they are first requested; unknown names are ignored and nothing else of the graph changes. Asking again changes nothing, and asking in parts is asking at once. value_infer then raises exactly when it did before, and otherwise returns the old results followed by the value the run leaves in each dumped tensor, which is its true value. The saved file declares the dumped tensors as outputs with the type and shape the graph has for them, no longer as inner value records, and is otherwise as before. compress_memory gives the same plan as for the undumped graph, and therefore may hand a dumped tensor's memory to a later one, and fails with ZeroDivisionError once all intermediates are dumped.", "quantifier": "every graph, every list of requested names (repeated, unknown, already outputs), all inputs, operator semantics and paddings", "why_tests_cant": "The claim ranges over every graph and every subset and order of tensors; which dumped tensors the planner overwrites depends on the whole liveness history.", "anchors": ["onnx_tool/graph.py: Graph.add_dump_tensors", "onnx_tool/graph.py: Graph.value_infer", "onnx_tool/graph.py: Graph.compress_memory", "onnx_tool/graph.py: Graph.make_graph_onnx"]}
