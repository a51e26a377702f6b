# Design: a Rocq (Coq 8.16.1) model of ThanatosShinji/onnx-tool

## Approach

Shallow, executable Gallina models of the Python functions, branch by branch.

* Python `dict`: insertion-ordered association list (`PyBase.dict`); a missing key raises.
* Python exceptions: values (`sres`: `SOk` / `SRaise`, or `option`), so that "never raises" is a theorem.
* Python `int`: `Z`; numpy fixed-width integers: `Z` with the wrap/overflow of the dtype where it matters.
* Python/numpy `float`: binary64 (or binary32) rounding over `R` with Flocq (`FloatPy`, `QuantFloat`, ...) wherever
  rounding is observable; exact rationals `Q` only where the file says so.
* Objects and shared mutable state (module-level tables, default arguments, memory pools): explicit state,
  histories are lists of calls.
* Python sets and hash order: a relation over all orders (`iteration_order`).

Files in `rocq/theories`:

* `*Model.v` (and `GraphModel`, `LlmModel`, `LlmCost`, `LlmPerf`, `FloatPy`): the executable models; every definition cites the
  file and lines it models and says where it simplifies.
* `*Spec.v`: small independent specifications, in terms of the API's observable effects.
* `*Proofs.v` and others: lemmas.
* `Props_*.v`: the property theorems `Cnn_...`, with `..._applies` examples showing that the hypotheses are met by
  concrete, non-trivial inputs.

Suffixes: `_refuted` proves that the code violates the clause (a concrete input, or all inputs of a class);
`_partial` proves a restriction of the property (the comment says what is missing).

## Trusted base

1. Coq's kernel, version 8.16.1 (including its conversion by virtual machine, `vm_compute`, used in examples and in finite checks).
2. The fidelity of the hand-written models to the cited Python lines: there is no extraction from Python. The seeded
   bugs of `seeded/LOG.jsonl` test the theorems, not the fidelity.
3. The axioms of the standard library listed at the end, only in the theorems named there. No axiom is declared
   in this development, no `Admitted`, no functor or module type, no kernel check switched off. Flocq is used as a
   library of definitions and lemmas; it adds no axiom.

## What is modelled

* `onnx_tool/graph.py`: construction from a protobuf (nodes, tensors, initializers, inputs, outputs; constant search, replacement of
  constant `If` nodes, removal of dangling nodes), producer/consumer relations, `topsort`/`graph_reorder_nodes`, `get_iotensors`, `remove_node`,
  `remove_subtree`, `remove_dangling_nodes`, `skip_node`, `get_subgraph`, `fuse_subgraph_node_names`, `fuse_postop_node_names`,
  `get_compute_graph` (partition and the dual shape/compute graphs), `compress_memory`, `shape_infer`, `value_infer`, `shape_regress`,
  `profile`, `print_node_map` totals, `make_graph_onnx`/`save_model`, `get_onnxgraph_by_nodenames`.
* `onnx_tool/node.py`: shape functions of broadcasting, convolution and pooling, transposed convolution, slicing, concatenation, split,
  reshape, transpose, gather, reduction, matrix products, einsum, TopK, pad, resize...; the value functions of the operators that can sit
  between a shape and a reshape (arithmetic, comparison, Gather, Slice, Concat, Cast, Range, Where, ConstantOfShape, Unsqueeze, ...);
  the cost methods of the operators of `llm.Builder` and of the common convolutional and element-wise operators.
* `onnx_tool/tensor.py`: element types, TensorProto to numpy and back, `volume`, `shape_of_tensor`, sparsity search.
* `onnx_tool/fusion.py`: `FusionPattern` search, pattern descriptions from selections and tensors, Conv+BN folding, element-wise groups, `removeShapeOps`.
* `onnx_tool/llm.py`: architecture tables, `Builder.__init__`, `build_graph` (wiring, shapes, cost), `add_kv_cache`, `set_past_kv_length`,
  `profile`, and the vision encoders (`build_vision_graph`).
* `onnx_tool/quantization.py`, `serialization.py`, `utils.py` (registry, tables), `__init__.py` (`model_profile`, `model_io_modify`,
  `model_subgraph`, `model_opfusion`, export).
* `inference/memory_pool.py`, `inference/infer.py` (views into the pool).

Each definition cites the lines it models, with the simplifications it makes. The table below says which property uses which model.

## What is not modelled

* The value functions of the floating-point operators (convolution, pooling, normalisation, activation...): `value_infer` of each operator is an
  uninterpreted function in C03, C18 and C58, which therefore hold for any operator semantics.
* The protobuf wire format, file systems beyond path strings, `tabulate`, timing, warnings, threads.
* numpy itself: its array operations are modelled by their documented effect on shapes, elements and dtypes.
* `Builder.build_multimodal_graph`-style compositions that only glue the modelled parts, and the benchmark scripts, except where a property cites them.
