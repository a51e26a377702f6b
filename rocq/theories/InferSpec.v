(** Specification vocabulary for graph-level shape inference. *)
From Verif Require Import PyBase GraphModel CompressSpec ShapeModel InferModel.
Local Open Scope string_scope.
Local Open Scope list_scope.

(** ONNX: operand [i] of an [op] node with [n] operands is a scalar or vector whose VALUE fixes the result shape.
    ([Resize]/[Upsample]: scales of a 2- or 3-operand node, sizes of a 4-operand one.) *)
Inductive shape_operand : string -> nat -> nat -> Prop :=
| so_reshape : shape_operand "Reshape" 2 1
| so_resize2 : shape_operand "Resize" 2 1
| so_resize3 : shape_operand "Resize" 3 2
| so_resize4 : shape_operand "Resize" 4 3
| so_upsample2 : shape_operand "Upsample" 2 1
| so_upsample3 : shape_operand "Upsample" 3 2
| so_upsample4 : shape_operand "Upsample" 4 3
| so_expand : shape_operand "Expand" 2 1
| so_slice : forall n i, (3 <= n <= 5)%nat -> (1 <= i < n)%nat -> shape_operand "Slice" n i
| so_constantofshape : shape_operand "ConstantOfShape" 1 0
| so_tile : shape_operand "Tile" 2 1
| so_range : forall i, (i < 3)%nat -> shape_operand "Range" 3 i
| so_onehot : shape_operand "OneHot" 3 1
| so_topk : shape_operand "TopK" 2 1
| so_pad : forall n, (2 <= n <= 3)%nat -> shape_operand "Pad" n 1
| so_nms : forall n, (4 <= n <= 5)%nat -> shape_operand "NonMaxSuppression" n 2
| so_split : shape_operand "Split" 2 1
| so_unsqueeze : shape_operand "Unsqueeze" 2 1
| so_squeeze : shape_operand "Squeeze" 2 1
| so_reducesum : shape_operand "ReduceSum" 2 1
| so_reducemean : shape_operand "ReduceMean" 2 1.
(** more operands whose value fixes the result shape in ONNX and is read by the operator's shape inference: these the
    library's table omits *)
Inductive shape_operand_omitted : string -> nat -> nat -> Prop :=
| om_reduceprod : shape_operand_omitted "ReduceProd" 2 1
| om_reducemin : shape_operand_omitted "ReduceMin" 2 1
| om_reducemax : shape_operand_omitted "ReduceMax" 2 1
| om_pad4 : shape_operand_omitted "Pad" 4 1
| om_nms3 : shape_operand_omitted "NonMaxSuppression" 3 2.

(** node [k] computes tensor [t], which is not stored in the file *)
Definition computes (g : graph) (k t : string) : Prop := ~ In t (initials g) /\ exists n, In (k, n) (nodemap g) /\ In t (n_out n).
(** node [n] reads the value of [t] to find its result shapes *)
Definition reads_shape_from (n : node) (t : string) : Prop :=
  exists i, shape_operand (n_op n) (length (n_in n)) i /\ nth_error (n_in n) i = Some t.
(** the result of node [k] is needed, as a value, to infer some shape: it is a shape operand, or an operand of a needed
    node; [Shape] needs only the shape of its operand *)
Inductive value_needed (g : graph) : string -> Prop :=
| vn_operand : forall k t m n, In (m, n) (nodemap g) -> reads_shape_from n t -> computes g k t -> value_needed g k
| vn_feed : forall k t m n, value_needed g m -> In (m, n) (nodemap g) -> n_op n <> "Shape" -> In t (n_in n) ->
    computes g k t -> value_needed g k.
(** tensors whose values inference has to know *)
Definition tensor_needed (g : graph) (t : string) : Prop :=
  (exists n, In n (nodes_of g) /\ reads_shape_from n t) \/
  (exists k n, value_needed g k /\ In (k, n) (nodemap g) /\ n_op n <> "Shape" /\ In t (n_in n)).

Section TRUTH.
Context {V : Type} (vshape : V -> list Z).
(** the operators' run-time semantics; [None]: not applicable to these operands *)
Context (sem : node -> list V -> option (list V)).
Context (srule : node -> list (trec (V := V)) -> sres (list (list Z))) (vrule : node -> list (trec (V := V)) -> sres (list V)).
(** [truth t] is what tensor [t] holds in a run of the nodes *)
Definition a_run (ns : list node) (truth : string -> V) : Prop :=
  forall n, In n ns -> sem n (map truth (n_in n)) = Some (map truth (n_out n)).
Definition knows_shape (r : trec (V := V)) (v : V) : Prop := tr_shape r = vshape v.
Definition knows_value (r : trec (V := V)) (v : V) : Prop := tr_num r = Some v.
(** the operator's shape inference finds the result shapes from the operand shapes and the values of its shape operands *)
Definition shapes_right (n : node) : Prop := forall recs vals outs,
  length recs = length (n_in n) -> Forall2 knows_shape recs vals ->
  (forall i r v, shape_operand (n_op n) (length (n_in n)) i -> nth_error recs i = Some r -> nth_error vals i = Some v -> knows_value r v) ->
  sem n vals = Some outs -> srule n recs = SOk (map vshape outs).
(** its value inference finds the results from the operand values ([Shape]: from the operand shapes) *)
Definition values_right (n : node) : Prop := forall recs vals outs,
  length recs = length (n_in n) -> Forall2 knows_shape recs vals ->
  (n_op n <> "Shape" -> Forall2 knows_value recs vals) ->
  sem n vals = Some outs -> vrule n recs = SOk outs.
(** every tensor of the graph has an entry; what no node computes is given in [ins], or its recorded shape (and value, when
    inference needs it) is right *)
Definition sources_right (g : graph) (truth : string -> V) (ins : list (string * V)) (tm : dict (trec (V := V))) : Prop :=
  (forall t, In t (reads_of (nodes_of g)) \/ In t (outs_of (nodes_of g)) \/ In t (g_input g) -> exists r, dget tm t = Some r) /\
  (forall t v, In (t, v) ins -> v = truth t) /\
  forall t r, ~ In t (outs_of (nodes_of g)) -> ~ In t (map fst ins) -> dget tm t = Some r -> In t (reads_of (nodes_of g)) \/ In t (g_input g) ->
    tr_shape r = vshape (truth t) /\ (tensor_needed g t -> tr_num r = Some (truth t)).
(** states reached from [tm] by successful calls whose input maps only name tensors in [K] *)
Inductive after_calls (g : graph) (calc K : list string) (tm : dict (trec (V := V))) : dict (trec (V := V)) -> Prop :=
| ac_none : after_calls g calc K tm tm
| ac_call : forall tm1 ins tm2, after_calls g calc K tm tm1 -> (forall t, In t (map fst ins) -> In t K) ->
    graph_shape_infer vshape srule vrule g calc ins tm1 = SOk tm2 -> after_calls g calc K tm tm2.
End TRUTH.
