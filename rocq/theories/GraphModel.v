(** The state of [onnx_tool.Graph] and its producer/consumer bookkeeping. *)
From Verif Require Import PyBase.
Local Open Scope Z_scope.

(** onnx_tool/node.py:172-213 [Node.__init__]: the fields graph algorithms read.
    Simplified: protobuf, attributes and profile fields are left out here. *)
Record node := mkNode {
  n_name : string;        (* Node.name *)
  n_op   : string;        (* Node.op_type *)
  n_in   : list string;   (* Node.input *)
  n_out  : list string    (* Node.output *)
}.

(** onnx_tool/tensor.py:362-397 [Tensor]: kind, shape and element size.  Simplified:
    shapes are fully known integers (symbolic dims are strings in the code). *)
Inductive tkind := STATIC | DYNAMIC.
Record tensor := mkTensor { t_kind : tkind; t_shape : list Z; t_esize : Z }.

(** onnx_tool/graph.py:163-176 [Graph.__init__] fields. *)
Record graph := mkGraph {
  nodemap    : dict node;
  tensormap  : dict tensor;
  producedby : dict (list string);
  consumedby : dict (list string);
  initials   : list string;
  dynamics   : list string;
  g_input    : list string;
  g_output   : list string
}.

(** onnx_tool/tensor.py:145-151 [volume]: 0 for the empty (scalar) shape. *)
Definition volume (shape : list Z) : Z :=
  match shape with
  | [] => 0
  | _ => fold_left Z.mul shape 1
  end.

(** onnx_tool/tensor.py:458-459 [Tensor.get_memsize]. *)
Definition get_memsize (t : tensor) : Z := volume (t_shape t) * t_esize t.

(** The nodes of [nodemap] in iteration order. *)
Definition nodes_of (g : graph) : list node := map snd (nodemap g).

(** [d.setdefault(k, []); d[k].append(v)] as written at graph.py:321-323 and 325-327. *)
Definition dpush (d : dict (list string)) (k v : string) : dict (list string) :=
  match dget d k with
  | Some l => dset d k (l ++ [v])
  | None => dset d k [v]
  end.

(** onnx_tool/graph.py:315-327 [Graph.__update_consumer_producer__]. *)
Definition upd_node (pc : dict (list string) * dict (list string)) (n : node)
  : dict (list string) * dict (list string) :=
  let (p, c) := pc in
  let c' := fold_left (fun d t => dpush d t (n_name n)) (n_in n) c in
  let p' := fold_left (fun d t => dpush d t (n_name n)) (n_out n) p in
  (p', c').

Definition update_consumer_producer (g : graph) : graph :=
  let (p, c) := fold_left upd_node (nodes_of g) ([], []) in
  mkGraph (nodemap g) (tensormap g) p c (initials g) (dynamics g) (g_input g) (g_output g).

(** onnx_tool/graph.py:329-331 [Graph.update_tensor_relations]. *)
Definition update_tensor_relations (g : graph) : graph :=
  let g1 := update_consumer_producer g in
  mkGraph (nodemap g1) (tensormap g1) (producedby g1) (consumedby g1) (initials g1)
          (dkeys (producedby g1)) (g_input g1) (g_output g1).
