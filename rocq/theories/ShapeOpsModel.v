(** onnx_tool/fusion.py:184-196 [removeShapeOps]: drop every reshaping node from a graph. *)
From Verif Require Import PyBase GraphModel EditModel.
Local Open Scope string_scope.
Local Open Scope list_scope.

(** fusion.py:184 *)
Definition ShapeOps : list string := ["Flatten"; "Reshape"; "Unsqueeze"; "Squeeze"].
(** fusion.py:193-194 *)
Fixpoint skip_all (names : list string) (g : graph) : res graph :=
  match names with [] => Ok g | k :: r => bind (skip_node g k) (skip_all r) end.
(** fusion.py:187-196 *)
Definition remove_shape_ops (g : graph) : res graph :=
  let rmlist := map fst (filter (fun kn => memb (n_op (snd kn)) ShapeOps) (nodemap g)) in
  bind (skip_all rmlist g) (fun g' => Ok (update_tensor_relations g')).
