(** onnx_tool/graph.py:1076-1081 [Graph.add_dump_tensors]. *)
From Verif Require Import PyBase GraphModel.

Definition with_output (outs : list string) (g : graph) : graph :=
  mkGraph (nodemap g) (tensormap g) (producedby g) (consumedby g) (initials g) (dynamics g) (g_input g) outs.
Definition dump_one (g : graph) (name : string) : graph :=
  if dhas (tensormap g) name then
    if negb (memb name (g_output g)) then with_output (g_output g ++ [name])%list g else g
  else g.
Definition add_dump_tensors (names : list string) (g : graph) : graph := fold_left dump_one names g.
