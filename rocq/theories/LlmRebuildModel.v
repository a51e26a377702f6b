(** onnx_tool/llm.py:1235-1260 [Builder.build_graph] called several times on one builder: [self.graph] and the attributes
    [_rope_cos_sin_added] (330) and [_position_added] (352) stay from call to call; every call appends to [self.graph.input],
    [self.graph.initials] and [self.graph.output]. Over LlmModel's [build_graph]. *)
From Verif Require Import PyBase GraphModel ShapeModel FusionModel LlmModel.
Open Scope Z_scope.

Section MODEL.
Variables (fl : flags) (c : config) (wm : dict (dict string)) (root : string).
(** one call of [build_graph] per pair (batch, seq_len), in order; the name each call appends to [graph.output] *)
Fixpoint build_all (sizes : list (Z * Z)) : B (list string) :=
  match sizes with
  | [] => ret []
  | (b, s) :: r => bind (build_graph fl c b s wm root) (fun o => bind (build_all r) (fun os => ret (o :: os)))
  end.
End MODEL.
Definition with_outputs (outs : list string) (g : graph) : graph :=
  mkGraph (nodemap g) (tensormap g) (producedby g) (consumedby g) (initials g) (dynamics g) (g_input g) outs.
(** the graph of a new builder after these calls *)
Definition rebuilt (m : dict flags) (c : config) (sizes : list (Z * Z)) (wm : dict (dict string)) (root : string) : sres graph :=
  let* fl := arch_config m c in
  let* x := build_all fl c wm root sizes bst0 in
  SOk (with_outputs (fst x) (fold_left replay_step (log (snd x)) (mkGraph [] [] [] [] [] [] [] []))).
