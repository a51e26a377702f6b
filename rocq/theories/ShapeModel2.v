(** Shape inference, part 2: recurrent layers, detection operators, GridSample, Scan, SDPA and Resize (onnx_tool/node.py).
    Conventions as in ShapeModel.v; operators with several outputs return the shapes of the outputs they set, in order, and [nout] is
    the number of outputs the node lists. *)
From Coq Require Import Reals.
From Flocq Require Import Core.
From Verif Require Import PyBase GraphModel FloatPy ShapeModel RegressModel.
Open Scope list_scope. Open Scope Z_scope.

(** node.py:2087-2103 [LSTMNode.shape_infer]; the attribute [layout] is not read *)
Definition lstm_shapes (hidden_size : option Z) (layout : Z) (x w : shape) (nout : nat) : sres (list shape) :=
  let* seq := py_index x 0 in
  let* batch := py_index x 1 in
  let* dirs := py_index w 0 in
  let* rows := py_index w 1 in
  let h := rows / 4 in
  if match hidden_size with Some v => negb (h =? v) | None => false end then SRaise AssertErr
  else match nout with
       | O => SRaise IndexErr
       | S O => SOk [[seq; dirs; batch; h]]
       | S (S O) => SOk [[seq; dirs; batch; h]; [dirs; batch; h]]
       | _ => SOk [[seq; dirs; batch; h]; [dirs; batch; h]; [dirs; batch; h]]
       end.
(** node.py:2802-2812 [GRUNode.shape_infer]; neither [hidden_size] nor [layout] is read; the second output is set unconditionally *)
Definition gru_shapes (hidden_size : option Z) (layout : Z) (x w : shape) (nout : nat) : sres (list shape) :=
  let* seq := py_index x 0 in
  let* batch := py_index x 1 in
  let* dirs := py_index w 0 in
  let* rows := py_index w 1 in
  let h := rows / 3 in
  if Nat.ltb nout 2 then SRaise IndexErr else SOk [[seq; dirs; batch; h]; [dirs; batch; h]].

(** node.py:2307-2319 [RoiAlignNode.shape_infer]; an attribute the node does not have is an AttributeError, reached only when the
    first operand of [and] is true *)
Definition roialign_shape (output_height output_width : option Z) (x rois batch : shape) : sres shape :=
  let* n := py_index rois 0 in
  let* four := py_index rois 1 in
  if negb (four =? 4) then SRaise AssertErr else
  let* nb := py_index batch 0 in
  if negb (nb =? n) then SRaise AssertErr else
  if negb (Nat.eqb (length x) 4) then SRaise NotImplErr else
  match output_height, output_width with
  | Some h, Some w => let* c := py_index x 1 in SOk [n; c; h; w]
  | _, _ => SRaise AttributeErr
  end.
(** node.py:734-746 [NonMaxSuppressionNode.shape_infer]; [max_boxes]: the scalar of the third input, [None] when there are only two
    inputs; [volume(box_shape[:-1])] (tensor.py:145-151) *)
Definition nms_shape (boxes scores : shape) (max_boxes : option Z) : sres shape :=
  match max_boxes with
  | None => SRaise NotImplErr
  | Some m =>
      let count := volume (firstn (length boxes - 1) boxes) in
      let* b1 := py_index boxes 1 in
      let* s2 := py_index scores 2 in
      if negb (b1 =? s2) then SRaise AssertErr else
      let* b0 := py_index boxes 0 in
      let* s0 := py_index scores 0 in
      if negb (b0 =? s0) then SRaise AssertErr else
      SOk [Z.min m count; 3]
  end.
(** node.py:1062-1066 [GridSampleNode.shape_infer] reads [Tensor.shape] itself, which is a list, or a tuple once a value was stored
    (tensor.py:401): the flag; list + tuple is a TypeError. [s[1:1+r]] with a negative end counts from the end. *)
Definition gridsample_shape (x grid : bool * shape) : sres shape :=
  let* r := py_index (snd grid) (-1) in
  let e := if 1 + r <? 0 then 1 + r + zlen (snd grid) else 1 + r in
  if eqb (fst x) (fst grid) then SOk (firstn 2 (snd x) ++ skipn 1 (firstn (Z.to_nat e) (snd grid))) else SRaise TypeErr.
(** node.py:2037-2053 [ScanNode.shape_infer]: [outtensors[2..4]] are set whatever the node lists *)
Definition scan_shapes (ins : list shape) (nout : nat) : sres (list shape) :=
  if Nat.eqb nout 0 then SRaise IndexErr else
  let* s := py_index ins 3 in
  if Nat.ltb nout 5 then SRaise IndexErr else SOk [[1; 1]; [1; 1]; [1]; s; s].
(** node.py:2010-2024 [TopKNode.shape_infer] for any attribute: without one, axis 0 for rank 1; otherwise [None < 0] is a TypeError *)
Definition topk_attr_shape (x : shape) (k : Z) (axis : option Z) : sres shape :=
  match axis with
  | Some a => SOk (topk_shape a k x)
  | None => if Nat.eqb (length x) 1 then SOk (topk_shape 0 k x) else SRaise TypeErr
  end.
(** node.py:2872-2880 [SDPANode.shape_infer] *)
Definition sdpa_shape (q : shape) : shape := match q with [b; n; s; d] => [b; s; n * d] | _ => q end.
(** node.py:1693-1695 [ArrayFeatureExtractorNode.shape_infer], 1700-1702 [ZipMapNode.shape_infer] *)
Definition feature_shape (x idx : shape) : shape := idx.
Definition zipmap_shape (x : shape) : sres shape := let* d := py_index x 0 in SOk [d].

(** ** Resize *)
(** tensor.py:183-193 [is_valid_ndarray] of a rank-1 array *)
Definition valid_rank1 {A} (l : list A) : bool := negb (Nat.eqb (length l) 0).
(** numpy's addition of a list and a rank-1 array: elementwise, a side of length 1 is repeated *)
Definition np_add1 (a b : list Z) : sres (list Z) :=
  if Nat.eqb (length a) (length b) then SOk (map (fun p => fst p + snd p) (combine a b))
  else match a, b with
       | [x], _ => SOk (map (fun y => x + y) b)
       | _, [y] => SOk (map (fun x => x + y) a)
       | _, _ => SRaise ValueErr
       end.
Section RESIZE.
(** the rounding of the product of a dimension and a scale: binary32 with NumPy 2, binary64 with NumPy 1 *)
Context (round_product : R -> R).
(** node.py:1358-1359 [math.floor(src * scale)] *)
Definition scaled (src : Z) (scale : R) : Z := Zfloor (round_product (IZR src * scale)).
(** node.py:1339-1366 [ResizeNode.shape_infer]; [ins]: the inputs after the first that are read, [scales] at the second of two or the
    third of more inputs. [sizes] and [scales] are rank-1 arrays (a missing operand is the empty array). [ninputs] = 1 leaves the
    variable [scales] unassigned. *)
Definition resize_shape (x : shape) (ninputs : nat) (scales : list R) (sizes : list Z) : sres shape :=
  let sizes := if Nat.leb 4 ninputs then sizes else [] in
  if valid_rank1 sizes then
    if Nat.eqb (length sizes) 2 then np_add1 (firstn 2 x) sizes
    else if Nat.eqb (length sizes) (length x) then SOk sizes else SOk []
  else if Nat.ltb ninputs 2 then SRaise UnboundErr
  else if valid_rank1 scales then SOk (map (fun p => scaled (fst p) (snd p)) (combine x scales))
  else SOk [].
End RESIZE.
