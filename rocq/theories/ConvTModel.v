(** onnx_tool/node.py 2672-2725: [ConvTransposeNode] with its attribute [output_shape] and its defaults, over ShapeModel's
    [convtranspose_shape] (which is the computation without that attribute). *)
From Verif Require Import PyBase GraphModel ShapeModel.
Open Scope Z_scope.

(** node.py:2673-2680 [ConvTransposeNode.__init__]: an attribute that the node does not carry gets this value, whatever the rank *)
Definition ct_default {A} (o : option A) (d : A) : A := match o with Some x => x | None => d end.
Record ct_attrs := { ct_pads : option (list Z); ct_opad : option (list Z); ct_strides : option (list Z); ct_dilations : option (list Z);
                     ct_oshape : option (list Z); ct_group : option Z }.
Definition ct_window (a : ct_attrs) : window :=
  {| w_autopad := Explicit; w_pads := ct_default (ct_pads a) [0; 0; 0; 0]; w_strides := ct_default (ct_strides a) [1; 1];
     w_dilations := ct_default (ct_dilations a) [1; 1] |}.
(** node.py:2682-2725 [ConvTransposeNode.shape_infer]: [shape[2:] = output_shape] replaces the rest of the list, [shape[2] =
    output_shape[0]] one element. [volume]: GraphModel.v. *)
Definition conv_transpose (a : ct_attrs) (x w : shape) : sres shape :=
  let* s := convtranspose_shape (ct_window a) (ct_default (ct_opad a) [0; 0; 0; 0]) (ct_default (ct_group a) 1) x w in
  let os := ct_default (ct_oshape a) [0; 0] in
  if volume os =? 0 then SOk s
  else if Nat.eqb (length x) 5 || Nat.eqb (length x) 4 then SOk (firstn 2 s ++ os)
  else if Nat.eqb (length x) 3 then let* o := py_index os 0 in SOk (firstn 2 s ++ [o])
  else SOk s.
