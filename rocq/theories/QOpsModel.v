(** onnx_tool/node.py 2503-2512, 2536-2545, 2547-2577, 2590-2612, 2634-2656: what the quantised operators record about their result.
    A tensor is its shape and its element type ([T]: the element types; [int32]: numpy.int32).  Attributes as in [ShapeModel.window]. *)
From Verif Require Import PyBase ShapeModel.
Open Scope Z_scope.

Section QOPS.
Context {T : Type} (int32 : T).
Definition typed_tensor : Type := shape * T.
(** The branches that QLinearConv (2591-2610) and ConvInteger (2635-2654) share. VALID and other paddings leave the initial empty list. *)
Definition qconv_shape (wd : window) (x w : shape) : sres shape :=
  match w_autopad wd with
  | SameLower | SameUpper =>
      let* n := py_index x 0 in
      let* c := py_index w 0 in
      let* x2 := py_index x 2 in
      let* s0 := py_index (w_strides wd) 0 in
      let* o0 := auto_pad_same x2 s0 in
      if Nat.eqb (length x) 4 then
        let* x3 := py_index x 3 in
        let* s1 := py_index (w_strides wd) 1 in
        let* o1 := auto_pad_same x3 s1 in
        SOk [n; c; o0; o1]
      else SOk [n; c; o0]
  | Valid | OtherPad => SOk []
  | Explicit =>
      if Nat.eqb (length x) 4 then
        let* oh := conv_axis wd x w 0 0 2 in
        let* ow := conv_axis wd x w 1 1 3 in
        let* n := py_index x 0 in
        let* c := py_index w 0 in
        SOk [n; c; oh; ow]
      else if Nat.eqb (length x) 3 then
        let* oh := conv_axis wd x w 0 0 1 in
        let* n := py_index x 0 in
        let* c := py_index w 0 in
        SOk [n; c; oh]
      else SOk []
  end.
(** node.py:2591-2612 [QLinearConvNode.shape_infer] *)
Definition qlinear_conv (wd : window) (ins : list typed_tensor) : sres typed_tensor :=
  let* x := py_index ins 0 in
  let* w := py_index ins 3 in
  let* s := qconv_shape wd (fst x) (fst w) in
  let* z := py_index ins (-2) in
  SOk (s, snd z).
(** node.py:2635-2656 [ConvIntegerNode.shape_infer] *)
Definition conv_integer (wd : window) (ins : list typed_tensor) : sres typed_tensor :=
  let* x := py_index ins 0 in
  let* w := py_index ins 1 in
  let* s := qconv_shape wd (fst x) (fst w) in
  SOk (s, int32).
(** node.py:2560-2577 [QLinearMatMulNode.shape_infer]: the class is never [GemmNode], so its last branch; [l[:-1]] is [removelast]. *)
Definition qlinear_matmul (ins : list typed_tensor) : sres typed_tensor :=
  let* x := py_index ins 0 in
  let* w := py_index ins 3 in
  let* n := py_index (fst w) (-1) in
  let* z := py_index ins (-1) in
  SOk ((removelast (fst x) ++ [n])%list, snd z).
(** node.py:2548-2550 [MatMulIntegerNode.shape_infer] over [GemmNode.shape_infer] (863-896) *)
Definition matmul_integer (ins : list typed_tensor) : sres typed_tensor :=
  let* a := py_index ins 0 in
  let* b := py_index ins 1 in
  let* s := matmul_shape (fst a) (fst b) in
  SOk (s, int32).
(** node.py:2541-2543 [QuantizeLinearNode.shape_infer] *)
Definition quantize_linear (ins : list typed_tensor) : sres typed_tensor :=
  let* x := py_index ins 0 in let* z := py_index ins 2 in SOk (fst x, snd z).
(** node.py:2508-2510 [DequantizeLinearNode.shape_infer] *)
Definition dequantize_linear (ins : list typed_tensor) : sres typed_tensor :=
  let* x := py_index ins 0 in let* s := py_index ins 1 in SOk (fst x, snd s).
End QOPS.
