(** The MAC counts that operators report: [_profile_core] of onnx_tool/node.py, on tensor shapes.
    [ins] are the shapes of the input tensors ("" for an omitted optional input is a shape []), [outs] of the outputs.
    Simplified: shapes are known integers; numbers are unbounded. *)
From Verif Require Import PyBase GraphModel ShapeModel LlmCost.
Open Scope Z_scope.

(** [shapes[i].get_shape()] *)
Definition sh_at (l : list shape) (i : nat) : sres shape := match nth_error l i with Some s => SOk s | None => SRaise IndexErr end.

(** node.py:2219-2230 [ConvNode._profile_core]; also node.py:2724-2735 [ConvTransposeNode._profile_core], the same text *)
Definition conv_macs (ins outs : list shape) : sres Z :=
  if (Nat.eqb (length outs) 1) && (Nat.eqb (length ins) 3 || Nat.eqb (length ins) 2) then
    let* k := sh_at ins 1 in let* o := sh_at outs 0 in
    let outvol := volume o in
    let macs := 0 + outvol * volume (tl k) * MUL_MACS in
    SOk (if Nat.ltb 2 (length ins) then macs + outvol * ADD_MACS else macs)
  else SOk 0.
Definition convtranspose_macs (ins outs : list shape) : sres Z := conv_macs ins outs.

(** node.py:2614-2632 [QLinearConvNode._profile_core] and 2658-2672 [ConvIntegerNode._profile_core]: the kernel is input
    [ki], the bias of QLinearConv the ninth input *)
Definition conv_int_macs (ki : nat) (bias : bool) (ins outs : list shape) : sres Z :=
  let* o := sh_at outs 0 in
  if Nat.eqb (length outs) 1 then
    let* k := sh_at ins ki in
    let outvol := volume o in
    let* macs :=
      match k with
      | _ :: k1 :: k2 :: k3 :: _ => SOk (outvol * k1 * k2 * k3)
      | [_; k1; k2] => SOk (outvol * k1 * k2)
      | _ => SRaise NotImplErr
      end in
    SOk (if bias && Nat.eqb (length ins) 9 then macs + outvol * ADD_MACS else macs)
  else SOk 0.
Definition qlinear_conv_macs := conv_int_macs 3 true.
Definition conv_integer_macs := conv_int_macs 1 false.

(** node.py:915-933 [GemmNode._profile_core]; [exact] is [self.__class__ == GemmNode], false for MatMul and MatMulInteger *)
Definition gemm_macs (exact : bool) (transB : Z) (ins outs : list shape) : sres Z :=
  let* y := sh_at outs 0 in
  if Nat.leb 2 (length ins) then
    let* w := sh_at ins 1 in
    let* m :=
      (if exact then (let* d := py_index w (if 0 <? transB then -1 else -2) in SOk (volume y * d))
       else if Nat.ltb 1 (length w) then (let* d := py_index w (-2) in SOk (volume y * d)) else SOk (volume y)) in
    SOk (if Nat.eqb (length ins) 3 then m + volume y * ADD_MACS else m)
  else SRaise NotImplErr.

(** node.py:2578-2586 [QLinearMatMulNode._profile_core] ([self.__class__] is never GemmNode here) *)
Definition qlinear_matmul_macs (ins : list shape) : sres Z :=
  let* x := sh_at ins 0 in let* w := sh_at ins 3 in let* d := py_index w (-1) in SOk (volume x * d).

(** node.py:1446-1452 [PoolBase._profile_core] *)
Definition pool_macs (kernel : list Z) (outs : list shape) : sres Z :=
  let* o := sh_at outs 0 in
  let* k0 := py_index kernel 0 in
  let macs := volume o * CMP_MACS * k0 in
  if Nat.eqb (length kernel) 2 then let* k1 := py_index kernel 1 in SOk (macs * k1) else SOk macs.

(** node.py:1526-1530 [GlobalAveragePoolNode._profile_core] *)
Definition global_pool_macs (ins outs : list shape) : sres Z :=
  let* i := sh_at ins 0 in let* o := sh_at outs 0 in SOk (volume i * ADD_MACS + volume o * DIV_MACS).

(** node.py:248-252, 267-271: [ratio] is computed in [__init__], when [self.input] is still the empty list of
    [Node.__init__]; node.py:719-723 [SumNode] reads the protobuf instead *)
Definition ratio_at_init : Z := Z.max 1 (Z.of_nat (length (@nil string)) - 1).
Definition sum_ratio (proto_inputs : list string) : Z := Z.of_nat (length proto_inputs) - 1.
(** node.py:261-264, 282-285 [_profile_core] of PWNode and NpMathBase *)
Definition pointwise_macs (ratio op_mac : Z) (outs : list shape) : sres Z :=
  let* o := sh_at outs 0 in SOk (volume o * ratio * op_mac).

(** node.py:1249-1260 [EinsumNode._profile_core]: a dict from label to size, the second operand overwriting the first.
    [labels] are the terms of the equation. *)
Definition no_dots (s : string) : list ascii := filter (fun c => negb (Ascii.eqb c ".")) (list_ascii_of_string s).
Fixpoint label_dims (ls : list ascii) (sh : shape) (m : dict Z) : sres (dict Z) :=
  match sh with
  | [] => SOk m
  | d :: r => match ls with [] => SRaise IndexErr | c :: ls' => label_dims ls' r (dset m (String c EmptyString) d) end
  end.
Definition einsum_macs (labels : list string) (ins : list shape) : sres Z :=
  let* s0 := sh_at ins 0 in let* s1 := sh_at ins 1 in
  match labels with
  | l0 :: r =>
      let* m0 := label_dims (no_dots l0) s0 [] in
      match r with
      | l1 :: _ => let* m1 := label_dims (no_dots l1) s1 m0 in SOk (fold_left Z.mul (map snd m1) 1)
      | [] => match s1 with [] => SOk (fold_left Z.mul (map snd m0) 1) | _ => SRaise IndexErr end
      end
  | [] => SRaise IndexErr
  end.

(** node.py:2105-2131 [LSTMNode._profile_core] without the [hidden_size] assertion, and node.py:2814-2838 [GRUNode._profile_core] *)
Definition lstm_macs (ins : list shape) : sres Z :=
  let* x := sh_at ins 0 in let* w := sh_at ins 1 in let* r := sh_at ins 2 in let* b := sh_at ins 3 in
  let* seq := py_index x 0 in let* batch := py_index x 1 in let* g := py_index w 1 in
  let h_len := g / 4 in
  let ht := volume [batch; seq; h_len] in
  let gemm := (volume w + volume r) * batch * seq in
  let bias := volume b * ADD_MACS * batch * seq in
  let gemm_add := ht * ADD_MACS * 4 in
  let sig := ht * EXP_MACS * 3 in
  let tanh := ht * TANH_MACS * 2 in
  let blend := ht * (ADD_MACS + MUL_MACS + MUL_MACS + MUL_MACS) in
  SOk (gemm + bias + sig + tanh + blend + gemm_add).
Definition gru_macs (ins : list shape) : sres Z :=
  let* x := sh_at ins 0 in let* w := sh_at ins 1 in let* r := sh_at ins 2 in let* b := sh_at ins 3 in
  let* batch := py_index x 1 in let* seq := py_index x 0 in let* g := py_index w 1 in
  let h_len := g / 3 in
  let ht := volume [batch; seq; h_len] in
  let gemm := (volume w + volume r) * batch * seq in
  let bias := volume b * ADD_MACS * batch * seq in
  let gemm_add := ht * ADD_MACS * 3 in
  let sig := ht * EXP_MACS * 2 in
  let tanh := ht * TANH_MACS in
  let blend := ht * (ADD_MACS + MUL_MACS + MUL_MACS + ADD_MACS + MUL_MACS) in
  SOk (gemm + bias + gemm_add + sig + tanh + blend).
