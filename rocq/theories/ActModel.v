(** The value functions of the activation and normalisation operators of onnx_tool/node.py, over exact real numbers (no rounding,
    no overflow; ValueModel.v for arrays). A method that maps one numpy ufunc over the operand is [map_value]. *)
From Coq Require Import Reals.
From Verif Require Import PyBase GraphModel ShapeModel ValueModel ValueModel2 ValueModel3.
Open Scope Z_scope.

Definition map_value (f : R -> R) (x : arr R) : arr R := {| shp := shp x; el := fun i => f (el x i) |}.
(** node.py:410-413 [SoftmaxNode.value_infer]: [xexp / numpy.sum(xexp, axis=self.axis, keepdims=True)]; [axis] is the attribute, for
    which the class has no default *)
Definition softmax_value (axis : option Z) (x : arr R) : sres (arr R) :=
  match axis with
  | None => SRaise AttributeErr
  | Some a =>
      let* k := np_axis (zlen (shp x)) a in
      let xexp i := exp (el x i) in
      let total i := fold_left (fun s j => (s + xexp (set_nth i k j))%R) (pyrange (nth k (shp x) 0)) 0%R in
      SOk {| shp := shp x; el := fun i => (xexp i / total i)%R |}
  end.
(** node.py:424-428 [SoftplusNode.value_infer] *)
Definition softplus_value : arr R -> arr R := map_value (fun v => ln (1 + exp v)).
(** node.py:534-537 [SigmoidNode.value_infer] *)
Definition sigmoid_value : arr R -> arr R := map_value (fun v => 1 / (1 + exp (- v)))%R.
(** node.py:624-628 [EluNode.value_infer] *)
Definition elu_value (alpha : option R) : arr R -> arr R :=
  let a := match alpha with Some a => a | None => 1%R end in
  map_value (fun v => if Rle_dec 0 v then v else (a * (exp v - 1))%R).
(** node.py:613-615 [ReluNode.value_infer], 1021-1023 [Relu6Node.value_infer]: numpy.clip is minimum(maximum(x, low), high) *)
Definition relu_value : arr R -> arr R := map_value (fun v => Rmax v 0).
Definition relu6_value : arr R -> arr R := map_value (fun v => Rmin (Rmax v 0) 6).
(** A Python number or a numpy array. *)
Inductive pyval := PyNum (v : R) | PyArr (a : arr R).
(** [bool(array)]: the truth of the only element; ValueError for any other number of elements *)
Definition only {T} (a : arr T) : sres T := if numel (shp a) =? 1 then SOk (el a (repeat 0 (length (shp a)))) else SRaise ValueErr.
(** [min(1, a)]: 1 unless [a < 1]; [max(0, p)]: 0 unless [p > 0] *)
Definition py_min1 (a : arr R) : sres pyval := let* v := only a in SOk (if Rlt_dec v 1 then PyArr a else PyNum 1).
Definition py_max0 (p : pyval) : sres pyval :=
  match p with
  | PyNum v => SOk (if Rlt_dec 0 v then p else PyNum 0)
  | PyArr a => let* v := only a in SOk (if Rlt_dec 0 v then p else PyNum 0)
  end.
Definition clamp01 (a : arr R) : sres pyval := let* p := py_min1 a in py_max0 p.
(** [numpy.array(v)], by tensor.py:398-399 [update_tensor] *)
Definition as_array (p : pyval) : arr R := match p with PyNum v => {| shp := []; el := fun _ => v |} | PyArr a => a end.
(** node.py:583-591 [HardSigmoidNode]: attributes, defaults 0.2 and 0.5 *)
Definition hard_sigmoid_value (alpha beta : option R) (x : arr R) : sres (arr R) :=
  let a := match alpha with Some a => a | None => (2 / 10)%R end in
  let b := match beta with Some b => b | None => (1 / 2)%R end in
  let* p := clamp01 (map_value (fun v => a * v + b)%R x) in SOk (as_array p).
(** node.py:596-604 [HardSwishNode]: attributes, defaults 1/6 and 0.5; the product of the operand with a number, or with an array of
    its own shape *)
Definition hard_swish_value (alpha beta : option R) (x : arr R) : sres (arr R) :=
  let a := match alpha with Some a => a | None => (1 / 6)%R end in
  let b := match beta with Some b => b | None => (1 / 2)%R end in
  let* p := clamp01 (map_value (fun v => a * v + b)%R x) in
  SOk {| shp := shp x; el := fun i => (el x i * match p with PyNum v => v | PyArr q => el q i end)%R |}.

(** node.py:1623-1643 [BatchNormalizationNode]: the elements of [y] in the order of [ndindex] (the loop has no other effect).
    math.sqrt of a negative number is a ValueError; division by a zero of numpy gives inf: not modelled, the theorem excludes it. *)
Definition bn_element (eps : R) (x scale b mean var : arr R) (i : list Z) : sres R :=
  let* cn := py_index i 1 in
  let* v := np_at var [cn] in
  if Rlt_dec (v + eps) 0 then SRaise ValueErr else
  let* s := np_at scale [cn] in
  let* sv := np_at b [cn] in
  let* m := np_at mean [cn] in
  SOk ((el x i - m) * (s / sqrt (v + eps)) + sv)%R.
Definition batch_norm_value (eps : option R) (x scale b mean var : arr R) : sres (list Z * list R) :=
  let e := match eps with Some e => e | None => (1 / 100000)%R end in
  let* l := smap (bn_element e x scale b mean var) (ndindex (shp x)) in SOk (shp x, l).

(** node.py:2235-2244 [ReduceL2Node]: the axes of the attribute, as a tuple; a second input is not read. [numpy.sum] as in
    [ValueModel3.np_sum]. *)
Definition np_sum_R (x : arr R) (axes : axes_arg) (keepdims : bool) : sres (arr R) :=
  let* l := (match axes with
             | ANone => SOk (zrange (length (shp x)))
             | ATuple l => np_axes (zlen (shp x)) l
             | AList _ | AArray _ => SRaise TypeErr
             end) in
  let target i := reduce_loop l false i 0 in
  let squeezed o := if keepdims then reduce_loop l false o 0 else o in
  SOk {| shp := reduce_loop l keepdims (shp x) 0;
         el := fun o => fold_left (fun s i => if shape_eqb (target i) (squeezed o) then (s + el x i)%R else s) (ndindex (shp x)) 0%R |}.
Definition reduce_l2_value (axes_attr : option (list Z)) (keepdims : Z) (x : arr R) (axes_in : option (list Z)) : sres (arr R) :=
  let* y := np_sum_R (map_value (fun v => v * v)%R x) (match axes_attr with Some l => ATuple l | None => ANone end) (keepdims =? 1) in
  SOk (map_value sqrt y).
