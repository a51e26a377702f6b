(** Shape inference of onnx_tool/node.py, operator by operator.
    A shape is a list of integers; a node's [shape_infer] is modelled as the
    function from the input shapes (and attributes, and the values of the
    integer input tensors it reads) to the shape stored in the output tensor.
    Simplifications: symbolic (string) dimensions are not represented; dtypes
    are not represented; [get_shape] returns a fresh list (tensor.py:427-434),
    so the in-place edits of the code do not alias the inputs. *)
From Verif Require Import PyBase GraphModel FloatPy.
Open Scope Z_scope.

Notation shape := (list Z).

(** The Python exceptions that [shape_infer] methods let escape. *)
Inductive exn := ValueErr | RuntimeErr | AssertErr | IndexErr | TypeErr | ZeroDivErr | UnboundErr | OverflowErr | KeyErr | AttributeErr | NotImplErr | StructErr.
Inductive sres (A : Type) := SOk (a : A) | SRaise (e : exn).
Arguments SOk {A} a. Arguments SRaise {A} e.
Definition sbind {A B} (r : sres A) (f : A -> sres B) : sres B :=
  match r with SOk a => f a | SRaise e => SRaise e end.
Notation "'let*' x ':=' a 'in' b" := (sbind a (fun x => b)) (at level 200, x name, a at level 100, b at level 200).

(** Python [l[i]]: negative indices count from the end, IndexError outside. *)
Definition py_index {A} (l : list A) (i : Z) : sres A :=
  let j := if i <? 0 then i + Z.of_nat (length l) else i in
  if j <? 0 then SRaise IndexErr
  else match nth_error l (Z.to_nat j) with Some x => SOk x | None => SRaise IndexErr end.

(** Python [[f(x) for x in l]] where [f] may raise. *)
Fixpoint smap {A B} (f : A -> sres B) (l : list A) : sres (list B) :=
  match l with
  | [] => SOk []
  | x :: r => let* y := f x in let* t := smap f r in SOk (y :: t)
  end.

Definition zlen {A} (l : list A) : Z := Z.of_nat (length l).
(** [range(n)] *)
Definition zrange (n : nat) : list Z := map Z.of_nat (seq 0 n).
(** [x in l] for a list of ints. *)
Definition zmem (x : Z) (l : list Z) : bool := existsb (Z.eqb x) l.

(** node.py:70-77 [_axes_neg2pos] *)
Definition axes_neg2pos (len : Z) (axes : list Z) : list Z :=
  map (fun axis => if axis <? 0 then len + axis else axis) axes.

(** ** Broadcasting *)

(** node.py:125-162 [_broadcast_shape]: the padding loop 141-147. *)
Definition max_rank (ss : list shape) : nat := fold_left (fun m (s : shape) => if Nat.ltb m (length s) then length s else m) ss 0%nat.
Definition pad_left (n : nat) (s : shape) : shape :=
  if Nat.ltb (length s) n then repeat 1 (n - length s) ++ s else s.
(** [max(dims)] *)
Definition zmax_list (l : list Z) : Z := match l with [] => 0 | x :: r => fold_left Z.max r x end.
(** node.py:151-161: one output dimension. *)
Definition bcast_dim (dims : list Z) : sres Z :=
  let maxdim := zmax_list dims in
  if zmem 0 dims then
    if forallb (fun d => (d =? 0) || (d =? 1)) dims then SOk 0 else SRaise ValueErr
  else
    if forallb (fun d => (d =? maxdim) || (d =? 1)) dims then SOk maxdim else SRaise ValueErr.
(** [zip( *padded )]: the columns of equally long rows. *)
Definition columns (n : nat) (rows : list shape) : list (list Z) :=
  map (fun i => map (fun r => nth i r 0) rows) (seq 0 n).
Definition broadcast_shape (ss : list shape) : sres shape :=
  let n := max_rank ss in
  smap bcast_dim (columns n (map (pad_left n) ss)).

(** node.py:80-91 [_max_shape] *)
Definition max_shape_step (best s : shape) : shape :=
  if volume best <? volume s then s
  else if (volume s =? volume best) && (Nat.ltb (length best) (length s)) then s else best.
Definition max_shape (ss : list shape) : sres shape :=
  match ss with
  | [] => SRaise IndexErr
  | s0 :: _ => SOk (fold_left max_shape_step ss s0)
  end.

(** node.py:273-280 [NpMathBase.shape_infer], 482-486 [PowNode], 764-768 [LessNode],
    821-827 [WhereNode]: Add, Sub, Mul, Div, Mod, Min, Max, Neg, Abs, Ceil, Pow,
    Less, LessOrEqual, And, Or, Xor, Not, Round, Where. *)
Definition npmath_shape (inshapes : list shape) : sres shape := broadcast_shape inshapes.
(** node.py:254-259 [PWNode.shape_infer]: Sum, PRelu, Clip and the unary functions. *)
Definition pw_shape (inshapes : list shape) : sres shape := max_shape inshapes.

(** ** MatMul and Gemm *)
(** node.py:863-896 [GemmNode.shape_infer]; [s[:-2]]. *)
Definition drop_last2 (s : shape) : shape := firstn (length s - 2) s.
Definition pick_batch (a b : shape) : shape := if volume b <=? volume a then a else b.
Definition gemm_shape (transA transB : Z) (a b : shape) : sres shape :=
  if (Nat.ltb (length a) 2) || (Nat.ltb (length b) 2) then SRaise RuntimeErr
  else
    let* am := py_index a (if 0 <? transA then -1 else -2) in
    let* ak := py_index a (if 0 <? transA then -2 else -1) in
    let* bk := py_index b (if 0 <? transB then -1 else -2) in
    let* bn := py_index b (if 0 <? transB then -2 else -1) in
    if negb (ak =? bk) then SRaise RuntimeErr
    else SOk (pick_batch (drop_last2 a) (drop_last2 b) ++ [am; bn]).
(** the [else] branch 891-894, taken by [MatMulNode]. *)
Definition matmul_shape (a b : shape) : sres shape :=
  if (Nat.ltb (length a) 2) || (Nat.ltb (length b) 2) then SRaise RuntimeErr
  else
    let* m := py_index a (-2) in
    let* n := py_index b (-1) in
    SOk (pick_batch (drop_last2 a) (drop_last2 b) ++ [m; n]).

(** ** Windows *)
(** node.py:47-48 *)
Definition conv_output_shape (xin pad ksize stride dilation : Z) : sres Z :=
  if stride =? 0 then SRaise ZeroDivErr
  else SOk (py_int (fdiv1 (xin + pad - dilation * (ksize - 1) - 1) stride)).
(** node.py:51-52 *)
Definition convtranspose_output_shape (xin output_padding pad ksize stride dilation : Z) : Z :=
  stride * (xin - 1) + output_padding + ((ksize - 1) * dilation + 1) - pad.
(** node.py:55-56 *)
Definition auto_pad_valid (x ksize stride : Z) : sres Z :=
  if stride =? 0 then SRaise ZeroDivErr else SOk (py_ceil (fdiv_int (x - ksize + 1) stride)).
(** node.py:59-60 *)
Definition auto_pad_same (x stride : Z) : sres Z :=
  if stride =? 0 then SRaise ZeroDivErr else SOk (py_ceil (fdiv_int x stride)).
(** node.py:63-67 *)
Definition pooling_shape_calc (inshape pad kshape dilation stride : Z) (ceilmode : bool) : sres Z :=
  if stride =? 0 then SRaise ZeroDivErr
  else
    let outshape := fdiv1 (inshape + pad - ((kshape - 1) * dilation + 1)) stride in
    SOk (if ceilmode then py_ceil outshape else py_floor outshape).

(** The auto_pad attribute: absent or NOTSET, the two SAME modes, VALID, anything else. *)
Inductive autopad := Explicit | SameLower | SameUpper | Valid | OtherPad.
Record window := { w_autopad : autopad; w_pads : list Z; w_strides : list Z; w_dilations : list Z }.

(** node.py:2124-2132 [ConvNode.__init__] defaults. *)
Definition conv_default := {| w_autopad := Explicit; w_pads := [0;0;0;0;0;0]; w_strides := [1;1;1]; w_dilations := [1;1;1] |}.

(** node.py:2134-2174 [ConvNode.shape_infer] *)
Definition conv_axis (wd : window) (x w : shape) (i p q : Z) : sres Z :=
  (* one spatial axis of the explicit branch: input dim 2+i, pads[p]+pads[q], strides[i], dilations[i] *)
  let* xi := py_index x (2 + i) in
  let* p0 := py_index (w_pads wd) p in
  let* p1 := py_index (w_pads wd) q in
  let* ki := py_index w (2 + i) in
  let* st := py_index (w_strides wd) i in
  let* dl := py_index (w_dilations wd) i in
  conv_output_shape xi (p0 + p1) ki st dl.
Definition conv_shape (wd : window) (x w : shape) : sres shape :=
  match w_autopad wd with
  | SameLower | SameUpper =>
      let* n := py_index x 0 in
      let* c := py_index w 0 in
      let* x2 := py_index x 2 in
      let* s0 := py_index (w_strides wd) 0 in
      let* o0 := auto_pad_same x2 s0 in
      if Nat.eqb (length x) 4 then
        let* x3 := py_index x 3 in
        let* s1 := py_index (w_strides wd) 1 in
        let* o1 := auto_pad_same x3 s1 in
        SOk [n; c; o0; o1]
      else SOk [n; c; o0]
  | Valid =>
      let* x2 := py_index x 2 in
      let* w2 := py_index w 2 in
      let* s0 := py_index (w_strides wd) 0 in
      let* o0 := auto_pad_valid x2 w2 s0 in
      let* n := py_index x 0 in
      let* c := py_index w 0 in
      if Nat.eqb (length x) 4 then
        let* x3 := py_index x 3 in
        let* w3 := py_index w 3 in
        let* s1 := py_index (w_strides wd) 1 in
        let* o1 := auto_pad_valid x3 w3 s1 in
        SOk [n; c; o0; o1]
      else SOk [n; c; o0]
  | OtherPad => SRaise AssertErr
  | Explicit =>
      if Nat.eqb (length x) 5 then
        let* od := conv_axis wd x w 0 0 3 in
        let* oh := conv_axis wd x w 1 1 4 in
        let* ow := conv_axis wd x w 2 2 5 in
        let* n := py_index x 0 in
        let* c := py_index w 0 in
        SOk [n; c; od; oh; ow]
      else if Nat.eqb (length x) 4 then
        let* oh := conv_axis wd x w 0 0 2 in
        let* ow := conv_axis wd x w 1 1 3 in
        let* n := py_index x 0 in
        let* c := py_index w 0 in
        SOk [n; c; oh; ow]
      else if Nat.eqb (length x) 3 then
        let* oh := conv_axis wd x w 0 0 1 in
        let* n := py_index x 0 in
        let* c := py_index w 0 in
        SOk [n; c; oh]
      else SOk []
  end.

(** node.py:1388-1452 [PoolBase.shape_infer] (MaxPool, AveragePool).  A kernel of rank other
    than 1, 2, 3 leaves [outshape] unassigned (UnboundLocalError). *)
Definition pool_axis (wd : window) (ks x : list Z) (ceil : bool) (i p q d : Z) : sres Z :=
  let* xi := py_index x (2 + i) in
  let* p0 := py_index (w_pads wd) p in
  let* p1 := py_index (w_pads wd) q in
  let* ki := py_index ks i in
  let* dl := py_index (w_dilations wd) d in
  let* st := py_index (w_strides wd) i in
  pooling_shape_calc xi (p0 + p1) ki dl st ceil.
Definition pool_shape (wd : window) (ks : list Z) (ceil : bool) (x : shape) : sres shape :=
  match w_autopad wd with
  | SameLower | SameUpper =>
      let* x2 := py_index x 2 in
      let* s0 := py_index (w_strides wd) 0 in
      let* o0 := auto_pad_same x2 s0 in
      if Nat.eqb (length (w_strides wd)) 2 then
        let* x3 := py_index x 3 in
        let* s1 := py_index (w_strides wd) 1 in
        let* o1 := auto_pad_same x3 s1 in
        SOk (firstn 2 x ++ [o0; o1])
      else SOk (firstn 2 x ++ [o0])
  | Valid =>
      let* x2 := py_index x 2 in
      let* k0 := py_index ks 0 in
      let* s0 := py_index (w_strides wd) 0 in
      let* o0 := auto_pad_valid x2 k0 s0 in
      if Nat.eqb (length (w_strides wd)) 2 then
        let* x3 := py_index x 3 in
        let* k1 := py_index ks 1 in
        let* s1 := py_index (w_strides wd) 1 in
        let* o1 := auto_pad_valid x3 k1 s1 in
        SOk (firstn 2 x ++ [o0; o1])
      else SOk (firstn 2 x ++ [o0])
  | OtherPad => SOk (firstn 2 x)
  | Explicit =>
      if Nat.eqb (length ks) 1 then
        let* o0 := pool_axis wd ks x ceil 0 0 1 0 in SOk (firstn 2 x ++ [o0])
      else if Nat.eqb (length ks) 2 then
        let* o0 := pool_axis wd ks x ceil 0 0 2 0 in
        let* o1 := pool_axis wd ks x ceil 1 1 3 1 in
        SOk (firstn 2 x ++ [o0; o1])
      else if Nat.eqb (length ks) 3 then
        let* o0 := pool_axis wd ks x ceil 0 0 0 0 in
        let* o1 := pool_axis wd ks x ceil 1 1 1 1 in
        let* o2 := pool_axis wd ks x ceil 2 2 2 1 in
        SOk (firstn 2 x ++ [o0; o1; o2])
      else SRaise UnboundErr
  end.

(** node.py:2676-2724 [ConvTransposeNode.shape_infer] with the default output_shape (0, 0)
    (the explicit output_shape branch copies the attribute and is not modelled). *)
Definition convt_axis (wd : window) (opad : list Z) (x w : shape) (i p q : Z) : sres Z :=
  let* xi := py_index x (2 + i) in
  let* op := py_index opad i in
  let* p0 := py_index (w_pads wd) p in
  let* p1 := py_index (w_pads wd) q in
  let* ki := py_index w (2 + i) in
  let* st := py_index (w_strides wd) i in
  let* dl := py_index (w_dilations wd) i in
  SOk (convtranspose_output_shape xi op (p0 + p1) ki st dl).
Definition convtranspose_shape (wd : window) (opad : list Z) (group : Z) (x w : shape) : sres shape :=
  let* w1 := py_index w 1 in
  let outc := group * w1 in
  if Nat.eqb (length x) 5 then
    let* od := convt_axis wd opad x w 0 0 3 in
    let* ow := convt_axis wd opad x w 1 1 4 in
    let* oh := convt_axis wd opad x w 2 2 5 in
    let* n := py_index x 0 in
    SOk [n; outc; od; ow; oh]
  else if Nat.eqb (length x) 4 then
    let* ow := convt_axis wd opad x w 0 0 2 in
    let* oh := convt_axis wd opad x w 1 1 3 in
    let* n := py_index x 0 in
    SOk [n; outc; ow; oh]
  else if Nat.eqb (length x) 3 then
    let* ow := convt_axis wd opad x w 0 0 1 in
    let* n := py_index x 0 in
    SOk [n; outc; ow]
  else SOk [].

(** ** Slice *)
(** node.py:1757-1800: the effective (start, end, step) of one sliced axis. *)
Definition eff_slice (dim s e st : Z) : Z * Z * Z :=
  let s := if s <? 0 then dim + s else s in
  let e := if e <? 0 then dim + e else e in
  if st <? 0
  then (Z.max 0 (Z.min s (dim - 1)), Z.max (-1) (Z.min e (dim - 1)), st)
  else (Z.max 0 (Z.min s dim), Z.max 0 (Z.min e dim), st).
(** node.py:1806-1840: the size of one axis from its effective values. *)
Definition slice_size (eff : Z * Z * Z) : sres Z :=
  let '(s, e, st) := eff in
  if 0 <? st then
    let span := e - s in
    if span <=? 0 then SOk 0 else SOk (py_ceil (fdiv_int span st))
  else
    let span := s - e in
    if span <=? 0 then SOk 0
    else if st =? 0 then SRaise ZeroDivErr
    else SOk (py_ceil (fdiv_int span (Z.abs st))).
(** [l[i] = v] for an index already known to be in range. *)
Fixpoint set_nth {A} (l : list A) (i : nat) (v : A) : list A :=
  match l, i with
  | [], _ => []
  | _ :: r, O => v :: r
  | x :: r, S i' => x :: set_nth r i' v
  end.
(** Python [l[i] = v] *)
Definition py_store {A} (l : list A) (i : Z) (v : A) : sres (list A) :=
  let j := if i <? 0 then i + zlen l else i in
  if (j <? 0) || (zlen l <=? j) then SRaise IndexErr else SOk (set_nth l (Z.to_nat j) v).
(** node.py:1748-1804: the loop over [enumerate(axes)]. *)
Fixpoint slice_loop (inshape : shape) (axes starts ends steps : list Z) (idx : Z) (eff : list (Z * Z * Z)) : sres (list (Z * Z * Z)) :=
  match axes with
  | [] => SOk eff
  | axis :: rest =>
      let* s := py_index starts idx in
      let* e := py_index ends idx in
      let* st := py_index steps idx in
      let* dim := py_index inshape axis in
      let* eff' := py_store eff axis (eff_slice dim s e st) in
      slice_loop inshape rest starts ends steps (idx + 1) eff'
  end.
(** node.py:1706-1843 [SliceNode.shape_infer]; [axes] and [steps] are [None] when absent. *)
Definition slice_shape (inshape : shape) (starts ends : list Z) (axes steps : option (list Z)) : sres shape :=
  let r := length inshape in
  let axes := match axes with Some a => a | None => zrange r end in
  let axes := axes_neg2pos (Z.of_nat r) axes in
  let steps := match steps with Some s => s | None => repeat 1 (length starts) end in
  let* eff := slice_loop inshape axes starts ends steps 0 (map (fun d => (0, d, 1)) inshape) in
  smap slice_size eff.

(** ** Layout operators *)
(** node.py:2739-2763 [ReshapeNode.shape_infer]; the requested shape is a rank-1 tensor.
    An empty request is not a valid ndarray (tensor.py:183-193) and yields [1]. *)
Fixpoint reshape_fill (src req : list Z) (i : Z) : sres (list Z) :=
  match req with
  | [] => SOk []
  | v :: r =>
      let* d := if v =? 0 then py_index src i else SOk v in
      let* t := reshape_fill src r (i + 1) in
      SOk (d :: t)
  end.
Fixpoint replace_m1 (l : list Z) (v : Z) : list Z :=
  match l with
  | [] => []
  | x :: r => if x =? -1 then v :: r else x :: replace_m1 r v
  end.
Definition reshape_shape (src req : shape) : sres shape :=
  match req with
  | [] => SOk [1]
  | _ =>
      let* newshape := reshape_fill src req 0 in
      let sum := volume newshape in
      let raw := volume src in
      let newshape := if sum <? 0 then replace_m1 newshape (raw / (- sum)) else newshape in
      if raw =? volume newshape then SOk newshape else SRaise AssertErr
  end.

(** node.py:2912-2951 [SplitNode.shape_infer]: [split] is the attribute, [split_in] the
    value of the second input, [nout] the number of outputs. *)
Definition split_sizes (split split_in : option (list Z)) (dim : Z) (nout : nat) : sres (list Z) :=
  match split with
  | Some s => SOk s
  | None =>
      match split_in with
      | Some s => SOk s
      | None =>
          if Nat.eqb nout 0 then SRaise ZeroDivErr
          else if dim mod Z.of_nat nout =? 0 then SOk (repeat (dim / Z.of_nat nout) nout)
          else
            let div := dim / Z.of_nat nout + 1 in
            let sp := repeat div nout in
            SOk (firstn (nout - 1) sp ++ [div + (dim - fold_left Z.add sp 0)])
      end
  end.
Fixpoint split_shapes (inshape : shape) (axis dim : Z) (sp : list Z) (end_ : Z) : list shape :=
  match sp with
  | [] => []
  | v :: r =>
      map (fun p => let '(i, d) := p in if Z.of_nat i =? axis then (if end_ + v <? dim then v else dim - end_) else d)
          (combine (seq 0 (length inshape)) inshape)
      :: split_shapes inshape axis dim r (end_ + v)
  end.
(** axis [None]: [inshape[None]] or [None < 0] raises TypeError. *)
Definition split_shape (axis : option Z) (split split_in : option (list Z)) (nout : nat) (inshape : shape) : sres (list shape) :=
  match axis with
  | None => SRaise TypeErr
  | Some axis =>
      let* dim := py_index inshape axis in
      let* sp := split_sizes split split_in dim nout in
      SOk (split_shapes inshape (if axis <? 0 then zlen inshape + axis else axis) dim sp 0)
  end.

(** node.py:835-848 [TransposeNode.shape_infer] *)
Definition transpose_shape (perm : option (list Z)) (x : shape) : sres shape :=
  match perm with
  | None => SOk (rev x)
  | Some p => smap (py_index x) p
  end.

(** node.py:1264-1285 [UnsqueezeNode.shape_infer]; the inner loop with its index [idx]. *)
Fixpoint unsqueeze_loop (axes : list Z) (inshape : shape) (is : list Z) (idx : Z) : sres shape :=
  match is with
  | [] => SOk []
  | i :: r =>
      if zmem i axes then let* t := unsqueeze_loop axes inshape r idx in SOk (1 :: t)
      else
        let* d := py_index inshape idx in
        let* t := unsqueeze_loop axes inshape r (idx + 1) in
        SOk (d :: t)
  end.
Definition unsqueeze_shape (axes : list Z) (x : shape) : sres shape :=
  let n := (length x + length axes)%nat in
  unsqueeze_loop (axes_neg2pos (Z.of_nat n) axes) x (zrange n) 0.

(** Dimensions whose position is not in [axes] (the loop shape of Squeeze and Reduce). *)
Fixpoint keep_axes (axes : list Z) (x : shape) (i : Z) : shape :=
  match x with
  | [] => []
  | d :: r => if zmem i axes then keep_axes axes r (i + 1) else d :: keep_axes axes r (i + 1)
  end.
(** node.py:1300-1316 [SqueezeNode.shape_infer] *)
Definition squeeze_shape (axes : list Z) (x : shape) : shape :=
  keep_axes (axes_neg2pos (zlen x) axes) x 0.

(** node.py:1908-1926 [ReduceMeanNode.shape_infer] (ReduceMean/Sum/Prod/Min/Max);
    [None]: the output tensor's shape is not updated. *)
Fixpoint reduce_loop (axes : list Z) (keepdims : bool) (x : shape) (i : Z) : shape :=
  match x with
  | [] => []
  | d :: r =>
      if zmem i axes then (if keepdims then 1 :: reduce_loop axes keepdims r (i + 1) else reduce_loop axes keepdims r (i + 1))
      else d :: reduce_loop axes keepdims r (i + 1)
  end.
Definition reduce_shape (axes : option (list Z)) (keepdims : bool) (x : shape) : option shape :=
  match axes with
  | None => None
  | Some a => Some (reduce_loop (axes_neg2pos (zlen x) a) keepdims x 0)
  end.

(** node.py:1038-1046 [ConcatNode.shape_infer] *)
Fixpoint concat_loop (axis : Z) (out : shape) (rest : list shape) : sres shape :=
  match rest with
  | [] => SOk out
  | s :: r =>
      let* d := py_index s axis in
      let* o := py_index out axis in
      let* out' := py_store out axis (o + d) in
      concat_loop axis out' r
  end.
Definition concat_shape (axis : Z) (ins : list shape) : sres shape :=
  match ins with
  | [] => SRaise IndexErr
  | s :: r => concat_loop axis s r
  end.

(** node.py:950-966 [GatherNode.shape_infer] *)
Definition gather_shape (axis : Z) (x idx : shape) : shape :=
  let a := if axis <? 0 then zlen x + axis else axis in
  flat_map (fun p => let '(i, d) := p in if Z.of_nat i =? a then idx else [d]) (combine (seq 0 (length x)) x).

(** node.py:1534-1558 [ExpandNode.shape_infer] *)
Definition expand_shape (x e : shape) : shape :=
  let n := Nat.max (length x) (length e) in
  map (fun p => Z.max (fst p) (snd p)) (combine (pad_left n x) (pad_left n e)).

(** node.py:1568-1584 [PadNode.shape_infer]; neither attribute nor input: the loop adds nothing. *)
Fixpoint pad_loop (pads : list Z) (n i : Z) (x : shape) : sres shape :=
  match x with
  | [] => SOk []
  | v :: r =>
      let* p := py_index pads i in
      let* q := py_index pads (i + n) in
      let* t := pad_loop pads n (i + 1) r in
      SOk (v + p + q :: t)
  end.
Definition pad_shape (pads : option (list Z)) (x : shape) : sres shape :=
  match pads with Some p => pad_loop p (zlen x) 0 x | None => SOk [] end.

(** The number of elements of a numpy array of this shape (1 for a scalar). *)
Definition numel (s : shape) : Z := fold_right Z.mul 1 s.
(** numpy [x.reshape((v, -1))] on the shape level: ValueError unless v > 0 divides the size. *)
Definition np_reshape_2d (v : Z) (x : shape) : sres shape :=
  if (v <=? 0) then SRaise ValueErr
  else if numel x mod v =? 0 then SOk [v; numel x / v] else SRaise ValueErr.
(** node.py:1651-1664 [FlattenNode.value_infer] (also its shape inference, 206-207). *)
Fixpoint prod_upto (x : shape) (is : list Z) (acc : Z) : sres Z :=
  match is with
  | [] => SOk acc
  | i :: r => let* d := py_index x i in prod_upto x r (acc * d)
  end.
Definition flatten_shape (axis : option Z) (x : shape) : sres shape :=
  match axis with
  | None => let* d := py_index x 0 in np_reshape_2d d x
  | Some a => let* v := prod_upto x (zrange (Z.to_nat a)) 1 in np_reshape_2d v x
  end.

(** node.py:2005-2024 [TopKNode.shape_infer] with a given axis. *)
Definition topk_shape (axis : Z) (k : Z) (x : shape) : shape :=
  let a := if axis <? 0 then zlen x + axis else axis in
  map (fun p => let '(i, d) := p in if Z.of_nat i =? a then k else d) (combine (seq 0 (length x)) x).

(** node.py:1069-1074 [DepthToSpaceNode.shape_infer] *)
Definition depth_to_space_shape (b : Z) (x : shape) : sres shape :=
  match x with
  | [n; c; h; w] => if b * b =? 0 then SRaise ZeroDivErr else SOk [n; c / (b * b); h * b; w * b]
  | _ => SRaise ValueErr
  end.

(** node.py:1503-1510 [GlobalAveragePoolNode.shape_infer] *)
Definition global_pool_shape (x : shape) : shape := firstn 2 x ++ repeat 1 (length x - 2).

(** node.py:1101-1110 [OneHotNode.shape_infer]; Python [list.insert(axis, depth)] clamps. *)
Definition py_insert {A} (l : list A) (i : Z) (v : A) : list A :=
  let j := if i <? 0 then Z.max 0 (i + zlen l) else Z.min i (zlen l) in
  firstn (Z.to_nat j) l ++ v :: skipn (Z.to_nat j) l.
Definition onehot_shape (axis depth : Z) (x : shape) : shape :=
  py_insert x (if axis <? 0 then zlen x + 1 + axis else axis) depth.
