(** Value inference, part 2: the operators that compute (Conv, MaxPool, Gemm, GlobalAveragePool) and the element-wise ones
    whose [value_infer] has logic of its own. Exact arithmetic; see ValueModel.v. *)
From Verif Require Import PyBase GraphModel ShapeModel ValueModel.
From Coq Require Import Bool.
Open Scope list_scope. Open Scope Z_scope.

(** [numpy.ndindex(shape)]: all index tuples, last index fastest *)
Definition pyrange (n : Z) : list Z := map Z.of_nat (seq 0 (Z.to_nat n)).
Fixpoint ndindex (sh : list Z) : list (list Z) :=
  match sh with [] => [[]] | d :: r => flat_map (fun i => map (cons i) (ndindex r)) (pyrange d) end.
(** a [for] loop with one accumulator, whose body may raise *)
Fixpoint sfold {A B} (f : B -> A -> sres B) (l : list A) (b : B) : sres B :=
  match l with [] => SOk b | a :: r => let* b' := f b a in sfold f r b' end.
(** [x[tuple]] *)
Definition np_at {T} (x : arr T) (i : list Z) : sres T := let* j := np_index (shp x) i in SOk (el x j).
Definition shape_eqb (a b : list Z) : bool := if list_eq_dec Z.eq_dec a b then true else false.
(** tensor.py:436-441 [Tensor.get_numpy] after [update_shape(os)]: the array left by an earlier run if it has the shape,
    zeros otherwise *)
Definition out_numpy {T} (zero : T) (prev : option (arr T)) (os : list Z) : list Z -> T :=
  match prev with Some p => if shape_eqb (shp p) os then el p else fun _ => zero | None => fun _ => zero end.

Section Compute.
Context {T : Type} (zero : T) (add mul : T -> T -> T).

(** ** Conv, node.py:2183-2217 [ConvNode.value_infer] *)
(** the body of the inner loop, 2204-2215 *)
Definition conv_step (wd : window) (x w : arr T) (batch ocn oh ow : Z) (t : T) (j : list Z) : sres T :=
  match j with
  | [icn; kh; kw] =>
      let* s0 := py_index (w_strides wd) 0 in let* d0 := py_index (w_dilations wd) 0 in let* p0 := py_index (w_pads wd) 0 in
      let* s1 := py_index (w_strides wd) 1 in let* d1 := py_index (w_dilations wd) 1 in let* p1 := py_index (w_pads wd) 1 in
      let* xh := py_index (shp x) 2 in let* xw := py_index (shp x) 3 in
      let srch := oh * s0 + kh * d0 - p0 in
      let srcw := ow * s1 + kw * d1 - p1 in
      let* srcv := (if (srch <? 0) || (xh <=? srch) || (srcw <? 0) || (xw <=? srcw) then SOk zero else np_at x [batch; icn; srch; srcw]) in
      let* wv := np_at w (ocn :: j) in
      SOk (add t (mul srcv wv))
  | _ => SRaise IndexErr
  end.
(** [prev] is what the output tensor held before the call; the result is the shape and the values in [ndindex] order *)
Definition conv_value (wd : window) (group : Z) (prev : option (arr T)) (x w : arr T) (bias : option (arr T)) : sres (list Z * list T) :=
  if negb (group =? 1) then SRaise NotImplErr else
  let* os := conv_shape wd (shp x) (shp w) in
  if negb (Nat.eqb (length (shp w)) 4) then SRaise NotImplErr else
  let* vals := smap (fun i =>
      match i with
      | [batch; ocn; oh; ow] =>
          let* t := (match bias with Some b => np_at b [ocn] | None => SOk (out_numpy zero prev os i) end) in
          sfold (conv_step wd x w batch ocn oh ow) (ndindex (tl (shp w))) t
      | _ => SRaise IndexErr
      end) (ndindex os) in
  SOk (os, vals).

(** ** Gemm, node.py:896-913 [GemmNode.value_infer], rank-2 operands; [numpy.add] broadcasts [c].
    Simplified: a [c] larger than the product, which ONNX forbids and numpy would accept when m or n is 1, is rejected *)
Definition gemm_value (transA transB : Z) (a b : arr T) (c : option (arr T)) : sres (arr T) :=
  match shp a, shp b with
  | [a0; a1], [b0; b1] =>
      let m := if 0 <? transA then a1 else a0 in let k := if 0 <? transA then a0 else a1 in
      let k' := if 0 <? transB then b1 else b0 in let n := if 0 <? transB then b0 else b1 in
      if negb (k =? k') then SRaise ValueErr else
      let at_a i l := el a (if 0 <? transA then [l; i] else [i; l]) in
      let at_b l j := el b (if 0 <? transB then [j; l] else [l; j]) in
      let prod i j := fold_left (fun acc l => add acc (mul (at_a i l) (at_b l j))) (pyrange k) zero in
      match c with
      | None => SOk {| shp := [m; n]; el := fun i => prod (nth 0 i 0) (nth 1 i 0) |}
      | Some cc =>
          match shp cc with
          | [] => SOk {| shp := [m; n]; el := fun i => add (prod (nth 0 i 0) (nth 1 i 0)) (el cc []) |}
          | [d] => if (d =? n) || (d =? 1) then SOk {| shp := [m; n]; el := fun i => add (prod (nth 0 i 0) (nth 1 i 0)) (el cc [if d =? 1 then 0 else nth 1 i 0]) |} else SRaise ValueErr
          | [e; d] => if ((e =? m) || (e =? 1)) && ((d =? n) || (d =? 1)) then
               SOk {| shp := [m; n]; el := fun i => add (prod (nth 0 i 0) (nth 1 i 0)) (el cc [if e =? 1 then 0 else nth 0 i 0; if d =? 1 then 0 else nth 1 i 0]) |} else SRaise ValueErr
          | _ => SRaise ValueErr
          end
      end
  | _, _ => SRaise ValueErr
  end.

(** ** GlobalAveragePool, node.py:1512-1524 *)
Definition global_average_value (div : T -> Z -> T) (x : arr T) : sres (arr T) :=
  match shp x with
  | n :: c :: h :: w :: rest =>
      if h * w =? 0 then SRaise ZeroDivErr else
      SOk {| shp := [n; c]; el := fun i => div (fold_left (fun t j => add t (el x (i ++ j))) (ndindex [h; w]) zero) (h * w) |}
  | _ => SRaise IndexErr
  end.
End Compute.

(** ** MaxPool, node.py:1468-1489 [MaxPoolNode.value_infer], on integers *)
Definition maxpool_step (wd : window) (x : arr Z) (batch ocn oh ow : Z) (t : Z) (j : list Z) : sres Z :=
  match j with
  | kh :: kw :: _ =>
      let* s0 := py_index (w_strides wd) 0 in let* p0 := py_index (w_pads wd) 0 in
      let* s1 := py_index (w_strides wd) 1 in let* p1 := py_index (w_pads wd) 1 in
      let* xh := py_index (shp x) 2 in let* xw := py_index (shp x) 3 in
      let srch := oh * s0 + kh - p0 in
      let srcw := ow * s1 + kw - p1 in
      if (srch <? 0) || (xh <=? srch) || (srcw <? 0) || (xw <=? srcw) then SOk t
      else let* srcv := np_at x [batch; ocn; srch; srcw] in SOk (Z.max srcv t)
  | _ => SRaise IndexErr
  end.
Definition maxpool_value (wd : window) (ks : list Z) (ceil : bool) (prev : option (arr Z)) (x : arr Z) : sres (list Z * list Z) :=
  let* os := pool_shape wd ks ceil (shp x) in
  let* vals := smap (fun i =>
      match i with
      | [batch; ocn; oh; ow] => sfold (maxpool_step wd x batch ocn oh ow) (ndindex ks) (out_numpy 0 prev os i)
      | _ => SRaise IndexErr
      end) (ndindex os) in
  SOk (os, vals).

(** ** Element-wise operators on a pair of elements (numpy broadcasts the operands) *)
(** node.py:340-348 [DivNode.value_infer] on two int64 operands: numpy's [//] rounds towards minus infinity, x // 0 = 0 *)
Definition div_value (a b : Z) : Z := a / b.
(** node.py:357-359 [ModNode.value_infer]: [numpy.mod], whatever the attribute [fmod] says; x mod 0 = 0 *)
Definition mod_value (fmod : bool) (a b : Z) : Z := if b =? 0 then 0 else a mod b.
(** node.py:317-321 [MaxNode.value_infer] *)
Definition max_value (ins : list Z) : sres Z := match ins with [] => SRaise IndexErr | a :: r => SOk (fold_left Z.max r a) end.
(** node.py:725-729 [SumNode.value_infer] *)
Definition sum_value (ins : list Z) : sres Z := match ins with [] => SRaise IndexErr | a :: r => SOk (fold_left Z.add r a) end.
(** node.py:308-312 [MinNode.value_infer] on arrays with [size] elements each: [not] of an array with other than one element
    raises ValueError ("truth value is ambiguous"; for an empty array it is False with a warning), of one element it is the
    negation of its truth value *)
Fixpoint min_values (size : Z) (r : list Z) (acc : Z) : sres Z :=
  match r with
  | [] => SOk acc
  | b :: r' => if 1 <? size then SRaise ValueErr else min_values 1 r' (if Z.min acc b =? 0 then 1 else 0)
  end.
Definition min_value (size : Z) (ins : list Z) : sres Z := match ins with [] => SRaise IndexErr | a :: r => min_values size r a end.
(** node.py:990-1000 [ClipNode.value_infer]: the inputs after the data, with their names ("" for an omitted one) *)
Definition clip_value (bounds : list (string * Z)) (x : Z) : sres Z :=
  let* lo := (match nth_error bounds 0 with Some (n, v) => SOk (if (n =? "")%string then None else Some v) | None => SRaise IndexErr end) in
  let* hi := (match nth_error bounds 1 with Some (n, v) => SOk (if (n =? "")%string then None else Some v) | None => SRaise IndexErr end) in
  let y := match lo with Some l => Z.max x l | None => x end in
  SOk (match hi with Some h => Z.min y h | None => y end).
(** node.py:709-715 [LeakyReluNode.value_infer]: the loop variable [x] overwrites the array, so the second iteration indexes a
    scalar; [slope] multiplies by alpha *)
Definition leaky_value (slope : Z -> Z) (xs : list Z) : sres (list Z) :=
  match xs with [] => SOk [] | [v] => SOk [if 0 <=? v then v else slope v] | _ => SRaise IndexErr end.
(** node.py:2270-2276 [NonZeroNode.value_infer] on a flattened one-dimensional input: the positions of the non-zero
    elements, and every position if there is none *)
Definition positions (p : Z -> bool) (xs : list Z) : list Z :=
  map (fun q => Z.of_nat (fst q)) (filter (fun q => p (snd q)) (combine (seq 0 (length xs)) xs)).
Definition nonzero_value (xs : list Z) : list Z :=
  let r := positions (fun v => negb (v =? 0)) xs in
  match r with [] => positions (fun v => negb (v =? 0)) (map (fun _ => 1) xs) | _ => r end.
(** node.py:2788-2796 [GatherElementsNode.value_infer]: [numpy.zeros_like(indice)] gives the output the dtype of the indices;
    storing casts ([cast]) *)
Definition gather_elements_value {T} (cast : T -> T) (axis : Z) (x : arr T) (ind : arr Z) : sres (list Z * list T) :=
  let* vals := smap (fun i =>
      let* idx := py_store i axis (el ind i) in
      let* v := np_at x idx in SOk (cast v)) (ndindex (shp ind)) in
  SOk (shp ind, vals).
