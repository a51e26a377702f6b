(** What ONNX says the values of the shape-manipulating operators are, index by index. Uses the array record of the model and
    the shape rules of ShapeSpec.v, nothing else. *)
From Verif Require Import PyBase ShapeSpec CostSpec ValueModel.
From Coq Require Import Lia.
Open Scope Z_scope.

(** Slice: coordinate [a] of the source is the first selected index plus a multiple of the step if axis [a] is sliced, and
    unchanged otherwise *)
Definition slice_source (x axes starts steps i o : list Z) : Prop :=
  length o = length x /\
  (forall j a, (j < length axes)%nat -> axis_pos (length x) (nth j axes 0) = Z.of_nat a ->
     nth a o 0 = slice_first (nth a x 0) (nth j starts 0) (nth j steps 0) + nth a i 0 * nth j steps 0) /\
  (forall a, (a < length x)%nat -> ~ In (Z.of_nat a) (map (axis_pos (length x)) axes) -> nth a o 0 = nth a i 0).
Definition onnx_slice {T} (x : arr T) (axes starts ends steps : list Z) (y : arr T) : Prop :=
  sliced (shp x) axes starts ends steps (shp y) /\
  forall i, in_range (shp y) i = true ->
    exists o, slice_source (shp x) axes starts steps i o /\ in_range (shp x) o = true /\ el y i = el x o.

(** Unsqueeze: the new axes have size 1, the others are those of [x] in order, and the values do not move *)
Definition onnx_unsqueeze {T} (x : arr T) (axes : list Z) (y : arr T) : Prop :=
  let n := (length (shp x) + length axes)%nat in
  length (shp y) = n /\
  (forall a, In a axes -> nth (Z.to_nat (axis_pos n a)) (shp y) 0 = 1) /\
  dims_outside (map (axis_pos n) axes) (shp y) = shp x /\
  forall i, in_range (shp y) i = true -> el y i = el x (dims_outside (map (axis_pos n) axes) i).
(** Squeeze: the axes (of size 1) disappear, the values do not move *)
Definition onnx_squeeze {T} (x : arr T) (axes : list Z) (y : arr T) : Prop :=
  let n := length (shp x) in
  (forall a, In a axes -> nth (Z.to_nat (axis_pos n a)) (shp x) 0 = 1) /\
  shp y = dims_outside (map (axis_pos n) axes) (shp x) /\
  forall o, in_range (shp x) o = true -> el x o = el y (dims_outside (map (axis_pos n) axes) o).

(** Split at position [a] into pieces of the given sizes *)
Definition shifted (i : list Z) (a : nat) (d : Z) : list Z := with_dim i a (nth a i 0 + d).
Fixpoint onnx_split {T} (x : arr T) (a : nat) (from : Z) (sizes : list Z) (ys : list (arr T)) : Prop :=
  match sizes, ys with
  | [], [] => True
  | v :: r, y :: ys' =>
      shp y = with_dim (shp x) a v /\
      (forall i, in_range (shp y) i = true -> in_range (shp x) (shifted i a from) = true /\ el y i = el x (shifted i a from)) /\
      onnx_split x a (from + v) r ys'
  | _, _ => False
  end.

(** MaxPool (ONNX): every output element is the largest of the input elements its window touches; positions in the padding
    do not take part *)
Definition is_max (P : Z -> Prop) (m : Z) : Prop := P m /\ forall v, P v -> v <= m.
Definition in_window (x : arr Z) (strides dilations pads kernel : list Z) (o : list Z) (v : Z) : Prop :=
  exists k src, in_range kernel k = true /\ src = firstn 2 o ++ taps strides dilations pads (skipn 2 o) k
    /\ in_range (shp x) src = true /\ v = el x src.

(** Gemm (ONNX): alpha * A' * B' + beta * C, with C broadcast to the result *)
Definition onnx_gemm (alpha beta : Z) (transA transB : Z) (a b : arr Z) (c : option (list Z -> Z)) (i j k : Z) : Z :=
  alpha * fold_right (fun l s => el a (if transA =? 0 then [i; l] else [l; i]) * el b (if transB =? 0 then [l; j] else [j; l]) + s) 0 (upto k)
  + match c with Some f => beta * f [i; j] | None => 0 end.
(** C of shape [cs], read at [i] as if broadcast: an axis of size 1 repeats, missing leading axes repeat *)
Definition broadcast_read (c : arr Z) (i : list Z) : Z :=
  el c (map (fun p => if fst p =? 1 then 0 else snd p) (combine (shp c) (skipn (length i - length (shp c)) i))).

(** GatherElements (ONNX): the index tuple with the entry at [a] replaced by the index, negative ones counting from the end *)
Definition gathered {T} (x : arr T) (ind : arr Z) (a : nat) (i : list Z) : T :=
  let v := el ind i in el x (with_dim i a (if v <? 0 then v + nth a (shp x) 0 else v)).
