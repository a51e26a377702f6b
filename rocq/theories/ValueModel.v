(** Value inference: the [value_infer] methods of onnx_tool/node.py that do more than hand the operands to one numpy call.
    A numpy array is its shape and its elements by index tuple ([el] is only meaningful inside the shape). The numpy
    primitives the methods call ([expand_dims], [squeeze], [split], basic slicing, element access) are modelled after the
    numpy manual; slice bounds follow CPython's PySlice_AdjustIndices.
    Simplified: dtypes are not represented unless a definition says so; numbers are unbounded and exact. *)
From Verif Require Import PyBase GraphModel ShapeModel.
Open Scope Z_scope.

Record arr (T : Type) := mkarr { shp : list Z; el : list Z -> T }.
Arguments mkarr {T}. Arguments shp {T}. Arguments el {T}.

(** ** numpy primitives *)
(** CPython Objects/sliceobject.c [PySlice_AdjustIndices]: the adjusted start and the number of indices of
    [start:stop:step] on a dimension of size [n] *)
Definition adjust (n step i : Z) : Z :=
  if i <? 0 then (let i := i + n in if i <? 0 then (if step <? 0 then -1 else 0) else i)
  else if n <=? i then (if step <? 0 then n - 1 else n) else i.
Definition slice_start (n start step : Z) : Z := adjust n step start.
Definition slice_len (n start stop step : Z) : Z :=
  let s := adjust n step start in let e := adjust n step stop in
  if step <? 0 then (if e <? s then (s - e - 1) / (- step) + 1 else 0)
  else if s <? e then (e - s - 1) / step + 1 else 0.
(** [x[:, ..., start:stop:step, ...]] with [k] full slices in front *)
Definition np_slice {T} (k : nat) (start stop step : Z) (x : arr T) : sres (arr T) :=
  if Nat.leb (length (shp x)) k then SRaise IndexErr
  else if step =? 0 then SRaise ValueErr
  else let n := nth k (shp x) 0 in
       SOk {| shp := set_nth (shp x) k (slice_len n start stop step);
              el := fun i => el x (set_nth i k (slice_start n start step + nth k i 0 * step)) |}.
Definition insert_at {A} (l : list A) (k : nat) (v : A) : list A := firstn k l ++ v :: skipn k l.
Definition remove_at {A} (l : list A) (k : nat) : list A := firstn k l ++ skipn (S k) l.
(** numpy's [normalize_axis_index]: AxisError is a ValueError *)
Definition np_axis (rank axis : Z) : sres nat :=
  if (axis <? - rank) || (rank <=? axis) then SRaise ValueErr
  else SOk (Z.to_nat (if axis <? 0 then axis + rank else axis)).
(** [numpy.expand_dims(x, axis)] *)
Definition np_expand_dims {T} (axis : Z) (x : arr T) : sres (arr T) :=
  let* k := np_axis (Z.of_nat (S (length (shp x)))) axis in
  SOk {| shp := insert_at (shp x) k 1; el := fun i => el x (remove_at i k) |}.
(** [numpy.squeeze(x, axis)] *)
Definition np_squeeze {T} (axis : Z) (x : arr T) : sres (arr T) :=
  let* k := np_axis (Z.of_nat (length (shp x))) axis in
  if nth k (shp x) 0 =? 1 then SOk {| shp := remove_at (shp x) k; el := fun i => el x (insert_at i k 0) |}
  else SRaise ValueErr.
(** [numpy.split(x, positions, axis)]: the slices between consecutive positions *)
Fixpoint np_split_from {T} (axis : nat) (from : Z) (pos : list Z) (x : arr T) : list (sres (arr T)) :=
  match pos with
  | [] => [np_slice axis from (nth axis (shp x) 0) 1 x]
  | p :: r => np_slice axis from p 1 x :: np_split_from axis p r x
  end.
Definition np_split {T} (axis : nat) (pos : list Z) (x : arr T) : sres (list (arr T)) := smap (fun r => r) (np_split_from axis 0 pos x).

(** ** Slice *)
(** node.py:1856-1869, 1875-1888, 1890-1903: the loop over [axes]; axes other than 0..4 are passed over.
    [steps] is [None] in the forms without steps. *)
Fixpoint slice_values {T} (axes : list Z) (starts ends : list Z) (steps : option (list Z)) (index : Z) (x : arr T) : sres (arr T) :=
  match axes with
  | [] => SOk x
  | i :: rest =>
      let* x' :=
        (if (0 <=? i) && (i <=? 4) then
           let* s := py_index starts index in let* e := py_index ends index in
           let* st := match steps with Some l => py_index l index | None => SOk 1 end in
           np_slice (Z.to_nat i) s e st x
         else SOk x) in
      slice_values rest starts ends steps (index + 1) x'
  end.
(** node.py:1845-1904 [SliceNode.value_infer]: the inputs after the data; the attribute form (opset < 10) has no inputs but
    the attributes [starts], [ends], [axes] and follows the same loop *)
Definition slice_value {T} (x : arr T) (starts ends : list Z) (axes steps : option (list Z)) : sres (arr T) :=
  match axes, steps with
  | None, _ => let* s := py_index starts 0 in let* e := py_index ends 0 in np_slice 0 s e 1 x
  | Some a, st => slice_values a starts ends st 0 x
  end.

(** ** Unsqueeze, Squeeze *)
(** node.py:1288-1296 [UnsqueezeNode.value_infer] *)
Fixpoint unsqueeze_value {T} (axes : list Z) (x : arr T) : sres (arr T) :=
  match axes with [] => SOk x | a :: r => let* y := np_expand_dims a x in unsqueeze_value r y end.
(** node.py:1319-1327 [SqueezeNode.value_infer]; absent axes are [[0]] (node.py:1303) *)
Fixpoint squeeze_values {T} (axes : list Z) (idx : Z) (x : arr T) : sres (arr T) :=
  match axes with [] => SOk x | a :: r => let* y := np_squeeze (a - idx) x in squeeze_values r (idx + 1) y end.
Definition squeeze_value {T} (axes : option (list Z)) (x : arr T) : sres (arr T) :=
  squeeze_values (match axes with Some a => a | None => [0] end) 0 x.

(** ** Split *)
(** node.py:2977-2981: the positions *)
Fixpoint split_positions (dim : Z) (sp : list Z) (end_ : Z) : list Z :=
  match sp with [] => [] | v :: r => if dim <=? end_ + v then [] else (end_ + v) :: split_positions dim r (end_ + v) end.
(** node.py:2958-2984 [SplitNode.value_infer]: the pieces, assigned in order to the outputs *)
Definition split_value {T} (axis : option Z) (split split_in : option (list Z)) (nout : nat) (x : arr T) : sres (list (arr T)) :=
  match axis with
  | None => SRaise TypeErr
  | Some axis =>
      let inshape := shp x in
      let* dim0 := (match split, split_in with None, None => py_index inshape axis | _, _ => SOk 0 end) in
      let* sp := split_sizes split split_in dim0 nout in
      let axis' := if axis <? 0 then zlen inshape + axis else axis in
      let* dim := py_index inshape axis' in
      let* ret := np_split (Z.to_nat axis') (split_positions dim sp 0) x in
      if Nat.leb (length ret) nout then SOk ret else SRaise IndexErr
  end.

(** ** Gather elements, one-hot *)
(** [x[idx]] with integer indices: negative ones count from the end *)
Fixpoint np_index (sh idx : list Z) : sres (list Z) :=
  match sh, idx with
  | [], [] => SOk []
  | d :: s, i :: r =>
      if (i <? - d) || (d <=? i) then SRaise IndexErr
      else let* t := np_index s r in SOk ((if i <? 0 then i + d else i) :: t)
  | _, _ => SRaise IndexErr
  end.
