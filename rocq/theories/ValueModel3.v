(** Value inference, part 3: operators that read or write at computed indices (GatherND, ScatterND, OneHot, ArgMax), Pad,
    Reshape, ReduceSum and its relatives, ConstantOfShape, Shape. Conventions as in ValueModel.v and ValueModel2.v: an array is its
    shape and its elements by index tuple, numbers are exact, dtypes are not represented. *)
From Verif Require Import PyBase GraphModel ShapeModel ValueModel ValueModel2.
From Coq Require Import Bool.
Open Scope list_scope. Open Scope Z_scope.

(** [indices[i]] for an array of rank [length i + 1]: the last axis, as a tuple *)
Definition nd_row (ind : arr Z) (k : Z) (i : list Z) : list Z := map (fun j => el ind (i ++ [j])) (pyrange k).
(** [l[:-1]] *)
Definition but_last {A} (l : list A) : list A := firstn (length l - 1) l.

(** ** GatherND *)
(** node.py:2424-2455 [GatherNDNode.shape_infer] ([batch_dims] is the literal 0) *)
Definition gather_nd_shape (data ish : shape) : sres shape :=
  let* k := py_index ish (-1) in
  if zlen data <? k then SRaise AssertErr
  else SOk (if k =? zlen data then but_last ish else but_last ish ++ skipn (Z.to_nat k) data).
(** node.py:2361-2404 [gather_nd_impl] with [batch_dims] = 0, called by node.py:2457-2461 whatever the attribute says.
    [indices.reshape(1, -1, 0)] is a ValueError in numpy. The buffer holds one sub-array per row; [reshape] keeps the order, so the
    values are the concatenation. *)
Definition gather_nd_value {T} (batch_dims : Z) (x : arr T) (ind : arr Z) : sres (list Z * list T) :=
  let* k := py_index (shp ind) (-1) in
  if zlen (shp x) <? k then SRaise AssertErr
  else if k =? 0 then SRaise ValueErr
  else
    let os := if k =? zlen (shp x) then but_last (shp ind) else but_last (shp ind) ++ skipn (Z.to_nat k) (shp x) in
    let* rows := smap (fun i =>
        let* p := np_index (firstn (Z.to_nat k) (shp x)) (nd_row ind k i) in
        SOk (map (fun r => el x (p ++ r)) (ndindex (skipn (Z.to_nat k) (shp x))))) (ndindex (but_last (shp ind))) in
    SOk (os, concat rows).

(** ** ScatterND *)
(** node.py:2332-2357 [scatter_nd_impl]; [combine_ old new] is what the branch on [reduction] does with one element *)
Definition scatter_step {T} (combine_ : T -> T -> T) (sh : list Z) (ind : arr Z) (upd : arr T) (k : Z) (out : list Z -> T) (i : list Z) : sres (list Z -> T) :=
  let* p := np_index (firstn (Z.to_nat k) sh) (nd_row ind k i) in
  SOk (fun o => if shape_eqb (firstn (Z.to_nat k) o) p then combine_ (out o) (el upd (i ++ skipn (Z.to_nat k) o)) else out o).
Definition scatter_nd_impl {T} (combine_ : T -> T -> T) (x : arr T) (ind : arr Z) (upd : arr T) : sres (arr T) :=
  let* k := py_index (shp ind) (-1) in
  if zlen (shp x) <? k then SRaise AssertErr
  else if negb (shape_eqb (shp upd) (but_last (shp ind) ++ skipn (Z.to_nat k) (shp x))) then SRaise AssertErr
  else let* out := sfold (scatter_step combine_ (shp x) ind upd k) (ndindex (but_last (shp ind))) (el x) in
       SOk {| shp := shp x; el := out |}.
(** node.py:2345-2354: the branches, on integers *)
Definition reduction_of (r : string) (old new : Z) : Z :=
  if (r =? "add")%string then old + new else if (r =? "mul")%string then old * new
  else if (r =? "max")%string then Z.max old new else if (r =? "min")%string then Z.min old new else new.
(** node.py:2414-2418 [ScatterNDNode.value_infer]: the attribute [reduction] is not passed on *)
Definition scatter_nd_value (reduction : string) (x ind upd : arr Z) : sres (arr Z) := scatter_nd_impl (reduction_of "none") x ind upd.

(** ** OneHot *)
(** node.py:1083-1096 [one_hot] and 1114-1119 [OneHotNode.value_infer]: the result is the comparison cast to float32, and [values]
    is read but not used; [numpy.mod] by 0 gives 0. [s[0:axis]], [s[axis:rank]] clamp like Python slices. *)
Definition one_hot_value (axis : Z) (ind : arr Z) (depth : Z) (values : Z * Z) : sres (arr Z) :=
  let rank := zlen (shp ind) in
  let axis := if axis <? 0 then axis + (rank + 1) else axis in
  let a := Z.to_nat (if axis <? 0 then Z.max 0 (axis + rank) else Z.min axis rank) in
  SOk {| shp := firstn a (shp ind) ++ Z.max 0 depth :: skipn a (shp ind);
         el := fun o => if nth a o 0 =? (if depth =? 0 then 0 else el ind (remove_at o a) mod depth) then 1 else 0 |}.

(** ** ArgMax *)
(** [numpy.argmax] of a list: the position of the first largest element *)
Fixpoint argmax_from (l : list Z) (i best bestv : Z) : Z :=
  match l with [] => best | v :: r => if bestv <? v then argmax_from r (i + 1) i v else argmax_from r (i + 1) best bestv end.
Definition argmax_list (l : list Z) : Z := match l with [] => 0 | v :: r => argmax_from r 1 0 v end.
(** [numpy.argmax(x, axis)]: ValueError when the axis is empty *)
Definition np_argmax (axis : Z) (x : arr Z) : sres (arr Z) :=
  let* a := np_axis (zlen (shp x)) axis in
  if nth a (shp x) 0 =? 0 then SRaise ValueErr
  else SOk {| shp := remove_at (shp x) a;
              el := fun o => argmax_list (map (fun v => el x (insert_at o a v)) (pyrange (nth a (shp x) 0))) |}.
(** node.py:1671-1675 [argmax_use_numpy], 1685-1688 [ArgMaxNode.value_infer]; [select_last_index] is not read *)
Definition argmax_value (axis keepdims select_last_index : Z) (x : arr Z) : sres (arr Z) :=
  let* r := np_argmax axis x in
  if keepdims =? 1 then np_expand_dims axis r else SOk r.

(** ** Pad *)
(** [numpy.pad(x, pad_width, mode, constant_values=value)]: [_as_pairs] accepts one pair for all axes or one per axis, rejects
    negative ones; [constant_values] is accepted only with the mode "constant" *)
Definition np_pad {T} (x : arr T) (width : list (Z * Z)) (mode : string) (value : T) : sres (arr T) :=
  if Nat.eqb (length width) 0 || existsb (fun p => (fst p <? 0) || (snd p <? 0)) width then SRaise ValueErr
  else let* w := (match width with
                  | [p] => SOk (repeat p (length (shp x)))
                  | _ => if Nat.eqb (length width) (length (shp x)) then SOk width else SRaise ValueErr
                  end) in
  if negb (mode =? "constant")%string then SRaise ValueErr
  else SOk {| shp := map (fun q => snd q + fst (fst q) + snd (fst q)) (combine w (shp x));
              el := fun o => if forallb (fun q => let '((p, d), i) := q in (fst p <=? i) && (i <? fst p + d)) (combine (combine w (shp x)) o)
                             then el x (map (fun q => snd q - fst (fst q)) (combine w o)) else value |}.
(** node.py:1590-1605 [PadNode.value_infer]. [pads_attr] is a Python list (tensor.py:125-129), which has no [reshape]; [mode] is the
    attribute's bytes if the node has one, and otherwise the default [str] (node.py:1573), which has no [decode];
    [pads_in], [value_in]: the second and third input *)
Definition pad_value {T} (zero : T) (pads_attr : option (list Z)) (value_attr : option T) (mode : option string) (x : arr T) (pads_in : option (list Z)) (value_in : option T) : sres (arr T) :=
  match pads_attr with
  | Some _ => SRaise AttributeErr
  | None =>
      match pads_in with
      | None => SRaise UnboundErr
      | Some pads =>
          let n := Nat.div (length pads) 2 in
          if negb (Nat.eqb (length (skipn n pads)) n) then SRaise ValueErr
          else let value := match value_in with Some v => v | None => match value_attr with Some v => v | None => zero end end in
          match mode with
          | None => SRaise AttributeErr
          | Some m => np_pad x (combine (firstn n pads) (skipn n pads)) m value
          end
      end
  end.

(** ** Reshape *)
(** the position of an index tuple in the C-order buffer, and the buffer *)
Fixpoint ravel (sh i : list Z) : Z := match sh, i with d :: s, v :: r => v * numel s + ravel s r | _, _ => 0 end.
Definition buffer {T} (x : arr T) : list T := map (el x) (ndindex (shp x)).
(** [x.reshape(shape)]: at most one -1, which stands for the missing factor; any other count is a ValueError.
    Simplified: sizes below -1, which ONNX does not allow and numpy versions treat differently, are ValueErrors *)
Definition np_reshape {T} (dflt : T) (x : arr T) (sh : list Z) : sres (arr T) :=
  let known := fold_right Z.mul 1 (filter (fun v => negb (v =? -1)) sh) in
  let holes := length (filter (Z.eqb (-1)) sh) in
  if existsb (fun v => v <? -1) sh || Nat.ltb 1 holes then SRaise ValueErr
  else let* sh' :=
    (if Nat.eqb holes 0 then SOk sh
     else if known =? 0 then SRaise ValueErr
     else if negb (numel (shp x) mod known =? 0) then SRaise ValueErr
     else SOk (replace_m1 sh (numel (shp x) / known))) in
  if negb (numel sh' =? numel (shp x)) then SRaise ValueErr
  else SOk {| shp := sh'; el := fun o => nth (Z.to_nat (ravel sh' o)) (buffer x) dflt |}.
(** node.py:2765-2775 [ReshapeNode.value_infer]; [allowzero] is not read *)
Definition reshape_value {T} (dflt : T) (x : arr T) (req : list Z) : sres (arr T) :=
  let* sh := reshape_fill (shp x) req 0 in np_reshape dflt x sh.

(** ** Reductions *)
(** how the axes reach numpy: [None], a Python list (the attribute), a rank-1 array, a tuple. numpy's reductions accept [None], an
    integer or a tuple; a list or a rank-1 array is a TypeError *)
Inductive axes_arg := ANone | AList (l : list Z) | AArray (l : list Z) | ATuple (l : list Z).
Fixpoint np_axes (rank : Z) (l : list Z) : sres (list Z) :=
  match l with
  | [] => SOk []
  | a :: r => let* k := np_axis rank a in let* t := np_axes rank r in
              if zmem (Z.of_nat k) t then SRaise ValueErr else SOk (Z.of_nat k :: t)
  end.
(** [numpy.add.reduce]: every element is combined into the result element at its own index with the axes removed (or 0 there) *)
Definition np_sum (x : arr Z) (axes : axes_arg) (keepdims : bool) : sres (arr Z) :=
  let* l := (match axes with
             | ANone => SOk (zrange (length (shp x)))
             | ATuple l => np_axes (zlen (shp x)) l
             | AList _ | AArray _ => SRaise TypeErr
             end) in
  let target i := reduce_loop l false i 0 in
  let squeezed o := if keepdims then reduce_loop l false o 0 else o in
  SOk {| shp := reduce_loop l keepdims (shp x) 0;
         el := fun o => fold_left (fun s i => if shape_eqb (target i) (squeezed o) then s + el x i else s) (ndindex (shp x)) 0 |}.
(** node.py:1964-1973 [ReduceSumNode.value_infer]: the axes of the second input become a tuple, the attribute stays a list *)
Definition reduce_sum_value (axes_attr : option (list Z)) (keepdims noop_with_empty_axes : Z) (x : arr Z) (axes_in : option (list Z)) : sres (arr Z) :=
  np_sum x (match axes_in with Some l => ATuple l | None => match axes_attr with Some l => AList l | None => ANone end end) (keepdims =? 1).
(** node.py:1930-1936 (ReduceMean), 1943-1949 (ReduceProd), 1976-1983 (ReduceMin), 1993-2001 (ReduceMax): the second input stays an
    array; [np] is the numpy reduction *)
Definition reduce_other_value {A} (np : axes_arg -> bool -> sres A) (axes_attr : option (list Z)) (keepdims : Z) (axes_in : option (list Z)) : sres A :=
  np (match axes_in with Some l => AArray l | None => match axes_attr with Some l => AList l | None => ANone end end) (keepdims =? 1).

(** ** ConstantOfShape, Shape *)
(** node.py:2849-2853 [ConstantOfShapeNode.value_infer]; the attribute is a rank-1 array (here: its elements) *)
Definition constant_of_shape_value (value : option (list Z)) (req : list Z) : sres (arr Z) :=
  match value with
  | None => SRaise AttributeErr
  | Some l => if existsb (fun d => d <? 0) req then SRaise ValueErr
              else SOk {| shp := req; el := fun _ => match l with [v] => v | _ => 0 end |}
  end.
(** node.py:1331-1334 [ShapeNode.value_infer]; [start] and [end] are not read *)
Definition shape_value {T} (start_ end_ : option Z) (x : arr T) : list Z := shp x.
