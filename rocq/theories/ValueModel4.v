(** Value inference, part 4: the [value_infer] methods of onnx_tool/node.py that hand their operands to one numpy function: Gather, Expand,
    Where, Tile, Trilu, CumSum, Compress, Range. Conventions as in ValueModel.v; the numpy functions are modelled after the numpy manual
    and sources. *)
From Coq Require Import Reals.
From Verif Require Import PyBase GraphModel FloatPy ShapeModel RegressModel ValueModel ValueModel2 ValueModel3.
Open Scope list_scope. Open Scope Z_scope.

(** [numpy.take(x, indices, axis)], mode 'raise': negative indices count from the end, all others outside are IndexErrors *)
Definition np_take {T} (x : arr T) (ind : arr Z) (axis : Z) : sres (arr T) :=
  let* a := np_axis (zlen (shp x)) axis in
  let d := nth a (shp x) 0 in
  let r := length (shp ind) in
  if forallb (fun i => (- d <=? el ind i) && (el ind i <? d)) (ndindex (shp ind))
  then SOk {| shp := firstn a (shp x) ++ shp ind ++ skipn (S a) (shp x);
              el := fun o => let v := el ind (firstn r (skipn a o)) in
                             el x (firstn a o ++ (if v <? 0 then v + d else v) :: skipn (a + r) o) |}
  else SRaise IndexErr.
(** node.py:978-980 [GatherNode.value_infer] *)
Definition gather_value {T} (axis : Z) (x : arr T) (ind : arr Z) : sres (arr T) := np_take x ind axis.

(** numpy broadcasting: the rule of [_broadcast_shape] (C19), shapes that do not fit are ValueErrors; the element of an operand that
    position [o] of the result reads *)
Definition np_broadcast (ss : list shape) : sres shape := broadcast_shape ss.
Definition bc_index (sh o : list Z) : list Z := map (fun p => if fst p =? 1 then 0 else snd p) (combine sh (skipn (length o - length sh) o)).
(** node.py:1562-1564 [ExpandNode.value_infer]: [x * numpy.ones(shape)] *)
Definition expand_value {T} (mul : T -> T -> T) (one : T) (x : arr T) (e : list Z) : sres (arr T) :=
  if existsb (fun d => d <? 0) e then SRaise ValueErr
  else let* os := np_broadcast [shp x; e] in SOk {| shp := os; el := fun o => mul (el x (bc_index (shp x) o)) one |}.
(** node.py:829-831 [WhereNode.value_infer] *)
Definition where_value {T} (c : arr bool) (x y : arr T) : sres (arr T) :=
  let* os := np_broadcast [shp c; shp x; shp y] in
  SOk {| shp := os; el := fun o => if el c (bc_index (shp c) o) then el x (bc_index (shp x) o) else el y (bc_index (shp y) o) |}.

(** [numpy.tile(x, reps)]: the shorter of shape and repeats is filled up with leading ones; negative repeats are ValueErrors *)
Definition np_tile {T} (x : arr T) (reps : list Z) : sres (arr T) :=
  let n := Nat.max (length (shp x)) (length reps) in
  let sh := pad_left n (shp x) in
  let rp := pad_left n reps in
  if existsb (fun d => d <? 0) rp then SRaise ValueErr
  else SOk {| shp := map (fun p => fst p * snd p) (combine sh rp);
              el := fun o => el x (skipn (n - length (shp x)) (map (fun p => snd p mod fst p) (combine sh o))) |}.
(** node.py:941-946 [TileNode.value_infer] *)
Definition tile_value {T} (x : arr T) (reps : list Z) : sres (arr T) := np_tile x reps.

(** [numpy.tri(N, M, k)]: is the entry at row [r] and column [c] one? *)
Definition np_tri (k r c : Z) : bool := c <=? r + k.
(** [numpy.tril(x, k)] is [where(tri(N, M, k), x, 0)]; [numpy.triu(x, k)] is [where(tri(N, M, k - 1), 0, x)]; rank 2 or more.
    Simplified: ranks below 2, which ONNX does not allow, are TypeErrors (numpy makes a matrix of a vector). *)
Definition np_trilu {T} (zero : T) (upper : bool) (k : Z) (x : arr T) : sres (arr T) :=
  let n := length (shp x) in
  if Nat.ltb n 2 then SRaise TypeErr
  else SOk {| shp := shp x;
              el := fun o => let r := nth (n - 2) o 0 in let c := nth (n - 1) o 0 in
                             if upper then (if np_tri (k - 1) r c then zero else el x o) else if np_tri k r c then el x o else zero |}.
(** node.py:1128-1137 [TriluNode.value_infer]; [k]: the second input, if there are two *)
Definition trilu_value {T} (zero : T) (upper : Z) (k : option Z) (x : arr T) : sres (arr T) :=
  np_trilu zero (negb (upper =? 0)) (match k with Some v => v | None => 0 end) x.

(** [numpy.cumsum(x, axis)]: running sums along the axis *)
Definition running (f : Z -> Z) (n : Z) : Z := fold_left (fun s j => s + f j) (pyrange (n + 1)) 0.
Definition np_cumsum (axis : Z) (x : arr Z) : sres (arr Z) :=
  let* a := np_axis (zlen (shp x)) axis in
  SOk {| shp := shp x; el := fun o => running (fun j => el x (set_nth o a j)) (nth a o 0) |}.
(** node.py:2261-2266 [CumSumNode.value_infer] *)
Definition cumsum_value (exclusive reverse : Z) (axis : Z) (x : arr Z) : sres (arr Z) :=
  if (exclusive =? 0) && (reverse =? 0) then np_cumsum axis x else SRaise NotImplErr.

(** [numpy.compress(cond, x, axis)]: [take] of the positions where the condition (here: integers) is not zero; without an axis, of the
    flattened array *)
Definition np_compress {T} (dflt : T) (cond : list Z) (x : arr T) (axis : option Z) : sres (arr T) :=
  let ps := positions (fun v => negb (v =? 0)) cond in
  let ind := {| shp := [zlen ps]; el := fun i => nth (Z.to_nat (nth 0 i 0)) ps 0 |} in
  match axis with
  | Some ax => np_take x ind ax
  | None => np_take {| shp := [numel (shp x)]; el := fun i => nth (Z.to_nat (nth 0 i 0)) (buffer x) dflt |} ind 0
  end.
(** node.py:2062-2064 [CompressNode.value_infer] *)
Definition compress_value {T} (dflt : T) (axis : option Z) (x : arr T) (cond : list Z) : sres (arr T) := np_compress dflt cond x axis.

(** [numpy.arange(start, stop, delta)] of int64 scalars: the length is the ceiling of the float64 quotient of the difference and the
    step, and element i is start + i * delta. A zero step divides to an infinity or a NaN: ValueError. Simplified: no overflow. *)
Definition arange_length (start stop delta : Z) : Z := Z.max 0 (py_ceil (fdiv (rnd (IZR (stop - start))) (rnd (IZR delta)))).
Definition range_value (start limit delta : Z) : sres (list Z) :=
  if delta =? 0 then SRaise ValueErr else SOk (map (fun i => start + i * delta) (pyrange (arange_length start limit delta))).
