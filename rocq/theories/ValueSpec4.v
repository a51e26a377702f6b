(** What ONNX says about the values of Gather, Expand, Where, Tile, Trilu, CumSum, Compress and Range. *)
From Verif Require Import PyBase GraphModel ShapeSpec CostSpec ValueModel ValueSpec3.
From Coq Require Import Sorted.
Open Scope list_scope. Open Scope Z_scope.

(** Gather along axis [a]: the index at [mid] selects the slice, negative indices count from the end *)
Definition onnx_gather {T} (x : arr T) (ind : arr Z) (a : nat) (y : arr T) : Prop :=
  shp y = firstn a (shp x) ++ shp ind ++ skipn (S a) (shp x) /\
  forall pre mid post, in_range (firstn a (shp x)) pre = true -> in_range (shp ind) mid = true -> in_range (skipn (S a) (shp x)) post = true ->
    el y (pre ++ mid ++ post) = el x (pre ++ from_end (nth a (shp x) 0) (el ind mid) :: post).
(** all indices are valid for a dimension of size [d] *)
Definition indices_valid (ind : arr Z) (d : Z) : Prop := forall i, in_range (shp ind) i = true -> - d <= el ind i < d.

(** [i] is the index at which an operand of shape [sh] is read for position [o] of a broadcast result: axes are aligned from the right,
    axes of size 1 repeat *)
Definition broadcast_source (sh o i : list Z) : Prop :=
  length i = length sh /\ forall j, (j < length sh)%nat -> dim_from_right i j = (if dim_from_right sh j =? 1 then 0 else dim_from_right o j).
Definition onnx_expand {T} (x : arr T) (e : list Z) (y : arr T) : Prop :=
  broadcast_of [shp x; e] (shp y) /\
  forall o, in_range (shp y) o = true -> exists i, broadcast_source (shp x) o i /\ in_range (shp x) i = true /\ el y o = el x i.
Definition onnx_where {T} (c : arr bool) (x y z : arr T) : Prop :=
  broadcast_of [shp c; shp x; shp y] (shp z) /\
  forall o, in_range (shp z) o = true -> exists k i j, broadcast_source (shp c) o k /\ broadcast_source (shp x) o i /\ broadcast_source (shp y) o j /\
    in_range (shp c) k = true /\ in_range (shp x) i = true /\ in_range (shp y) j = true /\ el z o = if el c k then el x i else el y j.

(** Tile: dimension k is repeated reps k times *)
Definition onnx_tile {T} (x : arr T) (reps : list Z) (y : arr T) : Prop :=
  length (shp y) = length (shp x) /\ (forall k, (k < length (shp x))%nat -> nth k (shp y) 0 = nth k (shp x) 0 * nth k reps 0) /\
  forall o, in_range (shp y) o = true -> exists i, in_range (shp x) i = true /\ (forall k, (k < length (shp x))%nat -> exists q, nth k o 0 = q * nth k (shp x) 0 + nth k i 0) /\ el y o = el x i.

(** Trilu: the upper triangle keeps column c of row r when c >= r + k, the lower one when c <= r + k *)
Definition onnx_trilu {T} (zero : T) (upper : bool) (k : Z) (x y : arr T) : Prop :=
  shp y = shp x /\ forall pre r c, in_range (shp x) (pre ++ [r; c]) = true ->
    ((if upper then r + k <= c else c <= r + k) -> el y (pre ++ [r; c]) = el x (pre ++ [r; c])) /\
    (~ (if upper then r + k <= c else c <= r + k) -> el y (pre ++ [r; c]) = zero).

(** CumSum along axis [a] *)
Definition onnx_cumsum (x : arr Z) (a : nat) (y : arr Z) : Prop :=
  shp y = shp x /\ forall o, in_range (shp x) o = true -> el y o = fold_right Z.add 0 (map (fun j => el x (with_dim o a j)) (upto (nth a o 0 + 1))).

(** Compress along axis [a]: the slices whose condition is not zero, in order *)
Definition onnx_compress {T} (x : arr T) (a : nat) (cond : list Z) (y : arr T) : Prop :=
  exists ks, StronglySorted Z.lt ks /\ (forall v, In v ks <-> 0 <= v < Z.of_nat (length cond) /\ nth (Z.to_nat v) cond 0 <> 0) /\
    shp y = with_dim (shp x) a (Z.of_nat (length ks)) /\
    forall o, in_range (shp y) o = true -> el y o = el x (with_dim o a (nth (Z.to_nat (nth a o 0)) ks 0)).

(** the elements in row-major order, as one row *)
Definition flattened {T} (dflt : T) (x : arr T) : arr T := {| shp := [Z.of_nat (length (flat x))]; el := fun i => nth (Z.to_nat (nth 0 i 0)) (flat x) dflt |}.

(** Range: start, start + delta, ... as long as the limit is not reached *)
Definition short_of (delta limit v : Z) : bool := if 0 <? delta then v <? limit else limit <? v.
Definition onnx_range (start limit delta : Z) (l : list Z) : Prop :=
  forall i, nth_error l i = if short_of delta limit (start + Z.of_nat i * delta) then Some (start + Z.of_nat i * delta) else None.
