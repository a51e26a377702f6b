(** What ONNX says the values of GatherND, ScatterND, OneHot, ArgMax, Pad, Reshape, ReduceSum are, index by index. Uses the array
    record and [in_range], [indices], [axis_pos], [dims_outside] (and, for Reshape, [reshape_of] of ShapeSpec.v), nothing else. *)
From Verif Require Import PyBase ShapeSpec CostSpec ValueModel ValueSpec.
From Coq Require Import Lia.
Open Scope list_scope. Open Scope Z_scope.

(** a tuple of indices, negative ones counted from the end; the tuple may be shorter than the shape *)
Definition from_end_all (sh idx : list Z) : list Z := map (fun p => if snd p <? 0 then snd p + fst p else snd p) (combine sh idx).
Definition inside_all (sh idx : list Z) : Prop := (length idx <= length sh)%nat /\ forall j, (j < length idx)%nat -> - nth j sh 0 <= nth j idx 0 < nth j sh 0.
(** the index tuple stored at position [i] of an array of index tuples of length [k] *)
Definition tuple_at (ind : arr Z) (k : nat) (i : list Z) : list Z := map (fun j => el ind (i ++ [Z.of_nat j])) (seq 0 k).

(** GatherND with batch_dims = 0: y[i ++ r] = x[indices[i] ++ r] *)
Definition onnx_gather_nd {T} (x : arr T) (ind : arr Z) (outer : list Z) (k : nat) (o : list Z) : T :=
  el x (from_end_all (shp x) (tuple_at ind k (firstn (length outer) o)) ++ skipn (length outer) o).
(** GatherND with batch_dims = 1: y[b :: i ++ r] = x[b :: indices[b :: i] ++ r] *)
Definition onnx_gather_nd_batch1 {T} (x : arr T) (ind : arr Z) (outer : list Z) (k : nat) (o : list Z) : T :=
  el x (hd 0 o :: from_end_all (tl (shp x)) (tuple_at ind k (firstn (length outer) o)) ++ skipn (length outer) o).

(** ScatterND: the updates, in the order of their positions, as (target index prefix, position) *)
Definition targets (x : list Z) (ind : arr Z) (outer : list Z) (k : nat) : list (list Z * list Z) :=
  map (fun i => (from_end_all x (tuple_at ind k i), i)) (indices outer).
(** reduction "none": an element hit by one update holds that update, one not hit is unchanged *)
Definition onnx_scatter {T} (x : arr T) (ind : arr Z) (upd : arr T) (outer : list Z) (k : nat) (y : arr T) : Prop :=
  shp y = shp x /\
  forall o, in_range (shp x) o = true ->
    (forall i, In (firstn k o, i) (targets (shp x) ind outer k) -> (forall i', In (firstn k o, i') (targets (shp x) ind outer k) -> i' = i) ->
       el y o = el upd (i ++ skipn k o)) /\
    ((forall i, ~ In (firstn k o, i) (targets (shp x) ind outer k)) -> el y o = el x o).
(** with a reduction: the updates that hit an element are folded into it *)
Definition onnx_scatter_reduce {T} (op : T -> T -> T) (x : arr T) (ind : arr Z) (upd : arr T) (outer : list Z) (k : nat) (o : list Z) : T :=
  fold_left (fun v t => if list_eq_dec Z.eq_dec (fst t) (firstn k o) then op v (el upd (snd t ++ skipn k o)) else v) (targets (shp x) ind outer k) (el x o).

(** OneHot: the new axis [a] of size [depth] holds on-value at the position the index names, if it is in [-depth, depth-1] *)
Definition onnx_one_hot (a : nat) (ind : arr Z) (depth off on : Z) (o : list Z) : Z :=
  let v := el ind (remove_at o a) in
  if (- depth <=? v) && (v <? depth) && (nth a o 0 =? (if v <? 0 then v + depth else v)) then on else off.

(** ArgMax: the first (or last) position along the axis that holds the largest element *)
Definition first_max (n : Z) (f : Z -> Z) (p : Z) : Prop := 0 <= p < n /\ (forall q, 0 <= q < n -> f q <= f p) /\ (forall q, 0 <= q < p -> f q < f p).
Definition last_max (n : Z) (f : Z -> Z) (p : Z) : Prop := 0 <= p < n /\ (forall q, 0 <= q < n -> f q <= f p) /\ (forall q, p < q < n -> f q < f p).

(** Pad, mode constant: [before ++ after] gives the padding of every axis *)
Definition shift_by (before o : list Z) : list Z := map (fun p => snd p - fst p) (combine before o).
Definition onnx_pad {T} (x : arr T) (before after : list Z) (c : T) (y : arr T) : Prop :=
  length (shp y) = length (shp x) /\
  (forall a, (a < length (shp x))%nat -> nth a (shp y) 0 = nth a (shp x) 0 + nth a before 0 + nth a after 0) /\
  forall o, in_range (shp y) o = true -> el y o = if in_range (shp x) (shift_by before o) then el x (shift_by before o) else c.

(** the elements in C order; Reshape does not change them *)
Definition flat {T} (x : arr T) : list T := map (el x) (indices (shp x)).

(** ReduceSum: y[o] = the sum of the elements whose index, without the reduced axes, is [o] *)
Definition onnx_sum (x : arr Z) (axes : list Z) (o : list Z) : Z :=
  fold_right Z.add 0 (map (el x) (filter (fun i => if list_eq_dec Z.eq_dec (dims_outside (map (axis_pos (length (shp x))) axes) i) o then true else false) (indices (shp x)))).
