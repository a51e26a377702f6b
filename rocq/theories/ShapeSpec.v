(** Independent specification of the ONNX / NumPy shape rules, in terms of
    dimensions, indices and counts; no definition of the model is used. *)
From Coq Require Import ZArith List Lia Permutation.
Import ListNotations.
Open Scope Z_scope.

Notation dims := (list Z).
Definition nonneg (s : dims) : Prop := Forall (fun d => 0 <= d) s.
Definition positive (s : dims) : Prop := Forall (fun d => 0 < d) s.
(** the number of elements of a tensor (1 for a scalar) *)
Definition elements (s : dims) : Z := fold_right Z.mul 1 s.

(** dimension of [s] at distance [i] from the right, 1 beyond its rank *)
Definition dim_from_right (s : dims) (i : nat) : Z := nth i (rev s) 1.

(** [d] is the broadcast of the aligned dimensions [ds]: all of them are 1 or
    [d], and [d] is one of them unless all are 1. *)
Definition broadcast_dim (ds : list Z) (d : Z) : Prop :=
  (forall x, In x ds -> x = 1 \/ x = d) /\ (d <> 1 -> In d ds).

(** multidirectional (NumPy) broadcasting of the shapes [ss] gives [out] *)
Definition broadcast_of (ss : list dims) (out : dims) : Prop :=
  (forall s, In s ss -> (length s <= length out)%nat) /\
  (ss = [] -> out = []) /\
  (ss <> [] -> exists s, In s ss /\ length s = length out) /\
  (forall i, (i < length out)%nat -> broadcast_dim (map (fun s => dim_from_right s i) ss) (dim_from_right out i)).

(** [n] is the number of window positions along one axis: position [p]
    (starting at [p*stride]) is valid iff the last tap of the dilated kernel is
    still inside the padded input of length [len]. *)
Definition window_count (len ksize stride dilation n : Z) : Prop :=
  0 <= n /\ forall p, 0 <= p -> (p < n <-> p * stride + dilation * (ksize - 1) < len).

(** [n] is the least number of strides covering the input: ceil(x / stride) *)
Definition ceil_div_spec (x stride n : Z) : Prop :=
  (n - 1) * stride < x /\ x <= n * stride.

(** ONNX Slice on one axis of length [dim].  A negative start or end counts
    from the end of the axis; the start is clamped into the axis ([0,dim] for a
    positive step, [0,dim-1] for a negative one); the selected indices are the
    existing ones reached from the start by steps, before the end. *)
Definition from_end (dim i : Z) : Z := if i <? 0 then i + dim else i.
Definition slice_first (dim start step : Z) : Z :=
  if step <? 0 then Z.max 0 (Z.min (from_end dim start) (dim - 1))
  else Z.max 0 (Z.min (from_end dim start) dim).
Definition slice_selects (dim start end_ step i : Z) : Prop :=
  0 <= i < dim /\
  (exists k, 0 <= k /\ i = slice_first dim start step + k * step) /\
  (if step <? 0 then from_end dim end_ < i else i < from_end dim end_).
(** [n] is the number of selected indices *)
Definition slice_count (dim start end_ step n : Z) : Prop :=
  exists l, NoDup l /\ (forall i, In i l <-> slice_selects dim start end_ step i) /\ n = Z.of_nat (length l).

(** ONNX Reshape: [out] realises the request [req] on a tensor of shape [src]. *)
Definition reshape_entry (src req out : dims) (i : nat) : Prop :=
  match nth_error req i with
  | Some r =>
      if r =? 0 then nth_error out i = nth_error src i
      else if r =? -1 then exists d, nth_error out i = Some d /\ 0 <= d
      else nth_error out i = Some r
  | None => False
  end.
Definition reshape_of (src req out : dims) : Prop :=
  length out = length req /\
  (forall i, (i < length req)%nat -> reshape_entry src req out i) /\
  elements out = elements src.
(** requests ONNX allows: at most one -1, everything else non-negative, every 0 has a source dimension *)
Definition valid_request (src req : dims) : Prop :=
  (forall r, In r req -> -1 <= r) /\
  (count_occ Z.eq_dec req (-1)%Z <= 1)%nat /\
  (forall i, nth_error req i = Some 0 -> (i < length src)%nat).

(** a permutation of the axes 0..n-1 *)
Definition axes_perm (n : nat) (p : list Z) : Prop := Permutation p (map Z.of_nat (seq 0 n)).
(** [q] is the inverse of [p]: p[q[i]] = i *)
Definition inverse_perm (n : nat) (p q : list Z) : Prop :=
  forall i, (i < n)%nat -> exists j, nth_error q i = Some (Z.of_nat j) /\ nth_error p j = Some (Z.of_nat i).

(** the position an axis attribute denotes in a tensor of rank [n] *)
Definition axis_pos (n : nat) (axis : Z) : Z := if axis <? 0 then axis + Z.of_nat n else axis.
Definition valid_axes (n : nat) (axes : list Z) : Prop :=
  (forall a, In a axes -> 0 <= axis_pos n a < Z.of_nat n) /\ NoDup (map (axis_pos n) axes).

(** replacing the dimension at position [a] *)
Definition with_dim (s : dims) (a : nat) (d : Z) : dims := firstn a s ++ d :: skipn (S a) s.
(** the dimensions except the one at position [a] *)
Definition without_dim (s : dims) (a : nat) : dims := firstn a s ++ skipn (S a) s.

(** ONNX Conv / Pool with explicit pads on a tensor [x] = N, C, spatial dims:
    [ks] are the kernel sizes and [c] the output channels. *)
Definition windowed (x : dims) (c : Z) (ks pads strides dils : list Z) (out : dims) : Prop :=
  exists sp, out = nth 0 x 0 :: c :: sp /\ length sp = length ks /\ length x = (2 + length ks)%nat /\
  forall i, (i < length ks)%nat ->
    window_count (nth (2 + i) x 0 + nth i pads 0 + nth (i + length ks) pads 0)
                 (nth i ks 0) (nth i strides 0) (nth i dils 0) (nth i sp 0).

(** ONNX SAME padding: each spatial size is ceil(in / stride). *)
Definition same_padded (x : dims) (c : Z) (strides : list Z) (out : dims) : Prop :=
  exists sp, out = nth 0 x 0 :: c :: sp /\ length x = (2 + length sp)%nat /\
  forall i, (i < length sp)%nat -> ceil_div_spec (nth (2 + i) x 0) (nth i strides 0) (nth i sp 0).

(** ONNX Slice of a whole tensor: axis [axes_j] is sliced with the j-th start,
    end and step, every other axis is kept. *)
Definition sliced (x : dims) (axes starts ends steps : list Z) (out : dims) : Prop :=
  length out = length x /\
  (forall j a, (j < length axes)%nat -> axis_pos (length x) (nth j axes 0) = Z.of_nat a ->
     slice_count (nth a x 0) (nth j starts 0) (nth j ends 0) (nth j steps 0) (nth a out 0)) /\
  (forall a, (a < length x)%nat -> ~ In (Z.of_nat a) (map (axis_pos (length x)) axes) -> nth a out 0 = nth a x 0).

(** ONNX Split along position [a]: non-negative sizes that add up to the axis. *)
Definition split_of (x : dims) (a : nat) (outs : list dims) : Prop :=
  exists sizes, Forall (fun v => 0 <= v) sizes /\ fold_right Z.add 0 sizes = nth a x 0 /\
    outs = map (with_dim x a) sizes.

(** dimensions whose position is not one of [axes] *)
Definition dims_outside (axes : list Z) (x : dims) : dims :=
  map snd (filter (fun p => negb (existsb (Z.eqb (Z.of_nat (fst p))) axes)) (combine (seq 0 (length x)) x)).

(** ONNX MatMul (operands of rank >= 2): [batch_a ++ [m;k]] times [batch_b ++ [k;n]]. *)
Definition matmul_of (a b out : dims) : Prop :=
  exists ba bb m k n batch, a = ba ++ [m; k] /\ b = bb ++ [k; n] /\ broadcast_of [ba; bb] batch /\ out = batch ++ [m; n].
