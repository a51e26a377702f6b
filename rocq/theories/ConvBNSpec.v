(** What a graph computes: environments satisfying the equation of every node (real arithmetic). *)
From Coq Require Import Reals.
From Verif Require Import PyBase GraphModel ShapeModel FusionModel FusionSpec ConvBNModel.
Open Scope string_scope. Open Scope list_scope.

(** A dynamic tensor: position -> channel -> value. *)
Definition signal := nat -> nat -> R.
(** sum over a list of [f index element] *)
Fixpoint sumi {A} (f : nat -> A -> R) (i : nat) (l : list A) : R :=
  match l with [] => 0%R | x :: r => (f i x + sumi f (S i) r)%R end.
(** inner product of a kernel with a patch *)
Definition dot3 (k : kernel) (x : nat -> nat -> nat -> R) : R :=
  sumi (fun j a => sumi (fun u b => sumi (fun v w => (w * x j u v)%R) 0 b) 0 a) 0 k.

Section SEM.
(** For each convolution: the input value its kernel entry (j,u,v) of output channel i meets at output
    position p.  This covers every stride, padding, dilation and grouping. *)
Context (patch : string -> signal -> nat -> nat -> nat -> nat -> nat -> R).
(** The meaning of every other operator: any relation between the signals and arrays of its inputs
    and the signals of its outputs. *)
Context (other : node -> list (signal * option tval) -> list signal -> Prop).

Definition vget (vals : dict tval) (t : string) : option tval := dget vals t.
Definition conv_eq (rho : string -> signal) (vals : dict tval) (n : node) : Prop :=
  match n_in n, n_out n with
  | [x; w], [y] => exists wr W, vget vals w = Some (TW wr W) /\
      forall p i k, nth_error W i = Some k -> rho y p i = dot3 k (patch (n_name n) (rho x) p i)
  | [x; w; b], [y] => exists wr W B, vget vals w = Some (TW wr W) /\ vget vals b = Some (TV B) /\ length B = length W /\
      forall p i k, nth_error W i = Some k -> rho y p i = (dot3 k (patch (n_name n) (rho x) p i) + nth i B 0)%R
  | _, _ => False
  end.
Definition bn_eq (eps : R) (rho : string -> signal) (vals : dict tval) (n : node) : Prop :=
  match n_in n, n_out n with
  | [x; g; b; m; v], [y] => exists G B M V, vget vals g = Some (TV G) /\ vget vals b = Some (TV B) /\
      vget vals m = Some (TV M) /\ vget vals v = Some (TV V) /\
      forall p i, (i < length G)%nat ->
        rho y p i = (nth i G 0 * (rho x p i - nth i M 0) / sqrt (nth i V 0 + eps) + nth i B 0)%R
  | _, _ => False
  end.
Definition node_eq (eps : string -> R) (rho : string -> signal) (vals : dict tval) (n : node) : Prop :=
  if String.eqb (n_op n) "Conv" then conv_eq rho vals n
  else if String.eqb (n_op n) "BatchNormalization" then bn_eq (eps (n_name n)) rho vals n
  else other n (map (fun t => (rho t, vget vals t)) (n_in n)) (map rho (n_out n)).
(** [rho] is an execution of the graph *)
Definition solves (rho : string -> signal) (s : cstate) : Prop :=
  forall n, In n (nodes_of (cs_g s)) -> node_eq (cs_eps s) rho (cs_vals s) n.
End SEM.

(** A pair the fusion may handle: the convolution has no bias operand, writable rank-4 weights and one
    output; the normalisation has the five ONNX operands with one statistic per channel, positive
    var + eps, and one output. *)
Definition pair_shape (s : cstate) (c b : node) : Prop :=
  n_op c = "Conv" /\ n_op b = "BatchNormalization" /\
  exists x w t y gn ben mn vn W G B M V,
    n_in c = [x; w] /\ n_out c = [t] /\ n_in b = [t; gn; ben; mn; vn] /\ n_out b = [y] /\
    dget (cs_vals s) w = Some (TW true W) /\
    dget (cs_vals s) gn = Some (TV G) /\ dget (cs_vals s) ben = Some (TV B) /\
    dget (cs_vals s) mn = Some (TV M) /\ dget (cs_vals s) vn = Some (TV V) /\
    length G = length W /\ length B = length W /\ length M = length W /\ length V = length W /\
    (forall i, (i < length W)%nat -> (0 < nth i V 0 + cs_eps s (n_name b))%R).
(** nobody else reads the convolution's result or its weight *)
Definition pair_private (g : graph) (c b : node) : Prop :=
  forall n t w, In n (nodes_of g) ->
    nth_error (n_out c) 0 = Some t -> nth_error (n_in c) 1 = Some w ->
    (In t (n_in n) -> n = b) /\ (In w (n_in n) -> n = c).
(** the name of the new bias is unused *)
Definition bias_fresh (s : cstate) (c : node) : Prop :=
  dget (cs_vals s) (bias_name (n_name c)) = None /\
  forall n, In n (nodes_of (cs_g s)) -> ~ In (bias_name (n_name c)) (n_in n) /\ ~ In (bias_name (n_name c)) (n_out n).
