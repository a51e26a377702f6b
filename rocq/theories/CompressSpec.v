(** Independent specification vocabulary for memory planning: what it means for a
    tensor to be alive at a node, phrased only in terms of the graph's wiring. *)
From Verif Require Import PyBase GraphModel.

Definition outs_of (ns : list node) : list string := flat_map n_out ns.
Definition reads_of (ns : list node) : list string := flat_map n_in ns.

(** ONNX uses "" for omitted optional inputs/outputs: not a tensor. *)
Definition named (l : list string) : list string := filter (fun s => negb (String.eqb s "")) l.

(** Each tensor is a graph input or produced by one node, once. *)
Definition single_assignment (g : graph) : Prop :=
  NoDup (named (g_input g ++ outs_of (nodes_of g))).

(** [consumedby] lists one consumer per occurrence as a node input
    ([update_consumer_producer] establishes it, see Props_Graph). *)
Definition consumers_exact (g : graph) : Prop :=
  forall t, match dget (consumedby g) t with
            | Some l => length l = count t (reads_of (nodes_of g))
            | None => ~ In t (reads_of (nodes_of g))
            end.

(** The bytes of a tensor: number of elements times element size.  (The code counts no element for a
    scalar, tensor.py:145-151, so a scalar occupies no bytes of the plan.) *)
Definition data_bytes (t : tensor) : Z :=
  ((match t_shape t with [] => 0 | sh => fold_right Z.mul 1 sh end) * t_esize t)%Z.
(** the omitted name "" carries no data *)
Definition no_anonymous_data (g : graph) : Prop :=
  forall tn, dget (tensormap g) "" = Some tn -> (data_bytes tn <= 0)%Z.

(** the value of [t] exists when node number [i] has run *)
Definition available (g : graph) (i : nat) (t : string) : Prop :=
  In t (g_input g) \/
  exists j n, j <= i /\ nth_error (nodes_of g) j = Some n /\ In t (n_out n).

(** some node from number [i] on still reads [t], or nobody ever reads it (a result) *)
Definition needed_from (g : graph) (i : nat) (t : string) : Prop :=
  (exists k n, i <= k /\ nth_error (nodes_of g) k = Some n /\ In t (n_in n))
  \/ ~ In t (reads_of (nodes_of g)).

(** [t] must hold its value while node number [i] runs. *)
Definition live_at (g : graph) (i : nat) (t : string) : Prop :=
  t <> ""%string /\ i < length (nodes_of g) /\ available g i t /\ needed_from g i t.

Definition wf_plan_input (g : graph) : Prop :=
  single_assignment g /\ consumers_exact g /\ no_anonymous_data g.

(** the byte size of a tensor that takes part in planning *)
Definition planned_bytes (g : graph) (t : string) (bytes : Z) : Prop :=
  In t (dynamics g) /\
  (dhas (producedby g) t = true \/ In t (g_input g)) /\
  exists tn, dget (tensormap g) t = Some tn /\ data_bytes tn = bytes /\ (0 < bytes)%Z.

(** bytes of a tensor rounded up to the padding (0 when unknown) *)
Definition round_up (pad bytes : Z) : Z := ((bytes + pad - 1) / pad * pad)%Z.
Definition padded_bytes (g : graph) (pad : Z) (t : string) : Z :=
  match dget (tensormap g) t with
  | Some tn => round_up pad (data_bytes tn)
  | None => 0%Z
  end.
Definition sumZ {A} (f : A -> Z) (l : list A) : Z := fold_right (fun x a => (f x + a)%Z) 0%Z l.

(** each node reads graph inputs, tensors produced by earlier nodes, or constants *)
Definition topologically_ordered (g : graph) : Prop :=
  forall i n t, nth_error (nodes_of g) i = Some n -> In t (n_in n) -> t <> ""%string ->
    In t (g_input g)
    \/ (exists j m, j < i /\ nth_error (nodes_of g) j = Some m /\ In t (n_out m))
    \/ ~ In t (g_input g ++ outs_of (nodes_of g)).
