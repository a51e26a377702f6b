(** What a match of a pattern is, independent of the search. *)
From Verif Require Import PyBase GraphModel ShapeModel RelSpec FusionModel.
Open Scope string_scope. Open Scope Z_scope.

(** [t] stands at position [i] of [l]; -1 leaves the position open. *)
Definition at_port (i : Z) (l : list string) (t : string) : Prop :=
  if i =? -1 then In t l else 0 <= i /\ nth_error l (Z.to_nat i) = Some t.
(** node [n] feeds node [m] through one tensor at the given ports *)
Definition feeds (n m : node) (outp inp : Z) : Prop := exists t, at_port outp (n_out n) t /\ at_port inp (n_in m) t.

(** the operator is the one named, one of those listed, or "Any" is asked for *)
Definition op_meets (c : opcond) (op : string) : Prop :=
  match c with OneOp s => s = "Any" \/ op = s | OpList l => In op l end.
Definition compares (op : string) (a b : Z) : Prop :=
  (op = "<=" /\ a <= b) \/ (op = "<" /\ a < b) \/ (op = ">=" /\ a >= b) \/ (op = ">" /\ a > b) \/ (op = "==" /\ a = b).
(** the number an attribute condition talks about: the attribute itself, or its element [idx] (counted from the end if negative) *)
Definition selects (v : aval) (idx z : Z) : Prop :=
  if idx =? -1 then v = AvInt z
  else exists l, v = AvList l /\ ((0 <= idx /\ nth_error l (Z.to_nat idx) = Some z) \/
                                 (idx < 0 /\ 0 <= Z.of_nat (length l) + idx /\ nth_error l (Z.to_nat (Z.of_nat (length l) + idx)) = Some z)).
(** node [n] meets the condition of descriptor [d] *)
Definition node_meets (G : fgraph) (d : desc) (n : node) : Prop :=
  op_meets (d_op d) (n_op n) /\
  forall x, In x (d_attrs d) -> exists v z, fattr G (n_name n) (x_name x) = Some v /\ selects v (x_idx x) z /\ compares (x_op x) z (x_num x).

(** An assignment of nodes to descriptors is a match: every node meets its condition and every edge
    of the pattern is present. *)
Definition is_match (G : fgraph) (ds : list desc) (asg : string -> option string) : Prop :=
  forall d, In d ds -> exists k n, asg (d_name d) = Some k /\ dget (nodemap (fg G)) k = Some n /\ node_meets G d n /\
    (forall e, In e (d_in d) -> exists k' n', asg (e_desc e) = Some k' /\ dget (nodemap (fg G)) k' = Some n' /\ feeds n' n (e_other e) (e_idx e)) /\
    (forall e, In e (d_out d) -> exists k' n', asg (e_desc e) = Some k' /\ dget (nodemap (fg G)) k' = Some n' /\ feeds n n' (e_idx e) (e_other e)).
(** the assignment a returned list of node names stands for *)
Fixpoint asg_of (ds : list desc) (ns : list string) (dk : string) : option string :=
  match ds, ns with
  | d :: r, k :: s => if String.eqb (d_name d) dk then Some k else asg_of r s dk
  | _, _ => None
  end.

(** A graph whose bookkeeping is exact: nodes stored under their names, producers and consumers as
    the nodes list them, every tensor produced at most once. *)
Record exact (g : graph) : Prop := {
  ex_names : forall k n, In (k, n) (nodemap g) -> n_name n = k;
  ex_nodup : NoDup (dkeys (nodemap g));
  ex_prod  : forall t, dget (producedby g) t = none_if_empty (occurrences n_out (nodes_of g) t);
  ex_cons  : forall t, dget (consumedby g) t = none_if_empty (occurrences n_in (nodes_of g) t);
  ex_ssa   : NoDup (flat_map n_out (nodes_of g)) }.

(** Every stored kernel_shape has at least two dimensions (no 1-D convolution or pooling). *)
Definition kernels_2d (G : fgraph) : Prop :=
  forall k n, In (k, n) (nodemap (fg G)) -> forall v, fattr G k "kernel_shape" = Some v ->
  exists a b r, v = AvList (a :: b :: r).
(** a convolution with kernel sides 1..7 *)
Definition small_conv (G : fgraph) (n : node) : Prop :=
  n_op n = "Conv" /\ exists a b r, fattr G (n_name n) "kernel_shape" = Some (AvList (a :: b :: r)) /\ 1 <= a <= 7 /\ 1 <= b <= 7.
(** [b] normalises the first output of [c] *)
Definition normalises (b c : node) : Prop :=
  n_op b = "BatchNormalization" /\ exists t ro ri, n_out c = t :: ro /\ n_in b = t :: ri.
