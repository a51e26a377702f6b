(** Specification vocabulary for the compute graph. *)
From Verif Require Import PyBase GraphModel CompressSpec TopSortSpec.
Local Open Scope list_scope.

(** node [k], not a shape node itself, is only there for shape nodes: each of its outputs is read, and only by shape nodes *)
Definition only_for_shapes (g : graph) (calc : list string) (k : string) : Prop :=
  ~ In k calc /\ exists n, In (k, n) (nodemap g) /\
  forall o, In o (n_out n) -> (exists m mn, In (m, mn) (nodemap g) /\ In o (n_in mn)) /\
                              (forall m mn, In (m, mn) (nodemap g) -> In o (n_in mn) -> In m calc).
(** [p] produces a tensor read exactly once, namely by [k] *)
Definition sole_feed (g : graph) (p k : string) : Prop :=
  exists pn kn t, In (p, pn) (nodemap g) /\ In (k, kn) (nodemap g) /\ In t (n_out pn) /\ In t (n_in kn) /\ count t (reads_of (nodes_of g)) = 1.
Inductive upstream (g : graph) (calc : list string) : string -> Prop :=
| us_start : forall k, only_for_shapes g calc k -> upstream g calc k
| us_feed : forall p k, upstream g calc k -> sole_feed g p k -> upstream g calc p.
Definition dropped (g : graph) (calc : list string) (k : string) : Prop := In k calc \/ upstream g calc k.
(** a tensor somebody wants: read by a node, or declared as output *)
Definition wanted (g : graph) (t : string) : Prop := In t (reads_of (nodes_of g)) \/ In t (g_output g).
(** no node has two outputs somebody wants *)
Definition one_wanted_output (g : graph) : Prop :=
  forall k n s t, In (k, n) (nodemap g) -> In s (n_out n) -> In t (n_out n) -> wanted g s -> wanted g t -> s = t.
(** [v] assigns to the outputs of each node what the operator makes of its operands *)
Definition solves {V} (sem : node -> list V -> list V) (ns : list node) (v : string -> V) : Prop :=
  forall n, In n ns -> map v (n_out n) = sem n (map v (n_in n)).
(** tensors not computed by any node *)
Definition source (g : graph) (t : string) : Prop := ~ In t (outs_of (nodes_of g)).
Definition made_by (g : graph) (P : string -> Prop) (t : string) : Prop := exists k n, P k /\ In (k, n) (nodemap g) /\ In t (n_out n).
