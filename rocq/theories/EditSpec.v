(** Specification vocabulary for graph surgery. *)
From Verif Require Import PyBase GraphModel CompressSpec TopSortSpec.

(** the dictionary key of each node is its name *)
Definition names_match (g : graph) : Prop := forall k n, In (k, n) (nodemap g) -> n_name n = k.

(** a declared output (transitively) depends on node [k] *)
Inductive needed (g : graph) : string -> Prop :=
| needed_out : forall k n o, In (k, n) (nodemap g) -> In o (n_out n) -> In o (g_output g) -> needed g k
| needed_feed : forall k m, feeds (nodemap g) k m -> needed g m -> needed g k.

(** declared outputs are results only: no node reads them *)
Definition outputs_unread (g : graph) : Prop := forall o, In o (g_output g) -> ~ In o (reads_of (nodes_of g)).

(** nodes are listed so that no node precedes a producer of its operands *)
Definition listed_in_order (g : graph) : Prop :=
  forall a b, feeds (nodemap g) a b -> before (map fst (nodemap g)) a b.

(** boundary of a set of nodes: what it reads from outside *)
Definition reads_outside (g : graph) (names : list string) (t : string) : Prop :=
  exists k n, In k names /\ In (k, n) (nodemap g) /\ In t (n_in n) /\
    forall k' n', In k' names -> In (k', n') (nodemap g) -> ~ In t (n_out n').
(** what it produces for the outside: read by a node outside, or read by nobody *)
Definition produces_outside (g : graph) (names : list string) (t : string) : Prop :=
  exists k n, In k names /\ In (k, n) (nodemap g) /\ In t (n_out n) /\
    ((exists k' n', ~ In k' names /\ In (k', n') (nodemap g) /\ In t (n_in n'))
     \/ ~ In t (reads_of (nodes_of g))).
