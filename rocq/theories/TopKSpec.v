(** Specification vocabulary for the fixed TopK rewriting. *)
From Verif Require Import PyBase GraphModel CompressSpec TopSortSpec ComputeSpec.
Local Open Scope string_scope.
Local Open Scope list_scope.

(** node [n] is a TopK whose number of results is given by tensor [t] *)
Definition k_operand (n : node) (t : string) : Prop := n_op n = "TopK" /\ nth_error (n_in n) 1 = Some t.
(** node [p] computes only what is needed for the K of TopK nodes: its result is read once, by such a chain *)
Inductive k_only (g : graph) : string -> Prop :=
| ko_start : forall k n t p pn, In (k, n) (nodemap g) -> k_operand n t -> count t (reads_of (nodes_of g)) = 1 ->
    In (p, pn) (nodemap g) -> In t (n_out pn) -> k_only g p
| ko_feed : forall p k, k_only g k -> sole_feed g p k -> k_only g p.
(** replace operand 1 of a TopK by [c]; other nodes stay *)
Definition with_k (c : string) (n : node) : node :=
  match n_in n with
  | x :: _ :: r => if String.eqb (n_op n) "TopK" then mkNode (n_name n) (n_op n) (x :: c :: r) (n_out n) else n
  | _ => n
  end.
(** what makes the rewriting succeed: every TopK has a second operand, and neither that operand nor anything read by the nodes
    computing it is a graph input or initializer read only there; no TopK is among these nodes *)
Definition k_rewritable (g : graph) : Prop :=
  (forall k n, In (k, n) (nodemap g) -> n_op n = "TopK" -> exists t, nth_error (n_in n) 1 = Some t /\
     (count t (reads_of (nodes_of g)) = 1 -> ~ source g t)) /\
  (forall p pn, k_only g p -> In (p, pn) (nodemap g) -> n_op pn <> "TopK" /\
     forall t, In t (n_in pn) -> count t (reads_of (nodes_of g)) = 1 -> ~ source g t).
