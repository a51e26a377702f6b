(** Specification vocabulary for removing reshaping nodes. *)
From Verif Require Import PyBase GraphModel CompressSpec.
Local Open Scope list_scope.
Definition reshaping (n : node) : Prop := n_op n = "Flatten"%string \/ n_op n = "Reshape"%string \/ n_op n = "Unsqueeze"%string \/ n_op n = "Squeeze"%string.
(** [through g t r]: following reshaping nodes backwards from tensor [t], along their data operand, ends at [r], which no
    reshaping node makes *)
Inductive through (g : graph) : string -> string -> Prop :=
| th_here : forall t, (forall n, In n (nodes_of g) -> reshaping n -> ~ In t (n_out n)) -> through g t t
| th_step : forall n t u r, In n (nodes_of g) -> reshaping n -> n_out n = [t] -> In u (n_in n) -> In u (dynamics g) -> through g u r -> through g t r.
(** node [b] is node [a] reading, for each operand, the tensor found behind the reshaping nodes *)
Definition same_but_operands (g : graph) (a b : node) : Prop :=
  n_name b = n_name a /\ n_op b = n_op a /\ n_out b = n_out a /\ Forall2 (through g) (n_in a) (n_in b).
(** every reshaping node has one data operand (one among the dynamic tensors), one result, and the result is read *)
Definition plain_reshapes (g : graph) : Prop := forall n, In n (nodes_of g) -> reshaping n ->
  exists i o, filter (fun t => memb t (dynamics g)) (n_in n) = [i] /\ n_out n = [o] /\ In o (reads_of (nodes_of g)).
Definition no_cycle (g : graph) : Prop := exists rk : string -> nat, forall n t u, In n (nodes_of g) -> In t (n_out n) -> In u (n_in n) -> rk u < rk t.
