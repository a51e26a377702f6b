(** Specification vocabulary: downstream nodes, tensors that depend on run-time inputs. *)
From Verif Require Import PyBase GraphModel CompressSpec.

(** node [k] reads one of the tensors [ts], or an output of a downstream node *)
Inductive downstream (g : graph) (ts : list string) : string -> Prop :=
| down_seed : forall k n t, In (k, n) (nodemap g) -> In t (n_in n) -> In t ts -> downstream g ts k
| down_step : forall j m k n t, downstream g ts j -> In (j, m) (nodemap g) -> In t (n_out m) ->
    In (k, n) (nodemap g) -> In t (n_in n) -> downstream g ts k.

(** tensor [t] depends on something only known at run time: a tensor that is neither stored in the model
    nor produced by a node, or the result of a DequantizeLinear (kept on purpose) *)
Inductive runtime (g : graph) (static : string -> bool) : string -> Prop :=
| rt_input : forall t, static t = false -> ~ In t (outs_of (nodes_of g)) -> runtime g static t
| rt_dequant : forall k n t, In (k, n) (nodemap g) -> n_op n = "DequantizeLinear"%string -> In t (n_out n) -> runtime g static t
| rt_made : forall k n t u, In (k, n) (nodemap g) -> In u (n_in n) -> runtime g static u -> In t (n_out n) -> runtime g static t.
Definition runtime_node (g : graph) (static : string -> bool) (n : node) : Prop :=
  n_op n = "DequantizeLinear"%string \/ exists u, In u (n_in n) /\ runtime g static u.
