(** Specification vocabulary for the removal of If nodes. *)
From Verif Require Import PyBase GraphModel CompressSpec TopSortSpec ComputeSpec IfModel.
Local Open Scope string_scope.
Local Open Scope list_scope.

Section SPEC.
Variable body : string -> branch.
Variable g : graph.
(** the nodes of the model when every If takes the selected branch: those of the graph and, at any depth, those of the branches *)
Inductive taken : node -> Prop :=
| tk_main : forall k n, In (k, n) (nodemap g) -> taken n
| tk_branch : forall m n, taken m -> n_op m = "If" -> In n (b_nodes (body (n_name m))) -> taken n.
(** what the model computes then: ordinary nodes apply their operator, an If returns the outputs of its branch *)
Definition if_model {V} (sem : node -> list V -> list V) (v : string -> V) : Prop :=
  forall n, taken n ->
    (n_op n <> "If" -> map v (n_out n) = sem n (map v (n_in n))) /\
    (n_op n = "If" -> forall i o p, nth_error (n_out n) i = Some o -> nth_error (b_outs (body (n_name n))) i = Some p -> v o = v p).
(** no tensor depends on itself *)
Definition if_acyclic : Prop := exists rk : string -> nat, forall n, taken n ->
    (n_op n <> "If" -> forall i o, In i (n_in n) -> In o (n_out n) -> rk i < rk o) /\
    (n_op n = "If" -> forall i o p, nth_error (n_out n) i = Some o -> nth_error (b_outs (body (n_name n))) i = Some p -> rk p <= rk o).
(** computed by no node of the model *)
Definition if_source (t : string) : Prop := forall n, taken n -> ~ In t (n_out n).
End SPEC.
(** an operator depends on the node's name (its attributes) and type, not on how its operands and results are called *)
Definition tensor_names_irrelevant {V} (sem : node -> list V -> list V) : Prop :=
  forall n m, n_name n = n_name m -> n_op n = n_op m -> forall vs, sem n vs = sem m vs.

(** ---- graphs whose branches hold no further If ---- *)
Section FLAT.
Variable body : string -> branch.
Variable g : graph.
Definition is_if (k : string) (n : node) : Prop := In (k, n) (nodemap g) /\ n_op n = "If".
(** node [m] of the branch of If [k] *)
Definition branch_node (k : string) (m : node) : Prop := exists n, is_if k n /\ In m (b_nodes (body k)).
Record plain_ifs : Prop := {
  (* one condition, one result, computed in the branch *)
  pi_one : forall k n, is_if k n -> exists c o p, n_in n = [c] /\ n_out n = [o] /\ b_outs (body k) = [p] /\ exists m, In m (b_nodes (body k)) /\ In p (n_out m);
  pi_flat : forall k m, branch_node k m -> n_op m <> "If";
  (* node names are unique *)
  pi_nodup : forall k n, is_if k n -> NoDup (map n_name (b_nodes (body k)));
  pi_fresh : forall k m, branch_node k m -> ~ In (n_name m) (dkeys (nodemap g));
  pi_own : forall k m k' m', branch_node k m -> branch_node k' m' -> n_name m = n_name m' -> k = k';
  (* scoping: what a branch computes is seen only inside it, and its output by nobody *)
  pi_local : forall k m o, branch_node k m -> In o (n_out m) -> ~ In o (outs_of (nodes_of g)) /\ ~ In o (reads_of (nodes_of g)) /\
     (forall k' m', branch_node k' m' -> In o (n_in m') -> k' = k) /\ (In o (b_outs (body k)) -> forall m', branch_node k m' -> ~ In o (n_in m'))
}.
(** branch node [m] of If [k] = [n] as it stands in the result: its output is called like the If's *)
Definition placed (k : string) (n m : node) : node :=
  mkNode (n_name m) (n_op m) (n_in m) (map (fun o => if String.eqb o (hd "" (b_outs (body k))) then hd "" (n_out n) else o) (n_out m)).
(** node [p] is there only for conditions, the last of them that of If [k], whose branch does not read it *)
Inductive cond_only : string -> string -> Prop :=
| co_if : forall k n, is_if k n -> cond_only k k
| co_feed : forall k s sn t p pn, cond_only k s -> In (s, sn) (nodemap g) -> In t (n_in sn) -> (forall m, In m (b_nodes (body k)) -> ~ In t (n_in m)) ->
    In (p, pn) (nodemap g) -> In t (n_out pn) ->
    (forall r rn, In (r, rn) (nodemap g) -> In t (n_in rn) -> exists k', cond_only k' r) -> cond_only k p.
(** read by a node, by a node of a branch, or declared as output *)
Definition if_wanted (t : string) : Prop := wanted g t \/ exists k m, branch_node k m /\ In t (n_in m).
Definition one_if_wanted : Prop :=
  forall k n s t, In (k, n) (nodemap g) -> In s (n_out n) -> In t (n_out n) -> if_wanted s -> if_wanted t -> s = t.
(** what branches use of the surrounding graph is not computed by nodes that are there only for conditions *)
Definition branch_operands_kept : Prop :=
  forall k m t p pn, branch_node k m -> In t (n_in m) -> In (p, pn) (nodemap g) -> In t (n_out pn) -> n_op pn <> "If" -> forall k', ~ cond_only k' p.
End FLAT.
(** no node that is there only for conditions reads the result of an If *)
Definition conditions_without_ifs (body : string -> branch) (g : graph) : Prop :=
  forall a an o r rn k, is_if g a an -> In o (n_out an) -> In (r, rn) (nodemap g) -> In o (n_in rn) -> ~ cond_only body g k r.
