(** Specification vocabulary for loading: what a model file says, independent of the loader's loops. *)
From Verif Require Import PyBase GraphModel CompressSpec TopSortSpec LoadModel.
Local Open Scope list_scope.

(** what a node computes: everything but its name *)
Definition wiring (n : node) : string * list string * list string := (n_op n, n_in n, n_out n).

Section SPEC.
Context {D V : Type}.
Implicit Types (p : @proto D V).
Definition made (ns : list node) (t : string) : Prop := exists n, In n ns /\ In t (n_out n).
Definition read (ns : list node) (t : string) : Prop := exists n, In n ns /\ In t (n_in n).
Definition stored_in p (t : string) : Prop := In t (map fst (p_init p)).
(** tensors the file names outside its node list *)
Definition declared p : list string := map fst (p_init p) ++ map fst (p_in p) ++ map fst (p_out p) ++ map fst (p_vi p).
(** a valid file: each tensor has one producer, initializers are not produced and are listed once, no tensor that is
    produced or declared has the empty name (that name stands for an omitted operand), tensors can be ranked so
    that every node computes higher-ranked tensors from lower-ranked ones (no cycle) *)
Record valid_file p : Prop := {
  vf_single : NoDup (outs_of (p_nodes p));
  vf_init_once : NoDup (map fst (p_init p));
  vf_init : forall t, stored_in p t -> ~ made (p_nodes p) t;
  vf_out_named : ~ made (p_nodes p) ""%string;
  vf_decl_named : ~ In ""%string (declared p);
  vf_acyclic : exists rk : string -> nat, forall n t u, In n (p_nodes p) -> In t (n_out n) -> In u (n_in n) -> rk u < rk t
}.
(** depends on run-time data: not stored and not produced, or made from such a tensor, or a DequantizeLinear result *)
Inductive at_runtime p : string -> Prop :=
| ar_free : forall t, t <> ""%string -> ~ stored_in p t -> ~ made (p_nodes p) t -> at_runtime p t
| ar_dequant : forall n t, In n (p_nodes p) -> n_op n = "DequantizeLinear"%string -> In t (n_out n) -> at_runtime p t
| ar_made : forall n t u, In n (p_nodes p) -> In u (n_in n) -> at_runtime p u -> In t (n_out n) -> at_runtime p t.
Definition runs p (n : node) : Prop := n_op n = "DequantizeLinear"%string \/ exists u, In u (n_in n) /\ at_runtime p u.
End SPEC.
