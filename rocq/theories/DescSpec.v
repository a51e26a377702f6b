(** What a pattern taken from selected nodes of a graph has to say. *)
From Verif Require Import PyBase GraphModel ShapeModel RelSpec FusionModel FusionSpec.
Open Scope string_scope. Open Scope list_scope. Open Scope Z_scope.

(** output [o] of node [m] is input [i] of node [n] *)
Definition wire (m : node) (o : Z) (n : node) (i : Z) : Prop :=
  0 <= o /\ 0 <= i /\ exists t, nth_error (n_out m) (Z.to_nat o) = Some t /\ nth_error (n_in n) (Z.to_nat i) = Some t.
(** descriptor [d] describes node [k]: its operator, no attribute conditions, and exactly the wires to and from selected nodes *)
Definition describes (g : graph) (names : list string) (k : string) (d : desc) : Prop :=
  exists n, dget (nodemap g) k = Some n /\ d_name d = k /\ d_op d = OneOp (n_op n) /\ d_attrs d = [] /\
    (forall e, In e (d_in d) <-> exists m, In (e_desc e) names /\ dget (nodemap g) (e_desc e) = Some m /\ wire m (e_other e) n (e_idx e)) /\
    (forall e, In e (d_out d) <-> exists m, In (e_desc e) names /\ dget (nodemap g) (e_desc e) = Some m /\ wire n (e_idx e) m (e_other e)).

(** the selected nodes form a chain: each feeds the next one through a single wire, whose tensor no other node reads, and there are no
    other wires between selected nodes *)
Definition next_in (names : list string) (a b : string) : Prop := exists pre post, names = pre ++ a :: b :: post.
Record is_chain (g : graph) (names : list string) : Prop := {
  ch_link : forall a b m n, next_in names a b -> dget (nodemap g) a = Some m -> dget (nodemap g) b = Some n ->
    exists o i t, 0 <= o /\ 0 <= i /\ nth_error (n_out m) (Z.to_nat o) = Some t /\ nth_error (n_in n) (Z.to_nat i) = Some t /\ RelSpec.occurrences n_in (nodes_of g) t = [b];
  ch_only : forall a b m n o i, In a names -> In b names -> dget (nodemap g) a = Some m -> dget (nodemap g) b = Some n -> wire m o n i -> next_in names a b;
  ch_one : forall a b m n o i o' i', next_in names a b -> dget (nodemap g) a = Some m -> dget (nodemap g) b = Some n -> wire m o n i -> wire m o' n i' -> o = o' /\ i = i' }.
