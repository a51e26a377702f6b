(** Specification vocabulary for node ordering. *)
From Verif Require Import PyBase GraphModel.

(** node [a] produces a tensor that node [b] reads *)
Definition feeds (nm : dict node) (a b : string) : Prop :=
  exists na nb t, In (a, na) nm /\ In (b, nb) nm /\ In t (n_out na) /\ In t (n_in nb).

(** every tensor name is an output of at most one node, once; node names are distinct *)
Definition unique_producers (nm : dict node) : Prop :=
  NoDup (map fst nm) /\ NoDup (flat_map (fun kn => n_out (snd kn)) nm).

(** no dependency cycle: nodes can be ranked so that producers rank below consumers *)
Definition acyclic (nm : dict node) : Prop :=
  exists rk : string -> nat, forall a b, feeds nm a b -> rk a < rk b.

(** [a] occurs before [b] in [l] *)
Definition before (l : list string) (a b : string) : Prop :=
  exists l1 l2 l3, l = (l1 ++ a :: l2 ++ b :: l3)%list.

(** all (transitive) producers of [k] can be executed: no cycle upstream *)
Inductive executable (nm : dict node) : string -> Prop :=
| exec_intro : forall k, In k (map fst nm) -> (forall a, feeds nm a k -> executable nm a) -> executable nm k.

(** a non-empty dependency path *)
Inductive path (nm : dict node) : string -> string -> Prop :=
| path_one : forall a b, feeds nm a b -> path nm a b
| path_step : forall a b c, feeds nm a b -> path nm b c -> path nm a c.
