(** Specification vocabulary: node orders that respect data dependencies. *)
From Verif Require Import PyBase GraphModel CompressSpec TopSortSpec.

(** no node reads (under a non-empty name) a tensor that it or a later node writes *)
Definition respects_deps (ns : list node) : Prop :=
  forall a n b t, ns = (a ++ n :: b)%list -> In t (n_in n) -> t <> ""%string -> ~ In t (outs_of (n :: b)).

(** [k] lies on, or downstream of, a dependency cycle *)
Definition depends_on_cycle (nm : dict node) (k : string) : Prop :=
  exists c, path nm c c /\ (c = k \/ path nm c k).
