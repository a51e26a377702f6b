(** Specification of the producer/consumer relations: one entry per occurrence,
    in node order. *)
From Verif Require Import PyBase GraphModel.

Definition occurrences (sel : node -> list string) (ns : list node) (t : string) : list string :=
  flat_map (fun n => map (fun _ => n_name n) (filter (String.eqb t) (sel n))) ns.

Definition none_if_empty (l : list string) : option (list string) :=
  match l with [] => None | _ => Some l end.
