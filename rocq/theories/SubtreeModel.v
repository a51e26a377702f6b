(** [Graph.remove_subtree] (onnx_tool/graph.py:677-695). *)
From Verif Require Import PyBase GraphModel EditModel.
Local Open Scope list_scope.

(** [nodeset.add(x)]: a set is a list without duplicates *)
Definition set_add (x : string) (l : list string) : list string := if memb x l then l else l ++ [x].
(** [node.nextnodes] (node objects are represented by their names, as in [next_nodes]) *)
Definition succs (nx : dict (list string)) (name : string) : list string := match dget nx name with Some l => l | None => [] end.
(** graph.py:678-686: the recursive calls, which fill the set they are given. [nodeset.union(...)] makes a new set that is dropped.
    [depth]: how many nested calls Python's recursion limit still allows; [None]: RecursionError *)
Fixpoint subtree_visit (depth : nat) (nx : dict (list string)) (g : graph) (name : string) (acc : list string) : option (list string) :=
  match depth with
  | O => None
  | S d => if dhas (nodemap g) name
           then fold_left (fun r m => match r with Some a => subtree_visit d nx g m (set_add m a) | None => None end) (succs nx name) (Some acc)
           else Some acc
  end.
(** graph.py:688-695. [enum] is the order in which Python iterates over the set, which depends on the hashes of the run *)
Definition remove_subtree (enum : list string -> list string) (depth : nat) (nx : dict (list string)) (g : graph) (name : string) : option (res graph) :=
  match subtree_visit depth nx g name [name] with
  | None => None
  | Some set => Some (remove_nodes g (filter (fun k => dhas (nodemap g) k) (enum set)))
  end.
(** the number of calls that [subtree_visit] makes, itself included *)
Fixpoint subtree_calls (depth : nat) (nx : dict (list string)) (g : graph) (name : string) : nat :=
  match depth with
  | O => 0
  | S d => S (if dhas (nodemap g) name then fold_left (fun s m => s + subtree_calls d nx g m) (succs nx name) 0 else 0)
  end.
