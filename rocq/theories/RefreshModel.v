(** onnx_tool/graph.py:188-196 [Graph.update_graph]: the passes of the constructor again, on the present graph.
    If/TopK rewriting and [__find_shape_tensors__] are left out, as in LoadModel.v. *)
From Verif Require Import PyBase GraphModel RegressModel EditModel PartitionModel LoadModel.

Section REFRESH.
Context {D V : Type}.
Variable info_of : D -> V.
Variable v0 : V.
Variable eval : node -> list (option D) -> nat -> option D.
(** A graph, its tensors, and the attribute [constant] of its nodes (by name; graph.py:281-284, 307-309), which stays on the node. *)
Definition state : Type := graph * dict (@ltensor D V) * dict bool.

(** graph.py:163-186 [Graph.__init__]: [LoadModel.load_graph] with the attributes [constant] kept *)
Definition load_with_flags (fuel : nat) (cfg : config) (p : @proto D V) : option (res state) :=
  let '(nm, (prod, cns)) := load_nodes (c_rename cfg) (p_nodes p) in
  let tm := load_tensors info_of v0 p nm in
  let g := mkGraph nm [] prod cns [] [] [] (if c_keep_outputs cfg then map fst (p_out p) else []) in
  match constant_pass info_of eval fuel (c_fold cfg) g tm with
  | Some (Ok (tm', cst)) => Some (Ok (update_nodes_tensors cfg (map fst (p_init p)) g tm' cst, cst))
  | Some KeyError => Some KeyError
  | Some ValueError => Some ValueError
  | Some AssertionError => Some AssertionError
  | None => None
  end.
(** graph.py:188-196 [Graph.update_graph]; [raw]: the initializer names of [self.rawgraph], the proto given to the constructor *)
Definition update_graph (fuel : nat) (cfg : config) (raw : list string) (s : state) : option (res state) :=
  let '(g, tm, cst) := s in
  match fold_nodes info_of eval fuel (c_fold cfg) g (dkeys (nodemap g)) tm cst with
  | Some (Ok (tm', cst')) => Some (Ok (update_nodes_tensors cfg raw g tm' cst', cst'))
  | Some KeyError => Some KeyError
  | Some ValueError => Some ValueError
  | Some AssertionError => Some AssertionError
  | None => None
  end.
End REFRESH.
