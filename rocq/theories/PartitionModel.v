(** Splitting a graph by tensors and finding constant nodes: graph.py 266-313, 538-572. *)
From Verif Require Import PyBase GraphModel EditModel.
Local Open Scope list_scope.

(** graph.py:545-552 (559-566): one consumer; state = (level list, newlist).  [skip] is [] in the first
    search and graph_level2 in the second. *)
Definition visit_consumer (g : graph) (skip : list string) (st : list string * list string) (c : string) : res (list string * list string) :=
  let (acc, newl) := st in
  if memb c skip || memb c acc then Ok st
  else match dget (nodemap g) c with
       | None => KeyError
       | Some n => Ok (acc ++ [c], newl ++ n_out n)
       end.
Fixpoint visit_consumers (g : graph) (skip : list string) (cs : list string) (st : list string * list string) :=
  match cs with
  | [] => Ok st
  | c :: r => bind (visit_consumer g skip st c) (visit_consumers g skip r)
  end.
(** graph.py:543-545: [if name in self.consumedby: for consumer in ...] *)
Fixpoint visit_tensors (g : graph) (skip : list string) (ts : list string) (st : list string * list string) :=
  match ts with
  | [] => Ok st
  | t :: r => bind (visit_consumers g skip (match dget (consumedby g) t with Some l => l | None => [] end) st) (visit_tensors g skip r)
  end.
(** graph.py:542-553: [while len(searchlist)].  Every round that continues adds a node, so
    [S (S #nodes)] rounds are enough; [None] (out of fuel) is excluded by the theorems. *)
Fixpoint search_down (fuel : nat) (g : graph) (skip : list string) (search acc : list string) : option (res (list string)) :=
  match search with
  | [] => Some (Ok acc)
  | _ => match fuel with
         | O => None
         | S f => match visit_tensors g skip search (acc, []) with
                  | Ok (acc', newl) => search_down f g skip newl acc'
                  | KeyError => Some KeyError
                  | ValueError => Some ValueError
                  | AssertionError => Some AssertionError
                  end
         end
  end.
(** graph.py:538-572 [__get_subnodes_byio__]: (level0, level1, level2). *)
Definition subnodes_byio (g : graph) (inputs outputs : list string) : option (res (list string * list string * list string)) :=
  let fuel := S (S (length (nodemap g))) in
  match search_down fuel g [] outputs [] with
  | Some (Ok l2) =>
      match search_down fuel g l2 inputs [] with
      | Some (Ok l1) => Some (Ok (filter (fun k => negb (memb k l1) && negb (memb k l2)) (dkeys (nodemap g)), l1, l2))
      | Some KeyError => Some KeyError
      | Some ValueError => Some ValueError
      | Some AssertionError => Some AssertionError
      | None => None
      end
  | Some KeyError => Some KeyError
  | Some ValueError => Some ValueError
  | Some AssertionError => Some AssertionError
  | None => None
  end.

(** graph.py:266-274 [__is_node_constant__]; the tensor types are the [static] set (every operand is in
    tensormap once loaded, so no KeyError). *)
Definition is_node_constant (static : string -> bool) (n : node) : bool :=
  negb (String.eqb (n_op n) "DequantizeLinear") && forallb static (n_in n).

(** graph.py:276-313 [__constant_search__] without value computation (constant_folding=False):
    [static] is the set of STATIC tensors, [cst] maps each visited node to its [constant] attribute. *)
Definition add_static (static : string -> bool) (outs : list string) : string -> bool :=
  fun t => memb t outs || static t.
(** graph.py:305-311: consumers of one output; state = (cst, queue). *)
Definition requeue (nm : dict node) (static : string -> bool) (st : dict bool * list string) (c : string) : res (dict bool * list string) :=
  let (cst, q) := st in
  match dget nm c with
  | None => KeyError
  | Some cn => Ok (if is_node_constant static cn then (dset cst c true, q ++ [c]) else st)
  end.
Fixpoint requeue_all (nm : dict node) (static : string -> bool) (cs : list string) (st : dict bool * list string) :=
  match cs with
  | [] => Ok st
  | c :: r => bind (requeue nm static st c) (requeue_all nm static r)
  end.
(** graph.py:285-311: the work list; [None] = still running after [fuel] pops. *)
Fixpoint const_loop (fuel : nat) (g : graph) (static : string -> bool) (cst : dict bool) (q : list string)
  : option (res ((string -> bool) * dict bool)) :=
  match q with
  | [] => Some (Ok (static, cst))
  | k :: r =>
      match fuel with
      | O => None
      | S f =>
          match dget (nodemap g) k with
          | None => Some KeyError
          | Some n =>
              let static' := add_static static (n_out n) in
              match requeue_all (nodemap g) static'
                      (flat_map (fun o => match dget (consumedby g) o with Some l => l | None => [] end) (n_out n)) (cst, r) with
              | Ok (cst', q') => const_loop f g static' cst' q'
              | KeyError => Some KeyError
              | ValueError => Some ValueError
              | AssertionError => Some AssertionError
              end
          end
      end
  end.
(** graph.py:279-284: the outer loop over nodes. *)
Fixpoint const_nodes (fuel : nat) (g : graph) (names : list string) (static : string -> bool) (cst : dict bool)
  : option (res ((string -> bool) * dict bool)) :=
  match names with
  | [] => Some (Ok (static, cst))
  | k :: r =>
      if dhas cst k then const_nodes fuel g r static cst
      else match dget (nodemap g) k with
           | None => Some KeyError
           | Some n =>
               if is_node_constant static n
               then match const_loop fuel g static (dset cst k true) [k] with
                    | Some (Ok (static', cst')) => const_nodes fuel g r static' cst'
                    | x => x
                    end
               else const_nodes fuel g r static (dset cst k false)
           end
  end.
Definition constant_search (fuel : nat) (g : graph) (static : string -> bool) :=
  const_nodes fuel g (dkeys (nodemap g)) static [].
