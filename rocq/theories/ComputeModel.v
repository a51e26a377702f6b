(** Model of [Graph.get_compute_graph], onnx_tool/graph.py:1383-1431: the graph without the nodes that only compute shapes. *)
From Verif Require Import PyBase GraphModel EditModel.
Local Open Scope string_scope.
Local Open Scope list_scope.

(** graph.py:1396-1399: do all consumers have [shape_calc] set?  [calc] lists the nodes that do; stops at the first that does not *)
Fixpoint all_shape (g : graph) (calc : list string) (cs : list string) : res bool :=
  match cs with
  | [] => Ok true
  | c :: r => match dget (nodemap g) c with
              | None => KeyError
              | Some _ => if memb c calc then all_shape g calc r else Ok false
              end
  end.
(** graph.py:1392-1402: [dummy_node]; no early exit over the outputs *)
Fixpoint dummy_node (g : graph) (calc : list string) (outs : list string) (acc : bool) : res bool :=
  match outs with
  | [] => Ok acc
  | o :: r => match dget (consumedby g) o with
              | Some cs => bind (all_shape g calc cs) (fun d => dummy_node g calc r (acc && d))
              | None => dummy_node g calc r false
              end
  end.
(** graph.py:1409-1415: the inputs of one visited node; state = (rmnodes, searchnodes).
    Simplified: [self.producedby[input][0]] of an empty list (IndexError) is not modelled; the tables hold no empty list. *)
Fixpoint visit_inputs (g : graph) (ins : list string) (st : list string * list string) : res (list string * list string) :=
  match ins with
  | [] => Ok st
  | t :: r =>
      match dget (producedby g) t with
      | None => visit_inputs g r st
      | Some ps =>
          match dget (consumedby g) t with
          | None => KeyError
          | Some cs =>
              if Nat.eqb (length cs) 1
              then let p := hd "" ps in
                   visit_inputs g r ((if memb p (fst st) then fst st else fst st ++ [p]), snd st ++ [p])
              else visit_inputs g r st
          end
      end
  end.
(** graph.py:1405-1415: the while loop over [searchnodes] ([None] = out of fuel, excluded by the theorems) *)
Fixpoint search_up (fuel : nat) (g : graph) (rm queue : list string) : option (res (list string)) :=
  match queue with
  | [] => Some (Ok rm)
  | k :: r =>
      match fuel with
      | O => None
      | S f =>
          match dget (nodemap g) k with
          | None => Some KeyError
          | Some n =>
              match visit_inputs g (n_in n) (rm, r) with
              | Ok (rm', q') => search_up f g rm' q'
              | KeyError => Some KeyError
              | ValueError => Some ValueError
              | AssertionError => Some AssertionError
              end
          end
      end
  end.
(** graph.py:1387-1417: the loop over the nodes, collecting [rmnodes] *)
Fixpoint scan (fuel : nat) (g : graph) (calc : list string) (kns : dict node) (rm : list string) : option (res (list string)) :=
  match kns with
  | [] => Some (Ok rm)
  | (k, n) :: r =>
      if memb k calc then scan fuel g calc r (rm ++ [k])
      else match dummy_node g calc (n_out n) true with
           | Ok true => match search_up fuel g (rm ++ [k]) [k] with
                        | Some (Ok rm') => scan fuel g calc r rm'
                        | x => x
                        end
           | Ok false => scan fuel g calc r rm
           | KeyError => Some KeyError
           | ValueError => Some ValueError
           | AssertionError => Some AssertionError
           end
  end.
(** graph.py:1423-1429: the new list of dynamic tensors; note the test on [name], the node's name *)
Definition new_dynamics (g : graph) : list string :=
  fold_left (fun d kn => fold_left (fun d o => if memb (fst kn) d then d else d ++ [o]) (n_out (snd kn)) d) (nodemap g) (g_input g ++ g_output g).
Definition with_dynamics (g : graph) (d : list string) : graph :=
  mkGraph (nodemap g) (tensormap g) (producedby g) (consumedby g) (initials g) d (g_input g) (g_output g).
(** graph.py:1383-1431.  [copy.copy] is shallow: the copy shares nodemap, tensormap, the relation tables and the output list with
    the original, all updated in place by [remove_node]; only [dynamics] is a list of its own.
    Result: the original graph after the call, and the returned compute graph. *)
Definition get_compute_graph (fuel : nat) (g : graph) (calc : list string) : option (res (graph * graph)) :=
  match scan fuel g calc (nodemap g) [] with
  | Some (Ok rm) => Some (bind (remove_nodes g rm) (fun g' => Ok (g', with_dynamics g' (new_dynamics g'))))
  | Some KeyError => Some KeyError
  | Some ValueError => Some ValueError
  | Some AssertionError => Some AssertionError
  | None => None
  end.
