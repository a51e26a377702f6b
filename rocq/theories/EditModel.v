(** Graph surgery: onnx_tool/graph.py 638-772 and 965-1001. *)
From Verif Require Import PyBase GraphModel.
Local Open Scope list_scope.

(** Python exceptions as values *)
Inductive res (A : Type) := Ok (a : A) | KeyError | ValueError | AssertionError.
Arguments Ok {A}. Arguments KeyError {A}. Arguments ValueError {A}. Arguments AssertionError {A}.
Definition bind {A B} (r : res A) (f : A -> res B) : res B :=
  match r with Ok a => f a | KeyError => KeyError | ValueError => ValueError | AssertionError => AssertionError end.

(** [d[k] = l; if len(l) == 0: d.pop(k)] *)
Definition put_or_pop (d : dict (list string)) (k : string) (l : list string) : dict (list string) :=
  match l with [] => ddel d k | _ => dset d k l end.

(** graph.py:643-650: one output of the removed node. *)
Definition rm_out (name : string) (po : dict (list string) * list string) (o : string)
  : res (dict (list string) * list string) :=
  let (prod, output) := po in
  match dget prod o with
  | None => Ok po
  | Some l =>
      if memb name l
      then Ok (put_or_pop prod o (remove1 name l), if memb o output then remove1 o output else output)
      else ValueError
  end.

(** graph.py:641-650 over all outputs. *)
Fixpoint rm_outs (name : string) (outs : list string) (po : dict (list string) * list string)
  : res (dict (list string) * list string) :=
  match outs with
  | [] => Ok po
  | o :: r => bind (rm_out name po o) (rm_outs name r)
  end.

(** graph.py:657-665: does producer [pnode] of [i] become useless? *)
Definition dangling (nm : dict node) (cns : dict (list string)) (output : list string) (i : string) (pnode : string)
  : res bool :=
  match dget nm pnode with
  | None => KeyError
  | Some p => Ok (negb (existsb (fun o => negb (String.eqb o i) && (dhas cns o || memb o output)) (n_out p)))
  end.

(** graph.py:652-671: one input; state = (consumedby, newnodes). *)
Definition rm_in (nm : dict node) (prod : dict (list string)) (output : list string) (name : string)
           (st : dict (list string) * list string) (i : string) : res (dict (list string) * list string) :=
  let (cns, newnodes) := st in
  match dget cns i with
  | None => Ok st
  | Some l =>
      let cand :=
        if Nat.eqb (length l) 1
        then match dget prod i with
             | None => Ok newnodes
             | Some [] => KeyError   (* producedby[i][0] on an empty list (IndexError); never stored empty *)
             | Some (p :: q) =>
                 match q with
                 | _ :: _ => AssertionError
                 | [] => bind (dangling nm cns output i p)
                              (fun b => Ok (if b then newnodes ++ [p] else newnodes))
                 end
             end
        else Ok newnodes in
      bind cand (fun nn =>
        let l' := if memb name l then remove1 name l else l in
        Ok (put_or_pop cns i l', nn))
  end.

Fixpoint rm_ins (nm : dict node) (prod : dict (list string)) (output : list string) (name : string)
         (ins : list string) (st : dict (list string) * list string) : res (dict (list string) * list string) :=
  match ins with
  | [] => Ok st
  | i :: r => bind (rm_in nm prod output name st i) (rm_ins nm prod output name r)
  end.

Definition with_rel (g : graph) nm prod cns output : graph :=
  mkGraph nm (tensormap g) prod cns (initials g) (dynamics g) (g_input g) output.

(** graph.py:638-672: [remove_node(nodename)] without the recursion; also returns [newnodes]. *)
Definition remove_node1 (g : graph) (name : string) : res (graph * list string) :=
  match dget (nodemap g) name with
  | None => Ok (g, [])
  | Some n =>
      bind (rm_outs name (n_out n) (producedby g, g_output g)) (fun '(prod, output) =>
      bind (rm_ins (nodemap g) prod output name (n_in n) (consumedby g, [])) (fun '(cns, newnodes) =>
      Ok (with_rel g (ddel (nodemap g) name) prod cns output, newnodes)))
  end.

(** graph.py:638-675. *)
Definition remove_nodes (g : graph) (names : list string) : res graph :=
  fold_left (fun r k => bind r (fun g => bind (remove_node1 g k) (fun '(g', _) => Ok g'))) names (Ok g).
Definition remove_node (g : graph) (name : string) (recursive : bool) : res graph :=
  bind (remove_node1 g name) (fun '(g', newnodes) => if recursive then remove_nodes g' newnodes else Ok g').

(** graph.py:500-508: [nextnodes] as built while loading; node objects are
    represented by their names.  It is never updated by later surgery. *)
Definition next_nodes (g : graph) : dict (list string) :=
  map (fun kn => (fst kn, flat_map (fun o => match dget (consumedby g) o with Some l => l | None => [] end) (n_out (snd kn))))
      (nodemap g).

(** graph.py:703-711: is the node used? *)
Definition node_used (nx : dict (list string)) (g : graph) (name : string) (n : node) : bool :=
  existsb (fun o => memb o (g_output g)) (n_out n)
  || existsb (fun m => dhas (nodemap g) m) (match dget nx name with Some l => l | None => [] end).

(** graph.py:701-717: one sweep over the snapshot of keys. *)
Fixpoint sweep (nx : dict (list string)) (names : list string) (g : graph) (again : bool) : res (graph * bool) :=
  match names with
  | [] => Ok (g, again)
  | k :: r =>
      match dget (nodemap g) k with
      | None => KeyError
      | Some n =>
          if node_used nx g k n then sweep nx r g again
          else bind (remove_node g k true) (fun g' => sweep nx r g' true)
      end
  end.

(** graph.py:697-717; each round but the last removes a node, so [fuel = S (#nodes)] is enough
    ([None] = out of fuel, excluded by the theorems). *)
Fixpoint dangling_loop (fuel : nat) (nx : dict (list string)) (g : graph) : option (res graph) :=
  match fuel with
  | O => None
  | S f =>
      match sweep nx (dkeys (nodemap g)) g false with
      | Ok (g', true) => dangling_loop f nx g'
      | Ok (g', false) => Some (Ok g')
      | KeyError => Some KeyError
      | ValueError => Some ValueError
      | AssertionError => Some AssertionError
      end
  end.
Definition remove_dangling_nodes (nx : dict (list string)) (g : graph) : option (res graph) :=
  dangling_loop (S (length (nodemap g))) nx g.

(** graph.py:965-1001 [get_iotensors]. *)
Definition all_in (l names : list string) : bool := forallb (fun x => memb x names) l.
Definition io_in (g : graph) (names : list string) (rmi : bool) (acc : list string) (t : string) : list string :=
  if String.eqb t "" then acc
  else if rmi && memb t (initials g) then acc
  else if match dget (producedby g) t with Some l => all_in l names | None => false end then acc
  else if memb t acc then acc else acc ++ [t].
Definition io_out (g : graph) (names : list string) (rmi : bool) (acc : list string) (t : string) : list string :=
  if rmi && memb t (initials g) then acc
  else if match dget (consumedby g) t with Some l => all_in l names | None => false end then acc
  else if memb t acc then acc else acc ++ [t].
Fixpoint io_go (g : graph) (names : list string) (rmi : bool) (todo : list string) (io : list string * list string)
  : res (list string * list string) :=
  match todo with
  | [] => Ok io
  | k :: r =>
      match dget (nodemap g) k with
      | None => KeyError
      | Some n => io_go g names rmi r
          (fold_left (io_in g names rmi) (n_in n) (fst io), fold_left (io_out g names rmi) (n_out n) (snd io))
      end
  end.
Definition get_iotensors (g : graph) (names : list string) (rmi : bool) : res (list string * list string) :=
  io_go g names rmi names ([], []).

(** graph.py:743-772 [fuse_subgraph_node_names] (attributes and prevnodes/nextnodes left out). *)
Definition fuse_nodes (g : graph) (names : list string) (op name : string) : res graph :=
  bind (get_iotensors g names false) (fun '(ins, outs) =>
  bind (remove_nodes g names) (fun g1 =>
  let cns := fold_left (fun d i => dpush d i name) ins (consumedby g1) in
  let prod := fold_left (fun d o => dset d o [name]) outs (producedby g1) in
  Ok (with_rel g1 (dset (nodemap g1) name (mkNode name op ins outs)) prod cns (g_output g1)))).

(** graph.py:719-741 [skip_node]. *)
Fixpoint replace_first (x y : string) (l : list string) : option (list string) :=
  match l with
  | [] => None
  | z :: r => if String.eqb z x then Some (y :: r)
              else match replace_first x y r with Some r' => Some (z :: r') | None => None end
  end.
Definition set_in (n : node) (l : list string) : node := mkNode (n_name n) (n_op n) l (n_out n).
Definition set_out (n : node) (l : list string) : node := mkNode (n_name n) (n_op n) (n_in n) l.

(** graph.py:728-734: rewire one consumer entry. *)
Definition rewire (out ind : string) (st : dict node * dict (list string)) (con : string)
  : res (dict node * dict (list string)) :=
  let (nm, cns) := st in
  match dget nm con with
  | None => KeyError
  | Some c =>
      match replace_first out ind (n_in c) with
      | None => Ok st
      | Some l => Ok (dset nm con (set_in c l), dpush cns ind con)
      end
  end.
Fixpoint rewire_all (out ind : string) (l : list string) (st : dict node * dict (list string)) :=
  match l with
  | [] => Ok st
  | c :: r => bind (rewire out ind st c) (rewire_all out ind r)
  end.
(** graph.py:735-739: no consumer: rename the producer's output. *)
Fixpoint rename_producers (out : string) (l : list string) (nm : dict node) : res (dict node) :=
  match l with
  | [] => Ok nm
  | p :: r =>
      match dget nm p with
      | None => KeyError
      | Some pn => match n_out pn with
                   | [_] => rename_producers out r (dset nm p (set_out pn [out]))
                   | _ => AssertionError
                   end
      end
  end.
Definition skip_node (g : graph) (name : string) : res graph :=
  match dget (nodemap g) name with
  | None => KeyError
  | Some n =>
      let dins := filter (fun i => memb i (dynamics g)) (n_in n) in
      match dins, n_out n with
      | [ind], [out] =>
          match dget (consumedby g) ind with
          | None => KeyError
          | Some l =>
              if negb (memb name l) then ValueError else
              let cons1 := dset (consumedby g) ind (remove1 name l) in
              match dget cons1 out with
              | Some cl =>
                  bind (rewire_all out ind cl (nodemap g, cons1)) (fun '(nm, cons2) =>
                  Ok (with_rel g (ddel nm name) (producedby g) cons2 (g_output g)))
              | None =>
                  match dget (producedby g) ind with
                  | None => KeyError
                  | Some ps => bind (rename_producers out ps (nodemap g)) (fun nm =>
                      Ok (with_rel g (ddel nm name) (producedby g) cons1 (g_output g)))
                  end
              end
          end
      | _, _ => Ok (with_rel g (ddel (nodemap g) name) (producedby g) (consumedby g) (g_output g))
      end
  end.
