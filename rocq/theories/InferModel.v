(** Graph-level shape inference: which nodes are evaluated by value (graph.py:23-57, 513-535) and the inference loop
    (graph.py:1002-1006, 1015-1074). *)
From Verif Require Import PyBase GraphModel EditModel ShapeModel.
Local Open Scope string_scope.
Local Open Scope list_scope.

(** graph.py:23-41 [_SHAPE_TENSORS], each entry "i,j,..ofn" already split into ([i; j; ..], n). *)
Definition shape_table : dict (list (list nat * nat)) :=
  [ ("Reshape", [([1], 2)]);
    ("Resize", [([2], 3); ([3], 4); ([1], 2)]);
    ("Upsample", [([2], 3); ([3], 4); ([1], 2)]);
    ("Expand", [([1], 2)]);
    ("Slice", [([1; 2], 3); ([1; 2; 3], 4); ([1; 2; 3; 4], 5)]);
    ("ConstantOfShape", [([0], 1)]);
    ("Tile", [([1], 2)]);
    ("Range", [([0; 1; 2], 3)]);
    ("OneHot", [([1], 3)]);
    ("TopK", [([1], 2)]);
    ("Pad", [([1], 2); ([1], 3)]);
    ("NonMaxSuppression", [([2], 5); ([2], 4)]);
    ("Split", [([1], 2)]);
    ("Unsqueeze", [([1], 2)]);
    ("Squeeze", [([1], 2)]);
    ("ReduceSum", [([1], 2)]);
    ("ReduceMean", [([1], 2)]) ]%nat.

(** graph.py:43-57 [_contains_shape_tensor]; every index is below its count, so [n.input[i]] cannot fail. *)
Definition contains_shape_tensor (n : node) : list string :=
  match dget shape_table (n_op n) with
  | None => []
  | Some descs => flat_map (fun d => if Nat.eqb (length (n_in n)) (snd d) then map (fun i => nth i (n_in n) "") (fst d) else []) descs
  end.

(** graph.py:533-535: the producers of one input that are not marked yet. *)
Definition next_of_input (g : graph) (marks : list string) (t : string) : list string :=
  if memb t (initials g) then []
  else match dget (producedby g) t with None => [] | Some ps => filter (fun p => negb (memb p marks)) ps end.
(** graph.py:527-535: one node of the level; state = (names of the marked nodes, nextnodes).
    Simplified: [self.nodemap[p]] for a producer [p] outside nodemap (KeyError) is not modelled; producers are nodes. *)
Definition search_node (g : graph) (st : list string * list string) (k : string) : res (list string * list string) :=
  match dget (nodemap g) k with
  | None => KeyError
  | Some n =>
      let marks := if memb k (fst st) then fst st else fst st ++ [k] in
      Ok (marks, if String.eqb (n_op n) "Shape" then snd st else snd st ++ flat_map (next_of_input g marks) (n_in n))
  end.
Fixpoint search_level (g : graph) (level : list string) (st : list string * list string) : res (list string * list string) :=
  match level with
  | [] => Ok st
  | k :: r => bind (search_node g st k) (search_level g r)
  end.
(** graph.py:525-536: the while loop. *)
Fixpoint search (fuel : nat) (g : graph) (marks level : list string) : option (res (list string)) :=
  match level with
  | [] => Some (Ok marks)
  | _ =>
      match fuel with
      | O => None
      | S f =>
          match search_level g level (marks, []) with
          | Ok (marks', next) => search f g marks' next
          | KeyError => Some KeyError
          | ValueError => Some ValueError
          | AssertionError => Some AssertionError
          end
      end
  end.
(** graph.py:522-536: the loop over the set of shape tensors, in the order the set is iterated. *)
Fixpoint search_all (fuel : nat) (g : graph) (ts : list string) (marks : list string) : option (res (list string)) :=
  match ts with
  | [] => Some (Ok marks)
  | t :: r =>
      if memb t (initials g) then search_all fuel g r marks
      else match dget (producedby g) t with
           | None => search_all fuel g r marks
           | Some ps =>
               match search fuel g marks ps with
               | Some (Ok marks') => search_all fuel g r marks'
               | x => x
               end
           end
  end.
(** graph.py:513-521: the shape tensors of the graph. *)
Definition shape_tensors (g : graph) : list string := flat_map contains_shape_tensor (nodes_of g).
(** [__find_shape_tensors__]: the nodes with [shape_calc = True], for the iteration order [order] of the set. *)
Definition find_shape_tensors (fuel : nat) (g : graph) (order : list string) : option (res (list string)) := search_all fuel g order [].

(** ** The inference loop *)
Section INFER.
Context {V : Type} (vshape : V -> list Z).
(** tensor.py:365-397: shape and numpy of a tensor. Simplified: no symbolic dimensions and no dtypes; [get_numpy] stores the
    zeros it makes up (tensor.py:440), which reading again would make up again. *)
Record trec := mkT { tr_shape : list Z; tr_num : option V }.
(** the operators: new shapes, resp. new values, of the outputs from the input tensors *)
Context (srule : node -> list trec -> sres (list (list Z))) (vrule : node -> list trec -> sres (list V)).

(** graph.py:1002-1006 [update_input_by_map] *)
Definition update_tensor (v : V) : trec := mkT (vshape v) (Some v).
Definition update_input_by_map (ins : list (string * V)) (tm : dict trec) : dict trec :=
  fold_left (fun tm kv => if dhas tm (fst kv) then dset tm (fst kv) (update_tensor (snd kv)) else tm) ins tm.
(** graph.py:1015-1023 [check_inputs]; [self.tensormap[name]] may be missing *)
Fixpoint check_inputs (names : list string) (tm : dict trec) : sres bool :=
  match names with
  | [] => SOk true
  | k :: r => match dget tm k with
              | None => SRaise KeyErr
              | Some t => if forallb (fun d => (0 <=? d)%Z) (tr_shape t) then check_inputs r tm else SOk false
              end
  end.
Fixpoint lookup_all (tm : dict trec) (ts : list string) : sres (list trec) :=
  match ts with
  | [] => SOk []
  | t :: r => match dget tm t with None => SRaise KeyErr | Some x => let* xs := lookup_all tm r in SOk (x :: xs) end
  end.
(** [outtensors[i].update_shape(...)], [outtensors[i].update_tensor(...)]: only the outputs an operator computes are set *)
Fixpoint set_shapes (tm : dict trec) (outs : list string) (ss : list (list Z)) : dict trec :=
  match outs, ss with
  | o :: r, s :: ss' => set_shapes (match dget tm o with Some x => dset tm o (mkT s (tr_num x)) | None => tm end) r ss'
  | _, _ => tm
  end.
Fixpoint set_values (tm : dict trec) (outs : list string) (vs : list V) : dict trec :=
  match outs, vs with
  | o :: r, v :: vs' => set_values (if dhas tm o then dset tm o (update_tensor v) else tm) r vs'
  | _, _ => tm
  end.
(** graph.py:1038-1051: one node; an exception of the operator is re-raised as ValueError *)
Definition infer_node (calc : list string) (tm : dict trec) (n : node) : sres (dict trec) :=
  let* ins := lookup_all tm (n_in n) in
  let* outs := lookup_all tm (n_out n) in
  if memb (n_name n) calc
  then match vrule n ins with SOk vs => SOk (set_values tm (n_out n) vs) | SRaise _ => SRaise ValueErr end
  else match srule n ins with SOk ss => SOk (set_shapes tm (n_out n) ss) | SRaise _ => SRaise ValueErr end.
Fixpoint infer_nodes (calc : list string) (ns : list node) (tm : dict trec) : sres (dict trec) :=
  match ns with
  | [] => SOk tm
  | n :: r => let* tm' := infer_node calc tm n in infer_nodes calc r tm'
  end.
(** graph.py:1025-1058 [Graph.shape_infer] *)
Definition graph_shape_infer (g : graph) (calc : list string) (ins : list (string * V)) (tm : dict trec) : sres (dict trec) :=
  let tm1 := update_input_by_map ins tm in
  let* ok := check_inputs (g_input g) tm1 in
  if ok then infer_nodes calc (nodes_of g) tm1 else SRaise ValueErr.
(** graph.py:1060-1074 [Graph.value_infer]: every node by value, no check of the inputs; the values of the outputs *)
Fixpoint value_nodes (ns : list node) (tm : dict trec) : sres (dict trec) :=
  match ns with
  | [] => SOk tm
  | n :: r =>
      let* ins := lookup_all tm (n_in n) in
      let* outs := lookup_all tm (n_out n) in
      let* vs := vrule n ins in value_nodes r (set_values tm (n_out n) vs)
  end.
Fixpoint output_values (tm : dict trec) (names : list string) : sres (list (option V)) :=
  match names with
  | [] => SOk []
  | k :: r => match dget tm k with None => SRaise KeyErr | Some x => let* xs := output_values tm r in SOk (tr_num x :: xs) end
  end.
Definition graph_value_infer (g : graph) (ins : list (string * V)) (tm : dict trec) : sres (list (option V)) :=
  let* tm' := value_nodes (nodes_of g) (update_input_by_map ins tm) in output_values tm' (g_output g).
End INFER.
