(** Loading a model proto into a [Graph] and writing a [Graph] back as a proto.
    Tensor payloads are abstract here: [D] is the data of an initializer, [V] the element type and shape
    recorded for a tensor, [info_of d] the type and shape of data [d], [v0] what a tensor known only by name
    gets (float32, shape []).  Whether payload bytes survive is C43, C44, C61 and C62. *)
From Coq Require Import DecimalString.
From Verif Require Import PyBase GraphModel RegressModel EditModel PartitionModel.
Local Open Scope string_scope.
Local Open Scope list_scope.

Section LOAD.
Context {D V : Type}.
Variable info_of : D -> V.
Variable v0 : V.

(** onnx.GraphProto: node, initializer, input, output, value_info.  Node attributes are left out. *)
Record proto := mkProto {
  p_nodes : list node;
  p_init : list (string * D);
  p_in : list (string * V);
  p_out : list (string * V);
  p_vi : list (string * V)
}.
(** onnx_tool/tensor.py:368-396 [Tensor]: type, numpy, (dtype, shape). *)
Record ltensor := mkLT { lt_kind : tkind; lt_data : option D; lt_info : V }.
(** onnx_tool/utils.py:7-15 [ModelConfig]: the switches the loader reads (If/TopK rewriting is not modelled:
    if_fixed_branch=None, fixed_topk=0). *)
Record config := mkCfg { c_fold : bool; c_rename : bool; c_keep_outputs : bool (* cfg.remove_dangling *) }.
Definition default_cfg : config := mkCfg false false true.

(** tensor.py:371-377 [Tensor(name)]: the omitted operand '' counts as STATIC. *)
Definition bare (t : string) : ltensor := mkLT (if String.eqb t "" then STATIC else DYNAMIC) None v0.
(** tensor.py:378-384 and 385-392. *)
Definition described (v : V) : ltensor := mkLT DYNAMIC None v.
Definition stored (d : D) : ltensor := mkLT STATIC (Some d) (info_of d).

(** graph.py:445-447: the name under which the [i]-th node of the proto is registered. *)
Definition auto_name (op : string) (i : nat) : string := (op ++ "_" ++ dec i)%string.
Definition given_name (rename : bool) (i : nat) (n : node) : string :=
  if rename || String.eqb (n_name n) "" then auto_name (n_op n) i else n_name n.
Fixpoint named_from (rename : bool) (i : nat) (ns : list node) : list node :=
  match ns with
  | [] => []
  | n :: r => mkNode (given_name rename i n) (n_op n) (n_in n) (n_out n) :: named_from rename (S i) r
  end.
(** graph.py:443-463: the node loop.  prevnodes/nextnodes are left out (they mirror producedby/consumedby and
    cannot fail: every registered name is a key of nodemap). *)
Definition load_node (st : dict node * (dict (list string) * dict (list string))) (n : node) :=
  (dset (fst st) (n_name n) n, upd_node (snd st) n).
Definition load_nodes (rename : bool) (ns : list node) := fold_left load_node (named_from rename 0 ns) ([], ([], [])).

(** [if t not in tensormap: tensormap[t] = x], graph.py:473-479, 486-488, 496-500. *)
Definition set_new {A} (tm : dict A) (t : string) (x : A) : dict A := if dhas tm t then tm else dset tm t x.
(** graph.py:469-503. *)
Definition load_tensors (p : proto) (nm : dict node) : dict ltensor :=
  let t1 := fold_left (fun tm x => dset tm (fst x) (stored (snd x))) (p_init p) [] in
  let t2 := fold_left (fun tm x => set_new tm (fst x) (described (snd x))) (p_in p) t1 in
  let t3 := fold_left (fun tm x => set_new tm (fst x) (described (snd x))) (p_out p) t2 in
  let t4 := fold_left (fun tm x => set_new tm (fst x) (described (snd x))) (p_vi p) t3 in
  fold_left (fun tm n => fold_left (fun tm t => set_new tm t (bare t)) (n_in n ++ n_out n) tm) (map snd nm) t4.

Definition static_of (tm : dict ltensor) (t : string) : bool :=
  match dget tm t with Some x => match lt_kind x with STATIC => true | DYNAMIC => false end | None => false end.
Definition data_of (tm : dict ltensor) (t : string) : option D :=
  match dget tm t with Some x => lt_data x | None => None end.

(** Operator evaluation, [Node.value_infer]: the value of the [i]-th output from the operands' values ([None]: no
    value).  Simplified: an operator that raises during folding (NotImplementedError) is not modelled. *)
Variable eval : node -> list (option D) -> nat -> option D.

(** graph.py:291-303: the outputs of a constant node become STATIC and, when folding, get their value.
    (Every output is a key of tensormap, so the lookup cannot fail.) *)
Definition mark_output (fold : bool) (n : node) (args : list (option D)) (tm : dict ltensor) (io : nat * string) : dict ltensor :=
  match dget tm (snd io) with
  | None => tm
  | Some x =>
      dset tm (snd io)
        (if fold then match eval n args (fst io) with
                      | Some d => stored d
                      | None => mkLT STATIC None (lt_info x)
                      end
         else mkLT STATIC (lt_data x) (lt_info x))
  end.
Definition indexed {A} (l : list A) : list (nat * A) := combine (seq 0 (length l)) l.
Definition mark_outputs (fold : bool) (n : node) (tm : dict ltensor) : dict ltensor :=
  fold_left (mark_output fold n (map (data_of tm) (n_in n))) (indexed (n_out n)) tm.

(** graph.py:285-311, with the values; [PartitionModel.const_loop] is the same loop without them. *)
Fixpoint fold_loop (fuel : nat) (fold : bool) (g : graph) (tm : dict ltensor) (cst : dict bool) (q : list string)
  : option (res (dict ltensor * dict bool)) :=
  match q with
  | [] => Some (Ok (tm, cst))
  | k :: r =>
      match fuel with
      | O => None
      | S f =>
          match dget (nodemap g) k with
          | None => Some KeyError
          | Some n =>
              let tm' := mark_outputs fold n tm in
              match requeue_all (nodemap g) (static_of tm')
                      (flat_map (fun o => match dget (consumedby g) o with Some l => l | None => [] end) (n_out n)) (cst, r) with
              | Ok (cst', q') => fold_loop f fold g tm' cst' q'
              | KeyError => Some KeyError
              | ValueError => Some ValueError
              | AssertionError => Some AssertionError
              end
          end
      end
  end.
(** graph.py:276-284. *)
Fixpoint fold_nodes (fuel : nat) (fold : bool) (g : graph) (names : list string) (tm : dict ltensor) (cst : dict bool)
  : option (res (dict ltensor * dict bool)) :=
  match names with
  | [] => Some (Ok (tm, cst))
  | k :: r =>
      if dhas cst k then fold_nodes fuel fold g r tm cst
      else match dget (nodemap g) k with
           | None => Some KeyError
           | Some n =>
               if is_node_constant (static_of tm) n
               then match fold_loop fuel fold g tm (dset cst k true) [k] with
                    | Some (Ok (tm', cst')) => fold_nodes fuel fold g r tm' cst'
                    | x => x
                    end
               else fold_nodes fuel fold g r tm (dset cst k false)
           end
  end.
Definition constant_pass (fuel : nat) (fold : bool) (g : graph) (tm : dict ltensor) :=
  fold_nodes fuel fold g (dkeys (nodemap g)) tm [].

(** [if t not in l: l.append(t)]. *)
Definition add_new (l : list string) (t : string) : list string := if memb t l then l else l ++ [t].

(** graph.py:205-213: constant nodes leave nodemap when folding. *)
Definition drop_constant (fold : bool) (cst : dict bool) (nm : dict node) : dict node :=
  if fold then filter (fun kn => match dget cst (fst kn) with Some true => false | _ => true end) nm else nm.
(** graph.py:215-226: initials and dynamics when folding; state = (initials, dynamics). *)
Definition sort_in (tm : dict ltensor) (st : list string * list string) (t : string) : list string * list string :=
  if static_of tm t then (add_new (fst st) t, snd st) else (fst st, add_new (snd st) t).
Definition sort_node (tm : dict ltensor) (st : list string * list string) (n : node) : list string * list string :=
  let st1 := fold_left (sort_in tm) (n_in n) st in (fst st1, fold_left add_new (n_out n) (snd st1)).
(** graph.py:227-237: dynamics otherwise. *)
Definition dyn_node (ini : list string) (dyn : list string) (n : node) : list string :=
  fold_left add_new (n_out n) (fold_left (fun dyn t => if memb t ini then dyn else add_new dyn t) (n_in n) dyn).

(** graph.py:248-263: graph inputs and outputs from the node lists. *)
Definition scan_in (prod : dict (list string)) (dyn : list string) (acc : list string) (t : string) : list string :=
  if negb (dhas prod t) && memb t dyn then add_new acc t else acc.
Definition scan_out (cns : dict (list string)) (acc : list string) (t : string) : list string :=
  match dget cns t with
  | None | Some [] => add_new acc t
  | _ => acc
  end.

(** graph.py:202-264 [__update_nodes_tensors__]; [raw] are the initializer names of the proto. *)
Definition update_nodes_tensors (cfg : config) (raw : list string) (g : graph) (tm : dict ltensor) (cst : dict bool)
  : graph * dict ltensor :=
  let nm := drop_constant (c_fold cfg) cst (nodemap g) in
  let ns := map snd nm in
  let '(ini, dyn) :=
    if c_fold cfg then fold_left (sort_node tm) ns (initials g, dynamics g)
    else (initials g ++ raw, fold_left (dyn_node (initials g ++ raw)) ns (dynamics g ++ g_input g)) in
  let tm' := filter (fun x => memb (fst x) (ini ++ dyn)) tm in
  let inp := fold_left (fun acc n => fold_left (scan_in (producedby g) dyn) (n_in n) acc) ns [] in
  let out := if c_keep_outputs cfg then g_output g
             else fold_left (fun acc n => fold_left (scan_out (consumedby g)) (n_out n) acc) ns [] in
  (update_consumer_producer (mkGraph nm [] [] [] ini dyn inp out), tm').

(** graph.py:163-186 [Graph.__init__]; the tensors are the second component ([tensormap] of the [graph] record
    is unused here).  [__find_shape_tensors__] only sets shape_calc flags and is left out. *)
Definition load_graph (fuel : nat) (cfg : config) (p : proto) : option (res (graph * dict ltensor)) :=
  let '(nm, (prod, cns)) := load_nodes (c_rename cfg) (p_nodes p) in
  let tm := load_tensors p nm in
  let g := mkGraph nm [] prod cns [] [] [] (if c_keep_outputs cfg then map fst (p_out p) else []) in
  match constant_pass fuel (c_fold cfg) g tm with
  | Some (Ok (tm', cst)) => Some (Ok (update_nodes_tensors cfg (map fst (p_init p)) g tm' cst))
  | Some KeyError => Some KeyError
  | Some ValueError => Some ValueError
  | Some AssertionError => Some AssertionError
  | None => None
  end.

(** graph.py:626-636 [get_initials_from_nodenames]; state = (initializer, enqueued). *)
Definition init_in (g : graph) (tm : dict ltensor) (st : list (string * D) * list string) (t : string) :=
  if memb t (initials g) && negb (memb t (snd st))
  then (match data_of tm t with Some d => fst st ++ [(t, d)] | None => fst st end, snd st ++ [t])
  else st.
Definition get_initials (g : graph) (tm : dict ltensor) (ns : list node) : list (string * D) :=
  fst (fold_left (fun st n => fold_left (init_in g tm) (n_in n) st) ns ([], [])).
(** tensor.py:476-489 [make_value_proto]: nothing for the empty name. *)
Definition value_proto (t : string) (x : ltensor) : list (string * V) := if String.eqb t "" then [] else [(t, lt_info x)].
Definition value_if_known (tm : dict ltensor) (t : string) : list (string * V) :=
  match dget tm t with Some x => value_proto t x | None => [] end.
(** graph.py:859-914 [make_graph_onnx] as [save_model] (841-858) calls it with shape_only=False, no_shape=False. *)
Definition save_graph (g : graph) (tm : dict ltensor) : proto :=
  let ini := get_initials g tm (nodes_of g) in
  mkProto (nodes_of g) ini
    (flat_map (fun t => match dget tm t with Some x => value_proto t x | None => [(t, v0)] end) (g_input g)
     ++ flat_map (value_if_known tm) (filter (fun t => negb (memb t (map fst ini))) (initials g)))
    (flat_map (value_if_known tm) (g_output g))
    (flat_map (value_if_known tm) (filter (fun t => negb (memb t (g_input g) || memb t (g_output g))) (dynamics g))).
End LOAD.
