(** The two editing entry points of onnx_tool/__init__.py that call internal functions with arguments those do not
    take: [model_subgraph] (168-180) and [model_opfusion] (183-193).
    Python's argument binding is modelled; what the callees do once bound is arbitrary. *)
From Coq Require Import String List Arith Bool.
From Verif Require Import PyBase.
Import ListNotations.
Local Open Scope list_scope.
Local Open Scope string_scope.

(** A Python signature without *args and **kwargs: parameter names in order, and whether each has a default.
    A bound method's self is already removed. *)
Definition signature := list (string * bool).
(** A call: number of positional arguments and the keyword names. *)
Record pycall := mkCall { pc_positional : nat; pc_keywords : list string }.
(** Python language reference 6.3.4 (Calls): binding succeeds, or TypeError *)
Fixpoint distinct (l : list string) : bool := match l with [] => true | x :: r => negb (memb x r) && distinct r end.
Definition binds (s : signature) (c : pycall) : bool :=
  (Nat.leb (pc_positional c) (List.length s))
  && distinct (pc_keywords c)
  && forallb (fun k => memb k (map fst (skipn (pc_positional c) s))) (pc_keywords c)
  && forallb (fun x => snd x || memb (fst x) (pc_keywords c)) (skipn (pc_positional c) s).

(** graph.py:164 Graph.__init__(self, g, mcfg) *)
Definition sig_Graph : signature := [("g", false); ("mcfg", false)].
(** graph.py:743 *)
Definition sig_fuse_names : signature := [("nodes", false); ("nodeop", false); ("nodename", false); ("keep_attr", true)].
(** graph.py:823 *)
Definition sig_fuse_io : signature := [("inputs", false); ("outputs", false); ("nodeop", false); ("name_prefix", true); ("keep_attr", true)].
(** graph.py:592, 833, 841; model.py:28 *)
Definition sig_get_subgraph : signature := [("inputs", false); ("outputs", false)].
Definition sig_by_names : signature := [("nodenames", false)].
Definition sig_graph_save : signature := [("f", false); ("shape_only", true); ("no_shape", true); ("rawmodel", true)].
Definition sig_model_save : signature := [("f", false); ("shape_only", true); ("no_shape", true)].

(** Result of running Python code that may write files (names, in order) and return or raise. *)
Inductive ending (A : Type) := Returned (a : A) | Raised (e : string).
Arguments Returned {A}. Arguments Raised {A}.
Definition run (A : Type) := (list string * ending A)%type.
Definition ret {A} (a : A) : run A := ([], Returned a).
Definition raise {A} (e : string) : run A := ([], Raised e).
Definition seq {A B} (r : run A) (f : A -> run B) : run B :=
  match r with
  | (w, Returned a) => let (w', x) := f a in ((w ++ w')%list, x)
  | (w, Raised e) => (w, Raised e)
  end.
(** calling [f] with the arguments of [c] *)
Definition call {A} (s : signature) (c : pycall) (f : run A) : run A := if binds s c then f else raise "TypeError".

Section API.
(** a loaded model, an onnx.GraphProto or None, a Graph *)
Context {M GP G : Type}.
Variable load : ending M.                               (* loadmodel(m); no file is written *)
Variable levels : M -> list string -> list string -> ending (list string * list string * list string).   (* __get_subnodes_byio__ *)
Variable by_names : M -> list string -> ending GP.      (* get_onnxgraph_by_nodenames *)
Variable make_graph : GP -> ending G.                   (* Graph(...) once its arguments are bound *)
Variable save_graph : G -> string -> run unit.          (* Graph.save_model *)
Variable fuse_io : M -> list string -> list string -> ending M.  (* Graph.fuse_subgraph_iotensors once bound *)
Variable fuse_names : M -> list string -> ending M.     (* Graph.fuse_subgraph_node_names once bound *)
Variable save_model : M -> string -> run unit.          (* Model.save_model *)
Definition quiet {A} (e : ending A) : run A := ([], e).

(** graph.py:592-595; the rest of [get_subgraph] only compares names and warns *)
Definition get_subgraph (m : M) (ins outs : list string) : run (G * G * G) :=
  seq (quiet (levels m ins outs)) (fun l => let '(a, b, c) := l in
  seq (quiet (by_names m a)) (fun ga => seq (call sig_Graph (mkCall 1 []) (quiet (make_graph ga))) (fun g0 =>
  seq (quiet (by_names m b)) (fun gb => seq (call sig_Graph (mkCall 1 []) (quiet (make_graph gb))) (fun g1 =>
  seq (quiet (by_names m c)) (fun gc => seq (call sig_Graph (mkCall 1 []) (quiet (make_graph gc))) (fun g2 =>
  ret (g0, g1, g2)))))))).
(** __init__.py:168-180 [model_subgraph]; [None] is Python's None *)
Definition model_subgraph (ins outs names : option (list string)) : run unit :=
  seq (quiet load) (fun m =>
  seq (match ins, outs with
       | Some i, Some o =>
         seq (call sig_get_subgraph (mkCall 0 ["inputs"; "outputs"]) (get_subgraph m i o)) (fun gs => let '(g0, g1, g2) := gs in
         seq (call sig_graph_save (mkCall 1 ["rawmodel"]) (save_graph g0 "_level0.onnx")) (fun _ =>
         seq (call sig_graph_save (mkCall 1 ["rawmodel"]) (save_graph g1 "_level1.onnx")) (fun _ =>
         call sig_graph_save (mkCall 1 ["rawmodel"]) (save_graph g2 "_level2.onnx"))))
       | _, _ => ret tt
       end) (fun _ =>
  match names with
  | Some ns => seq (call sig_by_names (mkCall 1 []) (quiet (by_names m ns))) (fun gp =>
               seq (call sig_Graph (mkCall 1 []) (quiet (make_graph gp))) (fun g =>
               call sig_graph_save (mkCall 1 ["rawmodel"]) (save_graph g "_subgraph.onnx")))
  | None => ret tt
  end)).
(** __init__.py:183-193 [model_opfusion] *)
Definition model_opfusion (file : string) (ins outs names : option (list string)) : run unit :=
  seq (quiet load) (fun m =>
  seq (match ins, outs with
       | Some i, Some o =>
         seq (call sig_fuse_io (mkCall 0 ["inputs"; "outputs"; "name"; "nodeop"; "keep_attr"]) (quiet (fuse_io m i o))) (fun m' =>
         call sig_model_save (mkCall 1 []) (save_model m' file))
       | _, _ => ret tt
       end) (fun _ =>
  match names with
  | Some ns => seq (call sig_fuse_names (mkCall 1 ["nodeop"; "name"; "keep_attr"]) (quiet (fuse_names m ns))) (fun m' =>
               call sig_model_save (mkCall 1 []) (save_model m' file))
  | None => ret tt
  end)).
End API.
