(** onnx_tool/graph.py:1433-1495 [Graph.profile], the totals printed by [print_node_map] (1497-1598)
    and __init__.py:64-100 [model_profile].
    Simplifications: MACs are integers; the sparsity columns, timing and warnings are left out. *)
From Coq Require Import Reals.
From Verif Require Import PyBase GraphModel ShapeModel FloatPy FusionModel.
Open Scope Z_scope.

(** what the table shows for a node *)
Record row := { r_name : string; r_op : string; r_macs : Z; r_params : Z; r_memory : Z }.
Record report := { rp_rows : list row; rp_macs : R; rp_params : Z; rp_memory : Z; rp_dedup : Z }.

Definition sum_list (l : list Z) : Z := fold_left Z.add l 0.
(** graph.py:1456: a static operand that is not the omitted input "" *)
Definition is_static (p : string * tensor) : bool :=
  negb (String.eqb (fst p) "") && match t_kind (snd p) with STATIC => true | DYNAMIC => false end.

Section PROFILE.
(** the node's own profile method: MACs, io elements, static elements *)
Context (nprof : node -> list tensor -> list tensor -> sres (Z * Z * Z)).

(** graph.py:1443-1480: one node *)
Definition profile_node (g : graph) (key : string) : sres row :=
  let* n := dlook (nodemap g) key in
  let* its := smap (dlook (tensormap g)) (n_in n) in
  let* ots := smap (dlook (tensormap g)) (n_out n) in
  let* ret := nprof n its ots in
  let '(macs, io, static) := ret in
  let params := sum_list (map (fun p => volume (t_shape (snd p))) (filter is_static (combine (n_in n) its))) in
  let io_es := match ots with t :: _ => t_esize t | [] => 4 end in
  let st_es := match its with t :: _ => t_esize t | [] => 4 end in
  SOk {| r_name := key; r_op := n_op n; r_macs := macs; r_params := params; r_memory := io * io_es + static * st_es |}.
(** graph.py:1481-1484: the accumulators; [self.macs[0]] is a float *)
Fixpoint profile_nodes (g : graph) (keys : list string) (acc : list row) (m : R) (p mem : Z) : sres (list row * R * Z * Z) :=
  match keys with
  | [] => SOk (acc, m, p, mem)
  | k :: r =>
      let* w := profile_node g k in
      profile_nodes g r (acc ++ [w]) (fadd m (IZR (r_macs w))) (p + r_params w) (mem + r_memory w)
  end.
(** graph.py:1486-1490 *)
Definition dedup_params (g : graph) : sres Z :=
  let* l := smap (fun key => match dget (consumedby g) key with
                             | Some (_ :: _) => let* t := dlook (tensormap g) key in SOk (volume (t_shape t))
                             | _ => SOk 0
                             end) (initials g) in
  SOk (sum_list l).
(** graph.py:1441: the nodes that are covered *)
Definition covered (g : graph) (exclude : list string) (key : string) : Prop :=
  exists n, In (key, n) (nodemap g) /\ ~ In (n_op n) exclude.
(** The iteration order: the dict order without exclusions, some order of a Python set otherwise. *)
Definition iteration_order (g : graph) (exclude : list string) (keys : list string) : Prop :=
  match exclude with
  | [] => keys = dkeys (nodemap g)
  | _ => NoDup keys /\ forall k, In k keys <-> covered g exclude k
  end.
Definition profile_with (g : graph) (keys : list string) : sres report :=
  let* x := profile_nodes g keys [] 0%R 0 0 in
  let '(rows, m, p, mem) := x in
  let* d := dedup_params g in
  SOk {| rp_rows := rows; rp_macs := m; rp_params := p; rp_memory := mem; rp_dedup := d |}.
(** [Graph.profile] with the operators of [exclude] hidden *)
Definition profiles (g : graph) (exclude : list string) (r : report) : Prop :=
  exists keys, iteration_order g exclude keys /\ profile_with g keys = SOk r.
End PROFILE.

(** print_node_map: the numbers in the MACs/FLOPs, Memory and Params columns, and in the Total row *)
Definition row_macs (factor : Z) (w : row) : Z := r_macs w * factor.
Definition tiny18 : R := rnd (/ IZR (10 ^ 18)).
Definition printed (x : Z) : R := fadd (IZR x) tiny18.
Definition total_macs (factor : Z) (r : report) : Z := py_int (fmul (printed (py_round (rp_macs r))) (IZR factor)).
Definition total_params (r : report) : Z := py_int (printed (rp_params r)).
Definition total_memory (r : report) : Z := py_int (printed (rp_memory r)).
(** graph.py:1516-1522: elements of shared weights counted more than once *)
Definition shared_size (g : graph) : Z :=
  sum_list (map (fun kt => match dget (consumedby g) (fst kt) with
                           | Some l => if memb (fst kt) (initials g) && (1 <? zlen l) then volume (t_shape (snd kt)) * (zlen l - 1) else 0
                           | None => 0 end) (tensormap g)).

(** ** model_profile and the module-level set of hidden operators *)
(** __init__.py:72-76 *)
Definition NoMacsOps : list string :=
  ["Identity"; "Constant"; "Shape"; "Squeeze"; "Unsqueeze"; "Reshape"; "ConstantOfShape"; "Cast"; "Pad"; "Concat"; "Slice"; "Gather"]%string.
(** A call: [exclude_ops] ([] for None), [hidden_ops] ([None]: the default, which is the module's own
    set object).  A caller's own set is never the module's. *)
Record pcall := { pc_exclude : list string; pc_hidden : option (list string) }.
(** __init__.py:85-96: the hidden operators used by the call, and the module's set after it *)
Definition call_hidden (global : list string) (c : pcall) : list string * list string :=
  match pc_hidden c with
  | None => let h := (global ++ pc_exclude c)%list in (h, h)
  | Some h => ((h ++ pc_exclude c)%list, global)
  end.
Fixpoint run_calls (global : list string) (h : list pcall) : list string :=
  match h with [] => global | c :: r => run_calls (snd (call_hidden global c)) r end.

(** node.py:215-229 [Node.profile]: what every operator without its own [profile] method returns *)
Definition base_profile (core : node -> list tensor -> list tensor -> sres Z) (n : node) (its ots : list tensor) : sres (Z * Z * Z) :=
  let* macs := core n its ots in
  SOk (macs, sum_list (map (fun t => volume (t_shape t)) ots),
       sum_list (map (fun p => volume (t_shape (snd p))) (filter is_static (combine (n_in n) its)))).

(** utils.py:55-72 [print_table], csv branch: the text written for one row, and the file *)
Fixpoint csv_line (cells : list string) : string :=
  match cells with
  | [] => ""
  | [c] => c
  | c :: r => (c ++ "," ++ csv_line r)%string
  end.
Definition newline : ascii := "010"%char.
Fixpoint csv_text (rows : list (list string)) : string :=
  match rows with [] => "" | r :: t => (csv_line r ++ String newline "" ++ csv_text t)%string end.
