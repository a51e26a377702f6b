(** onnx_tool/graph.py:774-821: [fuse_postop_node_names], and the loop every benchmark runs over the
    matches of a pattern (benchmark/do_fusion.py:137-147, benchmark/compression.py:59-69). *)
From Verif Require Import PyBase GraphModel EditModel.
Local Open Scope list_scope.

(** graph.py:809-811: the fused node is recorded as a reader only of tensors that still have one *)
Definition push_known (name : string) (d : dict (list string)) (i : string) : dict (list string) :=
  if dhas d i then dpush d i name else d.
(** graph.py:774-821.  The attributes are in [postop_attrs] below; [prevnodes]/[nextnodes] are left out.
    [nodes[0]] of an empty list is an IndexError; it is written [AssertionError] here, and the theorems
    exclude empty lists. *)
Definition fuse_postop (g : graph) (names : list string) : res graph :=
  bind (get_iotensors g names false) (fun '(ins, outs) =>
  match names with
  | [] => AssertionError
  | k :: _ =>
      match dget (nodemap g) k with
      | None => KeyError
      | Some main =>
          bind (remove_nodes g names) (fun g1 =>
          let cns := fold_left (push_known (n_name main)) ins (consumedby g1) in
          let prod := fold_left (fun d o => dset d o [n_name main]) outs (producedby g1) in
          Ok (with_rel g1 (dset (nodemap g1) (n_name main) (mkNode (n_name main) (n_op main) ins outs)) prod cns (g_output g1)))
      end
  end).
(** [for names in nodes: cg.fuse_postop_node_names(names, True)] *)
Fixpoint fuse_all (g : graph) (groups : list (list string)) : res graph :=
  match groups with
  | [] => Ok g
  | ns :: r => bind (fuse_postop g ns) (fun g' => fuse_all g' r)
  end.

(** ** the attributes of the fused node *)
From Verif Require Import RegressModel.
Local Open Scope nat_scope.
Local Open Scope list_scope.
(** attribute values: integers and strings this function writes, anything else is carried along *)
Inductive pval (A : Type) := PInt (n : nat) | PStr (s : string) | PVal (a : A).
Arguments PInt {A}. Arguments PStr {A}. Arguments PVal {A}.
Definition pattrs (A : Type) := list (string * pval A).
Definition pcount : string := "postop_count".
(** graph.py:778-783; a [postop_count] that is not an integer (never written by this code) is read as 0 *)
Definition post_count {A} (main : pattrs A) : nat :=
  fold_left (fun c kv => if String.eqb (fst kv) pcount then match snd kv with PInt n => n | _ => 0 end else c) main 0.
Definition post_key (i : nat) : string := ("postop_" ++ dec i)%string.
(** graph.py:790-803: one record per fused node: its operator, then its attributes under a prefix *)
Definition post_record {A} (i : nat) (p : string * pattrs A) : pattrs A :=
  (post_key i, PStr (fst p)) :: map (fun kv => ((post_key i ++ "_" ++ fst kv)%string, snd kv)) (snd p).
Fixpoint post_records {A} (i : nat) (posts : list (string * pattrs A)) : pattrs A :=
  match posts with
  | [] => []
  | p :: r => post_record i p ++ post_records (S i) r
  end.
(** graph.py:778-806: [main] the attributes of the first node, [extra] the keyword arguments, [posts] the
    operator and attributes of the other nodes ([append_attr=True]) *)
Definition postop_attrs {A} (main extra : pattrs A) (posts : list (string * pattrs A)) : pattrs A :=
  filter (fun kv => negb (String.eqb (fst kv) pcount)) main ++ extra ++ post_records (post_count main) posts ++
  [(pcount, PInt (post_count main + length posts))].
(** repeated fusion into the same node *)
Definition postop_history {A} (base : pattrs A) (hist : list (pattrs A * list (string * pattrs A))) : pattrs A :=
  fold_left (fun m st => postop_attrs m (fst st) (snd st)) hist base.
