(** Patterns taken from a graph: fusion.py [create_descs_from_nodenames] and graph.py [fuse_subgraph_iotensors]. *)
From Verif Require Import PyBase GraphModel ShapeModel EditModel PartitionModel FusionModel.
Open Scope string_scope. Open Scope list_scope. Open Scope Z_scope.

(** [enumerate(l)] *)
Fixpoint enum_from {A} (i : Z) (l : list A) : list (Z * A) := match l with [] => [] | x :: r => (i, x) :: enum_from (i + 1) r end.
Definition enum {A} (l : list A) : list (Z * A) := enum_from 0 l.
(** fusion.py:288-290: [produced_by] (its keys are those of [consumed_by]): the last selected node that lists the tensor as output *)
Definition desc_producers (ns : list (string * node)) : dict string :=
  fold_left (fun d p => fold_left (fun d t => dset d t (fst p)) (n_out (snd p)) d) ns [].
(** fusion.py:280-287 *)
Definition bare_desc (n : node) : desc := {| d_name := n_name n; d_op := OneOp (n_op n); d_attrs := []; d_in := []; d_out := [] |}.
Definition push_in (d : desc) (e : edge) : desc := {| d_name := d_name d; d_op := d_op d; d_attrs := d_attrs d; d_in := d_in d ++ [e]; d_out := d_out d |}.
Definition push_out (d : desc) (e : edge) : desc := {| d_name := d_name d; d_op := d_op d; d_attrs := d_attrs d; d_in := d_in d; d_out := d_out d ++ [e] |}.
Definition at_nth {A} (i : Z) (f : A -> A) (l : list A) : list A := map (fun p => if fst p =? i then f (snd p) else snd p) (enum l).
(** fusion.py:295-301: input [j], tensor [t], of the selected node at position [i] *)
Definition desc_input (g : graph) (names : list string) (prod : dict string) (i : Z) (name : string) (ds : list desc) (jt : Z * string) : sres (list desc) :=
  match dget prod (snd jt) with
  | None => SOk ds
  | Some p =>
      let* pidx := index_of p names in
      let* pn := dlook (nodemap g) p in
      let* oi := index_of (snd jt) (n_out pn) in
      let ds1 := at_nth pidx (fun d => push_out d {| e_idx := oi; e_desc := name; e_other := fst jt |}) ds in
      SOk (at_nth i (fun d => push_in d {| e_idx := fst jt; e_desc := p; e_other := oi |}) ds1)
  end.
(** a [for] loop whose body may raise *)
Fixpoint sfold {A B} (f : A -> B -> sres A) (l : list B) (a : A) : sres A :=
  match l with [] => SOk a | x :: r => let* a' := f a x in sfold f r a' end.
(** fusion.py:275-302 [create_descs_from_nodenames] *)
Definition create_descs (g : graph) (names : list string) : sres (list desc) :=
  let* ns := smap (fun k => let* n := dlook (nodemap g) k in SOk (k, n)) names in
  let prod := desc_producers ns in
  sfold (fun ds p => sfold (desc_input g names prod (fst p) (fst (snd p))) (enum (n_in (snd (snd p)))) ds) (enum ns) (map (fun p => bare_desc (snd p)) ns).

(** graph.py:823-831 [fuse_subgraph_iotensors]. The names of the fused nodes: the prefix with a running number, or the first node of
    each match ([names_of] below). Simplified: the two error types are joined ([None]: any exception). *)
Definition fuse_iotensors (G : fgraph) (inputs outputs : list string) (op : string) (names_of : nat -> list string -> string) : option graph :=
  match subnodes_byio (fg G) inputs outputs with
  | Some (Ok (_, nodes, _)) =>
      match create_descs (fg G) nodes with
      | SOk ds =>
          match search_pattern G (mk_pattern ds false) with
          | SOk ls => fold_left (fun og p => match og with
                                             | Some g => match fuse_nodes g (snd p) op (names_of (fst p) (snd p)) with Ok g' => Some g' | _ => None end
                                             | None => None
                                             end) (combine (seq 0 (length ls)) ls) (Some (fg G))
          | SRaise _ => None
          end
      | SRaise _ => None
      end
  | _ => None
  end.
