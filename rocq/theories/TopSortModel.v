(** Model of [Graph.topsort_nodes] (onnx_tool/graph.py:916-955) and
    [Graph.graph_reorder_nodes] (graph.py:957-963). *)
From Verif Require Import PyBase GraphModel.
Local Open Scope Z_scope.

(** graph.py:918-922: [produced_by[tname] = name]. *)
Definition ts_produced (ns : dict node) : dict string :=
  fold_left (fun d kn => fold_left (fun d t => dset d t (fst kn)) (n_out (snd kn)) d) ns [].

(** graph.py:929-935: the inner loop over the inputs of one node. *)
Definition ts_count (prod : dict string) (name : string) (ins : list string)
           (acc : Z * dict (list string)) : Z * dict (list string) :=
  fold_left (fun a t =>
               if dhas prod t then (fst a + 1, dpush (snd a) t name) else a) ins acc.

(** graph.py:924-936: [consumed_by] and [dependencies]. *)
Definition ts_deps (prod : dict string) (ns : dict node) : dict (list string) * dict Z :=
  fold_left (fun cd kn =>
               let '(cnt, cns) := ts_count prod (fst kn) (n_in (snd kn)) (0, fst cd) in
               (cns, dset (snd cd) (fst kn) cnt))
            ns ([], []).

Definition dep (d : dict Z) (k : string) : Z := match dget d k with Some z => z | None => 0 end.
(** [dependencies[k] -= 1] *)
Definition decr (d : dict Z) (k : string) : dict Z := dset d k (dep d k - 1).

(** graph.py:941-945: pick every node whose counter is zero, in node order. *)
Fixpoint ts_pick (names : list string) (deps : dict Z) : list string * dict Z :=
  match names with
  | [] => ([], deps)
  | k :: r =>
      if dep deps k =? 0
      then let '(q, d) := ts_pick r (decr deps k) in (k :: q, d)
      else ts_pick r deps
  end.

(** graph.py:948-953: relax the consumers of the picked nodes. *)
Definition ts_relax (nm : dict node) (cns : dict (list string)) (queue : list string) (deps : dict Z) : dict Z :=
  fold_left (fun d k =>
    match dget nm k with
    | None => d
    | Some n =>
        fold_left (fun d o =>
          match dget cns o with
          | None => d
          | Some l => fold_left decr l d
          end) (n_out n) d
    end) queue deps.

(** graph.py:940-954: [while True].  One unit of fuel per round; [None] would mean the
    loop did not stop within the fuel (excluded by [topsort_total]). *)
Fixpoint ts_loop (fuel : nat) (nm : dict node) (cns : dict (list string)) (names : list string)
         (deps : dict Z) (ordered : list string) : option (list string) :=
  match fuel with
  | O => None
  | S f =>
      let '(queue, deps1) := ts_pick names deps in
      match queue with
      | [] => Some ordered
      | _ => ts_loop f nm cns names (ts_relax nm cns queue deps1) (ordered ++ queue)
      end
  end.

(** graph.py:916-955 on the whole node map (the call at graph.py:958). *)
Definition topsort (nm : dict node) : option (list string) :=
  let prod := ts_produced nm in
  let '(cns, deps) := ts_deps prod nm in
  ts_loop (S (length nm)) nm cns (dkeys nm) deps [].

(** graph.py:959-961: rebuild the node map in the new order. *)
Definition rebuild (nm : dict node) (order : list string) : dict node :=
  fold_left (fun d k => match dget nm k with Some n => dset d k n | None => d end) order [].

(** graph.py:957-963. *)
Definition graph_reorder_nodes (g : graph) : option graph :=
  match topsort (nodemap g) with
  | None => None
  | Some order =>
      Some (update_tensor_relations
              (mkGraph (rebuild (nodemap g) order) (tensormap g) (producedby g) (consumedby g)
                       (initials g) (dynamics g) (g_input g) (g_output g)))
  end.
