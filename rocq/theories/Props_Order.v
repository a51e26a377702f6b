(** Properties C09-C12: [Graph.graph_reorder_nodes] and [Graph.update_tensor_relations]. *)
From Verif Require Import PyBase PyBaseFacts GraphModel CompressSpec RelSpec RelProofs ExecModel
  TopSortModel TopSortSpec TopSortProofs OrderSpec OrderProofs Demo Decide.
From Coq Require Import Permutation.
Local Open Scope string_scope.

(** C09: same nodes, each once, every producer before its consumers; tensors and interface untouched *)
Theorem C09_reorder_is_dependency_respecting_permutation : forall g,
  unique_producers (nodemap g) -> acyclic (nodemap g) ->
  exists g', graph_reorder_nodes g = Some g' /\
    Permutation (nodemap g') (nodemap g) /\
    (forall a b, feeds (nodemap g) a b -> before (map fst (nodemap g')) a b) /\
    g_input g' = g_input g /\ g_output g' = g_output g /\ tensormap g' = tensormap g /\ initials g' = initials g.
Proof.
  intros g HU HA. destruct (reorder_total g (proj1 HU)) as (g' & E & _).
  exists g'. split; [exact E|]. destruct (reorder_respects g g' HU HA E) as (P & _ & B).
  destruct (reorder_fields g g' E) as (l & _ & _ & T & I & GI & GO & _). auto 10.
Qed.
Print Assumptions C09_reorder_is_dependency_respecting_permutation.
Example C09_hypotheses_met : unique_producers (nodemap demo_shuffled) /\ acyclic (nodemap demo_shuffled) /\
  option_map (fun g => map fst (nodemap g)) (graph_reorder_nodes demo_shuffled) = Some ["n1"; "n2"; "n3"; "n4"].
Proof. split; [apply uniq_b_ok; vm_compute; reflexivity|]. split; [apply (rank_b_ok demo_rank); vm_compute; reflexivity|]. vm_compute. reflexivity. Qed.

(** C10: reordering terminates on every node map, never duplicates or invents a node, and the missing
    nodes are exactly those on or downstream of a dependency cycle *)
Theorem C10_missing_nodes_are_cyclic : forall g,
  unique_producers (nodemap g) ->
  exists g', graph_reorder_nodes g = Some g' /\ NoDup (map fst (nodemap g')) /\ incl (nodemap g') (nodemap g) /\
    forall k, In k (map fst (nodemap g)) -> (~ In k (map fst (nodemap g')) <-> depends_on_cycle (nodemap g) k).
Proof.
  intros g HU. destruct (reorder_total g (proj1 HU)) as (g' & E & N & I). exists g'. repeat split; auto.
  - apply dropped_iff_cycle; assumption.
  - apply dropped_iff_cycle; assumption.
Qed.
Print Assumptions C10_missing_nodes_are_cyclic.
Definition demo_cycle : graph := relate (mkGraph
  [("a", mkNode "a" "Relu" ["x"] ["t1"]); ("b", mkNode "b" "Add" ["t1"; "t3"] ["t2"]);
   ("c", mkNode "c" "Relu" ["t2"] ["t3"]); ("d", mkNode "d" "Relu" ["t3"] ["y"])]
  [] [] [] [] [] ["x"] ["y"]).
Example C10_case : unique_producers (nodemap demo_cycle) /\
  option_map (fun g => map fst (nodemap g)) (graph_reorder_nodes demo_cycle) = Some ["a"] /\
  depends_on_cycle (nodemap demo_cycle) "d".
Proof.
  split; [apply uniq_b_ok; vm_compute; reflexivity|]. split; [vm_compute; reflexivity|].
  assert (F1 : feeds (nodemap demo_cycle) "b" "c") by (do 3 eexists; repeat split; [right; left; reflexivity|right; right; left; reflexivity|left; reflexivity|left; reflexivity]).
  assert (F2 : feeds (nodemap demo_cycle) "c" "b") by (do 3 eexists; repeat split; [right; right; left; reflexivity|right; left; reflexivity|left; reflexivity|right; left; reflexivity]).
  assert (F3 : feeds (nodemap demo_cycle) "c" "d") by (do 3 eexists; repeat split; [right; right; left; reflexivity|right; right; right; left; reflexivity|left; reflexivity|left; reflexivity]).
  exists "c". split; [eapply path_step; [exact F2|constructor; exact F1]|right; constructor; exact F3].
Qed.

(** C10, omitted tensor names: the empty name "" of an omitted optional operand is treated as a real
    tensor, so a valid acyclic graph (tensor dependencies ignoring "") loses nodes. *)
Definition demo_omitted : graph := relate (mkGraph
  [("lstm", mkNode "lstm" "LSTM" ["x"; "w"; "r"; ""] [""; "h"]); ("relu", mkNode "relu" "Relu" ["h"] ["y"])]
  [] [] [] ["w"; "r"] [] ["x"] ["y"]).
Theorem C10_omitted_names_lose_nodes_refuted : exists g g',
  respects_deps (nodes_of g) /\ single_assignment g /\ NoDup (map fst (nodemap g)) /\
  graph_reorder_nodes g = Some g' /\ nodemap g <> [] /\ nodemap g' = [].
Proof.
  exists demo_omitted. eexists. split; [apply respects_b_ok; vm_compute; reflexivity|].
  split; [apply ssa_b_ok; vm_compute; reflexivity|]. split; [apply nodupb_ok; vm_compute; reflexivity|].
  split; [vm_compute; reflexivity|]. split; [discriminate|reflexivity].
Qed.
Print Assumptions C10_omitted_names_lose_nodes_refuted.

(** C11 *)
Theorem C11_reorder_preserves_values : forall sem g g' ns e t,
  unique_producers (nodemap g) -> acyclic (nodemap g) -> graph_reorder_nodes g = Some g' ->
  Permutation ns (nodes_of g) -> respects_deps ns -> t <> "" ->
  run_private sem e (nodes_of g') t = run_private sem e ns t.
Proof. exact reorder_same_values. Qed.
Print Assumptions C11_reorder_preserves_values.
(** another valid order of a graph with two independent branches *)
Definition demo_branches : graph := relate (mkGraph
  [("p", mkNode "p" "Relu" ["x"] ["s"]); ("q", mkNode "q" "Exp" ["x"] ["u"]); ("r", mkNode "r" "Add" ["s"; "u"] ["y"])]
  [] [] [] [] [] ["x"] ["y"]).
Example C11_case : unique_producers (nodemap demo_branches) /\
  exists ns, Permutation ns (nodes_of demo_branches) /\ respects_deps ns /\ ns <> nodes_of demo_branches.
Proof.
  split; [apply uniq_b_ok; vm_compute; reflexivity|].
  exists [mkNode "q" "Exp" ["x"] ["u"]; mkNode "p" "Relu" ["x"] ["s"]; mkNode "r" "Add" ["s"; "u"] ["y"]].
  split; [apply perm_swap|]. split; [apply respects_b_ok; vm_compute; reflexivity|discriminate].
Qed.

(** C12 *)
Theorem C12_relations_are_the_wiring : forall g,
  let g' := update_tensor_relations g in
  (forall t, dget (producedby g') t = none_if_empty (occurrences n_out (nodes_of g) t)) /\
  (forall t, dget (consumedby g') t = none_if_empty (occurrences n_in (nodes_of g) t)) /\
  (forall t, In t (dynamics g') <-> In t (outs_of (nodes_of g))) /\ NoDup (dynamics g') /\
  nodemap g' = nodemap g /\ g_input g' = g_input g /\ g_output g' = g_output g /\ tensormap g' = tensormap g /\ initials g' = initials g.
Proof. exact utr_spec. Qed.
Print Assumptions C12_relations_are_the_wiring.
Theorem C12b_occurrences_meaning : forall sel ns t x,
  In x (occurrences sel ns t) <-> exists n, In n ns /\ n_name n = x /\ In t (sel n).
Proof. exact In_occurrences. Qed.
Theorem C12c_occurrences_count : forall sel ns t, length (occurrences sel ns t) = count t (flat_map sel ns).
Proof. exact occurrences_count. Qed.
Example C12_case : dget (consumedby (update_tensor_relations demo)) "a" = Some ["n2"; "n3"].
Proof. vm_compute. reflexivity. Qed.
