(** Properties C01-C08: [Graph.compress_memory].  Vocabulary: [CompressSpec]. *)
From Verif Require Import PyBase PyBaseFacts GraphModel CompressModel CompressSpec CompressTop ExecModel ExecProofs
  TopSortModel TopSortSpec OrderSpec OrderProofs MemTop Demo Decide.
Local Open Scope Z_scope.

(** [compress_memory] returned this plan *)
Definition planned (g : graph) (pad : Z) (mem : dict (Z * Z)) (total : Z) : Prop :=
  compress_memory g pad = CPlan mem total.

Lemma planned_ok : forall g pad mem total, 0 < pad -> wf_plan_input g -> planned g pad mem total ->
  plan_ok g pad mem total.
Proof.
  intros g pad mem total Hp HW H. apply plan_correct; auto. unfold planned, compress_memory in H.
  destruct (plan g pad) as [m t]. destruct (raw_memsize g) as [r|]; [|discriminate].
  destruct (r =? 0); [discriminate|]. injection H as -> ->. reflexivity.
Qed.

(** C01 *)
Theorem C01_live_tensors_disjoint : forall g pad mem total i t1 t2 o1 s1 o2 s2,
  0 < pad -> wf_plan_input g -> planned g pad mem total ->
  live_at g i t1 -> live_at g i t2 -> t1 <> t2 ->
  dget mem t1 = Some (o1, s1) -> dget mem t2 = Some (o2, s2) ->
  o1 + s1 <= o2 \/ o2 + s2 <= o1.
Proof. exact (fun g pad mem total i t1 t2 o1 s1 o2 s2 Hp HW HP =>
  plan_no_overlap g pad mem total i t1 t2 o1 s1 o2 s2 (proj1 (proj2 HW)) (planned_ok _ _ _ _ Hp HW HP)). Qed.
Print Assumptions C01_live_tensors_disjoint.

(** C02 *)
Theorem C02_blocks_in_bounds : forall g pad mem total t o s,
  0 < pad -> wf_plan_input g -> planned g pad mem total -> dget mem t = Some (o, s) ->
  exists b, planned_bytes g t b /\ round_up pad b <= s /\ 0 <= o /\ (pad | o) /\ (pad | s) /\ o + s <= total.
Proof. exact (fun g pad mem total t o s Hp HW HP => plan_entry_bytes g pad mem total t o s Hp (planned_ok _ _ _ _ Hp HW HP)). Qed.
Print Assumptions C02_blocks_in_bounds.

(** C03: [sem] ranges over all operator semantics returning one value of the right size per output *)
Theorem C03_pool_execution_refines_private : forall g pad mem total sem size p e,
  0 < pad -> wf_plan_input g -> planned g pad mem total -> topologically_ordered g ->
  (forall t tn, dget (tensormap g) t = Some tn -> dget mem t <> None -> Z.of_nat (size t) = data_bytes tn) ->
  (forall n ins, In n (nodes_of g) -> length (sem n ins) = length (n_out n)) ->
  (forall n ins t v, In n (nodes_of g) -> In (t, v) (combine (n_out n) (sem n ins)) -> dget mem t <> None -> length v = size t) ->
  (forall t, ~ In t (g_input g ++ outs_of (nodes_of g)) -> p_env p t = e t) ->
  (forall t, In t (g_input g) -> dget mem t <> None -> length (e t) = size t) ->
  forall i n, nth_error (nodes_of g) i = Some n ->
     map (look_pool mem size (run_pool sem mem size (load_pool mem p e (g_input g)) (firstn i (nodes_of g)))) (n_in n)
     = map (look_private (run_private sem e (firstn i (nodes_of g)))) (n_in n).
Proof. exact (fun g pad mem total sem size p e Hp HW HP HT Hs H1 H2 H3 H4 =>
  proj1 (pool_refines_private g pad mem total Hp (proj1 HW) (proj1 (proj2 HW)) (planned_ok _ _ _ _ Hp HW HP) HT sem size Hs H1 H2 (proj2 (proj2 HW)) p e H3 H4)). Qed.
Print Assumptions C03_pool_execution_refines_private.

(** C04 *)
Theorem C04_live_activation_has_block : forall g pad mem total i t b,
  0 < pad -> wf_plan_input g -> planned g pad mem total ->
  live_at g i t -> planned_bytes g t b -> exists o s, dget mem t = Some (o, s).
Proof. exact (fun g pad mem total i t b Hp HW HP => plan_coverage g pad mem total i t b (proj1 (proj2 HW)) (planned_ok _ _ _ _ Hp HW HP) Hp). Qed.
Print Assumptions C04_live_activation_has_block.

(** C05 *)
Theorem C05_total_between_peak_and_sum : forall g pad mem total,
  0 < pad -> wf_plan_input g -> planned g pad mem total ->
  total <= sumZ (padded_bytes g pad) (dkeys mem) /\
  (forall i l, NoDup l -> (forall t, In t l -> live_at g i t /\ exists b, planned_bytes g t b) ->
     sumZ (padded_bytes g pad) l <= total).
Proof. exact (fun g pad mem total Hp HW HP => conj (plan_upper g pad mem total (planned_ok _ _ _ _ Hp HW HP))
  (fun i l => plan_lower g pad mem total i l (proj1 (proj2 HW)) (planned_ok _ _ _ _ Hp HW HP) Hp)). Qed.
Print Assumptions C05_total_between_peak_and_sum.

(** the planner's own consistency warnings never fire *)
Theorem C05b_validation_never_warns : forall g pad, 0 < pad -> wf_plan_input g -> validation_warns g pad = false.
Proof. exact validation_silent. Qed.
Print Assumptions C05b_validation_never_warns.

(** non-vacuity: a graph with a weight, a diamond and released, merged buffers *)
Definition demo_mem : dict (Z * Z) :=
  [("x", (0, 448)); ("a", (448, 256)); ("b", (0, 448)); ("c", (704, 256)); ("y", (0, 704))]%string.
Example demo_planned : planned demo 64 demo_mem 960.
Proof. vm_compute. reflexivity. Qed.
Example demo_live : live_at demo 1 "a" /\ live_at demo 1 "b" /\ planned_bytes demo "a" 200 /\ planned_bytes demo "b" 200.
Proof.
  split; [|split; [|split]].
  - split; [discriminate|]. split; [vm_compute; lia|]. split.
    + right. exists 0%nat. eexists. split; [lia|]. split; [reflexivity|]. left. reflexivity.
    + left. exists 2%nat. eexists. split; [lia|]. split; [reflexivity|]. left. reflexivity.
  - split; [discriminate|]. split; [vm_compute; lia|]. split.
    + right. exists 1%nat. eexists. split; [lia|]. split; [reflexivity|]. left. reflexivity.
    + left. exists 2%nat. eexists. split; [lia|]. split; [reflexivity|]. right. left. reflexivity.
  - split; [vm_compute; tauto|]. split; [left; reflexivity|]. exists (dyn [1; 50]). repeat split.
  - split; [vm_compute; tauto|]. split; [left; reflexivity|]. exists (dyn [1; 50]). repeat split.
Qed.
Example C01_C02_C04_C05_hypotheses_met :
  0 < 64 /\ wf_plan_input demo /\ planned demo 64 demo_mem 960 /\ live_at demo 1 "a" /\ live_at demo 1 "b" /\
  dget demo_mem "a" = Some (448, 256) /\ dget demo_mem "b" = Some (0, 448).
Proof. split; [lia|]. split; [exact demo_wf|]. split; [exact demo_planned|].
  split; [apply demo_live|]. split; [apply demo_live|]. split; reflexivity. Qed.

(** C03's hypotheses: [demo_sem] mixes all operand bytes into each result *)
Example C03_hypotheses_met : topologically_ordered demo /\
  (forall t tn, dget (tensormap demo) t = Some tn -> dget demo_mem t <> None -> Z.of_nat (demo_size t) = data_bytes tn) /\
  (forall n ins, In n (nodes_of demo) -> length (demo_sem demo_size n ins) = length (n_out n)) /\
  (forall n ins t v, In n (nodes_of demo) -> In (t, v) (combine (n_out n) (demo_sem demo_size n ins)) ->
     dget demo_mem t <> None -> length v = demo_size t).
Proof.
  split; [exact demo_topo|]. split; [|split].
  - intros t tn E H. unfold demo_size. rewrite E. rewrite Z2Nat.id; [reflexivity|].
    apply dget_In in E. cbn in E. destruct E as [E|[E|[E|[E|[E|[E|[]]]]]]]; injection E as _ <-; vm_compute; discriminate.
  - intros n ins _. unfold demo_sem. apply map_length.
  - intros n ins t v _ I _. unfold demo_sem in I.
    assert (G : forall (f : string -> bytes) l, In (t, v) (combine l (map f l)) -> v = f t).
    { intros f. induction l as [|x r IH]; [intros []|]. cbn [map combine]. intros [X|X]; [|auto]. injection X as -> ->. reflexivity. }
    rewrite (G _ _ I). apply repeat_length.
Qed.

(** C06.  The full property is false: [demo_out] declares "y" as an output, "y" is also consumed, and
    its memory is handed to "w".  After the run the pool no longer holds "y". *)
Definition demo_out_size (t : string) : nat := 16.
Theorem C06_outputs_survive_refuted : exists g pad mem total sem size p e t,
  0 < pad /\ wf_plan_input g /\ topologically_ordered g /\ planned g pad mem total /\ In t (g_output g) /\
  (forall u tn, dget (tensormap g) u = Some tn -> Z.of_nat (size u) = data_bytes tn) /\
  look_pool mem size (run_pool sem mem size (load_pool mem p e (g_input g)) (nodes_of g)) t
  <> run_private sem e (nodes_of g) t.
Proof.
  exists demo_out, 64, [("y", (0, 64)); ("z", (64, 64)); ("w", (0, 64))]%string, 128,
    (demo_sem demo_out_size), demo_out_size, (mkP (fun _ => 0) (fun _ => [])), (fun _ => repeat 1 16), "y"%string.
  split; [lia|]. split; [exact demo_out_wf|]. split; [apply topo_b_ok; vm_compute; reflexivity|].
  split; [vm_compute; reflexivity|]. split; [left; reflexivity|]. split.
  - intros u tn E. apply dget_In in E. cbn in E.
    destruct E as [E|[E|[E|[E|[]]]]]; injection E as _ <-; reflexivity.
  - vm_compute. discriminate.
Qed.
Print Assumptions C06_outputs_survive_refuted.

(** What does hold: outputs (indeed all tensors) that no node reads are intact after the run.
    Missing from C06: outputs that are also consumed. *)
Theorem C06_unconsumed_results_survive_partial : forall g pad mem total sem size p e,
  0 < pad -> wf_plan_input g -> planned g pad mem total -> topologically_ordered g ->
  (forall t tn, dget (tensormap g) t = Some tn -> dget mem t <> None -> Z.of_nat (size t) = data_bytes tn) ->
  (forall n ins, In n (nodes_of g) -> length (sem n ins) = length (n_out n)) ->
  (forall n ins t v, In n (nodes_of g) -> In (t, v) (combine (n_out n) (sem n ins)) -> dget mem t <> None -> length v = size t) ->
  (forall t, ~ In t (g_input g ++ outs_of (nodes_of g)) -> p_env p t = e t) ->
  (forall t, In t (g_input g) -> dget mem t <> None -> length (e t) = size t) ->
  nodes_of g <> [] -> forall t, t <> ""%string -> In t (g_input g ++ outs_of (nodes_of g)) -> ~ In t (reads_of (nodes_of g)) ->
  look_pool mem size (run_pool sem mem size (load_pool mem p e (g_input g)) (nodes_of g)) t
  = run_private sem e (nodes_of g) t.
Proof. exact (fun g pad mem total sem size p e Hp HW HP HT Hs H1 H2 H3 H4 =>
  proj2 (pool_refines_private g pad mem total Hp (proj1 HW) (proj1 (proj2 HW)) (planned_ok _ _ _ _ Hp HW HP) HT sem size Hs H1 H2 (proj2 (proj2 HW)) p e H3 H4)). Qed.
Print Assumptions C06_unconsumed_results_survive_partial.
Example C06_partial_case : In "y"%string (g_output demo) /\ ~ In "y"%string (reads_of (nodes_of demo)).
Proof. split; [left; reflexivity|]. vm_compute. intuition discriminate. Qed.

(** C07 is false for every graph: after reordering, no tensor that is only a graph input is planned. *)
Theorem C07_reorder_keeps_inputs_refuted : forall g g' pad mem total t,
  NoDup (map fst (nodemap g)) -> graph_reorder_nodes g = Some g' -> planned g' pad mem total ->
  ~ In t (outs_of (nodes_of g)) -> dget mem t = None.
Proof.
  intros g g' pad mem total t ND HR HP. apply (reorder_inputs_unplanned g g' pad mem total t ND HR).
  unfold planned, compress_memory in HP. destruct (plan g' pad) as [m z]. destruct (raw_memsize g') as [r|]; [|discriminate].
  destruct (r =? 0); [discriminate|]. injection HP as -> ->. reflexivity.
Qed.
Print Assumptions C07_reorder_keeps_inputs_refuted.
(** ... although the same input is planned before reordering *)
Example C07_witness : exists g', graph_reorder_nodes demo = Some g' /\
  (exists o s, dget demo_mem "x" = Some (o, s)) /\ planned_bytes demo "x" 400 /\
  exists mem total, planned g' 64 mem total /\ dget mem "x" = None.
Proof.
  eexists. split; [vm_compute; reflexivity|]. split; [eexists; eexists; reflexivity|].
  split; [split; [left; reflexivity|]; split; [right; left; reflexivity|]; exists (dyn [1; 100]); repeat split|].
  eexists. eexists. split; vm_compute; reflexivity.
Qed.

(** C08 is false: a graph whose activations are all graph inputs or outputs divides by zero. *)
Theorem C08_planning_completes_refuted : forall g pad,
  (forall t, In t (dynamics g) -> In t (g_input g) \/ In t (g_output g)) -> compress_memory g pad = CZeroDivision.
Proof. exact no_intermediates_crash. Qed.
Print Assumptions C08_planning_completes_refuted.
Definition one_relu : graph := relate (mkGraph [("r", mkNode "r" "Relu" ["x"] ["y"])]%string
   [("x", dyn [2; 2]); ("y", dyn [2; 2])]%string [] [] [] ["x"; "y"]%string ["x"]%string ["y"]%string).
Example C08_witness : wf_plan_input one_relu /\ compress_memory one_relu 64 = CZeroDivision.
Proof.
  split; [|vm_compute; reflexivity].
  split; [apply ssa_b_ok; vm_compute; reflexivity|]. split; [apply RelProofs.ucp_consumers_exact|].
  apply anon_b_ok. vm_compute. reflexivity.
Qed.
(** Exact outcome when every intermediate tensor is known.  Missing from C08: the zero case, which crashes. *)
Theorem C08_planning_outcome_partial : forall g pad,
  (forall t, In t (intermediates g) -> dget (tensormap g) t <> None) ->
  (sumZ (bytes_of g) (intermediates g) = 0 -> compress_memory g pad = CZeroDivision) /\
  (sumZ (bytes_of g) (intermediates g) <> 0 -> exists mem total, compress_memory g pad = CPlan mem total).
Proof.
  intros g pad H. destruct (plan g pad) as [mem total] eqn:E.
  rewrite (compress_outcome g pad mem total E H).
  destruct (sumZ (bytes_of g) (intermediates g) =? 0) eqn:Q; split; intros; try lia; eauto.
Qed.
Print Assumptions C08_planning_outcome_partial.
Example C08_partial_case : (forall t, In t (intermediates demo) -> dget (tensormap demo) t <> None) /\
  sumZ (bytes_of demo) (intermediates demo) = 600.
Proof. split; [|vm_compute; reflexivity]. cbn. intros t [<-|[<-|[<-|[]]]]; discriminate. Qed.

(** End to end: reordering any acyclic single-assignment graph establishes every hypothesis above. *)
Theorem C01b_reorder_establishes_planner_hypotheses : forall g g',
  unique_producers (nodemap g) -> acyclic (nodemap g) -> NoDup (g_input g) ->
  (forall t, In t (g_input g) -> ~ In t (outs_of (nodes_of g))) -> no_anonymous_data g ->
  graph_reorder_nodes g = Some g' -> wf_plan_input g' /\ topologically_ordered g'.
Proof. exact reorder_establishes_plan_input. Qed.
Print Assumptions C01b_reorder_establishes_planner_hypotheses.
Example C01b_case : unique_producers (nodemap demo_shuffled) /\ acyclic (nodemap demo_shuffled) /\
  ~ topologically_ordered demo_shuffled /\ exists g', graph_reorder_nodes demo_shuffled = Some g'.
Proof.
  split; [apply uniq_b_ok; vm_compute; reflexivity|]. split; [apply (rank_b_ok demo_rank); vm_compute; reflexivity|].
  split; [|eexists; vm_compute; reflexivity].
  intro H. destruct (H 0%nat _ "c"%string eq_refl (or_introl eq_refl)) as [K|[(j & m & J & _)|K]]; [discriminate| |lia|].
  - destruct K as [K|[]]; discriminate.
  - apply K. vm_compute. tauto.
Qed.
