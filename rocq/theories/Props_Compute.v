(** Property C95: the compute graph (the graph without the nodes that only compute shapes). *)
From Verif Require Import PyBase PyBaseFacts GraphModel CompressSpec RelSpec RelProofs TopSortSpec OrderSpec EditModel EditSpec
  RemoveProofs IoProofs FuseProofs ShapeModel InferModel InferSpec InferLoop Props_Infer ComputeModel ComputeSpec ComputeProofs ComputeTop Demo Decide.
Local Open Scope string_scope.
Local Open Scope list_scope.
Local Open Scope nat_scope.

(** ---- the call ends, and removes exactly the shape nodes and what is upstream of them only; the kept nodes stay in order ---- *)
Theorem C95_removed_exactly : forall g calc, consistent g -> acyclic (nodemap g) -> (forall k, In k calc -> In k (dkeys (nodemap g))) ->
  exists f0, forall fuel, f0 <= fuel -> exists self' cg keep,
    get_compute_graph fuel g calc = Some (Ok (self', cg)) /\ consistent cg /\
    nodemap cg = filter (fun kn => keep (fst kn)) (nodemap g) /\ (forall k, keep k = false <-> dropped g calc k) /\
    tensormap cg = tensormap g /\ initials cg = initials g /\ g_input cg = g_input g /\
    (forall t, In t (g_output cg) -> In t (g_output g)) /\
    (forall t, In t (g_output g) -> ~ made_by g (dropped g calc) t -> In t (g_output cg)).
Proof.
  intros g calc HC HA HK. destruct (enough_exists g HA) as (f0 & F). exists f0. intros fuel L.
  destruct (compute_ok g calc fuel HC (F _ L) HK) as (self' & cg & rm & E & C1 & -> & M & R & T & I1 & D & GI & O1 & O2).
  exists self', (with_dynamics self' (new_dynamics self')), (fun k => negb (memb k rm)). split; [exact E|]. split; [apply consistent_dynamics; exact C1|].
  split; [exact M|]. split; [intros k; rewrite <- R; rewrite negb_false_iff; apply memb_In|].
  repeat (split; [assumption|]). cbn. intros t It N. apply O2; [exact It|].
  intros (k & n & Ik & In' & Ot). apply N. exists k, n. split; [apply R; exact Ik|auto].
Qed.
Print Assumptions C95_removed_exactly.

Lemma ran : forall fuel g calc self' cg, get_compute_graph fuel g calc = Some (Ok (self', cg)) -> forall f', fuel <= f' -> get_compute_graph f' g calc = Some (Ok (self', cg)).
Proof.
  assert (SU : forall f g rm q r, search_up f g rm q = Some r -> forall f', f <= f' -> search_up f' g rm q = Some r).
  { induction f as [|f IH]; intros g rm q r E f' L.
    - destruct q as [|k q]; [destruct f'; exact E|discriminate E].
    - destruct q as [|k q]; [destruct f'; exact E|]. destruct f' as [|f']; [lia|]. cbn in *. destruct (dget (nodemap g) k); [|exact E].
      destruct (visit_inputs g (n_in n) (rm, q)) as [[a b]| | |]; try exact E. apply (IH _ _ _ _ E). lia. }
  assert (SC : forall f g calc kns rm r, scan f g calc kns rm = Some r -> forall f', f <= f' -> scan f' g calc kns rm = Some r).
  { intros f g calc. induction kns as [|[k n] kns IH]; intros rm r E f' L; [exact E|]. cbn in *. destruct (memb k calc); [eauto|].
    destruct (dummy_node g calc (n_out n) true) as [[]| | |]; try exact E; [|eauto].
    destruct (search_up f g (rm ++ [k]) [k]) as [[]|] eqn:S; try discriminate; rewrite (SU _ _ _ _ _ S _ L); eauto. }
  intros f g calc s c E f' L. unfold get_compute_graph in *. destruct (scan f g calc (nodemap g) []) as [r|] eqn:S; [|discriminate].
  now rewrite (SC _ _ _ _ _ _ S _ L).
Qed.
Lemma ran_spec : forall fuel g calc self' cg, consistent g -> acyclic (nodemap g) -> (forall k, In k calc -> In k (dkeys (nodemap g))) ->
  get_compute_graph fuel g calc = Some (Ok (self', cg)) -> exists rm, consistent self' /\ cg = with_dynamics self' (new_dynamics self') /\
    nodemap self' = outside rm (nodemap g) /\ (forall x, In x rm <-> dropped g calc x) /\
    tensormap self' = tensormap g /\ initials self' = initials g /\ dynamics self' = dynamics g /\ g_input self' = g_input g /\
    (forall t, In t (g_output self') -> In t (g_output g)) /\
    (forall t, In t (g_output g) -> ~ made_inside g rm t -> In t (g_output self')).
Proof.
  intros fuel g calc self' cg HC HA HK E. destruct (enough_exists g HA) as (f0 & F).
  destruct (compute_ok g calc (fuel + f0) HC (F (fuel + f0) ltac:(lia)) HK) as (s & c & rm & E' & X). rewrite (ran _ _ _ _ _ E) in E' by lia. inversion E'; subst s c.
  exists rm. exact X.
Qed.

(** ---- the compute graph computes what the graph does: fed the same sources and the outputs of the shape nodes, any operators
    give every tensor of a kept node the value it had ---- *)
Theorem C95_values : forall V (sem : node -> list V -> list V) g calc fuel self' cg (v w : string -> V),
  consistent g -> acyclic (nodemap g) -> (forall k, In k calc -> In k (dkeys (nodemap g))) -> one_wanted_output g ->
  get_compute_graph fuel g calc = Some (Ok (self', cg)) ->
  solves sem (nodes_of g) v -> solves sem (nodes_of cg) w ->
  (forall t, source g t \/ made_by g (fun k => In k calc) t -> w t = v t) ->
  forall n t, In n (nodes_of cg) -> In t (n_in n) \/ In t (n_out n) -> w t = v t.
Proof.
  intros V sem g calc fuel self' cg v w HC HA HK H1 E Sv Sw Hs n t In' Ht.
  destruct (ran_spec _ _ _ _ _ HC HA HK E) as (rm & C1 & -> & M & R & _). destruct HA as (rk & Hrk).
  apply node_in in In'. destruct In' as (k & Ik). cbn [with_dynamics nodemap] in Ik.
  exact (compute_values V sem g calc self' v w rm rk HC Hrk H1 M R Sv Sw Hs k n Ik t Ht).
Qed.
Print Assumptions C95_values.

(** ---- every declared output not computed by a shape node stays declared, and its producer stays ---- *)
Theorem C95_outputs_kept : forall g calc fuel self' cg, consistent g -> acyclic (nodemap g) -> (forall k, In k calc -> In k (dkeys (nodemap g))) ->
  one_wanted_output g -> outputs_unread g -> get_compute_graph fuel g calc = Some (Ok (self', cg)) ->
  forall t, In t (g_output g) -> ~ made_by g (fun k => In k calc) t ->
    In t (g_output cg) /\ forall k n, In (k, n) (nodemap g) -> In t (n_out n) -> In (k, n) (nodemap cg).
Proof.
  intros g calc fuel self' cg HC HA HK H1 HU E t It Nc.
  destruct (ran_spec _ _ _ _ _ HC HA HK E) as (rm & C1 & -> & M & R & _ & _ & _ & _ & _ & O2).
  pose proof (outputs_kept g calc rm t HC HU H1 R It Nc) as NM. split; [exact (O2 t It NM)|].
  intros k n Ik Ot. cbn. rewrite M. apply filter_In. split; [exact Ik|]. apply negb_true_iff. cbn [fst]. destruct (memb k rm) eqn:Mk; [|reflexivity].
  exfalso. apply NM. exists k, n. split; [now apply memb_In|auto].
Qed.
Print Assumptions C95_outputs_kept.

(** ---- the compute graph meets the hypotheses of the memory planner (C01-C08) when no node is named like a tensor: its dynamic
    tensors are its inputs, outputs and node outputs, so every tensor with data takes part in planning ---- *)
Theorem C95_ready_for_planning : forall g calc fuel self' cg, consistent g -> acyclic (nodemap g) -> (forall k, In k calc -> In k (dkeys (nodemap g))) ->
  single_assignment g -> no_anonymous_data g ->
  (forall k, In k (dkeys (nodemap g)) -> ~ In k (g_input g ++ g_output g ++ outs_of (nodes_of g))) ->
  get_compute_graph fuel g calc = Some (Ok (self', cg)) ->
  wf_plan_input cg /\
  (forall t, In t (dynamics cg) <-> In t (g_input cg) \/ In t (g_output cg) \/ In t (outs_of (nodes_of cg))) /\
  (forall t tn, dget (tensormap cg) t = Some tn -> (0 < data_bytes tn)%Z -> In t (g_input cg) \/ In t (outs_of (nodes_of cg)) ->
     planned_bytes cg t (data_bytes tn)).
Proof.
  intros g calc fuel self' cg HC HA HK HS HN Hn E.
  destruct (ran_spec _ _ _ _ _ HC HA HK E) as (rm & C1 & -> & M & R & T & I1 & D & GI & O1 & O2).
  set (cg := with_dynamics self' (new_dynamics self')).
  assert (C2 : consistent cg) by (apply consistent_dynamics; exact C1).
  assert (OI : forall t, In t (outs_of (nodes_of self')) -> In t (outs_of (nodes_of g))).
  { intros t. rewrite !out_in. intros (k & n & I & O). exists k, n. split; [|exact O]. rewrite M in I. apply filter_In in I. apply I. }
  assert (DY : forall t, In t (dynamics cg) <-> In t (g_input cg) \/ In t (g_output cg) \/ In t (outs_of (nodes_of cg))).
  { intros t. cbn. apply new_dynamics_spec. intros k Ik X.
    assert (Ik' : In k (dkeys (nodemap g))).
    { rewrite M in Ik. unfold dkeys in *. apply in_map_iff in Ik. destruct Ik as ([k' n] & <- & F). apply filter_In in F. apply in_map_iff. exists (k', n). split; [reflexivity|apply F]. }
    apply (Hn k Ik'). rewrite !in_app_iff in *. rewrite GI in X. destruct X as [X|[X|X]]; auto. }
  split; [|split; [exact DY|]].
  - split; [|split; [apply consistent_consumers_exact; exact C2|]].
    + unfold single_assignment in *. cbn. rewrite GI. unfold outs_of, nodes_of in *. cbn. rewrite M. rewrite flat_map_concat_map, map_map, <- flat_map_concat_map in *.
      apply outs_outside_NoDup. exact HS.
    + intros tn Et. apply HN. cbn in Et. rewrite <- T. exact Et.
  - intros t tn Et P Ht. split; [apply DY; tauto|]. split; [|exists tn; auto].
    destruct Ht as [Ht|Ht]; [right; exact Ht|left]. apply out_in in Ht. destruct Ht as (k & n & I & O).
    assert (X : In k (glist (producedby cg) t)) by (apply (prod_spec cg C2); eauto).
    apply dhas_dget. unfold glist in X. destruct (dget (producedby cg) t); [eauto|destruct X].
Qed.
Print Assumptions C95_ready_for_planning.

(** ---- a case: the Shape/Identity pair feeding the Reshape of [reshaping] is removed, the rest stays ---- *)
Ltac feed_cases := cbn in *; repeat match goal with
  | H : exists _, _ |- _ => destruct H
  | H : _ /\ _ |- _ => destruct H
  | H : _ \/ _ |- _ => destruct H
  | H : (_, _) = (_, _) |- _ => injection H as <- <-; cbn in *
  | H : False |- _ => destruct H
  end; subst.
Definition keys_b (g : graph) (calc : list string) : bool := forallb (fun k => memb k (dkeys (nodemap g))) calc.
Lemma keys_b_ok g calc : keys_b g calc = true -> forall k, In k calc -> In k (dkeys (nodemap g)).
Proof. unfold keys_b. rewrite forallb_forall. intros H k I. apply memb_In. exact (H k I). Qed.
Definition wanted_b (g : graph) (t : string) : bool := memb t (reads_of (nodes_of g)) || memb t (g_output g).
Definition one_wanted_b (g : graph) : bool :=
  forallb (fun kn => forallb (fun s => forallb (fun t => negb (wanted_b g s && wanted_b g t) || String.eqb s t) (n_out (snd kn))) (n_out (snd kn))) (nodemap g).
Lemma one_wanted_b_ok g : one_wanted_b g = true -> one_wanted_output g.
Proof.
  assert (W : forall t, wanted g t -> wanted_b g t = true).
  { intros t [X|X]; apply orb_true_iff; [left|right]; now apply memb_In. }
  unfold one_wanted_b. rewrite forallb_forall. intros H k n s t I Is It Ws Wt. specialize (H _ I). rewrite forallb_forall in H. specialize (H _ Is).
  rewrite forallb_forall in H. specialize (H _ It). rewrite (W _ Ws), (W _ Wt) in H. now apply String.eqb_eq.
Qed.
Definition reshaping_rank (k : string) : nat := if String.eqb k "n1" then 0 else if String.eqb k "n3" then 1 else if String.eqb k "n2" then 2 else if String.eqb k "n4" then 3 else 4.
Definition shaping_raw : graph := mkGraph
  [("n0", mkNode "n0" "Relu" ["x"] ["b"]); ("n1", mkNode "n1" "Shape" ["b"] ["s"]); ("n2", mkNode "n2" "Identity" ["s"] ["s2"]);
   ("n3", mkNode "n3" "Relu" ["x"] ["a"]); ("n4", mkNode "n4" "Reshape" ["a"; "s2"] ["y"]); ("n5", mkNode "n5" "Relu" ["y"] ["z"])]
  (map (fun t => (t, mkTensor DYNAMIC [2; 3]%Z 4%Z)) ["x"; "a"; "b"; "y"; "z"]) [] [] [] [] ["x"] ["z"].
Definition shaping : graph := update_consumer_producer shaping_raw.
Ltac consistent_case := apply loaded_consistent; [apply nodupb_ok; reflexivity|apply names_b_ok; reflexivity|apply uniq_b_ok; reflexivity].
Ltac unread_case := let o := fresh in let H := fresh in let R := fresh in intros o H R; cbn in H, R; intuition congruence.
Example C95_case : exists self' cg,
  consistent shaping /\ acyclic (nodemap shaping) /\ (forall k, In k ["n2"; "n1"] -> In k (dkeys (nodemap shaping))) /\
  one_wanted_output shaping /\ outputs_unread shaping /\ single_assignment shaping /\ no_anonymous_data shaping /\
  (forall k, In k (dkeys (nodemap shaping)) -> ~ In k (g_input shaping ++ g_output shaping ++ outs_of (nodes_of shaping))) /\
  find_shape_tensors 13 shaping (shape_tensors shaping) = Some (Ok ["n2"; "n1"]) /\
  get_compute_graph 1 shaping ["n2"; "n1"] = Some (Ok (self', cg)) /\
  dkeys (nodemap cg) = ["n3"; "n4"; "n5"] /\ g_output cg = ["z"] /\ dynamics cg = ["x"; "z"; "a"; "y"; "z"] /\
  exists v : string -> Z, solves (fun n vs => [(fold_right Z.add 1 vs)%Z]) (nodes_of shaping) v /\ v "z" = 8%Z.
Proof.
  do 2 eexists. split; [consistent_case|].
  split; [apply (rank_b_ok (fun k => if String.eqb k "n0" then 0 else S (reshaping_rank k))); vm_compute; reflexivity|].
  split; [apply keys_b_ok; reflexivity|]. split; [apply one_wanted_b_ok; vm_compute; reflexivity|]. split; [unread_case|].
  split; [apply ssa_b_ok; vm_compute; reflexivity|]. split; [apply anon_b_ok; vm_compute; reflexivity|].
  split; [intros k I J; cbn in I, J; intuition congruence|]. split; [vm_compute; reflexivity|]. split; [vm_compute; reflexivity|].
  split; [vm_compute; reflexivity|]. split; [vm_compute; reflexivity|]. split; [vm_compute; reflexivity|].
  exists (fun t => if String.eqb t "x" then 1 else if String.eqb t "b" then 2 else if String.eqb t "s" then 3 else if String.eqb t "s2" then 4
          else if String.eqb t "a" then 2 else if String.eqb t "y" then 7 else 8)%Z.
  split; [|reflexivity]. intros n Hn. repeat (destruct Hn as [<-|Hn]; [vm_compute; reflexivity|]). destruct Hn.
Qed.

(** ---- what does not hold ---- *)
(** the call changes the graph it is called on: the copy is shallow, so the original loses the same nodes, always *)
Theorem C95_original_loses_nodes_refuted : forall fuel g calc self' cg, get_compute_graph fuel g calc = Some (Ok (self', cg)) ->
  nodemap self' = nodemap cg /\ producedby self' = producedby cg /\ consumedby self' = consumedby cg /\ g_output self' = g_output cg.
Proof.
  intros fuel g calc self' cg E. unfold get_compute_graph in E. destruct (scan fuel g calc (nodemap g) []) as [[rm| | |]|]; try discriminate.
  destruct (remove_nodes g rm) as [g'| | |]; cbn in E; try discriminate. inversion E; subst. auto.
Qed.
Print Assumptions C95_original_loses_nodes_refuted.
(** ... so a second shape inference on the original, with an input of another shape, silently keeps the old reshape target *)
Definition x32 : val := ([3; 2]%nat, [1; -2; 3; -4; 5; -6]%Z).
Theorem C95_stale_shapes_refuted : exists tm self' cg,
  graph_shape_infer vsh dsrule dvrule reshaping ["n2"; "n1"] [("x", x23)] (blank reshaping) = SOk tm /\
  get_compute_graph 1 reshaping ["n2"; "n1"] = Some (Ok (self', cg)) /\
  inferred ["n2"; "n1"] reshaping tm [("x", x32)] "z" = Some [3; 2]%Z /\
  inferred ["n2"; "n1"] self' tm [("x", x32)] "z" = Some [2; 3]%Z.
Proof.
  do 3 eexists. split; [vm_compute; reflexivity|]. split; [vm_compute; reflexivity|]. split; vm_compute; reflexivity.
Qed.
Print Assumptions C95_stale_shapes_refuted.
(** [t] is read by a node of the compute graph although the graph computed it and nobody computes it any more *)
Definition orphan (g cg : graph) (t : string) : Prop :=
  In t (reads_of (nodes_of cg)) /\ In t (outs_of (nodes_of g)) /\ ~ In t (outs_of (nodes_of cg)) /\ ~ In t (g_input cg) /\ ~ In t (initials cg).
(** a node with two used outputs: one of them leads to shape nodes only, so its producer goes, and the other loses its producer *)
Definition splitting_raw : graph := mkGraph
  [("n1", mkNode "n1" "Split" ["x"] ["t1"; "t2"]); ("n2", mkNode "n2" "Relu" ["t1"] ["u"]); ("n3", mkNode "n3" "Shape" ["u"] ["s"]);
   ("n4", mkNode "n4" "Reshape" ["t2"; "s"] ["y"])] [] [] [] [] [] ["x"] ["y"].
Definition splitting : graph := update_consumer_producer splitting_raw.
Theorem C95_two_outputs_refuted : exists self' cg,
  consistent splitting /\ acyclic (nodemap splitting) /\ outputs_unread splitting /\
  find_shape_tensors 9 splitting (shape_tensors splitting) = Some (Ok ["n3"]) /\
  get_compute_graph 2 splitting ["n3"] = Some (Ok (self', cg)) /\ dkeys (nodemap cg) = ["n4"] /\ orphan splitting cg "t2".
Proof.
  do 2 eexists. split; [consistent_case|].
  split; [apply (rank_b_ok (fun k => if String.eqb k "n1" then 0 else if String.eqb k "n2" then 1 else if String.eqb k "n3" then 2 else 3)); vm_compute; reflexivity|].
  split; [unread_case|]. split; [vm_compute; reflexivity|]. split; [vm_compute; reflexivity|]. split; [vm_compute; reflexivity|].
  unfold orphan. cbn. intuition congruence.
Qed.
Print Assumptions C95_two_outputs_refuted.
(** a graph output read by shape nodes only: its producer is removed and the output is no longer declared *)
Definition measured_raw : graph := mkGraph
  [("n1", mkNode "n1" "Relu" ["x"] ["r"]); ("n2", mkNode "n2" "Shape" ["r"] ["s"]); ("n3", mkNode "n3" "Reshape" ["x"; "s"] ["y"])]
  [] [] [] [] [] ["x"] ["r"; "y"].
Definition measured : graph := update_consumer_producer measured_raw.
Theorem C95_output_lost_refuted : exists self' cg,
  consistent measured /\ acyclic (nodemap measured) /\ one_wanted_output measured /\ In "r" (g_output measured) /\
  find_shape_tensors 7 measured (shape_tensors measured) = Some (Ok ["n2"]) /\
  get_compute_graph 1 measured ["n2"] = Some (Ok (self', cg)) /\ dkeys (nodemap cg) = ["n3"] /\ g_output cg = ["y"].
Proof.
  do 2 eexists. split; [consistent_case|].
  split; [apply (rank_b_ok (fun k => if String.eqb k "n1" then 0 else if String.eqb k "n2" then 1 else 2)); vm_compute; reflexivity|].
  split; [apply one_wanted_b_ok; vm_compute; reflexivity|]. split; [cbn; auto|].
  split; [vm_compute; reflexivity|]. split; [vm_compute; reflexivity|]. split; vm_compute; reflexivity.
Qed.
Print Assumptions C95_output_lost_refuted.
(** a shape that is also used as data (here cast and added): its consumer stays, its producer goes *)
Definition counting_raw : graph := mkGraph
  [("n1", mkNode "n1" "Shape" ["x"] ["s"]); ("n2", mkNode "n2" "Reshape" ["x"; "s"] ["y"]); ("n3", mkNode "n3" "Cast" ["s"] ["z"])]
  [] [] [] [] [] ["x"] ["y"; "z"].
Definition counting : graph := update_consumer_producer counting_raw.
Theorem C95_shape_as_data_refuted : exists self' cg,
  consistent counting /\ acyclic (nodemap counting) /\ one_wanted_output counting /\ outputs_unread counting /\
  find_shape_tensors 7 counting (shape_tensors counting) = Some (Ok ["n1"]) /\
  get_compute_graph 0 counting ["n1"] = Some (Ok (self', cg)) /\ dkeys (nodemap cg) = ["n2"; "n3"] /\ orphan counting cg "s".
Proof.
  do 2 eexists. split; [consistent_case|].
  split; [apply (rank_b_ok (fun k => if String.eqb k "n1" then 0 else 1)); vm_compute; reflexivity|].
  split; [apply one_wanted_b_ok; vm_compute; reflexivity|]. split; [unread_case|].
  split; [vm_compute; reflexivity|]. split; [vm_compute; reflexivity|]. split; [vm_compute; reflexivity|].
  unfold orphan. cbn. intuition congruence.
Qed.
Print Assumptions C95_shape_as_data_refuted.
(** a node that feeds two removed nodes stays, although nothing it computes is used any more *)
Definition shared_raw : graph := mkGraph
  [("n0", mkNode "n0" "Relu" ["x"] ["r"]); ("n1", mkNode "n1" "Relu" ["r"] ["p"]); ("n2", mkNode "n2" "Relu" ["r"] ["q"]);
   ("n3", mkNode "n3" "Shape" ["p"] ["s"]); ("n4", mkNode "n4" "Shape" ["q"] ["s'"]);
   ("n5", mkNode "n5" "Reshape" ["x"; "s"] ["y"]); ("n6", mkNode "n6" "Reshape" ["y"; "s'"] ["z"])] [] [] [] [] [] ["x"] ["z"].
Definition shared : graph := update_consumer_producer shared_raw.
Theorem C95_dead_node_stays_refuted : exists self' cg,
  consistent shared /\ acyclic (nodemap shared) /\ one_wanted_output shared /\ outputs_unread shared /\
  get_compute_graph 1 shared ["n3"; "n4"] = Some (Ok (self', cg)) /\ dkeys (nodemap cg) = ["n0"; "n5"; "n6"] /\
  ~ In "r" (reads_of (nodes_of cg)) /\ ~ In "r" (g_output cg) /\ ~ needed cg "n0".
Proof.
  do 2 eexists. split; [consistent_case|].
  split; [apply (rank_b_ok (fun k => if String.eqb k "n0" then 0 else if memb k ["n1"; "n2"] then 1 else if memb k ["n3"; "n4"] then 2 else if String.eqb k "n5" then 3 else 4)); vm_compute; reflexivity|].
  split; [apply one_wanted_b_ok; vm_compute; reflexivity|]. split; [unread_case|].
  split; [vm_compute; reflexivity|]. split; [vm_compute; reflexivity|]. split; [cbn; intuition congruence|]. split; [cbn; intuition congruence|].
  intros N. inversion N as [k n o A B C|k m (na & nb & t & A & B & C & D) _]; subst.
  - cbn in A, C. repeat destruct A as [A|A]; try discriminate; try contradiction. injection A as <-. cbn in B. intuition congruence.
  - cbn in A, B. repeat destruct A as [A|A]; try discriminate; try contradiction. injection A as <-. cbn in C. destruct C as [<-|[]].
    repeat destruct B as [B|B]; try contradiction; injection B as <- <-; cbn in D; intuition congruence.
Qed.
Print Assumptions C95_dead_node_stays_refuted.
(** a node named like one of its outputs (exporters do that): its later outputs are missing from the dynamic tensors, so the
    planner gives them no memory *)
Definition selfnamed_raw : graph := mkGraph
  [("a", mkNode "a" "Split" ["x"] ["a"; "b"]); ("c", mkNode "c" "Add" ["a"; "b"] ["c"])]
  (map (fun t => (t, mkTensor DYNAMIC [8]%Z 4%Z)) ["x"; "a"; "b"; "c"]) [] [] [] [] ["x"] ["c"].
Definition selfnamed : graph := update_consumer_producer selfnamed_raw.
Theorem C95_node_named_like_tensor_refuted : exists self' cg,
  consistent selfnamed /\ acyclic (nodemap selfnamed) /\ single_assignment selfnamed /\ no_anonymous_data selfnamed /\
  get_compute_graph 0 selfnamed [] = Some (Ok (self', cg)) /\ nodemap cg = nodemap selfnamed /\
  In "b" (outs_of (nodes_of cg)) /\ In "b" (reads_of (nodes_of cg)) /\ dget (tensormap cg) "b" = Some (mkTensor DYNAMIC [8]%Z 4%Z) /\
  ~ In "b" (dynamics cg).
Proof.
  do 2 eexists. split; [consistent_case|].
  split; [apply (rank_b_ok (fun k => if String.eqb k "a" then 0 else 1)); vm_compute; reflexivity|].
  split; [apply ssa_b_ok; vm_compute; reflexivity|]. split; [apply anon_b_ok; vm_compute; reflexivity|].
  split; [vm_compute; reflexivity|]. split; [vm_compute; reflexivity|]. cbn. intuition congruence.
Qed.
Print Assumptions C95_node_named_like_tensor_refuted.
