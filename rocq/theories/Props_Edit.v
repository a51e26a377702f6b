(** Properties C13-C18, C57, C58: graph surgery, partitioning and constant search. *)
From Verif Require Import PyBase PyBaseFacts GraphModel CompressSpec RelSpec RelProofs ExecModel TopSortModel TopSortSpec OrderSpec OrderProofs
  EditModel EditSpec RemoveProofs DanglingProofs IoProofs FuseProofs SkipProofs PartitionModel PartitionSpec PartitionProofs ConstProofs ConstWork Demo Decide.
From Coq Require Import Permutation.
Local Open Scope string_scope.

(** ---- C13 ---- *)
(** Full claim: a node that a declared output depends on is never removed.  Proved for graphs whose declared
    outputs are not also read by a node (and nodes listed in execution order); then the kept nodes are EXACTLY the needed ones. *)
Theorem C13_dangling_removes_exactly_unneeded_partial : forall g0, names_match g0 -> unique_producers (nodemap g0) ->
  listed_in_order g0 -> outputs_unread g0 ->
  let g := update_consumer_producer g0 in
  exists g', remove_dangling_nodes (next_nodes g) g = Some (Ok g') /\ g_output g' = g_output g0 /\
    forall k n, In (k, n) (nodemap g') <-> In (k, n) (nodemap g0) /\ needed g0 k.
Proof. intros g0 H1 H2 H3 H4 g. exact (remove_dangling_correct g0 g eq_refl H1 H2 H3 H4). Qed.
Print Assumptions C13_dangling_removes_exactly_unneeded_partial.

Definition demo_dead_raw : graph := mkGraph
  [("a", mkNode "a" "Relu" ["x"] ["t"]); ("b", mkNode "b" "Relu" ["t"] ["u"]); ("c", mkNode "c" "Exp" ["u"] ["v"]); ("d", mkNode "d" "Exp" ["t"] ["y"])]
  [] [] [] [] [] ["x"] ["y"].
Fixpoint ordered_b (ns : list (string * node)) : bool :=
  match ns with
  | [] => true
  | kn :: r => forallb (fun km => negb (feeds_b (snd km) (snd kn))) (kn :: r) && ordered_b r
  end.
Lemma ordered_b_ok : forall g, ordered_b (nodemap g) = true -> listed_in_order g.
Proof.
  intros g H a b (na & nb & t & Ia & Ib & Ta & Tb).
  assert (F : feeds_b na nb = true) by (apply existsb_exists; exists t; split; [exact Ta|apply memb_In; exact Tb]).
  unfold before. induction (nodemap g) as [|[k n] r IH]; [destruct Ia|]. cbn [ordered_b] in H. apply andb_prop in H. destruct H as [H1 H2].
  rewrite forallb_forall in H1. destruct Ib as [Ib|Ib].
  - injection Ib as -> ->. specialize (H1 (a, na) Ia). cbn [snd] in H1. rewrite F in H1. discriminate.
  - destruct Ia as [Ia|Ia].
    + injection Ia as -> ->. apply (in_map fst) in Ib. apply in_split in Ib. destruct Ib as (l1 & l2 & E). cbn [fst] in E.
      exists [], l1, l2. cbn [map fst app]. rewrite E. reflexivity.
    + destruct (IH H2 Ia Ib) as (l1 & l2 & l3 & E). exists (k :: l1)%list, l2, l3. cbn [map fst app]. rewrite E. reflexivity.
Qed.
Definition names_b (g : graph) : bool := forallb (fun kn => String.eqb (n_name (snd kn)) (fst kn)) (nodemap g).
Lemma names_b_ok : forall g, names_b g = true -> names_match g.
Proof. intros g H k n I. unfold names_b in H. rewrite forallb_forall in H. specialize (H _ I). apply String.eqb_eq in H. exact H. Qed.
Definition unread_b (g : graph) : bool := forallb (fun o => negb (memb o (reads_of (nodes_of g)))) (g_output g).
Lemma unread_b_ok : forall g, unread_b g = true -> outputs_unread g.
Proof. intros g H o I. unfold unread_b in H. rewrite forallb_forall in H. specialize (H _ I). apply memb_nIn. rewrite negb_true_iff in H. exact H. Qed.
Example C13_case : names_match demo_dead_raw /\ unique_producers (nodemap demo_dead_raw) /\ listed_in_order demo_dead_raw /\ outputs_unread demo_dead_raw /\
  match remove_dangling_nodes (next_nodes (relate demo_dead_raw)) (relate demo_dead_raw) with Some (Ok g') => dkeys (nodemap g') = ["a"; "d"] | _ => False end.
Proof.
  split; [apply names_b_ok; reflexivity|]. split; [apply uniq_b_ok; reflexivity|]. split; [apply ordered_b_ok; reflexivity|].
  split; [apply unread_b_ok; reflexivity|]. vm_compute. reflexivity.
Qed.
(** x -a-> t -b-> u with t the declared output: b is dead, but removing b also removes a, the producer of the output. *)
Definition demo_live_raw : graph := mkGraph
  [("a", mkNode "a" "Relu" ["x"] ["t"]); ("b", mkNode "b" "Relu" ["t"] ["u"])] [] [] [] [] [] ["x"] ["t"].
Theorem C13_output_producer_removed_refuted : exists g0 g', names_match g0 /\ unique_producers (nodemap g0) /\ listed_in_order g0 /\
  needed g0 "a" /\ remove_dangling_nodes (next_nodes (update_consumer_producer g0)) (update_consumer_producer g0) = Some (Ok g') /\
  nodemap g' = [] /\ g_output g' = [].
Proof.
  exists demo_live_raw. eexists. split; [apply names_b_ok; reflexivity|]. split; [apply uniq_b_ok; reflexivity|]. split; [apply ordered_b_ok; reflexivity|].
  split; [eapply needed_out; [left; reflexivity|left; reflexivity|left; reflexivity]|].
  split; [vm_compute; reflexivity|]. split; reflexivity.
Qed.
Print Assumptions C13_output_producer_removed_refuted.

(** ---- C14 ---- *)
(** for every graph: an output made inside the fused set is no longer declared, all others are kept *)
Theorem C14_fused_outputs_are_undeclared_refuted : forall g names op name t,
  consistent g -> (forall k, In k names -> In k (dkeys (nodemap g))) -> (In name (dkeys (nodemap g)) -> In name names) ->
  NoDup (g_output g) -> In t (g_output g) ->
  exists g', fuse_nodes g names op name = Ok g' /\ (In t (g_output g') <-> ~ made_inside g names t).
Proof.
  intros g names op name t H1 H2 H3 H4 H5. destruct (fuse_ok g names op name H1 H2 H3) as (g' & ins & outs & _ & F & _ & _ & _ & _ & _ & _ & _ & _ & _ & _ & A1 & A2 & A3).
  exists g'. split; [exact F|]. split; [apply (A3 H4)|apply A2; exact H5].
Qed.
Print Assumptions C14_fused_outputs_are_undeclared_refuted.
(** "still produced": the output is among the fused node's outputs, yet not declared *)
Example C14_case : match fuse_nodes demo ["n3"; "n4"] "Fused" "f" with
  | Ok g' => In "y" (outs_of (nodes_of g')) /\ g_output demo = ["y"] /\ g_output g' = []
  | _ => False end.
Proof. vm_compute. auto 10. Qed.
Lemma demo_consistent : consistent demo.
Proof. apply loaded_consistent; [apply nodupb_ok; reflexivity|apply names_b_ok; reflexivity|apply uniq_b_ok; reflexivity]. Qed.
(** the wiring of the fused graph is exact again *)
Theorem C14_fused_wiring_partial : forall g names op name,
  consistent g -> (forall k, In k names -> In k (dkeys (nodemap g))) -> (In name (dkeys (nodemap g)) -> In name names) ->
  exists g' ins outs, fuse_nodes g names op name = Ok g' /\ consistent g' /\
    (forall t, In t ins <-> t <> "" /\ reads_outside g names t) /\ (forall t, In t outs <-> produces_outside g names t) /\
    (forall k n, In (k, n) (nodemap g') <-> (In (k, n) (nodemap g) /\ ~ In k names) \/ (k = name /\ n = mkNode name op ins outs)).
Proof.
  intros g names op name H1 H2 H3. destruct (fuse_ok g names op name H1 H2 H3) as (g' & ins & outs & _ & F & _ & _ & SI & SO & M & C & _).
  exists g', ins, outs. split; [exact F|]. split; [exact C|]. split; [exact SI|]. split; [exact SO|].
  intros k n. rewrite M, in_app_iff, In_outside. cbn [In]. split; [intros [X|[X|[]]]; [left; exact X|right; injection X as <- <-; auto]|].
  intros [X|[-> ->]]; auto.
Qed.
Print Assumptions C14_fused_wiring_partial.

(** ---- C15 ---- *)
Theorem C15_region_interface_exact : forall g names rmi, consistent g -> (forall k, In k names -> In k (dkeys (nodemap g))) ->
  exists ins outs, get_iotensors g names rmi = Ok (ins, outs) /\ NoDup ins /\ NoDup outs /\
   (forall t, In t ins <-> t <> "" /\ ~ (rmi = true /\ In t (initials g)) /\ reads_outside g names t) /\
   (forall t, In t outs <-> ~ (rmi = true /\ In t (initials g)) /\ produces_outside g names t).
Proof. intros g names rmi HC. exact (get_iotensors_spec g HC names rmi). Qed.
Print Assumptions C15_region_interface_exact.
Example C15_case : consistent demo /\ get_iotensors demo ["n1"; "n2"] true = Ok (["x"], ["a"; "b"]).
Proof. split; [exact demo_consistent|vm_compute; reflexivity]. Qed.
(** a declared output read only inside the set is missing from the interface *)
Theorem C15_internal_graph_output_refuted : exists g names ins outs t, consistent g /\ (forall k, In k names -> In k (dkeys (nodemap g))) /\
  get_iotensors g names true = Ok (ins, outs) /\ In t (g_output g) /\ made_inside g names t /\ ~ In t outs.
Proof.
  exists demo_out, ["m1"; "m2"]. do 2 eexists. exists "y".
  split; [apply loaded_consistent; [apply nodupb_ok; reflexivity|apply names_b_ok; reflexivity|apply uniq_b_ok; reflexivity]|].
  split; [intros k [<-|[<-|[]]]; cbn; auto|]. split; [vm_compute; reflexivity|]. split; [left; reflexivity|].
  split; [exists "m1"; eexists; split; [left; reflexivity|]; split; [left; reflexivity|left; reflexivity]|].
  cbn. intros [X|[]]. discriminate.
Qed.
Print Assumptions C15_internal_graph_output_refuted.

(** ---- C57: the fused graph computes the same values ---- *)
Theorem C57_fusion_preserves_values : forall sem g names op name g' f A R B,
  consistent g -> (forall k, In k names -> In k (dkeys (nodemap g))) -> (In name (dkeys (nodemap g)) -> In name names) ->
  fuse_nodes g names op name = Ok g' -> In (name, f) (nodemap g') ->
  (* the set is contiguous in some execution order A ++ R ++ B *)
  Permutation (A ++ R ++ B) (nodes_of g) -> respects_deps (A ++ R ++ B) ->
  (forall n, In n R <-> In n (nodes_of g) /\ In (n_name n) names) ->
  (forall n args, In n R -> length (sem n args) = length (n_out n)) ->
  (* the composite operator computes what the set computes from its inputs *)
  (forall args, length args = length (n_in f) -> sem f args = map (region_values sem R (n_in f) args) (n_out f)) ->
  Permutation (A ++ f :: B) (nodes_of g') /\ respects_deps (A ++ f :: B) /\
  forall e t, t <> "" -> (In t (outs_of R) -> In t (n_out f)) ->
    run_private sem e (A ++ f :: B) t = run_private sem e (A ++ R ++ B) t.
Proof. exact fuse_values. Qed.
Print Assumptions C57_fusion_preserves_values.
Definition mk_composite (base : node -> list bytes -> list bytes) (f : node) (R : list node) (n : node) (args : list bytes) : list bytes :=
  if String.eqb (n_op n) (n_op f) then map (region_values base R (n_in f) args) (n_out f) else base n args.
Example C57_case : exists g' f, fuse_nodes demo ["n2"; "n3"] "Fused" "f" = Ok g' /\ In ("f", f) (nodemap g') /\
  n_in f = ["a"] /\ n_out f = ["c"] /\
  exists A R B, Permutation (A ++ R ++ B) (nodes_of demo) /\ respects_deps (A ++ R ++ B) /\ map n_name R = ["n2"; "n3"] /\ map n_name A = ["n1"].
Proof.
  do 2 eexists. split; [vm_compute; reflexivity|]. split; [right; right; left; reflexivity|]. split; [reflexivity|]. split; [reflexivity|].
  exists [mkNode "n1" "MatMul" ["x"; "w"] ["a"]], [mkNode "n2" "Relu" ["a"] ["b"]; mkNode "n3" "Add" ["a"; "b"] ["c"]], [mkNode "n4" "Relu" ["c"] ["y"]].
  split; [apply Permutation_refl|]. split; [apply respects_b_ok; reflexivity|]. split; reflexivity.
Qed.
(** nothing checks that the set is contiguous: fusing n1 and n3 of x -n1-> a -n2-> b, (a,b) -n3-> c makes the graph cyclic,
    and reordering then silently drops every node *)
Theorem C57_fusing_around_a_node_refuted : exists g g' g'', consistent g /\ acyclic (nodemap g) /\
  fuse_nodes g ["n1"; "n3"] "Fused" "f" = Ok g' /\ depends_on_cycle (nodemap g') "n2" /\
  graph_reorder_nodes g' = Some g'' /\ nodemap g'' = [].
Proof.
  exists demo. do 2 eexists. split; [exact demo_consistent|]. split; [apply (rank_b_ok demo_rank); vm_compute; reflexivity|].
  split; [vm_compute; reflexivity|]. split.
  - exists "n2". split; [|left; reflexivity]. apply (path_step _ "n2" "f" "n2"); [|constructor].
    + do 2 eexists. exists "b". split; [left; reflexivity|]. split; [right; right; left; reflexivity|]. cbn. auto.
    + do 2 eexists. exists "a". split; [right; right; left; reflexivity|]. split; [left; reflexivity|]. cbn. auto.
  - split; vm_compute; reflexivity.
Qed.
Print Assumptions C57_fusing_around_a_node_refuted.

(** ---- C16 ---- *)
(** the output has readers: every node but the skipped one stays, reading [ind] wherever it read [out]; all other values unchanged *)
Theorem C16_skip_redirects_readers_partial : forall sem,
  (forall m l args, sem (set_in m l) args = sem m args) ->
  forall g name n ind out A B, consistent g -> dget (nodemap g) name = Some n ->
  filter (fun i => memb i (dynamics g)) (n_in n) = [ind] -> n_out n = [out] -> ind <> "" -> out <> "" ->
  In out (reads_of (nodes_of g)) ->
  Permutation (A ++ n :: B) (nodes_of g) -> respects_deps (A ++ n :: B) ->
  (forall e, sem n (map (look_private e) (n_in n)) = [e ind]) ->
  exists g', skip_node g name = Ok g' /\ nodemap g' = map (fun kn => (fst kn, read_instead out ind (snd kn))) (ddel (nodemap g) name) /\
    Permutation (map (read_instead out ind) (A ++ B)) (nodes_of g') /\
    respects_deps (map (read_instead out ind) (A ++ B)) /\
    forall e t, t <> "" -> t <> out -> run_private sem e (map (read_instead out ind) (A ++ B)) t = run_private sem e (A ++ n :: B) t.
Proof. exact skip_consumed_values. Qed.
Print Assumptions C16_skip_redirects_readers_partial.
(** nobody reads the output and nobody else reads the operand: the operand's producer now produces the output *)
Theorem C16_skip_last_node_partial : forall sem,
  (forall m l args, sem (set_out m l) args = sem m args) ->
  forall g name n ind out p pn A1 A2 B, consistent g -> dget (nodemap g) name = Some n ->
  filter (fun i => memb i (dynamics g)) (n_in n) = [ind] -> n_out n = [out] -> ind <> "" -> out <> "" ->
  ~ In out (reads_of (nodes_of g)) -> dget (nodemap g) p = Some pn -> n_out pn = [ind] ->
  Permutation (A1 ++ pn :: A2 ++ n :: B) (nodes_of g) -> respects_deps (A1 ++ pn :: A2 ++ n :: B) ->
  (forall m, In m (nodes_of g) -> In ind (n_in m) -> m = n) ->
  (forall args, length (sem pn args) = 1) ->
  (forall e, sem n (map (look_private e) (n_in n)) = [e ind]) ->
  exists g', skip_node g name = Ok g' /\
    Permutation (A1 ++ set_out pn [out] :: A2 ++ B) (nodes_of g') /\
    forall e t, t <> "" -> t <> ind -> run_private sem e (A1 ++ set_out pn [out] :: A2 ++ B) t = run_private sem e (A1 ++ pn :: A2 ++ n :: B) t.
Proof. exact skip_unconsumed_values. Qed.
Print Assumptions C16_skip_last_node_partial.
(** a skipped tensor that is a declared output and is read elsewhere loses its producer (for every such graph);
    its recorded producer is a node that no longer exists *)
Theorem C16_skipped_output_lost_refuted : forall g name n ind out, consistent g -> dget (nodemap g) name = Some n ->
  filter (fun i => memb i (dynamics g)) (n_in n) = [ind] -> n_out n = [out] -> ind <> out ->
  In out (reads_of (nodes_of g)) -> In out (g_output g) ->
  exists g', skip_node g name = Ok g' /\ In out (g_output g') /\ ~ In out (outs_of (nodes_of g')) /\
    dget (nodemap g') name = None /\ dget (producedby g') out = Some [name].
Proof. exact skip_consumed_output_lost. Qed.
Print Assumptions C16_skipped_output_lost_refuted.
(** skipping the only node between a graph input and an unread result raises KeyError (for every such graph) *)
Theorem C16_skip_on_graph_input_crashes_refuted : forall g name n ind out, consistent g -> dget (nodemap g) name = Some n ->
  filter (fun i => memb i (dynamics g)) (n_in n) = [ind] -> n_out n = [out] -> ind <> out ->
  ~ In out (reads_of (nodes_of g)) -> ~ In ind (outs_of (nodes_of g)) -> skip_node g name = KeyError.
Proof. exact skip_input_crash. Qed.
Print Assumptions C16_skip_on_graph_input_crashes_refuted.
(** x -a-> t, t -i-> y (identity, unread), t -b-> z: after skipping i, b reads a tensor nobody produces *)
Definition demo_skip : graph := relate (mkGraph
  [("a", mkNode "a" "Relu" ["x"] ["t"]); ("i", mkNode "i" "Identity" ["t"] ["y"]); ("b", mkNode "b" "Exp" ["t"] ["z"])]
  [] [] [] [] ["x"; "t"; "y"; "z"] ["x"] ["y"; "z"]).
Theorem C16_other_reader_broken_refuted : exists g g', consistent g /\ skip_node g "i" = Ok g' /\
  In (mkNode "b" "Exp" ["t"] ["z"]) (nodes_of g') /\ ~ In "t" (outs_of (nodes_of g')) /\ ~ In "t" (g_input g').
Proof.
  exists demo_skip. eexists. split; [apply loaded_consistent; [apply nodupb_ok; reflexivity|apply names_b_ok; reflexivity|apply uniq_b_ok; reflexivity]|].
  split; [vm_compute; reflexivity|]. split; [right; left; reflexivity|]. split; [cbn; intuition discriminate|cbn; intuition discriminate].
Qed.
Print Assumptions C16_other_reader_broken_refuted.
Definition demo_id : graph := relate (mkGraph
  [("a", mkNode "a" "Relu" ["x"] ["t"]); ("i", mkNode "i" "Identity" ["t"] ["u"]); ("b", mkNode "b" "Add" ["u"; "u"] ["y"])]
  [] [] [] [] ["x"; "t"; "u"; "y"] ["x"] ["y"]).
Example C16_case : consistent demo_id /\ In "u" (reads_of (nodes_of demo_id)) /\ respects_deps (nodes_of demo_id) /\
  match skip_node demo_id "i" with Ok g' => nodes_of g' = [mkNode "a" "Relu" ["x"] ["t"]; mkNode "b" "Add" ["t"; "t"] ["y"]] | _ => False end.
Proof.
  split; [apply loaded_consistent; [apply nodupb_ok; reflexivity|apply names_b_ok; reflexivity|apply uniq_b_ok; reflexivity]|].
  split; [cbn; auto 10|]. split; [apply respects_b_ok; reflexivity|]. vm_compute. reflexivity.
Qed.

(** ---- C17 ---- *)
Theorem C17_partition : forall g inputs outputs, consistent g ->
  exists l0 l1 l2, subnodes_byio g inputs outputs = Some (Ok (l0, l1, l2)) /\
    NoDup (l0 ++ l1 ++ l2) /\ (forall k, In k (l0 ++ l1 ++ l2)%list <-> In k (dkeys (nodemap g))) /\
    (forall k, In k l2 <-> downstream g outputs k) /\
    (forall k, In k l1 <-> downstream g inputs k /\ ~ downstream g outputs k) /\
    (forall k, In k l0 <-> In k (dkeys (nodemap g)) /\ ~ downstream g inputs k /\ ~ downstream g outputs k).
Proof. exact subnodes_spec. Qed.
Print Assumptions C17_partition.
Example C17_case : consistent demo /\ subnodes_byio demo ["a"] ["c"] = Some (Ok (["n1"], ["n2"; "n3"], ["n4"])).
Proof. split; [exact demo_consistent|vm_compute; reflexivity]. Qed.

(** ---- C18 ---- *)
Theorem C18_constants_are_exactly_runtime_independent : forall g static0, consistent g -> acyclic (nodemap g) ->
  (forall t, static0 t = true -> ~ In t (outs_of (nodes_of g))) ->
  exists fuel0, forall fuel, fuel0 <= fuel -> exists static cst, constant_search fuel g static0 = Some (Ok (static, cst)) /\
    (forall k n, In (k, n) (nodemap g) -> (dget cst k = Some true <-> ~ runtime_node g static0 n)) /\
    (forall t, static t = true <-> ~ runtime g static0 t).
Proof. exact constant_search_correct. Qed.
Print Assumptions C18_constants_are_exactly_runtime_independent.
Definition demo_const : graph := relate (mkGraph
  [("a", mkNode "a" "Add" ["w"; "v"] ["s"]); ("b", mkNode "b" "Mul" ["x"; "s"] ["y"]); ("c", mkNode "c" "Exp" ["s"] ["u"]);
   ("d", mkNode "d" "DequantizeLinear" ["w"] ["q"])]
  [] [] [] ["w"; "v"] [] ["x"] ["y"; "u"; "q"]).
Example C18_case : consistent demo_const /\ acyclic (nodemap demo_const) /\
  match constant_search 10 demo_const (fun t => memb t ["w"; "v"]) with
  | Some (Ok (_, cst)) => map (dget cst) ["a"; "b"; "c"; "d"] = [Some true; Some false; Some true; Some false]
  | _ => False end.
Proof.
  split; [apply loaded_consistent; [apply nodupb_ok; reflexivity|apply names_b_ok; reflexivity|apply uniq_b_ok; reflexivity]|].
  split; [apply (rank_b_ok (fun k => if String.eqb k "a" then 0 else 1)); vm_compute; reflexivity|]. vm_compute. reflexivity.
Qed.

(** ---- C58: work of the constant search ---- *)
(** the chain t(i+1) = Mul(t i, t i) of N nodes is a valid acyclic graph, but the search makes at least 2^N - 1 visits *)
Theorem C58_constant_search_exponential_refuted : forall N fuel, fuel < 2 ^ N - 1 ->
  length (nodemap (square_chain N)) = N /\ consistent (square_chain N) /\ acyclic (nodemap (square_chain N)) /\
  constant_search fuel (square_chain N) only_first = None.
Proof.
  intros N fuel H. split; [rewrite chain_nm, map_length, seq_length; reflexivity|]. split; [apply chain_consistent|]. split; [apply chain_acyclic|].
  apply constant_search_exponential. exact H.
Qed.
Print Assumptions C58_constant_search_exponential_refuted.
