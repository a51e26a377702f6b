(** C71 and C72: fusing post-operations ([fuse_postop_node_names]). *)
From Verif Require Import PyBase PyBaseFacts GraphModel CompressSpec RelSpec RelProofs ExecModel TopSortModel TopSortSpec OrderSpec OrderProofs
  EditModel EditSpec RemoveProofs DanglingProofs IoProofs FuseProofs Decide Demo RegressModel PostOpModel PostOpProofs PostOpLoop PostOpAttrs Props_Edit
  ShapeModel FusionModel FusionSpec FusionPair Props_Pairs.
From Coq Require Import Permutation.
Local Open Scope string_scope.
Local Open Scope nat_scope.
Local Open Scope list_scope.

(** ---- C71 ---- *)
(** no two groups share a node *)
Definition disjoint_groups (groups : list (list string)) : Prop :=
  forall i j x y k, nth_error groups i = Some x -> nth_error groups j = Some y -> i <> j -> In k x -> ~ In k y.
(** Fusing any list of pairwise disjoint groups, one after the other: the loop never raises; all other
    nodes are untouched; every group is replaced by exactly one node, named and typed like the group's
    first node, reading exactly what the group reads from outside and producing exactly what is used
    outside it or nowhere. *)
Theorem C71_disjoint_groups : forall g groups, consistent g -> (forall k n, In (k, n) (nodemap g) -> ~ In "" (n_out n)) ->
  (forall grp, In grp groups -> grp <> [] /\ forall k, In k grp -> In k (dkeys (nodemap g))) -> disjoint_groups groups ->
  exists h, fuse_all g groups = Ok h /\ NoDup (dkeys (nodemap h)) /\ unique_producers (nodemap h) /\
    (forall k n, ~ In k (concat groups) -> (In (k, n) (nodemap h) <-> In (k, n) (nodemap g))) /\
    (forall k f, In k (concat groups) -> In (k, f) (nodemap h) -> exists grp, In grp groups /\ replaces g grp f) /\
    (forall grp, In grp groups -> exists f, replaces g grp f /\ In (n_name f, f) (nodemap h)).
Proof.
  intros g groups HC HE HG DJ.
  destruct (loop_ok g HC HE groups [] g (inv0 g HC)) as (h & F & I).
  - intros grp Ig. apply (HG grp Ig).
  - intros grp k Ig. apply (HG grp Ig).
  - intros grp k _ _ [].
  - intros a b c x y k E. apply (DJ (length a) (length a + S (length b)) x y k); [| |lia]; rewrite E.
    + rewrite nth_error_app2, Nat.sub_diag by lia. reflexivity.
    + rewrite nth_error_app2 by lia. replace (length a + S (length b) - length a) with (S (length b)) by lia. cbn [nth_error].
      rewrite nth_error_app2, Nat.sub_diag by lia. reflexivity.
  - cbn [app] in I. exists h. split; [exact F|]. destruct I as [W KE NW HA _ _ _ _ _ _]. split; [apply W|]. split; [apply W|]. auto.
Qed.
Print Assumptions C71_disjoint_groups.

(** conv1 -> relu1 -> conv2 -> add -> relu2 with a residual edge *)
Definition res_raw : graph := mkGraph
  [("conv1", mkNode "conv1" "Conv" ["x"; "w1"] ["a"]); ("relu1", mkNode "relu1" "Relu" ["a"] ["b"]);
   ("conv2", mkNode "conv2" "Conv" ["b"; "w2"] ["c"]); ("add", mkNode "add" "Add" ["c"; "x"] ["d"]); ("relu2", mkNode "relu2" "Relu" ["d"] ["y"])]
  [] [] [] ["w1"; "w2"] [] ["x"] ["y"].
Definition res_g : graph := update_consumer_producer res_raw.
Lemma res_ok : consistent res_g.
Proof. apply loaded_consistent; [apply nodupb_ok; reflexivity|apply names_b_ok; reflexivity|apply uniq_b_ok; reflexivity]. Qed.
Example C71_case : consistent res_g /\ (forall k n, In (k, n) (nodemap res_g) -> ~ In "" (n_out n)) /\ disjoint_groups [["conv1"; "relu1"]; ["conv2"; "add"; "relu2"]] /\
  exists h, fuse_all res_g [["conv1"; "relu1"]; ["conv2"; "add"; "relu2"]] = Ok h /\
    nodemap h = [("conv1", mkNode "conv1" "Conv" ["x"; "w1"] ["b"]); ("conv2", mkNode "conv2" "Conv" ["b"; "w2"; "x"] ["y"])].
Proof.
  split; [exact res_ok|]. split.
  { intros k n I. cbn in I. repeat (destruct I as [I|I]; [injection I as <- <-; cbn; intuition discriminate|]). destruct I. }
  split; [|eexists; split; [vm_compute; reflexivity|reflexivity]].
  intros [|[|i]] [|[|j]] x y k E1 E2 N; cbn in E1, E2; try congruence; try (destruct i; discriminate); try (destruct j; discriminate);
    injection E1 as <-; injection E2 as <-; intros H1 H2; cbn in H1, H2; intuition (subst; discriminate).
Qed.

(** One fusion keeps every value still produced, when the first node's operator with the recorded
    post-operations computes what the group computed (same reading as C57). *)
Lemma postop_like_fuse : forall g k r g', fuse_postop g (k :: r) = Ok g' -> names_match g ->
  exists m g'', dget (nodemap g) k = Some m /\ fuse_nodes g (k :: r) (n_op m) k = Ok g'' /\ nodemap g'' = nodemap g'.
Proof.
  intros g k r g' E HN. unfold fuse_postop in E. unfold fuse_nodes. destruct (get_iotensors g (k :: r) false) as [[ins outs]| | |]; try discriminate. cbn [bind] in *.
  destruct (dget (nodemap g) k) as [m|] eqn:Em; [|discriminate]. destruct (remove_nodes g (k :: r)) as [g1| | |]; try discriminate. cbn [bind] in *.
  injection E as <-. assert (Nm : n_name m = k) by (apply HN, dget_In, Em). exists m. eexists. split; [reflexivity|]. split; [reflexivity|].
  cbn [with_rel nodemap]. rewrite Nm. reflexivity.
Qed.
Theorem C71_values : forall sem g k r g' f A R B,
  consistent g -> (forall x, In x (k :: r) -> In x (dkeys (nodemap g))) ->
  fuse_postop g (k :: r) = Ok g' -> In (k, f) (nodemap g') ->
  Permutation (A ++ R ++ B) (nodes_of g) -> respects_deps (A ++ R ++ B) ->
  (forall n, In n R <-> In n (nodes_of g) /\ In (n_name n) (k :: r)) ->
  (forall n args, In n R -> length (sem n args) = length (n_out n)) ->
  (forall args, length args = length (n_in f) -> sem f args = map (region_values sem R (n_in f) args) (n_out f)) ->
  Permutation (A ++ f :: B) (nodes_of g') /\ respects_deps (A ++ f :: B) /\
  forall e t, t <> "" -> (In t (outs_of R) -> In t (n_out f)) ->
    run_private sem e (A ++ f :: B) t = run_private sem e (A ++ R ++ B) t.
Proof.
  intros sem g k r g' f A R B HC HK E If P D HR HL HS.
  destruct (postop_like_fuse g k r g' E (co_names g HC)) as (m & g'' & Em & E2 & EN).
  assert (Q := fuse_values sem g (k :: r) (n_op m) k g'' f A R B HC HK (fun _ => or_introl eq_refl) E2).
  unfold nodes_of in Q |- *. rewrite EN in Q. apply Q; assumption.
Qed.
Print Assumptions C71_values.

(** Matches that overlap: the in-place search of the shipped pattern on conv -> relu -> add returns
    [conv;relu] and [relu;add]; fusing the first removes "relu", and the loop stops with KeyError. *)
Definition chain_raw : graph := mkGraph
  [("conv", mkNode "conv" "Conv" ["x"; "w"] ["a"]); ("relu", mkNode "relu" "Relu" ["a"] ["b"]); ("add", mkNode "add" "Add" ["b"; "c"] ["y"])]
  [] [] [] ["w"; "c"] [] ["x"] ["y"].
Theorem C71_overlap_refuted : exists g ls, consistent g /\
  search_pattern {| fg := g; fattr := fun _ _ => None |} (mk_pattern Fused_Element true) = SOk ls /\ fuse_all g ls = KeyError.
Proof.
  exists (update_consumer_producer chain_raw). eexists.
  split; [apply loaded_consistent; [apply nodupb_ok; reflexivity|apply names_b_ok; reflexivity|apply uniq_b_ok; reflexivity]|].
  split; vm_compute; reflexivity.
Qed.
Print Assumptions C71_overlap_refuted.

(** ---- C72 ---- *)
(** What the consumer table says afterwards: for every tensor it is either exact or silent. *)
Theorem C72_exact_or_silent_partial : forall g groups, consistent g -> (forall k n, In (k, n) (nodemap g) -> ~ In "" (n_out n)) ->
  (forall grp, In grp groups -> grp <> [] /\ forall k, In k grp -> In k (dkeys (nodemap g))) -> disjoint_groups groups ->
  exists h, fuse_all g groups = Ok h /\ forall t,
    (forall x, count x (glist (consumedby h) t) = match dget (nodemap h) x with Some n => count t (n_in n) | None => 0 end) \/ dget (consumedby h) t = None.
Proof.
  intros g groups HC HE HG DJ.
  destruct (loop_ok g HC HE groups [] g (inv0 g HC)) as (h & F & I).
  - intros grp Ig. apply (HG grp Ig).
  - intros grp k Ig. apply (HG grp Ig).
  - intros grp k _ _ [].
  - intros a b c x y k E. apply (DJ (length a) (length a + S (length b)) x y k); [| |lia]; rewrite E.
    + rewrite nth_error_app2, Nat.sub_diag by lia. reflexivity.
    + rewrite nth_error_app2 by lia. replace (length a + S (length b) - length a) with (S (length b)) by lia. cbn [nth_error].
      rewrite nth_error_app2, Nat.sub_diag by lia. reflexivity.
  - cbn [app] in I. exists h. split; [exact F|]. intros t. destruct (iv_sound g _ _ I t) as [X|X]; [left; exact X|right].
    unfold glist in X. destruct (dget (consumedby h) t) as [l|] eqn:E; [|reflexivity]. subst l. exfalso. exact (wk_ne h (iv_weak g _ _ I) t E).
Qed.
Print Assumptions C72_exact_or_silent_partial.
(** Silence is not exactness: after fusing conv2 and add, nothing says that "b" is read; a later query for
    the interface of relu1 and the fused node then lists "b" as a result although only the fused node reads it. *)
Theorem C72_forgotten_reader_refuted : exists g grp g' f t ins outs, consistent g /\ fuse_postop g grp = Ok g' /\
  In f (nodes_of g') /\ In t (n_in f) /\ dget (consumedby g') t = None /\
  get_iotensors g' ["relu1"; n_name f] false = Ok (ins, outs) /\ In t outs /\
  (forall n, In n (nodes_of g') -> In t (n_in n) -> n = f).
Proof.
  exists res_g, ["conv2"; "add"]. do 2 eexists. exists "b". do 2 eexists. split; [exact res_ok|]. split; [vm_compute; reflexivity|].
  split; [right; right; right; left; reflexivity|]. split; [left; reflexivity|]. split; [reflexivity|]. split; [vm_compute; reflexivity|]. split; [left; reflexivity|].
  intros n I. cbn in I. repeat (destruct I as [<-|I]; [cbn; intros H; intuition (try discriminate; try reflexivity)|]). destruct I.
Qed.
Print Assumptions C72_forgotten_reader_refuted.
(** Rebuilding the relations (graph_reorder_nodes ends with it) makes everything exact again. *)
Theorem C72_rebuild : forall g groups h, consistent g -> (forall k n, In (k, n) (nodemap g) -> ~ In "" (n_out n)) ->
  (forall grp, In grp groups -> grp <> [] /\ forall k, In k grp -> In k (dkeys (nodemap g))) -> disjoint_groups groups ->
  fuse_all g groups = Ok h -> consistent (update_consumer_producer h) /\ nodemap (update_consumer_producer h) = nodemap h.
Proof.
  intros g groups h HC HE HG DJ F.
  destruct (loop_ok g HC HE groups [] g (inv0 g HC)) as (h' & F' & I).
  - intros grp Ig. apply (HG grp Ig).
  - intros grp k Ig. apply (HG grp Ig).
  - intros grp k _ _ [].
  - intros a b c x y k E. apply (DJ (length a) (length a + S (length b)) x y k); [| |lia]; rewrite E.
    + rewrite nth_error_app2, Nat.sub_diag by lia. reflexivity.
    + rewrite nth_error_app2 by lia. replace (length a + S (length b) - length a) with (S (length b)) by lia. cbn [nth_error].
      rewrite nth_error_app2, Nat.sub_diag by lia. reflexivity.
  - rewrite F in F'. injection F' as <-. cbn [app] in I. assert (W := iv_weak g _ _ I).
    split; [apply loaded_consistent; apply W|]. pose proof (ucp_spec h) as U. cbv zeta in U. apply U.
Qed.
Print Assumptions C72_rebuild.

(** ---- C73 ---- *)
(** The attributes of a node into which post-operations were fused, any number of times: names are
    distinct, the node's own attributes and the keyword arguments are kept, [postop_count] is the number
    of fused nodes, and the i-th fused node can be read back: its operator under "postop_i" and each of
    its attributes [a] under "postop_i_a".  ([plain]: the name does not start with "postop_".) *)
Theorem C73_postops_read_back : forall (A : Type) (base : pattrs A) (hist : list (pattrs A * list (string * pattrs A))), hist <> [] ->
  (forall k, In k (map fst base ++ map fst (concat (map fst hist))) -> String.prefix "postop_" k = false) ->
  NoDup (map fst base ++ map fst (concat (map fst hist))) ->
  (forall op ats, In (op, ats) (concat (map snd hist)) -> NoDup (map fst ats)) ->
  let L := fold_left (fun m st => postop_attrs m (fst st) (snd st)) hist base in let posts := concat (map snd hist) in
  NoDup (map fst L) /\ In ("postop_count", PInt (length posts)) L /\
  (forall kv, In kv base \/ In kv (concat (map fst hist)) -> In kv L) /\
  (forall i op ats, nth_error posts i = Some (op, ats) ->
     In (("postop_" ++ dec i)%string, PStr op) L /\ forall a v, In (a, v) ats -> In (("postop_" ++ dec i ++ "_" ++ a)%string, v) L).
Proof.
  intros A base hist HN HP ND HA.
  destruct (history_record base hist HN ND HP (fun p I => HA (fst p) (snd p) ltac:(destruct p; exact I))) as (P & Q & R & S0).
  split; [exact P|]. split; [exact Q|]. split; [exact R|]. intros i op ats E. destruct (S0 i op ats E) as [X Y]. split; [exact X|].
  intros a v I. specialize (Y a v I). unfold sub_key, post_key in Y. rewrite LlmNames.app_assoc_s in Y. exact Y.
Qed.
Print Assumptions C73_postops_read_back.
Example C73_case : fold_left (fun m st => postop_attrs m (fst st) (snd st))
    [([], [("Relu", [])]); ([], [("LeakyRelu", [("alpha", PVal 7)]); ("Add", [])])] [("strides", PVal 2)] =
  [("strides", PVal 2); ("postop_0", PStr "Relu"); ("postop_1", PStr "LeakyRelu"); ("postop_1_alpha", PVal 7); ("postop_2", PStr "Add"); ("postop_count", PInt 3)].
Proof. vm_compute. reflexivity. Qed.
(** Without the condition on names it fails: an attribute already called "postop_0" is duplicated. *)
Theorem C73_name_clash_refuted : exists (base : pattrs nat) e posts, NoDup (map fst base) /\ ~ NoDup (map fst (postop_attrs base e posts)).
Proof.
  exists [("postop_0", PVal 1)], [], [("Relu", [])]. split; [repeat constructor; intros []|]. vm_compute. intros H. inversion H; subst. apply H2. left. reflexivity.
Qed.
Print Assumptions C73_name_clash_refuted.
