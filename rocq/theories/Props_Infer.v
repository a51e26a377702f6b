(** Properties C91, C92: which nodes are evaluated by value, and the inference loops over the graph. *)
From Verif Require Import PyBase PyBaseFacts GraphModel CompressSpec RelSpec RelProofs TopSortSpec OrderSpec
  EditModel EditSpec RemoveProofs ShapeModel InferModel InferSpec InferProofs InferLoop InferWork ConstWork Demo Decide.
Local Open Scope string_scope.
Local Open Scope list_scope.

(** ---- C91: exactly the nodes whose values shape inference needs are marked, in bounded time, in whatever order the set of
    shape tensors is iterated ---- *)
Theorem C91_marks_exactly_needed : forall g fuel order, consistent g -> (2 * length (nodemap g) + 1 <= fuel)%nat ->
  (forall t, In t order <-> exists n, In n (nodes_of g) /\ reads_shape_from n t) ->
  exists marks, find_shape_tensors fuel g order = Some (Ok marks) /\ forall k, In k marks <-> value_needed g k.
Proof.
  intros g fuel order HC HF HO. apply marks_correct; [exact HC|exact HF|]. intros t. rewrite HO, shape_tensors_in. split.
  - intros (n & Hn & Hr). unfold nodes_of in Hn. apply in_map_iff in Hn as ([m n'] & <- & Hm). eauto.
  - intros (m & n & Hm & Hr). exists n. split; [|exact Hr]. apply in_map_iff. exists (m, n). auto.
Qed.
Print Assumptions C91_marks_exactly_needed.
(** the set the loop iterates over holds exactly these tensors *)
Theorem C91_shape_tensors_exact : forall g t, In t (shape_tensors g) <-> exists n, In n (nodes_of g) /\ reads_shape_from n t.
Proof.
  intros g t. rewrite shape_tensors_in. split.
  - intros (m & n & Hm & Hr). exists n. split; [|exact Hr]. apply in_map_iff. exists (m, n). auto.
  - intros (n & Hn & Hr). unfold nodes_of in Hn. apply in_map_iff in Hn as ([m n'] & <- & Hm). eauto.
Qed.
Print Assumptions C91_shape_tensors_exact.

Definition reshaping_raw : graph := mkGraph
  [("n1", mkNode "n1" "Shape" ["x"] ["s"]); ("n2", mkNode "n2" "Identity" ["s"] ["s2"]);
   ("n3", mkNode "n3" "Relu" ["x"] ["a"]); ("n4", mkNode "n4" "Reshape" ["a"; "s2"] ["y"]); ("n5", mkNode "n5" "Relu" ["y"] ["z"])]
  [] [] [] [] [] ["x"] ["z"].
Definition reshaping : graph := update_consumer_producer reshaping_raw.
Definition names_b (nm : dict node) : bool := forallb (fun kn => String.eqb (n_name (snd kn)) (fst kn)) nm.
Lemma names_b_ok g : names_b (nodemap g) = true -> names_match g.
Proof. intros H k n I. unfold names_b in H. rewrite forallb_forall in H. apply String.eqb_eq. exact (H (k, n) I). Qed.
Lemma reshaping_consistent : consistent reshaping.
Proof. apply loaded_consistent; [apply nodupb_ok; reflexivity|apply names_b_ok; reflexivity|apply uniq_b_ok; reflexivity]. Qed.
Example C91_case : consistent reshaping /\ shape_tensors reshaping = ["s2"] /\
  find_shape_tensors 11 reshaping ["s2"] = Some (Ok ["n2"; "n1"]) /\ value_needed reshaping "n1" /\ ~ value_needed reshaping "n3".
Proof.
  assert (E : find_shape_tensors 11 reshaping ["s2"] = Some (Ok ["n2"; "n1"])) by (vm_compute; reflexivity).
  assert (Es : shape_tensors reshaping = ["s2"]) by (vm_compute; reflexivity).
  destruct (C91_marks_exactly_needed reshaping 11 ["s2"] reshaping_consistent) as (m & E' & H).
  { vm_compute. repeat constructor. } { intros t. rewrite <- Es. apply C91_shape_tensors_exact. }
  rewrite E in E'. inversion E'; subst m.
  split; [exact reshaping_consistent|]. split; [exact Es|]. split; [exact E|]. split; [apply H; cbn; auto|].
  intros X. apply H in X. cbn in X. intuition discriminate.
Qed.

(** the marking always stops after at most 2 |nodes| + 1 levels, but a level may hold exponentially many repetitions: N squarings
    t(i+1) = Mul(t i, t i) before a Reshape cost at least 2^N - 1 visits *)
Theorem C91_exponential_work_refuted : forall N, (1 <= N)%nat ->
  consistent (reshape_chain N) /\ acyclic (nodemap (reshape_chain N)) /\ length (nodemap (reshape_chain N)) = S N /\
  (forall t, In t (shape_tensors (reshape_chain N)) <-> t = tname N) /\
  exists ps, dget (producedby (reshape_chain N)) (tname N) = Some ps /\
    forall fuel, (N <= fuel)%nat -> (2 ^ N - 1 <= visits fuel (reshape_chain N) [] ps)%nat.
Proof. exact search_exponential. Qed.
Print Assumptions C91_exponential_work_refuted.

(** ---- C92: the inference loop finds every true shape ---- *)
Theorem C92_shapes_are_true : forall V (vshape : V -> list Z) sem srule vrule g truth fuel marks ins tm,
  (forall v, Forall (fun d => (0 <= d)%Z) (vshape v)) ->
  consistent g -> respects_deps (nodes_of g) -> ~ In "" (outs_of (nodes_of g)) ->
  (forall t, In t (initials g) \/ In t (g_input g) -> ~ In t (outs_of (nodes_of g))) ->
  (* the nodes evaluated by value are those the library marks *)
  (2 * length (nodemap g) + 1 <= fuel)%nat -> find_shape_tensors fuel g (shape_tensors g) = Some (Ok marks) ->
  (* [truth] is a run of the graph; each operator's inference is right; the inputs are given *)
  a_run sem (nodes_of g) truth ->
  (forall n, In n (nodes_of g) -> shapes_right vshape sem srule n /\ values_right vshape sem vrule n) ->
  sources_right vshape g truth ins tm ->
  exists tm', graph_shape_infer vshape srule vrule g marks ins tm = SOk tm' /\
    forall t, In t (reads_of (nodes_of g)) \/ In t (outs_of (nodes_of g)) ->
      exists r, dget tm' t = Some r /\ tr_shape r = vshape (truth t) /\ (tensor_needed g t -> tr_num r = Some (truth t)).
Proof.
  intros V vshape sem srule vrule g truth fuel marks ins tm HP HC HO HE HI HF HM HR HS HQ.
  destruct (marks_correct g HC fuel (shape_tensors g) HF) as (m & Em & Hm); [reflexivity|]. rewrite HM in Em. inversion Em; subst m.
  destruct (infer_correct vshape sem srule vrule g truth marks ins tm) as (tm' & E & K & _); auto.
  - intros n Hn. apply HS, Hn.
  - intros n Hn. apply HS, Hn.
  - exists tm'. auto.
Qed.
Print Assumptions C92_shapes_are_true.
(** ... whatever successful calls with other values of the same inputs came before *)
Theorem C92_calls_do_not_interfere : forall V (vshape : V -> list Z) sem srule vrule g truth fuel marks ins tm0 tm,
  (forall v, Forall (fun d => (0 <= d)%Z) (vshape v)) ->
  consistent g -> respects_deps (nodes_of g) -> ~ In "" (outs_of (nodes_of g)) ->
  (forall t, In t (initials g) \/ In t (g_input g) -> ~ In t (outs_of (nodes_of g))) ->
  (2 * length (nodemap g) + 1 <= fuel)%nat -> find_shape_tensors fuel g (shape_tensors g) = Some (Ok marks) ->
  a_run sem (nodes_of g) truth ->
  (forall n, In n (nodes_of g) -> shapes_right vshape sem srule n /\ values_right vshape sem vrule n) ->
  sources_right vshape g truth ins tm0 -> after_calls vshape srule vrule g marks (map fst ins) tm0 tm ->
  exists tm', graph_shape_infer vshape srule vrule g marks ins tm = SOk tm' /\
    forall t, In t (reads_of (nodes_of g)) \/ In t (outs_of (nodes_of g)) ->
      exists r, dget tm' t = Some r /\ tr_shape r = vshape (truth t) /\ (tensor_needed g t -> tr_num r = Some (truth t)).
Proof.
  intros V vshape sem srule vrule g truth fuel marks ins tm0 tm HP HC HO HE HI HF HM HR HS HQ HA.
  apply (C92_shapes_are_true V vshape sem srule vrule g truth fuel marks ins tm); auto.
  exact (infer_again vshape sem srule vrule g truth marks ins tm0 tm HQ HA).
Qed.
Print Assumptions C92_calls_do_not_interfere.
(** value inference returns the outputs of the run *)
Theorem C92_values_are_true : forall V (vshape : V -> list Z) sem vrule g truth ins tm,
  consistent g -> respects_deps (nodes_of g) -> ~ In "" (outs_of (nodes_of g)) ->
  a_run sem (nodes_of g) truth -> (forall n, In n (nodes_of g) -> values_right vshape sem vrule n) ->
  (forall t, In t (reads_of (nodes_of g)) \/ In t (outs_of (nodes_of g)) \/ In t (g_output g) -> exists r, dget tm t = Some r) ->
  (forall t v, In (t, v) ins -> v = truth t) ->
  (forall t r, ~ In t (outs_of (nodes_of g)) -> ~ In t (map fst ins) -> dget tm t = Some r -> In t (reads_of (nodes_of g)) \/ In t (g_output g) ->
    tr_shape r = vshape (truth t) /\ tr_num r = Some (truth t)) ->
  graph_value_infer vshape vrule g ins tm = SOk (map (fun t => Some (truth t)) (g_output g)).
Proof. intros V vshape sem vrule. exact (value_infer_correct vshape sem (fun _ _ => SOk []) vrule). Qed.
Print Assumptions C92_values_are_true.

(** ---- operators for the concrete cases: values are (shape, data) ---- *)
Definition val := (list nat * list Z)%type.
Definition vsh (v : val) : list Z := map Z.of_nat (fst v).
Lemma vsh_nonneg v : Forall (fun d => (0 <= d)%Z) (vsh v).
Proof. unfold vsh. induction (fst v); cbn [map]; constructor; [lia|assumption]. Qed.
(** tensor.py:436-441: an absent or mis-shaped value reads as zeros *)
Definition numpy_of (r : trec (V := val)) : list Z :=
  match tr_num r with
  | Some v => if list_eq_dec Z.eq_dec (vsh v) (tr_shape r) then snd v else repeat 0%Z (Z.to_nat (numel (tr_shape r)))
  | None => repeat 0%Z (Z.to_nat (numel (tr_shape r)))
  end.
Definition col_max (a b : list Z) : list Z := map (fun p => Z.max (fst p) (snd p)) (combine a b).
Definition rows_of (c : nat) (d : list Z) : list (list Z) := map (fun i => firstn c (skipn (i * c) d)) (seq 0 (length d / c)).
Definition reduce_max (x : val) (axes : list Z) : option val :=
  match fst x, axes with
  | [r; c], [1%Z] => Some ([r; 1%nat], map zmax_list (rows_of c (snd x)))
  | [r; c], [0%Z] => Some ([1%nat; c], match rows_of c (snd x) with [] => [] | a :: l => fold_left col_max l a end)
  | _, _ => None
  end.
Definition dsem (n : node) (vs : list val) : option (list val) :=
  match vs with
  | [x] => if String.eqb (n_op n) "Shape" then Some [([length (fst x)], vsh x)]
           else if String.eqb (n_op n) "Identity" then Some [x]
           else if String.eqb (n_op n) "Relu" then Some [(fst x, map (Z.max 0) (snd x))] else None
  | [x; y] => if String.eqb (n_op n) "Reshape"
              then match reshape_shape (vsh x) (snd y) with SOk s => if forallb (Z.leb 0) s then Some [(map Z.to_nat s, snd x)] else None | _ => None end
              else if String.eqb (n_op n) "ReduceMax" then option_map (fun v => [v]) (reduce_max x (snd y)) else None
  | _ => None
  end.
(** node.py:1331-1336, 2739-2775, 248-264 and 1908-1933 on these values *)
Definition dsrule (n : node) (rs : list (trec (V := val))) : sres (list (list Z)) :=
  match rs with
  | [x] => if String.eqb (n_op n) "Shape" then SOk [[Z.of_nat (length (tr_shape x))]] else SOk [tr_shape x]
  | [x; y] => if String.eqb (n_op n) "Reshape" then (let* s := reshape_shape (tr_shape x) (numpy_of y) in SOk [s])
              else match reduce_shape (Some (numpy_of y)) true (tr_shape x) with Some s => SOk [s] | None => SRaise TypeErr end
  | _ => SRaise TypeErr
  end.
Definition dvrule (n : node) (rs : list (trec (V := val))) : sres (list val) :=
  match rs with
  | [x] => if String.eqb (n_op n) "Shape" then SOk [([length (tr_shape x)], tr_shape x)]
           else match tr_num x with
                | Some v => if String.eqb (n_op n) "Identity" then SOk [v] else SOk [(fst v, map (Z.max 0) (snd v))]
                | None => SRaise TypeErr
                end
  | [x; y] => match tr_num x, tr_num y with
              | Some v, Some w =>
                  if String.eqb (n_op n) "Reshape" then (let* s := reshape_shape (vsh v) (snd w) in SOk [(map Z.to_nat s, snd v)])
                  else match reduce_max v (snd w) with Some u => SOk [u] | None => SRaise TypeErr end
              | _, _ => SRaise TypeErr
              end
  | _ => SRaise TypeErr
  end.
Lemma numpy_of_known r v : tr_shape r = vsh v -> tr_num r = Some v -> numpy_of r = snd v.
Proof. intros H1 H2. unfold numpy_of. rewrite H2, H1. destruct (list_eq_dec Z.eq_dec (vsh v) (vsh v)); congruence. Qed.
Lemma vsh_to_nat s d : forallb (Z.leb 0) s = true -> vsh (map Z.to_nat s, d) = s.
Proof.
  unfold vsh. cbn [fst]. induction s as [|a s IH]; intros H; [reflexivity|]. cbn [forallb map] in *. apply andb_prop in H as [H1 H2]. apply Z.leb_le in H1.
  rewrite IH by exact H2. rewrite Z2Nat.id by lia. reflexivity.
Qed.
(** the operators' shape inference is right, if the axes of ReduceMax are known *)
Lemma dsrule_right n : n_op n <> "ReduceMax" -> (n_op n = "Reshape" -> length (n_in n) = 2%nat) -> shapes_right vsh dsem dsrule n.
Proof.
  intros NR NL recs vals outs L F K E. destruct F as [|x v recs vals Hx F]; [discriminate|]. unfold knows_shape in Hx.
  destruct F as [|y w recs vals Hy F].
  - unfold dsem, dsrule in *. destruct (String.eqb (n_op n) "Shape").
    + inversion E. cbn. rewrite Hx. unfold vsh. rewrite map_length. reflexivity.
    + destruct (String.eqb (n_op n) "Identity"); [inversion E; cbn; rewrite Hx; reflexivity|].
      destruct (String.eqb (n_op n) "Relu"); inversion E. cbn. rewrite Hx. reflexivity.
  - unfold knows_shape in Hy. destruct F as [|z u recs vals Hz F]; [|discriminate]. unfold dsem, dsrule in *.
    destruct (String.eqb_spec (n_op n) "Reshape") as [Er|_].
    + assert (Ky : tr_num y = Some w).
      { refine (K 1%nat y w _ eq_refl eq_refl). rewrite Er, (NL Er). constructor. }
      rewrite (numpy_of_known y w Hy Ky), Hx. destruct (reshape_shape (vsh v) (snd w)) as [s|]; [|discriminate]. cbn [sbind].
      destruct (forallb (Z.leb 0) s) eqn:P; inversion E. cbn [map]. rewrite vsh_to_nat by exact P. reflexivity.
    + destruct (String.eqb_spec (n_op n) "ReduceMax") as [Em|_]; [contradiction|discriminate].
Qed.
Lemma dsrule_reduce_max n x y v w outs : n_op n = "ReduceMax" -> tr_shape x = vsh v -> tr_shape y = vsh w -> tr_num y = Some w ->
  dsem n [v; w] = Some outs -> dsrule n [x; y] = SOk (map vsh outs).
Proof.
  intros En Hx Hy Ky E. unfold dsem, dsrule in *. rewrite En in *. cbn [String.eqb Ascii.eqb Bool.eqb] in *.
  rewrite (numpy_of_known y w Hy Ky), Hx. unfold reduce_max in E. destruct v as [sv dv]. cbn [fst snd] in *.
  destruct sv as [|a [|b [|c sv]]]; try discriminate. destruct (snd w) as [|p [|q wd]]; [discriminate| |]; [|destruct p as [|[]|]; discriminate].
  destruct p as [|[p|p|]|p]; try discriminate; cbn in E; inversion E; reflexivity.
Qed.
Lemma dvrule_right n : values_right vsh dsem dvrule n.
Proof.
  intros recs vals outs L F K E. destruct F as [|x v recs vals Hx F]; [discriminate|]. unfold knows_shape in Hx.
  destruct F as [|y w recs vals Hy F].
  - unfold dsem, dvrule in *. destruct (String.eqb_spec (n_op n) "Shape") as [Es|Es].
    + inversion E. rewrite Hx. unfold vsh. rewrite map_length. reflexivity.
    + specialize (K Es). inversion K as [|? ? ? ? Kx _]; subst. unfold knows_value in Kx. rewrite Kx.
      destruct (String.eqb (n_op n) "Identity"); [inversion E; reflexivity|]. destruct (String.eqb (n_op n) "Relu"); inversion E. reflexivity.
  - destruct F as [|z u recs vals Hz F]; [|discriminate]. unfold dsem, dvrule in *.
    assert (Ns : n_op n <> "Shape") by (intros X; rewrite X in E; cbn in E; discriminate). specialize (K Ns).
    inversion K as [|? ? ? ? Kx K']; subst. inversion K' as [|? ? ? ? Ky _]; subst. unfold knows_value in *. rewrite Kx, Ky.
    destruct (String.eqb (n_op n) "Reshape").
    + destruct (reshape_shape (vsh v) (snd w)) as [s|]; [|discriminate]. cbn [sbind]. destruct (forallb (Z.leb 0) s); inversion E. reflexivity.
    + destruct (String.eqb (n_op n) "ReduceMax"); [|discriminate]. destruct (reduce_max v (snd w)); inversion E. reflexivity.
Qed.

(** ---- the hypotheses of C92 hold of [reshaping] with x of shape 2x3; inference then finds the shapes ---- *)
Definition x23 : val := ([2; 3]%nat, [1; -2; 3; -4; 5; -6]%Z).
Definition reshaping_run (t : string) : val :=
  if String.eqb t "x" then x23 else if String.eqb t "s" then ([2%nat], [2; 3]%Z) else if String.eqb t "s2" then ([2%nat], [2; 3]%Z)
  else ([2; 3]%nat, [1; 0; 3; 0; 5; 0]%Z).
Definition blank (g : graph) : dict (trec (V := val)) := map (fun t => (t, mkT [] None)) (nodup string_dec (reads_of (nodes_of g) ++ outs_of (nodes_of g))).
Definition inferred (marks : list string) (g : graph) (tm : dict (trec (V := val))) (ins : list (string * val)) (t : string) : option (list Z) :=
  match graph_shape_infer vsh dsrule dvrule g marks ins tm with SOk tm' => option_map (fun r => tr_shape r) (dget tm' t) | _ => None end.
Lemma blank_sources g truth ins : (forall t v, In (t, v) ins -> v = truth t) ->
  (forall t, In t (g_input g) -> In t (reads_of (nodes_of g))) ->
  (forall t, In t (reads_of (nodes_of g)) -> ~ In t (outs_of (nodes_of g)) -> In t (map fst ins)) ->
  sources_right vsh g truth ins (blank g).
Proof.
  intros H1 H2 H3. split; [|split; [exact H1|]].
  - intros t Ht. apply dhas_dget. apply dhas_dget. destruct (dget (blank g) t) as [r|] eqn:E; [eauto|]. exfalso. apply dget_None in E. apply E.
    unfold blank, dkeys. rewrite map_map, map_id. apply nodup_In, in_app_iff. destruct Ht as [Ht|[Ht|Ht]]; auto.
  - intros t r Hn Hi Hr Ht. exfalso. apply Hi, H3; [|exact Hn]. destruct Ht as [Ht|Ht]; auto.
Qed.
Example C92_case : a_run dsem (nodes_of reshaping) reshaping_run /\
  sources_right vsh reshaping reshaping_run [("x", x23)] (blank reshaping) /\ respects_deps (nodes_of reshaping) /\
  (forall n, In n (nodes_of reshaping) -> shapes_right vsh dsem dsrule n /\ values_right vsh dsem dvrule n) /\
  inferred ["n2"; "n1"] reshaping (blank reshaping) [("x", x23)] "z" = Some [2; 3]%Z /\
  graph_value_infer vsh dvrule reshaping [("x", x23)] (blank reshaping) = SOk [Some ([2; 3]%nat, [1; 0; 3; 0; 5; 0]%Z)].
Proof.
  split; [|split; [|split; [|split; [|split]]]].
  - intros n Hn. repeat (destruct Hn as [<-|Hn]; [vm_compute; reflexivity|]). destruct Hn.
  - apply blank_sources.
    + intros t v [E|[]]. inversion E; reflexivity.
    + intros t [<-|[]]. left. reflexivity.
    + intros t Ht Hn. cbn in Ht, Hn |- *. intuition.
  - apply respects_b_ok. reflexivity.
  - intros n Hn. split; [|apply dvrule_right]. apply dsrule_right; intros E; repeat (destruct Hn as [<-|Hn]; [cbn in *; congruence|]); destruct Hn.
  - vm_compute. reflexivity.
  - vm_compute. reflexivity.
Qed.

(** ---- refutations ---- *)
(** no operand of the omitted kinds is ever found *)
Theorem C91_omitted_operands_refuted : forall op count i, shape_operand_omitted op count i -> forall nm ins outs,
  length ins = count -> contains_shape_tensor (mkNode nm op ins outs) = [].
Proof. intros op count i H nm ins outs L. destruct H; unfold contains_shape_tensor; cbn; rewrite ?L; reflexivity. Qed.
Print Assumptions C91_omitted_operands_refuted.
(** ... so the axes of ReduceMax, computed as the shape of w : 1, read as zeros and the inferred shape is that of the wrong axis *)
Definition reducing_raw : graph := mkGraph
  [("n1", mkNode "n1" "Shape" ["w"] ["axes"]); ("n2", mkNode "n2" "ReduceMax" ["x"; "axes"] ["y"])] [] [] [] [] [] ["w"; "x"] ["y"].
Definition reducing : graph := update_consumer_producer reducing_raw.
Definition reducing_run (t : string) : val :=
  if String.eqb t "x" then x23 else if String.eqb t "w" then ([1%nat], [7%Z]) else if String.eqb t "axes" then ([1%nat], [1%Z])
  else ([2; 1]%nat, [3; 5]%Z).
Theorem C92_reduction_axes_refuted : exists g truth ins marks,
  consistent g /\ respects_deps (nodes_of g) /\ a_run dsem (nodes_of g) truth /\ sources_right vsh g truth ins (blank g) /\
  find_shape_tensors 5 g (shape_tensors g) = Some (Ok marks) /\
  vsh (truth "y") = [2; 1]%Z /\ inferred marks g (blank g) ins "y" = Some [1; 3]%Z.
Proof.
  exists reducing, reducing_run, [("x", x23); ("w", ([1%nat], [7%Z]))], [].
  split; [apply loaded_consistent; [apply nodupb_ok; reflexivity|apply names_b_ok; reflexivity|apply uniq_b_ok; reflexivity]|].
  split; [apply respects_b_ok; reflexivity|]. split; [|split; [|split; [|split]]]; try (vm_compute; reflexivity).
  - intros n Hn. repeat (destruct Hn as [<-|Hn]; [vm_compute; reflexivity|]). destruct Hn.
  - apply blank_sources.
    + intros t v [E|[E|[]]]; inversion E; reflexivity.
    + intros t Ht. cbn in *. tauto.
    + intros t Ht Hn. cbn in Ht, Hn |- *. intuition.
Qed.
Print Assumptions C92_reduction_axes_refuted.
(** nodes listed out of order: the loop follows the list, so a node reads a shape that is not inferred yet; the call succeeds *)
Definition unordered_raw : graph := mkGraph
  [("n2", mkNode "n2" "Relu" ["t"] ["y"]); ("n1", mkNode "n1" "Relu" ["x"] ["t"])] [] [] [] [] [] ["x"] ["y"].
Definition unordered : graph := update_consumer_producer unordered_raw.
Definition unordered_run (t : string) : val := if String.eqb t "x" then x23 else ([2; 3]%nat, [1; 0; 3; 0; 5; 0]%Z).
Theorem C92_out_of_order_refuted : exists g truth ins,
  consistent g /\ acyclic (nodemap g) /\ a_run dsem (nodes_of g) truth /\ sources_right vsh g truth ins (blank g) /\
  (forall n, In n (nodes_of g) -> shapes_right vsh dsem dsrule n /\ values_right vsh dsem dvrule n) /\
  vsh (truth "y") = [2; 3]%Z /\ inferred [] g (blank g) ins "y" = Some [].
Proof.
  exists unordered, unordered_run, [("x", x23)].
  split; [apply loaded_consistent; [apply nodupb_ok; reflexivity|apply names_b_ok; reflexivity|apply uniq_b_ok; reflexivity]|].
  split. { exists (fun k => if String.eqb k "n1" then 0%nat else 1%nat). intros a b (na & nb & t & A & B & C & D).
    destruct A as [A|[A|[]]]; destruct B as [B|[B|[]]]; inversion A; inversion B; subst; cbn in *; intuition (try discriminate; try lia); subst; intuition discriminate. }
  split; [|split; [|split; [|split]]]; try (vm_compute; reflexivity).
  - intros n Hn. repeat (destruct Hn as [<-|Hn]; [vm_compute; reflexivity|]). destruct Hn.
  - apply blank_sources.
    + intros t v [E|[]]; inversion E; reflexivity.
    + intros t Ht. cbn in *. tauto.
    + intros t Ht Hn. cbn in Ht, Hn |- *. intuition.
  - intros n Hn. split; [|apply dvrule_right]. apply dsrule_right; intros E; repeat (destruct Hn as [<-|Hn]; [cbn in *; congruence|]); destruct Hn.
Qed.
Print Assumptions C92_out_of_order_refuted.
