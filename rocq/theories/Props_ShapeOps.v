(** C111: removeShapeOps. *)
From Verif Require Import PyBase PyBaseFacts GraphModel CompressSpec RelSpec RelProofs TopSortSpec OrderProofs
  EditModel EditSpec RemoveProofs SkipProofs ConstProofs ShapeOpsModel ShapeOpsSpec ShapeOpsProofs ShapeOpsLoop.
Local Open Scope nat_scope.
Local Open Scope list_scope.

Lemma pairs_forall2 {A B} (P : A -> B -> Prop) (f : A -> B) l : (forall x, In x l -> P x (f x)) -> Forall2 P l (map f l).
Proof. induction l as [|x r IH]; intros H; cbn [map]; constructor; [apply H; left; reflexivity|]. apply IH. intros y I. apply H. right. exact I. Qed.

(** every other node stays, in the same order, and reads what was behind the reshaping nodes *)
Theorem C111_removed_partial : forall g, consistent g -> no_cycle g -> (forall t, In t (outs_of (nodes_of g)) -> In t (dynamics g)) -> plain_reshapes g ->
  exists g' rest, remove_shape_ops g = Ok g' /\ consistent g' /\
    (forall k n, In (k, n) rest <-> In (k, n) (nodemap g) /\ ~ reshaping n) /\ (exists keep, rest = filter keep (nodemap g)) /\
    Forall2 (fun a b => fst b = fst a /\ same_but_operands g (snd a) (snd b)) rest (nodemap g') /\
    g_input g' = g_input g /\ g_output g' = g_output g /\ tensormap g' = tensormap g /\ initials g' = initials g.
Proof.
  intros g HC HA HD HP. destruct (removed g HC HD HA HP) as (g' & s & E & NM & TH & C' & R).
  exists g', (filter (fun kn => negb (memb (n_op (snd kn)) ShapeOps)) (nodemap g)). split; [exact E|]. split; [exact C'|]. split.
  { intros k n. rewrite filter_In, negb_true_iff. cbn [snd]. rewrite <- is_reshaping. destruct (memb (n_op n) ShapeOps); intuition congruence. }
  split; [eexists; reflexivity|]. split; [|exact R]. rewrite NM. apply pairs_forall2. intros [k n] _. cbn [fst snd]. split; [reflexivity|].
  repeat split. cbn [set_in n_in]. apply pairs_forall2. intros t _. apply TH.
Qed.
(** [through] is a function of the tensor *)
Lemma through_det g : consistent g -> plain_reshapes g -> forall t r1 r2, through g t r1 -> through g t r2 -> r1 = r2.
Proof.
  intros HC HP t r1 r2 H1. revert r2. induction H1 as [t N|n t u r A B C D F H IH]; intros r2 H2.
  - inversion H2 as [|n ? ? ? A B C]; subst; [reflexivity|]. exfalso. apply (N n A B). rewrite C. left. reflexivity.
  - inversion H2 as [? N|n' ? u' ? A' B' C' D' F' H']; subst; [exfalso; apply (N n A B); rewrite C; left; reflexivity|].
    assert (n' = n) as ->.
    { unfold nodes_of in A, A'. apply in_map_iff in A as ([k m] & <- & A), A' as ([k' m'] & <- & A'). cbn [snd] in *.
      assert (k' = k) as -> by (apply (out_unique g HC k' m' k m t A' A); [rewrite C'|rewrite C]; left; reflexivity). apply (In_dget _ _ _ _ (co_nd g HC)) in A, A'. congruence. }
    destruct (HP n A B) as (i & o & EF & _ & _).
    assert (Z : forall x, In x (n_in n) -> In x (dynamics g) -> x = i).
    { intros x I J. assert (Y : In x (filter (fun t => memb t (dynamics g)) (n_in n))) by (apply filter_In; split; [exact I|apply memb_In; exact J]). rewrite EF in Y. destruct Y as [Y|[]]. auto. }
    apply IH. rewrite (Z u D F), <- (Z u' D' F'). exact H'.
Qed.
(** the numbers do not change: in whatever way the other operators compute, an assignment of flat data to tensors that
    solves the graph (reshaping nodes passing their data on) solves the reduced graph *)
Theorem C111_values_partial : forall (V : Type) (sem : string -> list V -> list V) (val : string -> V) g,
  consistent g -> no_cycle g -> (forall t, In t (outs_of (nodes_of g)) -> In t (dynamics g)) -> plain_reshapes g ->
  (forall n, In n (nodes_of g) -> ~ reshaping n -> map val (n_out n) = sem (n_name n) (map val (n_in n))) ->
  (forall n i o, In n (nodes_of g) -> reshaping n -> In i (n_in n) -> In i (dynamics g) -> n_out n = [o] -> val o = val i) ->
  exists g', remove_shape_ops g = Ok g' /\ g_output g' = g_output g /\
    (forall n, In n (nodes_of g') -> ~ reshaping n /\ map val (n_out n) = sem (n_name n) (map val (n_in n))).
Proof.
  intros V sem val g HC HA HD HP HS HR. destruct (removed g HC HD HA HP) as (g' & s & E & NM & TH & C' & _ & R & _).
  exists g'. split; [exact E|]. split; [exact R|]. intros n I. unfold nodes_of in I. rewrite NM in I. apply in_map_iff in I as ([k m] & <- & I). apply in_map_iff in I as ([k0 n0] & Q & I). injection Q as <- <-.
  apply filter_In in I as [I K]. cbn [snd] in *. apply negb_true_iff in K. assert (NR : ~ reshaping n0) by (rewrite <- is_reshaping; congruence). split; [exact NR|].
  cbn [set_in n_out n_name n_in]. rewrite (HS n0); [|unfold nodes_of; apply in_map_iff; exists (k0, n0); auto|exact NR]. f_equal. rewrite map_map. apply map_ext. intros t.
  assert (T := TH t). clear - T HR. induction T as [|n t u r A B C D F T IH]; [reflexivity|]. rewrite (HR n u t A B D F C). exact IH.
Qed.

(** ---- a case: two reshapes in a row, listed in either order, one node reading both ends ---- *)
Open Scope string_scope.
Definition mkl (ns : list node) (ini dyn inp out : list string) : graph :=
  update_consumer_producer (mkGraph (map (fun n => (n_name n, n)) ns) [] [] [] ini dyn inp out).
Definition two : graph := mkl [mkNode "f" "Flatten" ["b"] ["c"]; mkNode "p" "Relu" ["x"] ["a"]; mkNode "r" "Reshape" ["a"; "shape"] ["b"]; mkNode "q" "Add" ["c"; "c"] ["y"]; mkNode "z" "Mul" ["y"; "b"] ["w"]]
  ["shape"] ["x"; "a"; "b"; "c"; "y"; "w"] ["x"] ["w"].
Definition two_rank (t : string) : nat := if String.eqb t "a" then 1 else if String.eqb t "b" then 2 else if String.eqb t "c" then 3 else if String.eqb t "y" then 4 else if String.eqb t "w" then 5 else 0.
Ltac named := let I := fresh in intros ? ? I; cbn in I; repeat match goal with | H : _ \/ _ |- _ => destruct H | H : False |- _ => destruct H end; match goal with H : (_, _) = (_, _) |- _ => injection H as <- <-; reflexivity end.
Lemma two_ok : consistent two /\ no_cycle two /\ (forall t, In t (outs_of (nodes_of two)) -> In t (dynamics two)) /\ plain_reshapes two.
Proof.
  split; [|split; [|split]].
  - apply loaded_consistent; cbn.
    + repeat constructor; cbn; intuition discriminate.
    + named.
    + split; cbn; repeat constructor; cbn; intuition discriminate.
  - exists two_rank. intros n t u I A B. cbn in I. destruct I as [<-|[<-|[<-|[<-|[<-|[]]]]]]; cbn in A, B; intuition (subst; cbn; lia).
  - intros t I. cbn in *. intuition.
  - intros n I R. cbn in I. destruct I as [<-|[<-|[<-|[<-|[<-|[]]]]]]; try (destruct R as [R|[R|[R|R]]]; discriminate).
    + exists "b", "c". split; [reflexivity|]; split; [reflexivity|]; cbn; auto 20.
    + exists "a", "b". split; [reflexivity|]; split; [reflexivity|]; cbn; auto 20.
Qed.
Example C111_case : match remove_shape_ops two with
  | Ok g' => nodes_of g' = [mkNode "p" "Relu" ["x"] ["a"]; mkNode "q" "Add" ["a"; "a"] ["y"]; mkNode "z" "Mul" ["y"; "a"] ["w"]] /\ dget (consumedby g') "a" = Some ["q"; "q"; "z"]
  | _ => False end.
Proof. vm_compute. auto. Qed.

(** Full claim (for every graph the reduced graph computes the same outputs) fails when
    a reshape's target is computed at run time (two dynamic operands): the node goes, its readers stay as they were *)
Theorem C111_runtime_shape_refuted : exists g g', consistent g /\ no_cycle g /\ remove_shape_ops g = Ok g' /\
  In (mkNode "q" "Relu" ["b"] ["y"]) (nodes_of g') /\ ~ In "b" (outs_of (nodes_of g')) /\ ~ In "b" (g_input g').
Proof.
  exists (mkl [mkNode "s" "Shape" ["x"] ["sh"]; mkNode "r" "Reshape" ["x"; "sh"] ["b"]; mkNode "q" "Relu" ["b"] ["y"]] [] ["x"; "sh"; "b"; "y"] ["x"] ["y"]). eexists.
  split; [apply loaded_consistent; cbn; [repeat constructor; cbn; intuition discriminate|named|split; cbn; repeat constructor; cbn; intuition discriminate]|].
  split; [exists (fun t => if String.eqb t "sh" then 1 else if String.eqb t "b" then 2 else if String.eqb t "y" then 3 else 0); intros n t u I A B; cbn in I; destruct I as [<-|[<-|[<-|[]]]]; cbn in A, B; intuition (subst; cbn; lia)|].
  split; [vm_compute; reflexivity|]. vm_compute. intuition discriminate.
Qed.
(** a reshape's result is a model output as well as an operand: the output is no longer made *)
Theorem C111_output_refuted : exists g g', consistent g /\ no_cycle g /\ remove_shape_ops g = Ok g' /\
  In "b" (g_output g') /\ ~ In "b" (outs_of (nodes_of g')) /\ ~ In "b" (g_input g').
Proof.
  exists (mkl [mkNode "p" "Relu" ["x"] ["a"]; mkNode "r" "Flatten" ["a"] ["b"]; mkNode "q" "Relu" ["b"] ["y"]] [] ["x"; "a"; "b"; "y"] ["x"] ["b"; "y"]). eexists.
  split; [apply loaded_consistent; cbn; [repeat constructor; cbn; intuition discriminate|named|split; cbn; repeat constructor; cbn; intuition discriminate]|].
  split; [exists (fun t => if String.eqb t "a" then 1 else if String.eqb t "b" then 2 else if String.eqb t "y" then 3 else 0); intros n t u I A B; cbn in I; destruct I as [<-|[<-|[<-|[]]]]; cbn in A, B; intuition (subst; cbn; lia)|].
  split; [vm_compute; reflexivity|]. vm_compute. intuition discriminate.
Qed.
(** the graph went through update_tensor_relations before, as after any fusion pass (or an earlier removeShapeOps): that
    call forgets that graph inputs are dynamic, so a reshape of a graph input goes and its readers stay as they were *)
Definition after_fusion : graph := update_tensor_relations (mkl [mkNode "r" "Flatten" ["x"] ["b"]; mkNode "q" "Relu" ["b"] ["y"]] [] ["x"; "b"; "y"] ["x"] ["y"]).
Theorem C111_second_pass_refuted : exists g', consistent after_fusion /\ no_cycle after_fusion /\ remove_shape_ops after_fusion = Ok g' /\
  nodes_of g' = [mkNode "q" "Relu" ["b"] ["y"]] /\ g_input g' = ["x"].
Proof.
  eexists. split; [|split; [|split; [vm_compute; reflexivity|vm_compute; auto]]].
  - assert (X : consistent (update_consumer_producer (mkl [mkNode "r" "Flatten" ["x"] ["b"]; mkNode "q" "Relu" ["b"] ["y"]] [] ["x"; "b"; "y"] ["x"] ["y"]))).
    { apply loaded_consistent; cbn; [repeat constructor; cbn; intuition discriminate|named|split; cbn; repeat constructor; cbn; intuition discriminate]. }
    destruct X as [X1 X2 X3 X4 X5]. constructor; assumption.
  - exists (fun t => if String.eqb t "b" then 1 else if String.eqb t "y" then 2 else 0). intros n t u I A B. cbn in I. destruct I as [<-|[<-|[]]]; cbn in A, B; intuition (subst; cbn; lia).
Qed.
