(** Property C97: replacing If nodes by a fixed branch at load time. *)
From Verif Require Import PyBase PyBaseFacts GraphModel CompressSpec RelSpec RelProofs TopSortSpec TopSortProofs OrderSpec EditModel EditSpec
  RemoveProofs IoProofs FuseProofs ShapeModel ConvBNModel ComputeSpec ComputeProofs ComputeTop TopKProofs Props_Compute IfModel IfSpec InferLoop IfTensors IfProofs IfFlat IfTotal Demo Decide Props_Edit.
Local Open Scope string_scope.
Local Open Scope list_scope.
Local Open Scope nat_scope.

(** ---- no If is left, and every node left is a node of the graph or of a taken branch, with its name, type and operands ---- *)
Theorem C97_no_if_left : forall body g n fuel g', NoDup (dkeys (nodemap g)) -> names_match g -> remove_if body n fuel g = Some (SOk g') ->
  NoDup (dkeys (nodemap g')) /\ names_match g' /\
  forall m', In m' (nodes_of g') -> n_op m' <> "If" /\
    exists m, taken body g m /\ n_name m' = n_name m /\ n_op m' = n_op m /\ n_in m' = n_in m /\ length (n_out m') = length (n_out m).
Proof.
  intros body g n fuel g' ND HN E. destruct (remove_if_Inv body g n fuel g g' (Inv_start body g ND HN) E) as ([A B] & C).
  split; [exact A|]. split; [intros k m I; apply (B k m I)|]. intros m' I. apply node_in in I. destruct I as (k & I). split; [exact (C k m' I)|].
  destruct (B k m' I) as (_ & m & B1 & B2 & B3 & B4 & B5). exists m. repeat (split; [assumption|]). clear - B5. induction B5; cbn; congruence.
Qed.
Print Assumptions C97_no_if_left.

(** ---- whatever the model computes with the selected branches, any operators, any nesting of Ifs, is a solution of the result ---- *)
Theorem C97_sound : forall V (sem : node -> list V -> list V) body g n fuel g' (v : string -> V), NoDup (dkeys (nodemap g)) -> names_match g ->
  tensor_names_irrelevant sem -> remove_if body n fuel g = Some (SOk g') -> if_model body g sem v -> solves sem (nodes_of g') v.
Proof.
  intros V sem body g n fuel g' v ND HN Hs E Hv m' I. destruct (remove_if_Inv body g n fuel g g' (Inv_start body g ND HN) E) as ([_ B] & C).
  apply node_in in I. destruct I as (k & I). pose proof (C k m' I) as NI. destruct (B k m' I) as (_ & m & O). pose proof (origin_outs body g V sem v m m' Hv O) as EO.
  destruct O as (B1 & B2 & B3 & B4 & B5). rewrite EO, B4. rewrite B3 in NI. rewrite (proj1 (Hv m B1) NI). now apply Hs.
Qed.
Print Assumptions C97_sound.

(** ---- ... and the only one with these inputs, if no operand of the result lost its producer: every tensor gets its value ---- *)
Theorem C97_values : forall V (sem : node -> list V -> list V) body g n fuel g' (v w : string -> V), NoDup (dkeys (nodemap g)) -> names_match g ->
  tensor_names_irrelevant sem -> if_acyclic body g -> remove_if body n fuel g = Some (SOk g') ->
  (forall t, In t (reads_of (nodes_of g')) -> In t (outs_of (nodes_of g')) \/ if_source body g t) ->
  if_model body g sem v -> solves sem (nodes_of g') w -> (forall t, if_source body g t -> w t = v t) ->
  forall m t, In m (nodes_of g') -> In t (n_in m) \/ In t (n_out m) -> w t = v t.
Proof.
  intros V sem body g n fuel g' v w ND HN Hs (rk & Hrk) E HO Hv Sw Hw.
  pose proof (C97_sound V sem body g n fuel g' v ND HN Hs E Hv) as Sv.
  destruct (remove_if_Inv body g n fuel g g' (Inv_start body g ND HN) E) as ([_ B] & C).
  assert (RK : forall m i o, In m (nodes_of g') -> In i (n_in m) -> In o (n_out m) -> rk i < rk o).
  { intros m' i o I Ii Oo. apply node_in in I. destruct I as (k & I). pose proof (C k m' I) as NI. destruct (B k m' I) as (_ & m & B1 & B2 & B3 & B4 & B5).
    rewrite B4 in Ii. rewrite B3 in NI.
    assert (X : exists a, In a (n_out m) /\ ren body g a o).
    { clear - B5 Oo. induction B5 as [|a b l l' R F IH]; [destruct Oo|]. destruct Oo as [<-|Oo]; [exists a; split; [left; reflexivity|exact R]|].
      destruct (IH Oo) as (c & A & D). exists c. split; [right; exact A|exact D]. }
    destruct X as (a & Ia & R). assert (L : rk a <= rk o).
    { clear - R Hrk. induction R as [|m a q b A O C D R IH]; [lia|]. pose proof (proj2 (Hrk m A) O 0 q a D C). lia. }
    pose proof (proj1 (Hrk m B1) NI i a Ii Ia). lia. }
  assert (Made : forall r m t, rk t < r -> In m (nodes_of g') -> In t (n_out m) -> w t = v t).
  { induction r as [|r IH]; intros m t L Im O; [lia|].
    assert (X : map w (n_out m) = map v (n_out m)).
    { rewrite (Sw m Im), (Sv m Im). f_equal. apply map_ext_in. intros i Ii.
      destruct (HO i) as [Y|Y]; [unfold reads_of; apply in_flat_map; eauto| |apply Hw, Y].
      unfold outs_of in Y. apply in_flat_map in Y. destruct Y as (p & Ip & Op). apply (IH p); [|exact Ip|exact Op]. pose proof (RK m i t Im Ii O). lia. }
    clear - X O. induction (n_out m) as [|a l IHl]; [destruct O|]. cbn [map] in X. injection X as E1 E2. destruct O as [<-|O]; auto. }
  intros m t Im [R|O].
  - destruct (HO t) as [Y|Y]; [unfold reads_of; apply in_flat_map; eauto| |apply Hw, Y].
    unfold outs_of in Y. apply in_flat_map in Y. destruct Y as (p & Ip & Op). apply (Made (S (rk t)) p); [lia|exact Ip|exact Op].
  - apply (Made (S (rk t)) m); [lia|exact Im|exact O].
Qed.
Print Assumptions C97_values.

(** ---- Ifs whose branches hold no further If: the result is exactly the kept nodes of the graph and all branch nodes, with the
    branch output called like the If's; besides the Ifs, only nodes that are there for conditions go ---- *)
Theorem C97_flat_exactly : forall body g n fuel g', consistent g -> plain_ifs body g -> remove_if body n fuel g = Some (SOk g') ->
  exists keep,
    (forall x m', In (x, m') (nodemap g') <-> (In (x, m') (nodemap g) /\ keep x = true) \/
        exists k n m, is_if g k n /\ In m (b_nodes (body k)) /\ x = n_name m /\ m' = placed body k n m) /\
    (forall k n, is_if g k n -> keep k = false) /\
    (forall x xn, In (x, xn) (nodemap g) -> keep x = false -> n_op xn <> "If" ->
        (exists k, cond_only body g k x) /\
        exists t, In t (n_out xn) /\ In t (reads_of (nodes_of g)) /\ forall r rn, In (r, rn) (nodemap g) -> In t (n_in rn) -> keep r = false) /\
    initials g' = initials g /\ g_input g' = g_input g /\ (forall t, In t (g_output g') -> In t (g_output g)).
Proof.
  intros body g n fuel g' HC HP E. destruct (flat_result body g HC HP n fuel g' E) as (s & HJ & ND & B & I1 & I2 & O1 & _).
  exists (fun x => negb (memb x (i_rm s))).
  assert (K : forall x, negb (memb x (i_rm s)) = false <-> In x (i_rm s)) by (intros x; rewrite negb_false_iff; apply memb_In).
  assert (K' : forall x, negb (memb x (i_rm s)) = true <-> ~ In x (i_rm s)) by (intros x; rewrite negb_true_iff; apply memb_nIn).
  split; [|split; [|split; [|auto]]].
  - intros x m'. rewrite K'. apply (result_nodes body g HP s _ HJ ND B).
  - intros k kn Ik. apply K. eapply (j_done _ _ _ _ HJ); [|exact Ik]. apply in_map_iff. exists (k, kn). split; [reflexivity|apply Ik].
  - intros x xn Ix Kx O. apply K in Kx. split; [apply (j_cond _ _ _ _ HJ x Kx)|].
    destruct (j_rm _ _ _ _ HJ x Kx) as (k & [(kn & -> & Ik)|(u & pn' & z & zn & A1 & A2 & A3 & A4 & A5 & A6 & A7)]).
    + exfalso. apply O. assert (kn = xn) by (eapply (main_eq g HC); [apply Ik|exact Ix]). subst. apply Ik.
    + assert (pn' = xn) by (eapply (main_eq g HC); eauto). subst pn'. exists u. split; [exact A2|]. split; [apply read_in; eauto|]. intros r rn R1 R2. apply K. eapply A7; eauto.
Qed.
Print Assumptions C97_flat_exactly.

(** ---- for these, with one wanted output per node and nothing a branch uses there only for conditions, no operand loses its
    producer, so the result computes what the model does ---- *)
Theorem C97_flat_values : forall V (sem : node -> list V -> list V) body g n fuel g' (v w : string -> V), consistent g -> plain_ifs body g ->
  one_if_wanted body g -> branch_operands_kept body g -> tensor_names_irrelevant sem -> if_acyclic body g -> remove_if body n fuel g = Some (SOk g') ->
  if_model body g sem v -> solves sem (nodes_of g') w -> (forall t, if_source body g t -> w t = v t) ->
  forall m t, In m (nodes_of g') -> In t (n_in m) \/ In t (n_out m) -> w t = v t.
Proof.
  intros V sem body g n fuel g' v w HC HP H1 HB Hs Ha E. eapply C97_values; eauto.
  - apply (co_nd g HC).
  - apply (co_names g HC).
  - apply (flat_no_orphan body g HC HP H1 HB n fuel g' E).
Qed.
Print Assumptions C97_flat_values.

(** ---- declared outputs other than results of Ifs stay declared and keep their producer ---- *)
Theorem C97_outputs_kept : forall body g n fuel g', consistent g -> plain_ifs body g -> one_if_wanted body g -> outputs_unread g ->
  remove_if body n fuel g = Some (SOk g') -> forall t, In t (g_output g) -> (forall k kn, is_if g k kn -> ~ In t (n_out kn)) ->
  In t (g_output g') /\ forall x xn, In (x, xn) (nodemap g) -> In t (n_out xn) -> In (x, xn) (nodemap g').
Proof.
  intros body g n fuel g' HC HP H1 HU E t It NI. destruct (flat_result body g HC HP n fuel g' E) as (s & HJ & ND & B & _ & _ & _ & O2).
  assert (N : forall x xn, In x (i_rm s) -> In (x, xn) (nodemap g) -> ~ In t (n_out xn)).
  { intros x xn Rx Ix Ot. destruct (j_rm _ _ _ _ HJ x Rx) as (k & [(kn & -> & Ik)|(u & pn' & z & zn & A1 & A2 & A3 & A4 & A5 & A6 & A7)]).
    - assert (kn = xn) by (eapply (main_eq g HC); [apply Ik|exact Ix]). subst. exact (NI k xn Ik Ot).
    - assert (pn' = xn) by (eapply (main_eq g HC); eauto). subst pn'.
      assert (u = t). { eapply H1; [exact Ix|exact A2|exact Ot| |]; left; [left; apply read_in; eauto|right; exact It]. }
      subst u. apply (HU t It), read_in. eauto. }
  split; [apply O2; assumption|]. intros x xn Ix Ot. apply (result_nodes body g HP s _ HJ ND B). left. split; [exact Ix|]. intros X. exact (N x xn X Ix Ot).
Qed.
Print Assumptions C97_outputs_kept.

(** ---- ... and for these the call succeeds: named branch nodes, one wanted output per node, and no condition computed from the result of an If ---- *)
Theorem C97_flat_succeeds : forall body g n fuel, consistent g -> plain_ifs body g -> one_if_wanted body g -> conditions_without_ifs body g ->
  (forall k m, branch_node body g k m -> n_name m <> "") -> length (nodemap g) <= fuel -> 2 <= n ->
  exists g', remove_if body n fuel g = Some (SOk g').
Proof. intros body g n fuel HC HP H1 HF HN L Ln. exact (total body g HC HP H1 HF HN fuel n L Ln). Qed.
Print Assumptions C97_flat_succeeds.

(** the tensor table: tensors that were known keep their record, and every tensor a node of the result mentions is known *)
Theorem C97_tensors : forall body g n fuel g', NoDup (dkeys (nodemap g)) ->
  (forall m t, In m (nodes_of g) -> In t (n_in m) \/ In t (n_out m) -> exists x, dget (tensormap g) t = Some x) ->
  remove_if body n fuel g = Some (SOk g') ->
  (forall t x, dget (tensormap g) t = Some x -> dget (tensormap g') t = Some x) /\
  forall m t, In m (nodes_of g') -> In t (n_in m) \/ In t (n_out m) -> exists x, dget (tensormap g') t = Some x.
Proof.
  intros body g n fuel g' ND C E. destruct (remove_if_tensors body n fuel g g' ND) with (2 := E) as (A & B).
  - intros k m t I _ Ht. apply dhas_dget. apply (C m t); [|exact Ht]. apply node_in. eauto.
  - split; [exact A|]. intros m t I Ht. apply node_in in I as (k & I). apply dhas_dget. apply (B k m t I); [intros []|exact Ht].
Qed.
Print Assumptions C97_tensors.

(** ---- decision procedures for the examples ---- *)
Section DEC.
Variable body : string -> branch.
Variable g : graph.
Definition ifs : dict node := filter (fun kn => String.eqb (n_op (snd kn)) "If") (nodemap g).
Definition bnodes : list (string * node) := flat_map (fun kn => map (pair (fst kn)) (b_nodes (body (fst kn)))) ifs.
Lemma ifs_ok : forall k n, is_if g k n <-> In (k, n) ifs.
Proof. intros k n. unfold is_if, ifs. rewrite filter_In. cbn [snd]. now rewrite String.eqb_eq. Qed.
Lemma bnodes_ok : forall k m, branch_node body g k m <-> In (k, m) bnodes.
Proof.
  intros k m. unfold branch_node, bnodes. rewrite in_flat_map. split.
  - intros (n & A & B). exists (k, n). split; [now apply ifs_ok|]. cbn [fst]. now apply in_map.
  - intros ([k' n] & A & B). cbn [fst] in B. apply in_map_iff in B. destruct B as (m' & E & B). injection E as -> ->. exists n. split; [now apply ifs_ok|exact B].
Qed.
Definition all {A} (l : list A) (f : A -> bool) : bool := forallb f l.
Lemma all_ok {A} (l : list A) f : all l f = true -> forall x, In x l -> f x = true.
Proof. unfold all. rewrite forallb_forall. auto. Qed.
Definition one_b (kn : string * node) : bool :=
  match n_in (snd kn), n_out (snd kn), b_outs (body (fst kn)) with
  | [_], [_], [p] => existsb (fun m => memb p (n_out m)) (b_nodes (body (fst kn)))
  | _, _, _ => false
  end.
Definition plain_b : bool :=
  all ifs one_b && all bnodes (fun km => negb (String.eqb (n_op (snd km)) "If")) && all ifs (fun kn => nodupb (map n_name (b_nodes (body (fst kn))))) &&
  all bnodes (fun km => negb (memb (n_name (snd km)) (dkeys (nodemap g)))) &&
  all bnodes (fun km => all bnodes (fun km' => negb (String.eqb (n_name (snd km)) (n_name (snd km'))) || String.eqb (fst km) (fst km'))) &&
  all bnodes (fun km => all (n_out (snd km)) (fun o => negb (memb o (outs_of (nodes_of g))) && negb (memb o (reads_of (nodes_of g))) &&
    all bnodes (fun km' => negb (memb o (n_in (snd km'))) || (String.eqb (fst km') (fst km) && negb (memb o (b_outs (body (fst km)))))))).
Lemma plain_b_ok : plain_b = true -> plain_ifs body g.
Proof.
  unfold plain_b. rewrite !andb_true_iff. intros (((((A & B) & C) & D) & E) & F). constructor.
  - intros k n I. apply ifs_ok in I. pose proof (all_ok _ _ A _ I) as X. unfold one_b in X. cbn [fst snd] in X.
    destruct (n_in n) as [|c [|]]; try discriminate. destruct (n_out n) as [|o [|]]; try discriminate. destruct (b_outs (body k)) as [|p [|]]; try discriminate.
    exists c, o, p. repeat (split; [reflexivity|]). apply existsb_exists in X. destruct X as (m & I1 & I2). exists m. split; [exact I1|now apply memb_In].
  - intros k m I O. apply bnodes_ok in I. pose proof (all_ok _ _ B _ I) as X. cbn [snd] in X. rewrite O in X. discriminate.
  - intros k n I. apply ifs_ok in I. apply nodupb_ok. exact (all_ok _ _ C _ I).
  - intros k m I. apply bnodes_ok in I. pose proof (all_ok _ _ D _ I) as X. cbn [snd] in X. apply memb_nIn. now apply negb_true_iff in X.
  - intros k m k' m' I I' N. apply bnodes_ok in I, I'. pose proof (all_ok _ _ (all_ok _ _ E _ I) _ I') as X. cbn [fst snd] in X. rewrite N, eqb_refl' in X. now apply String.eqb_eq in X.
  - intros k m o I Io. apply bnodes_ok in I. pose proof (all_ok _ _ (all_ok _ _ F _ I) _ Io) as X. cbn [fst snd] in X. rewrite !andb_true_iff, !negb_true_iff in X. destruct X as ((X1 & X2) & X3).
    split; [now apply memb_nIn|]. split; [now apply memb_nIn|].
    assert (Y : forall k' m', branch_node body g k' m' -> In o (n_in m') -> k' = k /\ ~ In o (b_outs (body k))).
    { intros k' m' I' R. apply bnodes_ok in I'. pose proof (all_ok _ _ X3 _ I') as Y. cbn [fst snd] in Y. apply memb_In in R. rewrite R in Y. cbn [negb orb] in Y.
      rewrite andb_true_iff, negb_true_iff in Y. destruct Y as [Y1 Y2]. split; [now apply String.eqb_eq|now apply memb_nIn]. }
    split; [intros k' m' I' R; apply (Y k' m' I' R)|]. intros Ob m' I' R. exact (proj2 (Y k m' I' R) Ob).
Qed.
(** a set of nodes that holds all that are there only for conditions *)
Variable C : list string.
Definition closed_b : bool :=
  all ifs (fun kn => memb (fst kn) C) &&
  all (nodemap g) (fun s => negb (memb (fst s) C) || all (n_in (snd s)) (fun t => all (nodemap g) (fun p => negb (memb t (n_out (snd p))) || memb (fst p) C ||
     existsb (fun r => memb t (n_in (snd r)) && negb (memb (fst r) C)) (nodemap g)))).
Lemma closed_ok : closed_b = true -> forall k x, cond_only body g k x -> In x C.
Proof.
  unfold closed_b. rewrite andb_true_iff. intros [A B]. fix IH 3. intros k x [k' n I|k' s sn t p pn Hs Is It _ Ip Op HR].
  - apply ifs_ok in I. apply memb_In. exact (all_ok _ _ A _ I).
  - pose proof (IH _ _ Hs) as Cs. pose proof (all_ok _ _ B _ Is) as X. cbn [fst snd] in X. apply memb_In in Cs. rewrite Cs in X. cbn [negb orb] in X.
    pose proof (all_ok _ _ (all_ok _ _ X _ It) _ Ip) as Y. cbn [fst snd] in Y. apply memb_In in Op. rewrite Op in Y. cbn [negb orb] in Y.
    destruct (memb p C) eqn:Mp; [now apply memb_In|]. cbn [orb] in Y. apply existsb_exists in Y. destruct Y as ([r rn] & I1 & I2). cbn [fst snd] in I2.
    apply andb_true_iff in I2. destruct I2 as [I2 I3]. exfalso. apply memb_In in I2. destruct (HR r rn I1 I2) as (k'' & Hr). pose proof (IH _ _ Hr) as Z. apply memb_In in Z. rewrite Z in I3. discriminate.
Qed.
Definition kept_b : bool := all bnodes (fun km => all (n_in (snd km)) (fun t => all (nodemap g) (fun p => negb (memb t (n_out (snd p))) || String.eqb (n_op (snd p)) "If" || negb (memb (fst p) C)))).
Lemma kept_b_ok : closed_b = true -> kept_b = true -> branch_operands_kept body g.
Proof.
  intros HC HK k m t p pn I It Ip Op O k' Hc. apply bnodes_ok in I. pose proof (all_ok _ _ (all_ok _ _ (all_ok _ _ HK _ I) _ It) _ Ip) as X. cbn [fst snd] in X.
  apply memb_In in Op. rewrite Op in X. apply String.eqb_neq in O. rewrite O in X. cbn [negb orb] in X. pose proof (closed_ok HC _ _ Hc) as Z. apply memb_In in Z. rewrite Z in X. discriminate.
Qed.
Definition condfree_b : bool := all ifs (fun a => all (n_out (snd a)) (fun o => all (nodemap g) (fun r => negb (memb o (n_in (snd r))) || negb (memb (fst r) C)))).
Lemma condfree_b_ok : closed_b = true -> condfree_b = true -> conditions_without_ifs body g.
Proof.
  intros HC HK a an o r rn k I Io Ir Or Hc. apply ifs_ok in I. pose proof (all_ok _ _ (all_ok _ _ (all_ok _ _ HK _ I) _ Io) _ Ir) as X. cbn [fst snd] in X.
  apply memb_In in Or. rewrite Or in X. cbn [negb orb] in X. pose proof (closed_ok HC _ _ Hc) as Z. apply memb_In in Z. rewrite Z in X. discriminate.
Qed.
Definition wanted_b (t : string) : bool := memb t (reads_of (nodes_of g)) || memb t (g_output g) || existsb (fun km => memb t (n_in (snd km))) bnodes.
Lemma wanted_b_ok : forall t, if_wanted body g t -> wanted_b t = true.
Proof.
  intros t [[H|H]|(k & m & I & R)]; unfold wanted_b; rewrite !orb_true_iff; [left; left; now apply memb_In|left; right; now apply memb_In|right].
  apply existsb_exists. exists (k, m). split; [now apply bnodes_ok|now apply memb_In].
Qed.
Definition onew_b : bool := all (nodemap g) (fun kn => Nat.leb (length (filter wanted_b (n_out (snd kn)))) 1).
Lemma onew_b_ok : onew_b = true -> one_if_wanted body g.
Proof.
  intros H k n s t I Is It Ws Wt. pose proof (all_ok _ _ H _ I) as X. cbn [snd] in X. apply Nat.leb_le in X.
  assert (A : In s (filter wanted_b (n_out n))) by (apply filter_In; split; [exact Is|now apply wanted_b_ok]).
  assert (B : In t (filter wanted_b (n_out n))) by (apply filter_In; split; [exact It|now apply wanted_b_ok]).
  destruct (filter wanted_b (n_out n)) as [|a [|b l]]; [destruct A| |cbn in X; lia]. destruct A as [<-|[]], B as [<-|[]]. reflexivity.
Qed.
Lemma taken_list : forall l, (forall k n, In (k, n) (nodemap g) -> In n l) -> (forall m n, In m l -> n_op m = "If" -> In n (b_nodes (body (n_name m))) -> In n l) ->
  forall n, taken body g n -> In n l.
Proof. intros l A B n H. induction H; eauto. Qed.
End DEC.

(** ---- two Ifs, one with a computed condition, the other a given one, the second branch using the first If's result ---- *)
Definition model_raw : graph := mkGraph
  [("c0", mkNode "c0" "ReduceSum" ["x"] ["s"]); ("c1", mkNode "c1" "Less" ["s"; "x"] ["c"]); ("n0", mkNode "n0" "Exp" ["x"] ["q"]);
   ("i1", mkNode "i1" "If" ["c"] ["y"]); ("n2", mkNode "n2" "Relu" ["y"] ["z"]); ("i2", mkNode "i2" "If" ["d"] ["w"]); ("n3", mkNode "n3" "Add" ["z"; "w"] ["out"])]
  [] [] [] [] [] ["x"; "d"] ["out"].
Definition model : graph := update_consumer_producer model_raw.
Definition model_body (k : string) : branch :=
  if String.eqb k "i1" then mkBranch [mkNode "m1" "Mul" ["q"; "x"] ["u"]; mkNode "m2" "Neg" ["u"] ["v"]] ["v"]
  else mkBranch [mkNode "m3" "Abs" ["y"] ["v2"]] ["v2"].
Definition model_all : list node := nodes_of model ++ b_nodes (model_body "i1") ++ b_nodes (model_body "i2").
Definition add1 (n : node) (vs : list Z) : list Z := [fold_right Z.add (Z.of_nat (String.length (n_name n) + 1)) vs].
Definition model_v (t : string) : Z :=
  (if String.eqb t "x" then 1 else if String.eqb t "d" then 0 else if String.eqb t "s" then 4 else if String.eqb t "c" then 8 else if String.eqb t "q" then 4
   else if String.eqb t "u" then 8 else if String.eqb t "v" then 11 else if String.eqb t "y" then 11 else if String.eqb t "z" then 14
   else if String.eqb t "v2" then 14 else if String.eqb t "w" then 14 else 31)%Z.
Definition model_rk (t : string) : nat :=
  if String.eqb t "x" then 0 else if String.eqb t "d" then 0 else if String.eqb t "s" then 1 else if String.eqb t "c" then 2 else if String.eqb t "q" then 1
   else if String.eqb t "u" then 2 else if String.eqb t "v" then 3 else if String.eqb t "y" then 3 else if String.eqb t "z" then 4
   else if String.eqb t "v2" then 4 else if String.eqb t "w" then 4 else 5.
Lemma model_taken : forall n, taken model_body model n -> In n model_all.
Proof.
  apply taken_list.
  - intros k n H. cbn in H. unfold model_all. cbn. repeat (destruct H as [H|H]; [injection H as <- <-; auto 20|]). destruct H.
  - intros m n H O B. cbn in H. repeat (destruct H as [H|H]; [subst m; first [discriminate O|cbn in B; unfold model_all; cbn; intuition]|]). destruct H.
Qed.
Example C97_case : exists g', consistent model /\ plain_ifs model_body model /\ one_if_wanted model_body model /\ branch_operands_kept model_body model /\
  conditions_without_ifs model_body model /\ outputs_unread model /\ if_acyclic model_body model /\ tensor_names_irrelevant add1 /\ if_model model_body model add1 model_v /\
  (forall k m, branch_node model_body model k m -> n_name m <> "") /\
  remove_if model_body 2 7 model = Some (SOk g') /\ dkeys (nodemap g') = ["n0"; "n2"; "n3"; "m1"; "m2"; "m3"] /\ map n_out (nodes_of g') = [["q"]; ["z"]; ["out"]; ["u"]; ["y"]; ["w"]] /\
  cond_only model_body model "i1" "c0" /\ if_source model_body model "x".
Proof.
  eexists. split; [consistent_case|]. split; [apply plain_b_ok; vm_compute; reflexivity|]. split; [apply onew_b_ok; vm_compute; reflexivity|].
  split; [apply (kept_b_ok _ _ ["c0"; "c1"; "i1"; "i2"]); vm_compute; reflexivity|]. split; [apply (condfree_b_ok _ _ ["c0"; "c1"; "i1"; "i2"]); vm_compute; reflexivity|].
  split; [unread_case|]. split.
  { exists model_rk. intros n T. apply model_taken in T. cbn in T. repeat (destruct T as [T|T]; [subst n; split; intros O; try discriminate O; try (exfalso; apply O; reflexivity)|]); try destruct T.
    all: cbn [n_in n_out n_name]; try (intros i o Ii Io; cbn in Ii, Io; intuition (subst; vm_compute; lia)).
    all: intros i o p Eo Ep; destruct i as [|[|i]]; cbn in Eo, Ep; try discriminate; injection Eo as <-; injection Ep as <-; vm_compute; lia. }
  split; [intros n m E _ vs; unfold add1; now rewrite E|]. split.
  { intros n T. apply model_taken in T. cbn in T. repeat (destruct T as [T|T]; [subst n; split; intros O; try discriminate O; try (exfalso; apply O; reflexivity)|]); try destruct T.
    all: try (vm_compute; reflexivity).
    all: intros i o p Eo Ep; destruct i as [|[|i]]; cbn in Eo, Ep; try discriminate; injection Eo as <-; injection Ep as <-; vm_compute; reflexivity. }
  split.
  { intros k m B. apply bnodes_ok in B. cbn in B. repeat (destruct B as [B|B]; [injection B as <- <-; discriminate|]). destruct B. }
  split; [vm_compute; reflexivity|]. split; [vm_compute; reflexivity|]. split; [vm_compute; reflexivity|]. split.
  - eapply (co_feed _ _ "i1" "c1" _ "s" "c0").
    + eapply (co_feed _ _ "i1" "i1" _ "c" "c1"); [eapply co_if; split; [cbn; do 3 right; left; reflexivity|reflexivity]|cbn; do 3 right; left; reflexivity|cbn; auto|intros bm Ibm; cbn in Ibm; repeat (destruct Ibm as [<-|Ibm]; [cbn; intuition congruence|]); destruct Ibm|cbn; right; left; reflexivity|cbn; auto|].
      intros r rn I R. exists "i1". cbn in I. repeat (destruct I as [I|I]; [injection I as <- <-; cbn in R; first [exfalso; intuition congruence|eapply co_if; split; [cbn; do 3 right; left; reflexivity|reflexivity]]|]). destruct I.
    + cbn. right. left. reflexivity.
    + cbn. auto.
    + intros bm Ibm; cbn in Ibm; repeat (destruct Ibm as [<-|Ibm]; [cbn; intuition congruence|]); destruct Ibm.
    + cbn. left. reflexivity.
    + cbn. auto.
    + intros r rn I R. exists "i1". cbn in I. repeat (destruct I as [I|I]; [injection I as <- <-; cbn in R; try (exfalso; intuition congruence)|]); [|destruct I].
      eapply (co_feed _ _ "i1" "i1" _ "c" "c1"); [eapply co_if; split; [cbn; do 3 right; left; reflexivity|reflexivity]|cbn; do 3 right; left; reflexivity|cbn; auto|intros bm Ibm; cbn in Ibm; repeat (destruct Ibm as [<-|Ibm]; [cbn; intuition congruence|]); destruct Ibm|cbn; right; left; reflexivity|cbn; auto|].
      intros r' rn' I R'. exists "i1". cbn in I. repeat (destruct I as [I|I]; [injection I as <- <-; cbn in R'; first [exfalso; intuition congruence|eapply co_if; split; [cbn; do 3 right; left; reflexivity|reflexivity]]|]). destruct I.
  - intros n T O. apply model_taken in T. cbn in T. repeat (destruct T as [T|T]; [subst n; cbn in O; intuition congruence|]). destruct T.
Qed.
(** an If inside a branch *)
Definition inner_body (k : string) : branch :=
  if String.eqb k "i1" then mkBranch [mkNode "m1" "Mul" ["q"; "x"] ["u"]; mkNode "j" "If" ["e"] ["v"]] ["v"]
  else if String.eqb k "j" then mkBranch [mkNode "m2" "Neg" ["u"] ["v3"]] ["v3"] else mkBranch [mkNode "m3" "Abs" ["y"] ["v2"]] ["v2"].
Example C97_nested_case : exists g', remove_if inner_body 3 7 model = Some (SOk g') /\ dkeys (nodemap g') = ["n0"; "n2"; "n3"; "m1"; "m3"; "m2"] /\
  map n_out (nodes_of g') = [["q"]; ["z"]; ["out"]; ["u"]; ["w"]; ["y"]].
Proof. eexists. split; [vm_compute; reflexivity|]. split; vm_compute; reflexivity. Qed.

Definition model_t : graph := mkGraph (nodemap model) (map (fun t => (t, mkTensor DYNAMIC [Z.of_nat (String.length t)] 2%Z)) ["x"; "d"; "s"; "c"; "q"; "y"; "z"; "w"; "out"])
  (producedby model) (consumedby model) [] [] (g_input model) (g_output model).
Example C97_tensors_case : exists g', remove_if inner_body 3 7 model_t = Some (SOk g') /\ NoDup (dkeys (nodemap model_t)) /\
  (forall m t, In m (nodes_of model_t) -> In t (n_in m) \/ In t (n_out m) -> exists x, dget (tensormap model_t) t = Some x) /\
  dkeys (tensormap g') = ["x"; "d"; "s"; "c"; "q"; "y"; "z"; "w"; "out"; "u"; "e"; "v"; "v2"; "v3"].
Proof.
  eexists. split; [vm_compute; reflexivity|]. split; [cbn; repeat constructor; cbn; intuition congruence|]. split; [|vm_compute; reflexivity].
  assert (G : forallb (fun m => forallb (fun t => dhas (tensormap model_t) t) (n_in m ++ n_out m)) (nodes_of model_t) = true) by (vm_compute; reflexivity).
  intros m t I Ht. rewrite forallb_forall in G. specialize (G m I). rewrite forallb_forall in G. apply dhas_dget, G, in_app_iff, Ht.
Qed.

(** ---- what does not hold ---- *)
Section DECLARED.
Variable o : string.
Lemma rm_outs_drops : forall x outs prod out prod' out', rm_outs x outs (prod, out) = Ok (prod', out') -> NoDup out -> NoDup outs ->
  NoDup out' /\ (forall t, In t out' -> In t out) /\ (In o outs -> dget prod o <> None -> ~ In o out') /\ (~ In o outs -> dget prod' o = dget prod o).
Proof.
  intros x. induction outs as [|a r IH]; intros prod out prod' out' E NO ND; cbn [rm_outs] in E.
  - injection E as <- <-. split; [exact NO|]. split; [auto|]. split; [intros []|reflexivity].
  - inversion ND as [|? ? N1 N2]; subst. unfold rm_out in E at 1. destruct (dget prod a) as [l|] eqn:D; cbn [bind] in E.
    + destruct (memb x l); cbn [bind] in E; [|discriminate].
      assert (NO' : NoDup (if memb a out then remove1 a out else out)) by (destruct (memb a out); [now apply NoDup_remove1|exact NO]).
      assert (Sub : forall t, In t (if memb a out then remove1 a out else out) -> In t out) by (intros t; destruct (memb a out); [apply In_remove1|auto]).
      assert (P : forall t, t <> a -> dget (put_or_pop prod a (remove1 x l)) t = dget prod t).
      { intros t N. unfold put_or_pop. destruct (remove1 x l); [apply dget_ddel_neq; congruence|apply dget_dset_neq; congruence]. }
      destruct (IH _ _ _ _ E NO' N2) as (A & B & C & F). split; [exact A|]. split; [intros t I; apply Sub, B, I|]. split.
      * intros [->|I] Dn.
        -- intros X. apply B in X. destruct (memb o out) eqn:M; [|apply memb_nIn in M; contradiction]. apply count_pos in X. rewrite count_remove1_eq in X.
           assert (L : count o out <= 1); [|lia]. clear - NO. induction NO as [|y l N NO IH]; cbn [count]; [lia|]. destruct (String.eqb_spec o y) as [->|]; [|exact IH]. apply count_zero in N. lia.
        -- apply C; [exact I|]. assert (Na : o <> a) by (intros ->; contradiction). rewrite (P o Na). exact Dn.
      * intros N. cbn [In] in N. rewrite F by tauto. apply P. intros ->. tauto.
    + destruct (IH _ _ _ _ E NO N2) as (A & B & C & F). split; [exact A|]. split; [exact B|]. split.
      * intros [->|I] Dn; [congruence|auto].
      * intros N. cbn [In] in N. apply F. tauto.
Qed.
Lemma remove_nodes_drops : forall names g1 g2 k kn, remove_nodes g1 names = Ok g2 -> NoDup (g_output g1) -> NoDup (dkeys (nodemap g1)) ->
  (forall x xn, In x names -> dget (nodemap g1) x = Some xn -> NoDup (n_out xn)) -> (forall x xn, dget (nodemap g1) x = Some xn -> In x names -> In o (n_out xn) -> x = k) ->
  In k names -> dget (nodemap g1) k = Some kn -> In o (n_out kn) -> dget (producedby g1) o <> None -> ~ In o (g_output g2).
Proof.
  induction names as [|y r IH]; intros g1 g2 k kn E NO NM HD HU Ik Dk Ok Dp; [destruct Ik|]. rewrite remove_nodes_cons in E.
  destruct (remove_node1 g1 y) as [[g3 nn]| | |] eqn:R; cbn [bind] in E; try discriminate. destruct (remove1_nodes _ _ _ _ R NM) as [A B].
  unfold remove_node1 in R. destruct (dget (nodemap g1) y) as [yn|] eqn:Dy.
  - destruct (rm_outs _ _ _) as [[prod out]| | |] eqn:RO; cbn [bind] in R; try discriminate.
    destruct (rm_ins _ _ _ _ _ _) as [[cns nn']| | |]; cbn [bind] in R; try discriminate. injection R as <- _.
    destruct (rm_outs_drops _ _ _ _ _ _ RO NO (HD y yn (or_introl eq_refl) Dy)) as (X1 & X2 & X3 & X4).
    destruct (string_dec y k) as [->|N].
    + rewrite Dk in Dy. injection Dy as <-. destruct (remove_nodes_output _ _ _ E A) as [O1 _]. cbn [g_output with_rel] in O1. intros X. apply (X3 Ok Dp), O1, X.
    + apply (IH _ _ k kn E); cbn [with_rel g_output nodemap producedby]; try assumption.
      * intros x xn Ix Dx. cbn [with_rel nodemap] in B. rewrite B in Dx. destruct (String.eqb x y); [discriminate|]. apply (HD x); [right; exact Ix|exact Dx].
      * intros x xn Dx Ix. cbn [with_rel nodemap] in B. rewrite B in Dx. destruct (String.eqb x y); [discriminate|]. apply (HU x xn Dx). right. exact Ix.
      * destruct Ik as [->|Ik]; [congruence|exact Ik].
      * cbn [with_rel nodemap] in B. rewrite B. destruct (String.eqb_spec k y) as [->|]; [congruence|exact Dk].
      * rewrite X4; [exact Dp|]. intros X. apply N. apply (HU y yn Dy); [left; reflexivity|exact X].
  - injection R as <- _. destruct (string_dec y k) as [->|N]; [congruence|]. apply (IH _ _ k kn E); try assumption.
    + intros x xn Ix. apply HD. right. exact Ix.
    + intros x xn Dx Ix. apply (HU x xn Dx). right. exact Ix.
    + destruct Ik as [->|Ik]; [congruence|exact Ik].
Qed.
End DECLARED.
(** the result of an If that is an output of the model never is one of the loaded graph *)
Theorem C97_declared_result_refuted : forall body g n fuel g' k kn o, consistent g -> plain_ifs body g -> NoDup (g_output g) -> remove_if body n fuel g = Some (SOk g') ->
  is_if g k kn -> In o (n_out kn) -> In o (g_output g) -> ~ In o (g_output g').
Proof.
  intros body g n fuel g' k kn o HC HP NO E Ik Io _. destruct n as [|n]; [discriminate|]. cbn [remove_if] in E.
  destruct (if_pass body fuel (dkeys (nodemap g)) _) as [[s|]|] eqn:P; try discriminate.
  pose proof (pass_J body g HC HP fuel (dkeys (nodemap g)) [] _ s (co_nd g HC) (incl_refl _) (J_start body g HC) P) as HJ. cbn [Datatypes.app] in HJ.
  assert (I0 : Inv body g (i_nm (mkIst (nodemap g) (tensormap g) (producedby g) (consumedby g) []))) by (apply Inv_start; [apply (co_nd g HC)|apply (co_names g HC)]).
  pose proof (pass_NoDup body g _ _ _ _ I0 P) as ND.
  assert (Kr : In k (i_rm s)) by (eapply (j_done _ _ _ _ HJ); [|exact Ik]; eapply main_key; apply Ik).
  destruct (i_rm s) as [|y rm] eqn:Er; [destruct Kr|]. destruct (remove_nodes _ (y :: rm)) as [g2| | |] eqn:R; try discriminate.
  assert (X : ~ In o (g_output g2)).
  { assert (RM : forall x xn, In x (y :: rm) -> dget (i_nm s) x = Some xn -> In (x, xn) (nodemap g)).
    { intros x xn Ix Dx. rewrite <- Er in Ix. destruct (rm_main body g s x HJ Ix) as (xn' & Ix'). rewrite (j_main _ _ _ _ HJ _ _ Ix') in Dx. congruence. }
    eapply (remove_nodes_drops o _ _ _ k kn R); cbn [g_output nodemap producedby]; try assumption.
    - intros x xn Ix Dx. eapply (main_outs_nd g HC x). apply RM; assumption.
    - intros x xn Dx Ix Ox. eapply outs_unique_key; [apply (co_uniq g HC)|apply RM; eassumption|apply Ik|exact Ox|exact Io].
    - apply (j_main _ _ _ _ HJ), Ik.
    - destruct (proj1 (j_prod _ _ _ _ HJ) k kn o (proj1 Ik) Io) as (l & ->). discriminate. }
  destruct n as [|n]; [discriminate|]. cbn [remove_if] in E. rewrite pass_no_if in E.
  - cbn [i_rm] in E. injection E as <-. exact X.
  - destruct (remove_nodes_get _ _ _ R ND) as [A B]. cbn [nodemap] in B.
    intros x Ix. cbn [i_nm]. apply in_map_iff in Ix. destruct Ix as ([x' m] & E' & Im). cbn in E'. subst x'. exists m. pose proof (In_dget _ _ _ _ A Im) as D. split; [exact D|].
    rewrite B in D. destruct (memb x (y :: rm)) eqn:Mk; [discriminate|]. intros O.
    destruct (j_only _ _ _ _ HJ x) as [K|(k' & m' & K1 & K2 & K3)]; [congruence| |].
    + apply in_map_iff in K. destruct K as ([k' mn] & E' & K). cbn in E'. subst k'. rewrite (j_main _ _ _ _ HJ _ _ K) in D. injection D as ->.
      assert (Y : In x (i_rm s)) by (eapply (j_done _ _ _ _ HJ); [eapply main_key; eauto|split; eauto]). rewrite Er in Y. apply memb_nIn in Mk. contradiction.
    + destruct K2 as (kn' & K4 & K5). subst x. rewrite (j_branch _ _ _ _ HJ k' kn' m' K1 K4 K5) in D. injection D as <-. cbn in O.
      apply (pi_flat _ _ HP k' m'); [exists kn'; auto|exact O].
Qed.
Print Assumptions C97_declared_result_refuted.
(** small graphs: the If "i" with condition c *)
Definition ifg (pre post : list node) (i : node) (ins outs : list string) : graph :=
  update_consumer_producer (mkGraph (map (fun n => (n_name n, n)) (pre ++ i :: post)) [] [] [] [] [] ins outs).
Definition single (ns : list node) (outs : list string) (k : string) : branch := mkBranch ns outs.
Definition declared : graph := ifg [] [] (mkNode "i" "If" ["c"] ["y"]) ["c"; "x"] ["y"].
Definition one_neg := single [mkNode "m" "Neg" ["x"] ["v"]] ["v"].
Example C97_declared_case : exists g', consistent declared /\ plain_ifs one_neg declared /\ one_if_wanted one_neg declared /\ NoDup (g_output declared) /\
  remove_if one_neg 2 1 declared = Some (SOk g') /\ g_output declared = ["y"] /\ g_output g' = [] /\ map n_out (nodes_of g') = [["y"]].
Proof.
  eexists. split; [consistent_case|]. split; [apply plain_b_ok; vm_compute; reflexivity|]. split; [apply onew_b_ok; vm_compute; reflexivity|].
  split; [apply nodupb_ok; reflexivity|]. split; [vm_compute; reflexivity|]. split; [reflexivity|]. split; vm_compute; reflexivity.
Qed.
(** only the first result of an If is connected to the branch: the second one loses its producer *)
Definition second : graph := ifg [] [mkNode "n" "Add" ["y"; "z"] ["out"]] (mkNode "i" "If" ["c"] ["y"; "z"]) ["c"; "x"] ["out"].
Definition two_results := single [mkNode "m" "Neg" ["x"] ["v"]; mkNode "m2" "Abs" ["x"] ["w"]] ["v"; "w"].
Theorem C97_second_result_refuted : exists g', consistent second /\ acyclic (nodemap second) /\ outputs_unread second /\
  remove_if two_results 2 1 second = Some (SOk g') /\ map n_out (nodes_of g') = [["out"]; ["y"]; ["w"]] /\ orphan second g' "z".
Proof.
  eexists. split; [consistent_case|]. split; [apply (rank_b_ok (fun k => if String.eqb k "i" then 0 else 1)); vm_compute; reflexivity|]. split; [unread_case|].
  split; [vm_compute; reflexivity|]. split; [vm_compute; reflexivity|]. unfold orphan. cbn. intuition congruence.
Qed.
Print Assumptions C97_second_result_refuted.
(** a branch output that another node of the branch reads: that operand loses its producer *)
Definition plain1 : graph := ifg [] [mkNode "n" "Relu" ["y"] ["out"]] (mkNode "i" "If" ["c"] ["y"]) ["c"; "x"] ["out"].
Definition used_twice := single [mkNode "m" "Neg" ["x"] ["v"]; mkNode "m2" "Print" ["v"] ["w"]] ["v"].
Theorem C97_branch_output_reread_refuted : exists g', consistent plain1 /\ remove_if used_twice 2 1 plain1 = Some (SOk g') /\
  map n_out (nodes_of g') = [["out"]; ["y"]; ["w"]] /\ In "v" (reads_of (nodes_of g')) /\ ~ In "v" (outs_of (nodes_of g')) /\ ~ In "v" (g_input g') /\
  ~ In "v" (initials g') /\ exists m, taken used_twice plain1 m /\ In "v" (n_out m).
Proof.
  eexists. split; [consistent_case|]. split; [vm_compute; reflexivity|]. split; [vm_compute; reflexivity|]. split; [cbn; auto|]. split; [cbn; intuition congruence|].
  split; [cbn; intuition congruence|]. split; [cbn; intuition congruence|]. exists (mkNode "m" "Neg" ["x"] ["v"]). split; [|cbn; auto].
  eapply (tk_branch _ _ (mkNode "i" "If" ["c"] ["y"])); [eapply tk_main; cbn; left; reflexivity|reflexivity|cbn; auto].
Qed.
Print Assumptions C97_branch_output_reread_refuted.
(** a branch that hands over a tensor of the surrounding graph: the result loses its producer *)
Definition pass_x := single [] ["x"].
Theorem C97_branch_passes_through_refuted : exists g', consistent plain1 /\ remove_if pass_x 2 1 plain1 = Some (SOk g') /\ dkeys (nodemap g') = ["n"] /\ orphan plain1 g' "y".
Proof.
  eexists. split; [consistent_case|]. split; [vm_compute; reflexivity|]. split; [vm_compute; reflexivity|]. unfold orphan. cbn. intuition congruence.
Qed.
Print Assumptions C97_branch_passes_through_refuted.
(** node names are optional in ONNX: a branch with an unnamed node cannot be loaded *)
Definition unnamed := single [mkNode "" "Neg" ["x"] ["v"]] ["v"].
Theorem C97_unnamed_branch_node_refuted : consistent plain1 /\ forall n fuel, remove_if unnamed (S n) (S (S fuel)) plain1 = Some (SRaise KeyErr).
Proof. split; [consistent_case|]. intros n fuel. vm_compute. reflexivity. Qed.
Print Assumptions C97_unnamed_branch_node_refuted.
(** a condition computed from the result of another If: loading fails *)
Definition chained : graph := ifg [mkNode "a" "If" ["d"] ["c"]] [mkNode "n" "Relu" ["y"] ["out"]] (mkNode "i" "If" ["c"] ["y"]) ["d"; "x"] ["out"].
Definition chained_body (k : string) : branch := if String.eqb k "a" then mkBranch [mkNode "p" "Not" ["d"] ["e"]] ["e"] else one_neg k.
Theorem C97_chained_conditions_refuted : consistent chained /\ plain_ifs chained_body chained /\ one_if_wanted chained_body chained /\ branch_operands_kept chained_body chained /\
  outputs_unread chained /\ forall n fuel, remove_if chained_body (S n) (S (S (S fuel))) chained = Some (SRaise ValueErr).
Proof.
  split; [consistent_case|]. split; [apply plain_b_ok; vm_compute; reflexivity|]. split; [apply onew_b_ok; vm_compute; reflexivity|].
  split; [apply (kept_b_ok _ _ ["a"; "i"]); vm_compute; reflexivity|]. split; [unread_case|]. intros n fuel. vm_compute. reflexivity.
Qed.
Print Assumptions C97_chained_conditions_refuted.
(** what only the conditions and another If's branch use goes: the branch's operand loses its producer *)
Definition shared_pre : graph := ifg [mkNode "p" "Exp" ["x"] ["q"]; mkNode "b" "If" ["q"] ["w"]] [mkNode "n" "Add" ["y"; "w"] ["out"]] (mkNode "i" "If" ["d"] ["y"]) ["d"; "x"] ["out"].
Definition shared_body (k : string) : branch := if String.eqb k "b" then mkBranch [mkNode "m2" "Not" ["x"] ["e"]] ["e"] else mkBranch [mkNode "m" "Neg" ["q"] ["v"]] ["v"].
Theorem C97_branch_operand_refuted : exists g', consistent shared_pre /\ plain_ifs shared_body shared_pre /\ one_if_wanted shared_body shared_pre /\
  conditions_without_ifs shared_body shared_pre /\ outputs_unread shared_pre /\ remove_if shared_body 2 4 shared_pre = Some (SOk g') /\
  dkeys (nodemap g') = ["n"; "m2"; "m"] /\ orphan shared_pre g' "q".
Proof.
  eexists. split; [consistent_case|]. split; [apply plain_b_ok; vm_compute; reflexivity|]. split; [apply onew_b_ok; vm_compute; reflexivity|].
  split; [apply (condfree_b_ok _ _ ["p"; "b"; "i"]); vm_compute; reflexivity|]. split; [unread_case|]. split; [vm_compute; reflexivity|]. split; [vm_compute; reflexivity|].
  unfold orphan. cbn. intuition congruence.
Qed.
Print Assumptions C97_branch_operand_refuted.
(** a node that computes a condition and something else: it goes, and the other result loses its producer *)
Definition halves_if : graph := ifg [mkNode "p" "Split" ["x"] ["c"; "h"]] [mkNode "n" "Add" ["y"; "h"] ["out"]] (mkNode "i" "If" ["c"] ["y"]) ["x"] ["out"].
Theorem C97_two_outputs_refuted : exists g', consistent halves_if /\ plain_ifs one_neg halves_if /\ branch_operands_kept one_neg halves_if /\
  conditions_without_ifs one_neg halves_if /\ outputs_unread halves_if /\ remove_if one_neg 2 3 halves_if = Some (SOk g') /\ dkeys (nodemap g') = ["n"; "m"] /\ orphan halves_if g' "h".
Proof.
  eexists. split; [consistent_case|]. split; [apply plain_b_ok; vm_compute; reflexivity|]. split; [apply (kept_b_ok _ _ ["p"; "i"]); vm_compute; reflexivity|].
  split; [apply (condfree_b_ok _ _ ["p"; "i"]); vm_compute; reflexivity|]. split; [unread_case|]. split; [vm_compute; reflexivity|]. split; [vm_compute; reflexivity|].
  unfold orphan. cbn. intuition congruence.
Qed.
Print Assumptions C97_two_outputs_refuted.
(** branches of two Ifs that use the same tensor name (each its own scope): two nodes compute it in the result *)
Definition two_ifs : graph := ifg [] [mkNode "k" "If" ["d"] ["w"]; mkNode "n" "Add" ["y"; "w"] ["out"]] (mkNode "i" "If" ["c"] ["y"]) ["c"; "d"; "x"] ["out"].
Definition same_names (k : string) : branch := if String.eqb k "i" then mkBranch [mkNode "m1" "Neg" ["x"] ["u"]; mkNode "m2" "Abs" ["u"] ["v"]] ["v"]
  else mkBranch [mkNode "m3" "Exp" ["x"] ["u"]; mkNode "m4" "Log" ["u"] ["v"]] ["v"].
Theorem C97_name_clash_refuted : exists g', consistent two_ifs /\ remove_if same_names 2 3 two_ifs = Some (SOk g') /\
  map n_out (nodes_of g') = [["out"]; ["u"]; ["y"]; ["u"]; ["w"]].
Proof. eexists. split; [consistent_case|]. split; [vm_compute; reflexivity|]. vm_compute. reflexivity. Qed.
Print Assumptions C97_name_clash_refuted.
(** branch nodes are appended: a graph listed in execution order is not after loading *)
Theorem C97_order_refuted : exists g', consistent plain1 /\ plain_ifs one_neg plain1 /\ remove_if one_neg 2 2 plain1 = Some (SOk g') /\
  map (fun n => (n_in n, n_out n)) (nodes_of plain1) = [(["c"], ["y"]); (["y"], ["out"])] /\
  map (fun n => (n_in n, n_out n)) (nodes_of g') = [(["y"], ["out"]); (["x"], ["y"])].
Proof.
  eexists. split; [consistent_case|]. split; [apply plain_b_ok; vm_compute; reflexivity|]. split; [vm_compute; reflexivity|]. split; vm_compute; reflexivity.
Qed.
Print Assumptions C97_order_refuted.
