(** C106: removing a node with everything that depends on it. *)
From Verif Require Import PyBase PyBaseFacts GraphModel CompressSpec RelSpec RelProofs TopSortSpec TopSortProofs OrderProofs EditModel EditSpec RemoveProofs DanglingProofs FuseProofs PartitionModel PartitionSpec PartitionProofs ConstProofs ConstWork Demo Decide Props_Edit SubtreeModel.
From Coq Require Import Permutation Lia.
Open Scope string_scope.
Local Open Scope list_scope.

(** [k] is the named node or depends on it *)
Inductive depends_on (g : graph) (name : string) : string -> Prop :=
| dep_self : depends_on g name name
| dep_step : forall k m, depends_on g name k -> feeds (nodemap g) k m -> depends_on g name m.

Lemma dep_trans g a b c : depends_on g a b -> depends_on g b c -> depends_on g a c.
Proof. intros H K. induction K; [exact H|econstructor; eassumption]. Qed.
Lemma dep_head g a k : depends_on g a k -> k = a \/ exists m, feeds (nodemap g) a m /\ depends_on g m k.
Proof.
  induction 1 as [|k m D IH F]; [auto|]. right. destruct IH as [->|(q & Fq & Dq)]; [exists m; split; [exact F|constructor]|]. exists q. split; [exact Fq|]. econstructor; eassumption.
Qed.
Lemma set_add_In x l y : In y (set_add x l) <-> y = x \/ In y l.
Proof. unfold set_add. destruct (memb x l) eqn:M; [apply memb_In in M|]; rewrite ?in_app_iff; cbn [In]; intuition (subst; auto). Qed.
Lemma set_add_nodup x l : NoDup l -> NoDup (set_add x l).
Proof.
  intros H. unfold set_add. destruct (memb x l) eqn:M; [exact H|]. apply memb_nIn in M. eapply Permutation_NoDup; [apply Permutation_cons_append|]. constructor; assumption.
Qed.
Section LOADED.
Variable g : graph.
Hypothesis C0 : consistent g.
Lemma succs_spec k m : In m (succs (next_nodes g) k) <-> feeds (nodemap g) k m.
Proof.
  unfold succs. split.
  - intros H. destruct (dget (next_nodes g) k) as [l|] eqn:E; [|destruct H]. apply dget_In in E. unfold next_nodes in E. apply in_map_iff in E as ((k' & n) & X & I0). cbn [fst snd] in X. injection X as <- <-.
    apply in_flat_map in H as (o & Io & Im). fold (glist (consumedby g) o) in Im. apply count_pos in Im. rewrite (tb_cnt _ _ _ _ _ (co_cons g C0)) in Im. unfold cnt_sel in Im.
    destruct (dget (nodemap g) m) as [mn|] eqn:Em; [|lia]. exists n, mn, o. split; [exact I0|]. split; [apply dget_In; exact Em|]. split; [exact Io|]. apply count_pos. lia.
  - intros (kn & mn & t & I1 & I2 & I3 & I4). destruct (nx_spec g C0 k kn I1 t m mn I3 I2 I4) as (l & -> & I5). exact I5.
Qed.
Lemma has_key k n : In (k, n) (nodemap g) -> dhas (nodemap g) k = true.
Proof. intros H. unfold dhas. rewrite (In_dget _ _ _ _ (co_nd g C0) H). reflexivity. Qed.

(** how many keys follow [k] *)
Fixpoint after (k : string) (l : list string) : nat := match l with [] => 0 | x :: r => if String.eqb k x then length r else after k r end.
Lemma after_le k l : (after k l <= length l)%nat.
Proof. induction l as [|x l IH]; cbn; [lia|]. destruct (String.eqb k x); lia. Qed.
Lemma after_before l a b : NoDup l -> before l a b -> (after b l < after a l)%nat.
Proof.
  intros ND (l1 & l2 & l3 & ->). assert (A : forall p x q, NoDup (p ++ x :: q) -> after x (p ++ x :: q) = length q).
  { induction p as [|y p IH]; intros x q D; cbn [List.app after]; [rewrite String.eqb_refl; reflexivity|]. inversion D as [|? ? N D']; subst.
    destruct (String.eqb_spec x y) as [->|]; [exfalso; apply N; apply in_or_app; right; left; reflexivity|apply IH; exact D']. }
  rewrite (A l1 a _ ND). change (l1 ++ a :: l2 ++ b :: l3) with (l1 ++ (a :: l2) ++ b :: l3). rewrite app_assoc, (A (l1 ++ a :: l2) b l3); [rewrite app_length; cbn; lia|].
  rewrite <- app_assoc. exact ND.
Qed.
Hypothesis Ord : listed_in_order g.
Lemma visit_ok : forall d name acc, (after name (dkeys (nodemap g)) < d)%nat -> NoDup acc ->
  exists acc', subtree_visit d (next_nodes g) g name acc = Some acc' /\ NoDup acc' /\
    forall k, In k acc' <-> In k acc \/ (exists m, feeds (nodemap g) name m /\ depends_on g m k).
Proof.
  induction d as [|d IH]; intros name acc L ND; [lia|]. cbn [subtree_visit]. destruct (dhas (nodemap g) name) eqn:HN.
  - assert (X : forall l acc, (forall m, In m l -> feeds (nodemap g) name m) -> NoDup acc ->
      exists acc', fold_left (fun r m => match r with Some a => subtree_visit d (next_nodes g) g m (set_add m a) | None => None end) l (Some acc) = Some acc' /\ NoDup acc' /\
      forall k, In k acc' <-> In k acc \/ exists m, In m l /\ depends_on g m k).
    { induction l as [|m l IHl]; intros a Hl Na; cbn [fold_left].
      - exists a. split; [reflexivity|]. split; [exact Na|]. intros k. split; [auto|]. intros [|(m & [] & _)]; assumption.
      - destruct (IH m (set_add m a)) as (a1 & -> & N1 & S1); [|apply set_add_nodup; exact Na|].
        { assert (after m (dkeys (nodemap g)) < after name (dkeys (nodemap g)))%nat; [|lia]. apply after_before; [apply C0|]. apply Ord, Hl. left. reflexivity. }
        destruct (IHl a1) as (a2 & -> & N2 & S2); [intros; apply Hl; right; assumption|exact N1|]. exists a2. split; [reflexivity|]. split; [exact N2|].
        intros k. rewrite S2, S1, set_add_In. split.
        + intros [[[->|H]|(q & F & Dk)]|(q & I0 & Dk)]; [right; exists m; split; [left; reflexivity|constructor]|auto| |right; exists q; split; [right; exact I0|exact Dk]].
          right. exists m. split; [left; reflexivity|]. eapply dep_trans; [eapply dep_step; [apply dep_self|exact F]|exact Dk].
        + intros [H|(q & [<-|I0] & Dk)]; [auto| |right; exists q; auto]. apply dep_head in Dk as [->|H]; auto. }
    destruct (X (succs (next_nodes g) name) acc) as (a & E & N & Sp); [intros m; apply succs_spec|exact ND|]. exists a. split; [exact E|]. split; [exact N|].
    intros k. rewrite Sp. split; (intros [H|(m & F & D)]; [auto|]); right; exists m; (split; [apply succs_spec; exact F|exact D]).
  - exists acc. split; [reflexivity|]. split; [exact ND|]. intros k. split; [auto|]. intros [H|(m & (na & nb & t & I0 & _) & _)]; [exact H|]. rewrite (has_key _ _ I0) in HN. discriminate.
Qed.
End LOADED.

(** On a loaded graph, [remove_subtree] removes exactly the named node and the nodes that depend on it, whatever the iteration order of
    the set; the tables stay exact; declared outputs that a removed node produced are no longer declared, the others are. *)
Theorem C106_removes_exactly_dependents : forall enum depth g0 name,
  (forall l, Permutation (enum l) l) -> names_match g0 -> unique_producers (nodemap g0) -> listed_in_order g0 -> NoDup (g_output g0) ->
  (length (nodemap g0) < depth)%nat ->
  let g := update_consumer_producer g0 in
  exists g', remove_subtree enum depth (next_nodes g) g name = Some (Ok g') /\ consistent g' /\
    nodemap g' = filter (fun kn => dhas (nodemap g') (fst kn)) (nodemap g0) /\
    (forall k n, In (k, n) (nodemap g') <-> In (k, n) (nodemap g0) /\ ~ depends_on g0 name k) /\
    (forall t, In t (g_output g') <-> In t (g_output g0) /\ ~ exists k n, In (k, n) (nodemap g0) /\ depends_on g0 name k /\ In t (n_out n)) /\
    g_input g' = g_input g0 /\ initials g' = initials g0 /\ dynamics g' = dynamics g0 /\ tensormap g' = tensormap g0.
Proof.
  intros enum depth g0 name HE HN HU HO HD HL g.
  assert (C : consistent g) by (apply loaded_consistent; [apply HU|exact HN|exact HU]).
  pose proof (ucp_spec g0) as U. cbv zeta in U. fold g in U. destruct U as (_ & _ & _ & _ & U1 & U2 & U3 & U4 & U5 & U6).
  assert (O : listed_in_order g) by (unfold listed_in_order; rewrite U1; exact HO).
  assert (DE : forall k, depends_on g name k <-> depends_on g0 name k) by (intros k; split; induction 1; try constructor; econstructor; eauto; rewrite ?U1 in *; assumption).
  destruct (visit_ok g C O depth name [name]) as (S0 & E & ND & Sp).
  { eapply Nat.le_lt_trans; [apply after_le|]. unfold dkeys. rewrite map_length, U1. exact HL. }
  { repeat constructor. intros []. }
  unfold remove_subtree. rewrite E. set (rm := filter (fun k => dhas (nodemap g) k) (enum S0)).
  destruct (remove_nodes_ok rm g C) as (g' & R & C' & M & T1 & I1 & D1 & G1 & A1 & A2 & A3). rewrite R. exists g'. split; [reflexivity|]. split; [exact C'|].
  assert (RM : forall k n, In (k, n) (nodemap g) -> (In k rm <-> depends_on g0 name k)).
  { intros k n I0. unfold rm. rewrite filter_In. rewrite <- DE. assert (In k (enum S0) <-> In k S0) as -> by (split; apply Permutation_in; [apply HE|apply Permutation_sym, HE]).
    rewrite Sp, (has_key g C _ _ I0). cbn [In]. split.
    - intros [[[<-|[]]|(m & F & Dm)] _]; [constructor|]. eapply dep_trans; [eapply dep_step; [apply dep_self|exact F]|exact Dm].
    - intros H. split; [|reflexivity]. apply dep_head in H as [->|H]; auto. }
  assert (MM : forall k n, In (k, n) (nodemap g') <-> In (k, n) (nodemap g0) /\ ~ depends_on g0 name k).
  { intros k n. rewrite M, In_outside, U1. split; (intros [X Y]; split; [exact X|]); rewrite <- U1 in X; [rewrite <- (RM k n X)|rewrite (RM k n X)]; exact Y. }
  split; [|split; [exact MM|]].
  - rewrite M at 1. rewrite U1. unfold outside. apply filter_ext_in. intros (k, n) I0. cbn [fst]. destruct (memb k rm) eqn:B; cbn [negb].
    + symmetry. unfold dhas. destruct (dget (nodemap g') k) as [n'|] eqn:Eg; [|reflexivity]. apply dget_In in Eg. apply MM in Eg as [_ Eg]. apply memb_In in B. rewrite <- U1 in I0. apply (RM k n I0) in B. tauto.
    + symmetry. apply memb_nIn in B. apply (has_key g' C' k n). apply MM. split; [exact I0|]. rewrite <- U1 in I0. rewrite <- (RM k n I0). exact B.
  - assert (MI : forall t, made_inside g rm t <-> exists k n, In (k, n) (nodemap g0) /\ depends_on g0 name k /\ In t (n_out n)).
    { intros t. unfold made_inside. rewrite U1. split.
      - intros (k & n & X & Y & Z). exists k, n. split; [exact Y|]. split; [|exact Z]. rewrite <- U1 in Y. apply (RM k n Y). exact X.
      - intros (k & n & Y & X & Z). exists k, n. split; [|auto]. rewrite <- U1 in Y. apply (RM k n Y). exact X. }
    rewrite <- U2, <- U3, <- U4, <- U5, <- U6. split; [|auto]. intros t. rewrite <- MI. rewrite U6 in *. split.
    + intros H. split; [apply A1; exact H|]. apply (A3 HD). exact H.
    + intros [H1 H2]. apply A2; assumption.
Qed.
(** What remains reads nothing that was removed. *)
Theorem C106_rest_is_closed : forall enum depth g0 name g',
  (forall l, Permutation (enum l) l) -> names_match g0 -> unique_producers (nodemap g0) -> listed_in_order g0 -> NoDup (g_output g0) -> (length (nodemap g0) < depth)%nat ->
  let g := update_consumer_producer g0 in remove_subtree enum depth (next_nodes g) g name = Some (Ok g') ->
  forall t, In t (reads_of (nodes_of g')) -> In t (outs_of (nodes_of g0)) -> In t (outs_of (nodes_of g')).
Proof.
  intros enum depth g0 name g' HE HN HU HO HD HL g H t R P. destruct (C106_removes_exactly_dependents enum depth g0 name HE HN HU HO HD HL) as (g1 & E & _ & _ & MM & _). fold g in E. rewrite H in E. injection E as <-.
  unfold reads_of, outs_of, nodes_of in *. apply in_flat_map in R as (n & In_ & R). apply in_map_iff in In_ as ((k & n') & X & In_). cbn [snd] in X. subst n'.
  apply in_flat_map in P as (p & Ip & P). apply in_map_iff in Ip as ((q & p') & X & Ip). cbn [snd] in X. subst p'. apply MM in In_ as [I1 I2].
  apply in_flat_map. exists p. split; [|exact P]. apply in_map_iff. exists (q, p). split; [reflexivity|]. apply MM. split; [exact Ip|]. intros D. apply I2. eapply dep_step; [exact D|]. exists p, n, t. auto.
Qed.
(** A name that is not in the graph changes nothing. *)
Theorem C106_unknown_name : forall enum depth g0 name,
  (forall l, Permutation (enum l) l) -> ~ In name (dkeys (nodemap g0)) -> (0 < depth)%nat ->
  let g := update_consumer_producer g0 in remove_subtree enum depth (next_nodes g) g name = Some (Ok g).
Proof.
  intros enum depth g0 name HE HN HL g. pose proof (ucp_spec g0) as U. cbv zeta in U. fold g in U. destruct U as (_ & _ & _ & _ & U1 & _).
  unfold remove_subtree. destruct depth; [lia|]. cbn [subtree_visit]. assert (X : dhas (nodemap g) name = false) by (unfold dhas; rewrite U1, (proj2 (dget_None _ _ _) HN); reflexivity). rewrite X.
  assert (enum [name] = [name]) as -> by (apply Permutation_length_1_inv, Permutation_sym, HE). cbn [filter]. rewrite X. reflexivity.
Qed.

(** ** Cost and recursion limit *)
Lemma chain_succ N i m : S i <= N -> In m (succs (next_nodes (square_chain N)) (nname i)) -> m = nname (S i) /\ S i < N.
Proof.
  intros Hi H. apply succs_spec in H; [|apply chain_consistent]. destruct H as (na & nb & t & I1 & I2 & J1 & J2). rewrite chain_nm in *. apply in_map_iff in I1 as (a & X & _). apply in_map_iff in I2 as (b & Y & Hb).
  injection X as X <-. injection Y as <- <-. apply nname_inj in X. subst a. cbn [sq n_out n_in] in *. destruct J1 as [<-|[]]. apply in_seq in Hb. destruct J2 as [J|[J|[]]]; apply tname_inj in J; subst b; split; auto; lia.
Qed.
Lemma chain_succs2 N i : S i < N -> exists l, succs (next_nodes (square_chain N)) (nname i) = nname (S i) :: nname (S i) :: l.
Proof.
  intros Hi. assert (A : 2 <= count (nname (S i)) (succs (next_nodes (square_chain N)) (nname i))).
  { unfold succs. rewrite (In_dget _ _ (nname i) (flat_map (glist (consumedby (square_chain N))) (n_out (sq i)))).
    - exact (chain_consumers N i Hi).
    - unfold dkeys, next_nodes. rewrite map_map. cbn [fst]. apply chain_consistent.
    - unfold next_nodes. apply in_map_iff. exists (nname i, sq i). split; [reflexivity|]. apply dget_In, chain_get. lia. }
  pose proof (fun m => chain_succ N i m ltac:(lia)) as B. destruct (succs (next_nodes (square_chain N)) (nname i)) as [|a [|b l]]; cbn [count] in A.
  - lia.
  - destruct (String.eqb (nname (S i)) a); lia.
  - exists l. destruct (B a) as [-> _]; [left; reflexivity|]. destruct (B b) as [-> _]; [right; left; reflexivity|]. reflexivity.
Qed.
(** For every recursion limit there is a valid chain of nodes, longer than the limit, on which the call fails with RecursionError and
    removes nothing. *)
Theorem C106_deep_graph_refuted : forall enum depth N, (depth < N)%nat ->
  length (nodemap (square_chain N)) = N /\ consistent (square_chain N) /\ acyclic (nodemap (square_chain N)) /\
  remove_subtree enum depth (next_nodes (square_chain N)) (square_chain N) (nname 0) = None.
Proof.
  intros enum depth N HL. split; [rewrite chain_nm, map_length, seq_length; reflexivity|]. split; [apply chain_consistent|]. split; [apply chain_acyclic|].
  assert (X : forall d i acc, (d < N - i)%nat -> subtree_visit d (next_nodes (square_chain N)) (square_chain N) (nname i) acc = None).
  { induction d as [|d IH]; intros i acc Hd; [reflexivity|]. cbn [subtree_visit]. unfold dhas. rewrite chain_get by lia. destruct (chain_succs2 N i) as (l & ->); [lia|]. cbn [fold_left].
    rewrite IH by lia. clear. induction l as [|x l IHl]; [reflexivity|exact IHl]. }
  unfold remove_subtree. rewrite X by lia. reflexivity.
Qed.
(** On the same chains the number of recursive calls is exponential in the number of nodes: nodes are visited once per path. *)
Theorem C106_exponential_calls_refuted : forall depth N, (N <= depth)%nat ->
  2 ^ N - 1 <= subtree_calls depth (next_nodes (square_chain N)) (square_chain N) (nname 0).
Proof.
  intros depth N HL. assert (X : forall d i, (i <= N)%nat -> (N - i <= d)%nat -> 2 ^ (N - i) - 1 <= subtree_calls d (next_nodes (square_chain N)) (square_chain N) (nname i)).
  { induction d as [|d IH]; intros i Hi Hd; [replace (N - i) with 0 by lia; cbn; lia|]. destruct (Nat.eq_dec i N) as [->|Ni]; [rewrite Nat.sub_diag; cbn; lia|].
    cbn [subtree_calls]. unfold dhas. rewrite chain_get by lia. destruct (Nat.eq_dec (S i) N) as [<-|Nj]; [replace (S i - i) with 1 by lia; cbn [Nat.pow]; lia|].
    destruct (chain_succs2 N i) as (l & ->); [lia|]. cbn [fold_left]. specialize (IH (S i) ltac:(lia) ltac:(lia)). replace (N - i) with (S (N - S i)) by lia. cbn [Nat.pow].
    assert (G : forall l a b, a <= b -> a <= fold_left (fun s m => s + subtree_calls d (next_nodes (square_chain N)) (square_chain N) m) l b) by (clear; induction l as [|x l IHl]; intros a b H; cbn [fold_left]; [exact H|apply IHl; lia]).
    match goal with |- _ <= S (fold_left _ l ?b) => pose proof (G l b b (le_n _)) end. lia. }
  specialize (X depth 0). rewrite Nat.sub_0_r in X. apply X; lia.
Qed.
(** x -a-> t; t -b-> u; t -c-> v; u, w -d-> y: removing b removes b and d and leaves a and c *)
Definition demo_sub : graph := mkGraph
  [("a", mkNode "a" "Relu" ["x"] ["t"]); ("b", mkNode "b" "Exp" ["t"] ["u"]); ("c", mkNode "c" "Exp" ["t"] ["v"]); ("d", mkNode "d" "Add" ["u"; "v"] ["y"])]
  [] [] [] [] ["x"; "t"; "u"; "v"; "y"] ["x"] ["v"; "y"].
Example C106_applies : names_match demo_sub /\ unique_producers (nodemap demo_sub) /\ listed_in_order demo_sub /\ NoDup (g_output demo_sub) /\
  exists g', remove_subtree (@rev string) 5 (next_nodes (update_consumer_producer demo_sub)) (update_consumer_producer demo_sub) "b" = Some (Ok g') /\
    dkeys (nodemap g') = ["a"; "c"] /\ g_output g' = ["v"].
Proof.
  split; [apply names_b_ok; reflexivity|]. split; [apply uniq_b_ok; reflexivity|]. split; [apply ordered_b_ok; reflexivity|]. split; [apply nodupb_ok; reflexivity|].
  eexists. split; [vm_compute; reflexivity|]. split; reflexivity.
Qed.
