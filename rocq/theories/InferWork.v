(** Work done by the search for shape computations on N nodes "t(i+1) = Mul(t i, t i)" followed by "Reshape(t N, t N)". *)
From Verif Require Import PyBase PyBaseFacts GraphModel CompressSpec RelSpec RelProofs TopSortSpec TopSortProofs OrderProofs
  EditModel EditSpec RemoveProofs IoProofs PartitionModel PartitionSpec PartitionProofs ConstProofs ConstWork ShapeModel InferModel InferSpec InferProofs.
Local Open Scope string_scope.
Local Open Scope list_scope.

(** the same loop as [search], counting the executions of its inner body (graph.py:527-535) *)
Fixpoint visits (fuel : nat) (g : graph) (marks level : list string) : nat :=
  match level with
  | [] => 0
  | _ =>
      match fuel with
      | O => 0
      | S f => length level + match search_level g level (marks, []) with Ok (m, nx) => visits f g m nx | _ => 0 end
      end
  end%nat.

Definition sqr (N i : nat) : node := mkNode (nname i) (if Nat.eqb i N then "Reshape" else "Mul") [tname i; tname i] [tname (S i)].
Definition reshape_chain (N : nat) : graph := update_consumer_producer (mkGraph
  (map (fun i => (nname i, sqr N i)) (seq 0 (S N))) [] [] [] [tname 0] [] [] [tname (S N)]).

Section Chain.
Variable N : nat.
Let g := reshape_chain N.
Let raw := map (fun i => (nname i, sqr N i)) (seq 0 (S N)).
Lemma rc_nm : nodemap g = raw.
Proof. unfold g, reshape_chain. pose proof (ucp_spec (mkGraph raw [] [] [] [tname 0] [] [] [tname (S N)])) as H. cbv zeta in H.
  destruct H as (_ & _ & _ & _ & H & _). exact H. Qed.
Lemma rc_NoDup : NoDup (map fst raw).
Proof.
  unfold raw. rewrite map_map. cbn [fst]. generalize (seq_NoDup (S N) 0). generalize (seq 0 (S N)) as l. induction l as [|x r IH]; intros ND; [constructor|].
  inversion ND as [|? ? N1 N2]; subst. cbn [map]. constructor; [|apply IH; exact N2]. intro X. apply in_map_iff in X. destruct X as (y & Y & I).
  apply nname_inj in Y. subst. contradiction.
Qed.
Lemma rc_uniq : unique_producers raw.
Proof.
  split; [exact rc_NoDup|]. unfold raw. generalize (seq_NoDup (S N) 0). generalize (seq 0 (S N)) as l. induction l as [|x r IH]; intros ND; [constructor|].
  inversion ND as [|? ? N1 N2]; subst. cbn [map flat_map snd sqr n_out app]. constructor; [|apply IH; exact N2].
  intro X. apply in_flat_map in X. destruct X as ([k m] & I & J). apply in_map_iff in I. destruct I as (y & Y & I). injection Y as <- <-.
  cbn [snd sqr n_out] in J. destruct J as [J|[]]. apply tname_inj in J. injection J as <-. contradiction.
Qed.
Lemma rc_consistent : consistent g.
Proof.
  apply loaded_consistent; cbn [nodemap].
  - exact rc_NoDup.
  - intros k n I. cbn [nodemap] in I. apply in_map_iff in I. destruct I as (i & X & _). injection X as <- <-. reflexivity.
  - exact rc_uniq.
Qed.
Lemma rc_acyclic : acyclic (nodemap g).
Proof.
  exists String.length. intros a b (na & nb & t & I1 & I2 & J1 & J2). rewrite rc_nm in *. apply in_map_iff in I1, I2.
  destruct I1 as (i & X & _). destruct I2 as (j & Y & _). injection X as <- <-. injection Y as <- <-.
  cbn [sqr n_out n_in] in *. destruct J1 as [<-|[]]. rewrite !nname_len. destruct J2 as [J|[J|[]]]; apply tname_inj in J; lia.
Qed.
Lemma rc_get : forall i, (i <= N)%nat -> dget (nodemap g) (nname i) = Some (sqr N i).
Proof.
  intros i Hi. apply In_dget; [rewrite rc_nm; exact rc_NoDup|]. rewrite rc_nm. apply in_map_iff. exists i. split; [reflexivity|]. apply in_seq. lia.
Qed.
Lemma rc_init : initials g = [tname 0].
Proof. unfold g, reshape_chain, update_consumer_producer. destruct (fold_left upd_node _ _). reflexivity. Qed.
Lemma single_of_count (l : list string) x : (forall y, count y l = if String.eqb y x then 1 else 0)%nat -> l = [x].
Proof.
  intros H. assert (Q : forall y, In y l -> y = x).
  { intros y Hy. apply count_pos in Hy. rewrite H in Hy. destruct (String.eqb_spec y x); [assumption|lia]. }
  pose proof (H x) as Hx. rewrite String.eqb_refl in Hx. destruct l as [|a [|b l]]; [discriminate| |].
  - rewrite (Q a (or_introl eq_refl)). reflexivity.
  - rewrite (Q a (or_introl eq_refl)), (Q b (or_intror (or_introl eq_refl))) in Hx. cbn [count] in Hx. rewrite String.eqb_refl in Hx. lia.
Qed.
Lemma rc_prod : forall i, (i <= N)%nat -> dget (producedby g) (tname (S i)) = Some [nname i].
Proof.
  intros i Hi. assert (E : glist (producedby g) (tname (S i)) = [nname i]).
  { apply single_of_count. intros y. rewrite (tb_cnt _ _ _ _ _ (co_prod g rc_consistent)). unfold cnt_sel. cbn [count].
    destruct (String.eqb_spec y (nname i)) as [->|Ny].
    - rewrite rc_get by exact Hi. cbn [sqr n_out count]. rewrite String.eqb_refl. destruct (String.eqb (nname i) ""); reflexivity.
    - destruct (dget (nodemap g) y) as [m|] eqn:Em; [|destruct (String.eqb y ""); reflexivity]. apply dget_In in Em. rewrite rc_nm in Em.
      apply in_map_iff in Em. destruct Em as (j & X & _). injection X as <- <-. cbn [sqr n_out count].
      destruct (String.eqb_spec (tname (S i)) (tname (S j))) as [Et|_]; [apply tname_inj in Et; congruence|]. destruct (String.eqb (nname j) ""); reflexivity. }
  unfold glist in E. destruct (dget (producedby g) (tname (S i))); [congruence|discriminate].
Qed.


Lemma nname_memb_snoc j k marks : j <> k -> memb (nname j) (marks ++ [nname k]) = memb (nname j) marks.
Proof.
  intros Hn. destruct (memb (nname j) marks) eqn:E.
  - apply memb_In in E. apply memb_In, in_app_iff. auto.
  - apply memb_nIn in E. apply memb_nIn. rewrite in_app_iff. intros [X|[X|[]]]; [auto|]. apply nname_inj in X. congruence.
Qed.
(** one visit of node i+1 queues node i twice while it is unmarked *)
Lemma one_visit i marks next : (S i < N)%nat -> ~ In (nname i) marks ->
  search_node g (marks, next) (nname (S i)) = Ok (if memb (nname (S i)) marks then marks else marks ++ [nname (S i)], next ++ [nname i; nname i]).
Proof.
  intros Hi Hm. unfold search_node. rewrite rc_get by lia. cbn [fst snd sqr n_op n_in].
  replace (Nat.eqb (S i) N) with false by (symmetry; apply Nat.eqb_neq; lia). change (String.eqb "Mul" "Shape") with false. cbn [flat_map].
  set (m1 := if memb (nname (S i)) marks then marks else marks ++ [nname (S i)]).
  assert (F : next_of_input g m1 (tname (S i)) = [nname i]).
  { unfold next_of_input. rewrite rc_init. cbn [memb]. destruct (String.eqb_spec (tname (S i)) (tname 0)) as [X|_]; [apply tname_inj in X; discriminate|].
    cbn [orb]. rewrite rc_prod by lia. cbn [filter]. assert (E : memb (nname i) m1 = false).
    { apply memb_nIn in Hm. unfold m1. destruct (memb (nname (S i)) marks); [exact Hm|]. rewrite nname_memb_snoc by lia. exact Hm. }
    rewrite E. reflexivity. }
  rewrite F. reflexivity.
Qed.
Lemma repeat_two {A} (a : A) n : repeat a (2 * S n) = [a; a] ++ repeat a (2 * n).
Proof. replace (2 * S n)%nat with (S (S (2 * n))) by lia. reflexivity. Qed.
Lemma level_repeat i : (S i < N)%nat -> forall c marks next, ~ In (nname i) marks ->
  exists marks', search_level g (repeat (nname (S i)) c) (marks, next) = Ok (marks', next ++ repeat (nname i) (2 * c)) /\
    (forall j, (j <= i)%nat -> ~ In (nname j) marks -> ~ In (nname j) marks').
Proof.
  intros Hi. induction c as [|c IH]; intros marks next Hm.
  - exists marks. cbn. rewrite app_nil_r. auto.
  - cbn [repeat search_level]. rewrite (one_visit i marks next Hi Hm). cbn [bind].
    set (m1 := if memb (nname (S i)) marks then marks else marks ++ [nname (S i)]).
    assert (M : forall j, (j <= i)%nat -> ~ In (nname j) marks -> ~ In (nname j) m1).
    { intros j Hj Hn. unfold m1. destruct (memb (nname (S i)) marks); [exact Hn|]. apply memb_nIn. rewrite nname_memb_snoc by lia. apply memb_nIn, Hn. }
    destruct (IH m1 (next ++ [nname i; nname i])) as (m2 & E & Q); [apply M; [lia|exact Hm]|].
    exists m2. rewrite E. split; [rewrite repeat_two, <- app_assoc; reflexivity|]. intros j Hj Hn. apply Q; [exact Hj|]. apply M; assumption.
Qed.
Lemma chain_visits : forall i, (i < N)%nat -> forall fuel c marks, (i < fuel)%nat -> (forall j, (j <= i)%nat -> ~ In (nname j) marks) ->
  (c * (2 ^ S i - 1) <= visits fuel g marks (repeat (nname i) c))%nat.
Proof.
  induction i as [|i IH]; intros Hi fuel c marks HF HM; (destruct c as [|c]; [cbn; lia|]); (destruct fuel as [|f]; [lia|]).
  - cbn [repeat visits length]. rewrite repeat_length. change (2 ^ 1 - 1)%nat with 1%nat. lia.
  - assert (E : visits (S f) g marks (repeat (nname (S i)) (S c)) = (length (repeat (nname (S i)) (S c)) +
        match search_level g (repeat (nname (S i)) (S c)) (marks, []) with Ok (m, nx) => visits f g m nx | _ => 0 end)%nat) by reflexivity.
    rewrite E, repeat_length. destruct (level_repeat i Hi (S c) marks []) as (m' & E' & Q); [apply HM; lia|].
    rewrite E'. cbn [app]. pose proof (IH ltac:(lia) f (2 * S c)%nat m' ltac:(lia)) as L. specialize (L ltac:(intros j Hj; apply Q; [exact Hj|apply HM; lia])).
    assert (P : (2 ^ S (S i) = 2 * 2 ^ S i)%nat) by (cbn [Nat.pow]; lia). assert (P1 : (1 <= 2 ^ S i)%nat) by (clear; induction i; cbn [Nat.pow] in *; lia). nia.
Qed.
Lemma rc_shape_tensors t : In t (shape_tensors g) <-> t = tname N.
Proof.
  rewrite shape_tensors_in. split.
  - intros (m & n & Hm & i & Hi & Ht). rewrite rc_nm in Hm. apply in_map_iff in Hm as (j & X & _). injection X as <- <-. cbn [sqr n_op n_in length] in Hi, Ht.
    destruct (Nat.eqb_spec j N) as [->|_]; inversion Hi; subst. cbn in Ht. congruence.
  - intros ->. exists (nname N), (sqr N N). split; [apply dget_In, rc_get; lia|]. exists 1%nat. split; [|reflexivity].
    cbn [sqr n_op n_in length]. rewrite Nat.eqb_refl. constructor.
Qed.
End Chain.
Theorem search_exponential : forall N, (1 <= N)%nat ->
  consistent (reshape_chain N) /\ acyclic (nodemap (reshape_chain N)) /\ length (nodemap (reshape_chain N)) = S N /\
  (forall t, In t (shape_tensors (reshape_chain N)) <-> t = tname N) /\
  exists ps, dget (producedby (reshape_chain N)) (tname N) = Some ps /\
    forall fuel, (N <= fuel)%nat -> (2 ^ N - 1 <= visits fuel (reshape_chain N) [] ps)%nat.
Proof.
  intros N HN. split; [apply rc_consistent|]. split; [apply rc_acyclic|]. split; [rewrite rc_nm, map_length, seq_length; reflexivity|].
  split; [apply rc_shape_tensors|]. destruct N as [|N]; [lia|]. exists [nname N]. split; [apply rc_prod; lia|]. intros fuel HF.
  pose proof (chain_visits (S N) N ltac:(lia) fuel 1 [] ltac:(lia) ltac:(intros j _ [])) as H. cbn [repeat] in H. lia.
Qed.
