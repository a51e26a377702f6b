(** Work done by the constant search on a chain of n nodes "t(i+1) = Mul(t i, t i)". *)
From Verif Require Import PyBase PyBaseFacts GraphModel CompressSpec RelSpec RelProofs TopSortSpec TopSortProofs OrderProofs
  EditModel EditSpec RemoveProofs IoProofs PartitionModel PartitionSpec PartitionProofs ConstProofs.
Local Open Scope list_scope.

Fixpoint nname (i : nat) : string := match i with O => "n" | S j => String "n" (nname j) end.
Definition tname (i : nat) : string := String "t" (nname i).
Definition sq (i : nat) : node := mkNode (nname i) "Mul" [tname i; tname i] [tname (S i)].
Definition square_chain (N : nat) : graph := update_consumer_producer (mkGraph
  (map (fun i => (nname i, sq i)) (seq 0 N)) [] [] [] [tname 0] [] [] [tname N]).
(** only the first operand is stored in the model *)
Definition only_first (t : string) : bool := String.eqb t (tname 0).

Lemma nname_len : forall i, String.length (nname i) = S i.
Proof. induction i as [|i IH]; [reflexivity|]. cbn [nname String.length]. rewrite IH. reflexivity. Qed.
Lemma nname_inj : forall i j, nname i = nname j -> i = j.
Proof. intros i j H. apply (f_equal String.length) in H. rewrite !nname_len in H. lia. Qed.
Lemma tname_inj : forall i j, tname i = tname j -> i = j.
Proof. intros i j H. unfold tname in H. injection H as H. apply nname_inj. exact H. Qed.

Section Chain.
Variable N : nat.
Let g := square_chain N.
Let raw := map (fun i => (nname i, sq i)) (seq 0 N).

Lemma chain_nm : nodemap g = raw.
Proof. unfold g, square_chain. pose proof (ucp_spec (mkGraph raw [] [] [] [tname 0] [] [] [tname N])) as H. cbv zeta in H.
  destruct H as (_ & _ & _ & _ & H & _). exact H. Qed.
Lemma raw_NoDup : NoDup (map fst raw).
Proof.
  unfold raw. rewrite map_map. cbn [fst]. generalize (seq_NoDup N 0). generalize (seq 0 N) as l. induction l as [|x r IH]; intros ND; [constructor|].
  inversion ND as [|? ? N1 N2]; subst. cbn [map]. constructor; [|apply IH; exact N2]. intro X. apply in_map_iff in X. destruct X as (y & Y & I).
  apply nname_inj in Y. subst. contradiction.
Qed.
Lemma raw_uniq : unique_producers raw.
Proof.
  split; [exact raw_NoDup|]. unfold raw. generalize (seq_NoDup N 0). generalize (seq 0 N) as l. induction l as [|x r IH]; intros ND; [constructor|].
  inversion ND as [|? ? N1 N2]; subst. cbn [map flat_map snd sq n_out app]. constructor; [|apply IH; exact N2].
  intro X. apply in_flat_map in X. destruct X as ([k m] & I & J). apply in_map_iff in I. destruct I as (y & Y & I). injection Y as <- <-.
  cbn [snd sq n_out] in J. destruct J as [J|[]]. apply tname_inj in J. injection J as <-. contradiction.
Qed.
Lemma chain_consistent : consistent g.
Proof.
  apply loaded_consistent; cbn [nodemap].
  - exact raw_NoDup.
  - intros k n I. cbn [nodemap] in I. apply in_map_iff in I. destruct I as (i & X & _). injection X as <- <-. reflexivity.
  - exact raw_uniq.
Qed.
Lemma chain_acyclic : acyclic (nodemap g).
Proof.
  exists String.length. intros a b (na & nb & t & I1 & I2 & J1 & J2). rewrite chain_nm in *. apply in_map_iff in I1, I2.
  destruct I1 as (i & X & _). destruct I2 as (j & Y & _). injection X as <- <-. injection Y as <- <-.
  cbn [sq n_out n_in] in *. destruct J1 as [<-|[]]. rewrite !nname_len. destruct J2 as [J|[J|[]]]; apply tname_inj in J; lia.
Qed.
Lemma chain_get : forall i, i < N -> dget (nodemap g) (nname i) = Some (sq i).
Proof.
  intros i Hi. apply In_dget; [rewrite chain_nm; exact raw_NoDup|]. rewrite chain_nm. apply in_map_iff. exists i. split; [reflexivity|]. apply in_seq. lia.
Qed.
Lemma chain_consumers : forall i, S i < N -> 2 <= count (nname (S i)) (consumers g (sq i)).
Proof.
  intros i Hi. unfold consumers. cbn [sq n_out flat_map]. rewrite app_nil_r. fold (glist (consumedby g) (tname (S i))).
  rewrite (tb_cnt _ _ _ _ _ (co_cons g chain_consistent)). unfold cnt_sel. rewrite chain_get by exact Hi. cbn [sq n_in count].
  rewrite String.eqb_refl. destruct (String.eqb (nname (S i)) ""); lia.
Qed.

(** visits caused by one queue entry *)
Definition cost (k : string) : nat := 2 ^ (N - (String.length k - 1)) - 1.
Lemma cost_n : forall i, cost (nname i) = 2 ^ (N - i) - 1.
Proof. intros i. unfold cost. rewrite nname_len. do 3 f_equal. lia. Qed.
Lemma wsum_count : forall w k l, count k l * w k <= wsum w l.
Proof.
  intros w k. induction l as [|x r IH]; [auto|]. cbn [count wsum fold_right]. fold (wsum w r).
  destruct (String.eqb_spec k x) as [->|X]; lia.
Qed.

Definition on_chain (q : list string) : Prop := forall k, In k q -> exists i, i < N /\ k = nname i.

Lemma chain_loop : forall fuel static cst q, on_chain q -> fuel < wsum cost q -> const_loop fuel g static cst q = None.
Proof.
  induction fuel as [|f IH]; intros static cst q HQ HF.
  - destruct q; [cbn in HF; lia|reflexivity].
  - destruct q as [|k r]; [cbn in HF; lia|]. cbn [const_loop].
    destruct (HQ k (or_introl eq_refl)) as (i & Hi & ->). rewrite chain_get by exact Hi.
    fold (consumers g (sq i)).
    destruct (requeue_all_spec g (add_static static (n_out (sq i))) (consumers g (sq i)) cst r (consumers_keys g chain_consistent (sq i))) as (cst' & F & _).
    rewrite F. apply IH.
    + intros x X. apply in_app_iff in X. destruct X as [X|X]; [apply HQ; right; exact X|]. apply filter_In in X. destruct X as [X _].
      apply (consumers_keys g chain_consistent) in X. rewrite chain_nm in X. unfold raw, dkeys in X. rewrite map_map in X. cbn [fst] in X.
      apply in_map_iff in X. destruct X as (j & <- & J). apply in_seq in J. exists j. split; [lia|reflexivity].
    + rewrite wsum_app. cbn [wsum fold_right] in HF. fold (wsum cost r) in HF. rewrite cost_n in HF.
      set (l := filter (cnode g (add_static static (n_out (sq i)))) (consumers g (sq i))).
      assert (HL : 2 ^ (N - i) - 2 <= wsum cost l).
      { destruct (Nat.lt_ge_cases (S i) N) as [L|L].
        - pose proof (wsum_count cost (nname (S i)) l) as W. rewrite cost_n in W.
          assert (C : count (nname (S i)) l = count (nname (S i)) (consumers g (sq i))).
          { unfold l. assert (cnode g (add_static static (n_out (sq i))) (nname (S i)) = true) as K.
            { unfold cnode. rewrite chain_get by exact L. apply is_constant_iff. split; [discriminate|]. intros u [<-|[<-|[]]]; unfold add_static; cbn [sq n_out memb]; rewrite String.eqb_refl; reflexivity. }
            clear - K. induction (consumers g (sq i)) as [|y r IH]; [reflexivity|]. cbn [filter count].
            destruct (String.eqb_spec (nname (S i)) y) as [<-|Ny].
            - rewrite K. cbn [count]. rewrite String.eqb_refl, IH. reflexivity.
            - destruct (cnode g _ y); [cbn [count]; destruct (String.eqb_spec (nname (S i)) y); [contradiction|]|]; exact IH. }
          rewrite C in W. pose proof (chain_consumers i L) as C2.
          replace (N - i) with (S (N - S i)) by lia. cbn [Nat.pow]. set (p := 2 ^ (N - S i)) in *.
          assert (2 * (p - 1) <= count (nname (S i)) (consumers g (sq i)) * (p - 1)) by (apply Nat.mul_le_mono_r; exact C2). lia.
        - replace (N - i) with 1 by lia. cbn. lia. }
      lia.
Qed.
End Chain.

Theorem constant_search_exponential : forall N fuel, fuel < 2 ^ N - 1 -> constant_search fuel (square_chain N) only_first = None.
Proof.
  intros N fuel H. destruct N as [|N]; [cbn in H; lia|].
  unfold constant_search. rewrite chain_nm. unfold dkeys. rewrite map_map. cbn [seq map fst const_nodes dhas dget].
  rewrite chain_get by lia.
  assert (is_node_constant only_first (sq 0) = true) as -> by reflexivity.
  rewrite chain_loop; [reflexivity| |].
  - intros k [<-|[]]. exists 0. split; [lia|reflexivity].
  - cbn [wsum fold_right]. change "n"%string with (nname 0). rewrite cost_n, Nat.sub_0_r. lia.
Qed.
