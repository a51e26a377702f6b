From Verif Require Import PyBase PyBaseFacts GraphModel CompressSpec RelSpec RelProofs TopSortSpec TopSortProofs OrderProofs
  EditModel EditSpec RemoveProofs IoProofs PartitionModel PartitionSpec PartitionProofs.
Local Open Scope list_scope.

Section Const.
Variable g : graph.
Hypothesis HC : consistent g.
Variable static0 : string -> bool.

Definition cnode (static : string -> bool) (k : string) : bool :=
  match dget (nodemap g) k with Some n => is_node_constant static n | None => false end.

Lemma requeue_all_spec : forall static cs cst q, (forall c, In c cs -> In c (dkeys (nodemap g))) ->
  exists cst', requeue_all (nodemap g) static cs (cst, q) = Ok (cst', q ++ filter (cnode static) cs) /\
    (forall x, dget cst' x = if memb x cs && cnode static x then Some true else dget cst x).
Proof.
  intros static. induction cs as [|c r IH]; intros cst q HK.
  - exists cst. cbn [requeue_all filter]. rewrite app_nil_r. split; reflexivity.
  - cbn [requeue_all]. unfold requeue. assert (Kc : In c (dkeys (nodemap g))) by (apply HK; left; reflexivity).
    destruct (dget (nodemap g) c) as [cn|] eqn:E; [|apply dget_None in E; contradiction]. cbn [bind].
    assert (Ec : cnode static c = is_node_constant static cn) by (unfold cnode; rewrite E; reflexivity).
    cbn [filter]. rewrite Ec. destruct (is_node_constant static cn) eqn:F.
    + destruct (IH (dset cst c true) (q ++ [c])) as (cst' & E' & D); [intros; apply HK; right; assumption|].
      rewrite E'. exists cst'. split; [rewrite <- app_assoc; reflexivity|]. intros x. rewrite D. cbn [memb]. rewrite dget_dset.
      destruct (String.eqb_spec x c) as [->|N]; [|reflexivity]. rewrite Ec. cbn [andb]. destruct (memb c r); reflexivity.
    + destruct (IH cst q) as (cst' & E' & D); [intros; apply HK; right; assumption|].
      rewrite E'. exists cst'. split; [reflexivity|]. intros x. rewrite D. cbn [memb].
      destruct (String.eqb_spec x c) as [->|N]; [|reflexivity]. rewrite Ec, andb_false_r, andb_false_r. reflexivity.
Qed.

Definition consumers (n : node) : list string :=
  flat_map (fun o => match dget (consumedby g) o with Some l => l | None => [] end) (n_out n).
Lemma consumers_keys : forall n c, In c (consumers n) -> In c (dkeys (nodemap g)).
Proof.
  intros n c I. apply in_flat_map in I. destruct I as (o & _ & J). apply consumers_iff in J; [|exact HC].
  destruct J as (m & M & _). apply in_map_iff. exists (c, m). auto.
Qed.
Lemma consumers_reads : forall n c, In c (consumers n) <-> exists m t, In (c, m) (nodemap g) /\ In t (n_out n) /\ In t (n_in m).
Proof.
  intros n c. unfold consumers. rewrite in_flat_map. split.
  - intros (o & O & J). apply consumers_iff in J; [|exact HC]. destruct J as (m & M1 & M2). eauto.
  - intros (m & t & M1 & M2 & M3). exists t. split; [exact M2|]. apply consumers_iff; eauto.
Qed.

(** tensors computable from stored data only *)
Inductive const_tensor : string -> Prop :=
| ct_static : forall t, static0 t = true -> const_tensor t
| ct_made : forall k n t, In (k, n) (nodemap g) -> n_op n <> "DequantizeLinear"%string ->
    (forall u, In u (n_in n) -> const_tensor u) -> In t (n_out n) -> const_tensor t.
Definition const_node (k : string) : Prop :=
  exists n, In (k, n) (nodemap g) /\ n_op n <> "DequantizeLinear"%string /\ forall u, In u (n_in n) -> const_tensor u.

Lemma is_constant_iff : forall static n, is_node_constant static n = true <->
  n_op n <> "DequantizeLinear"%string /\ forall u, In u (n_in n) -> static u = true.
Proof. intros. unfold is_node_constant. rewrite andb_true_iff, negb_true_iff, String.eqb_neq, forallb_forall. tauto. Qed.

Record sound (static : string -> bool) (cst : dict bool) (q : list string) : Prop := {
  so_static : forall t, static t = true -> const_tensor t;
  so_cst : forall k, dget cst k = Some true -> const_node k;
  so_q : forall k, In k q -> const_node k;
  so_base : forall t, static0 t = true -> static t = true;
  co_done : forall k n, dget (nodemap g) k = Some n -> dget cst k = Some true -> In k q \/ forall t, In t (n_out n) -> static t = true;
  co_closed : forall k n, dget (nodemap g) k = Some n -> dhas cst k = true -> is_node_constant static n = true -> dget cst k = Some true
}.

Lemma sound_pop : forall static cst k r n cst',
  sound static cst (k :: r) -> dget (nodemap g) k = Some n ->
  (forall x, dget cst' x = if memb x (consumers n) && cnode (add_static static (n_out n)) x then Some true else dget cst x) ->
  dget cst k = Some true ->
  sound (add_static static (n_out n)) cst' (r ++ filter (cnode (add_static static (n_out n))) (consumers n)).
Proof.
  intros static cst k r n cst' [S1 S2 S3 S4 S5 S6] E D Tk.
  assert (T1 : forall t, add_static static (n_out n) t = true -> const_tensor t).
  { intros t H. unfold add_static in H. apply orb_prop in H. destruct H as [H|H]; [|auto]. apply memb_In in H.
    destruct (S3 k (or_introl eq_refl)) as (n' & N1 & N2 & N3). apply In_dget in N1; [|apply HC]. rewrite E in N1. injection N1 as <-.
    eapply ct_made; eauto. apply dget_In. exact E. }
  assert (T2 : forall x, cnode (add_static static (n_out n)) x = true -> const_node x).
  { intros x H. unfold cnode in H. destruct (dget (nodemap g) x) as [xn|] eqn:X; [|discriminate].
    apply is_constant_iff in H. destruct H as [H1 H2]. exists xn. split; [apply dget_In; exact X|]. split; [exact H1|]. intros u U. apply T1, H2, U. }
  constructor.
  - exact T1.
  - intros x Hx. rewrite D in Hx. destruct (memb x (consumers n) && cnode (add_static static (n_out n)) x) eqn:M; [|auto].
    apply andb_prop in M. apply T2. apply M.
  - intros x Hx. apply in_app_iff in Hx. destruct Hx as [Hx|Hx]; [apply S3; right; exact Hx|]. apply filter_In in Hx. apply T2. apply Hx.
  - intros t H. unfold add_static. rewrite (S4 t H). apply orb_true_r.
  - intros x xn Ex Hx. rewrite D in Hx. destruct (memb x (consumers n) && cnode (add_static static (n_out n)) x) eqn:M.
    + left. apply in_app_iff. right. apply filter_In. apply andb_prop in M. destruct M as [M1 M2]. apply memb_In in M1. auto.
    + destruct (S5 x xn Ex Hx) as [[->|I]|I].
      * right. intros t It. rewrite E in Ex. injection Ex as <-. unfold add_static. apply memb_In in It. rewrite It. reflexivity.
      * left. apply in_app_iff. left. exact I.
      * right. intros t It. unfold add_static. rewrite (I t It). apply orb_true_r.
  - intros x xn Ex Hd Hc. rewrite D. destruct (memb x (consumers n) && cnode (add_static static (n_out n)) x) eqn:M; [reflexivity|].
    assert (Cx : cnode (add_static static (n_out n)) x = true) by (unfold cnode; rewrite Ex; exact Hc).
    rewrite Cx, andb_true_r in M. apply memb_nIn in M.
    apply (S6 x xn Ex).
    + unfold dhas in *. rewrite D in Hd. apply memb_nIn in M. rewrite M in Hd. cbn [andb] in Hd. exact Hd.
    + apply is_constant_iff in Hc. apply is_constant_iff. destruct Hc as [H1 H2]. split; [exact H1|]. intros u U. specialize (H2 u U).
      unfold add_static in H2. apply orb_prop in H2. destruct H2 as [H2|H2]; [|exact H2]. exfalso. apply M. apply consumers_reads.
      exists xn, u. apply memb_In in H2. split; [apply dget_In; exact Ex|]. auto.
Qed.

Definition marked (cst : dict bool) (q : list string) : Prop := forall k, In k q -> dget cst k = Some true.

Lemma const_loop_sound : forall fuel static cst q, sound static cst q -> marked cst q ->
  match const_loop fuel g static cst q with
  | None => True
  | Some (Ok (static', cst')) => sound static' cst' [] /\ (forall x, dhas cst x = true -> dhas cst' x = true)
  | Some _ => False
  end.
Proof.
  induction fuel as [|f IH]; intros static cst q HS HM.
  - destruct q; cbn [const_loop]; [auto|exact I].
  - destruct q as [|k r]; cbn [const_loop]; [auto|].
    assert (exists n, dget (nodemap g) k = Some n) as [n E].
    { destruct (so_q _ _ _ HS k (or_introl eq_refl)) as (n & N & _). exists n. apply In_dget; [apply HC|exact N]. }
    rewrite E. fold (consumers n).
    destruct (requeue_all_spec (add_static static (n_out n)) (consumers n) cst r (consumers_keys n)) as (cst' & F & D).
    rewrite F. specialize (IH (add_static static (n_out n)) cst' (r ++ filter (cnode (add_static static (n_out n))) (consumers n))).
    assert (K1 : sound (add_static static (n_out n)) cst' (r ++ filter (cnode (add_static static (n_out n))) (consumers n))).
    { apply (sound_pop static cst k r n); auto. apply HM. left. reflexivity. }
    assert (K2 : marked cst' (r ++ filter (cnode (add_static static (n_out n))) (consumers n))).
    { intros x X. rewrite D. destruct (memb x (consumers n) && cnode (add_static static (n_out n)) x) eqn:M; [reflexivity|].
      apply in_app_iff in X. destruct X as [X|X]; [apply HM; right; exact X|]. apply filter_In in X. destruct X as [X1 X2]. apply memb_In in X1.
      rewrite X1, X2 in M. discriminate. }
    specialize (IH K1 K2). destruct (const_loop f g _ cst' _) as [[[s' c']| | |]|]; auto.
    destruct IH as [I1 I2]. split; [exact I1|]. intros x X. apply I2. unfold dhas. rewrite D.
    destruct (memb x (consumers n) && cnode (add_static static (n_out n)) x); [reflexivity|exact X].
Qed.

Lemma sound_mark : forall static cst k n, sound static cst [] -> dget (nodemap g) k = Some n -> dhas cst k = false ->
  is_node_constant static n = true -> sound static (dset cst k true) [k].
Proof.
  intros static cst k n [S1 S2 S3 S4 S5 S6] E Hk Hc.
  assert (CN : const_node k).
  { apply is_constant_iff in Hc. exists n. split; [apply dget_In; exact E|]. split; [apply Hc|]. intros u U. apply S1, Hc, U. }
  constructor; auto.
  - intros x Hx. rewrite dget_dset in Hx. destruct (String.eqb_spec x k) as [X|N]; [rewrite X; exact CN|auto].
  - intros x [<-|[]]. exact CN.
  - intros x xn Ex Hx. rewrite dget_dset in Hx. destruct (String.eqb_spec x k) as [->|N]; [left; left; reflexivity|].
    destruct (S5 x xn Ex Hx) as [[]|I]. right. exact I.
  - intros x xn Ex Hd Hcx. rewrite dget_dset. destruct (String.eqb_spec x k) as [->|N]; [reflexivity|].
    apply (S6 x xn Ex); [|exact Hcx]. unfold dhas in *. rewrite dget_dset in Hd. destruct (String.eqb_spec x k); [contradiction|exact Hd].
Qed.
Lemma sound_unmark : forall static cst k n, sound static cst [] -> dget (nodemap g) k = Some n -> dhas cst k = false ->
  is_node_constant static n = false -> sound static (dset cst k false) [].
Proof.
  intros static cst k n [S1 S2 S3 S4 S5 S6] E Hk Hc. constructor; auto.
  - intros x Hx. rewrite dget_dset in Hx. destruct (String.eqb_spec x k) as [X|N]; [discriminate|auto].
  - intros x xn Ex Hx. rewrite dget_dset in Hx. destruct (String.eqb_spec x k) as [X|N]; [discriminate|eauto].
  - intros x xn Ex Hd Hcx. rewrite dget_dset. destruct (String.eqb_spec x k) as [->|N].
    + rewrite E in Ex. injection Ex as <-. congruence.
    + apply (S6 x xn Ex); [|exact Hcx]. unfold dhas in *. rewrite dget_dset in Hd. destruct (String.eqb_spec x k); [contradiction|exact Hd].
Qed.

Lemma const_nodes_sound : forall names fuel static cst, incl names (dkeys (nodemap g)) -> sound static cst [] ->
  match const_nodes fuel g names static cst with
  | None => True
  | Some (Ok (static', cst')) => sound static' cst' [] /\ (forall x, In x names \/ dhas cst x = true -> dhas cst' x = true)
  | Some _ => False
  end.
Proof.
  induction names as [|k r IH]; intros fuel static cst HI HS; cbn [const_nodes].
  - split; [exact HS|]. intros x [[]|X]. exact X.
  - assert (HI' : incl r (dkeys (nodemap g))) by (intros x X; apply HI; right; exact X).
    destruct (dhas cst k) eqn:Dk.
    + specialize (IH fuel static cst HI' HS). destruct (const_nodes fuel g r static cst) as [[[s' c']| | |]|]; auto.
      destruct IH as [I1 I2]. split; [exact I1|]. intros x [[<-|X]|X]; apply I2; auto.
    + assert (Kk : In k (dkeys (nodemap g))) by (apply HI; left; reflexivity).
      destruct (dget (nodemap g) k) as [n|] eqn:E; [|apply dget_None in E; contradiction].
      destruct (is_node_constant static n) eqn:F.
      * pose proof (const_loop_sound fuel static (dset cst k true) [k] (sound_mark static cst k n HS E Dk F)) as L.
        assert (marked (dset cst k true) [k]) as MK by (intros x [<-|[]]; apply dget_dset_eq). specialize (L MK).
        destruct (const_loop fuel g static (dset cst k true) [k]) as [[[s1 c1]| | |]|]; auto.
        destruct L as [L1 L2]. specialize (IH fuel s1 c1 HI' L1). destruct (const_nodes fuel g r s1 c1) as [[[s' c']| | |]|]; auto.
        destruct IH as [I1 I2]. split; [exact I1|]. intros x Hx. apply I2.
        assert (Z : forall y, dhas cst y = true \/ y = k -> dhas (dset cst k true) y = true).
        { intros y Y. unfold dhas. rewrite dget_dset. destruct (String.eqb_spec y k); [reflexivity|]. destruct Y; [assumption|contradiction]. }
        destruct Hx as [[<-|X]|X]; [right; apply L2, Z; auto|left; exact X|right; apply L2, Z; auto].
      * specialize (IH fuel static (dset cst k false) HI' (sound_unmark static cst k n HS E Dk F)).
        destruct (const_nodes fuel g r static (dset cst k false)) as [[[s' c']| | |]|]; auto.
        destruct IH as [I1 I2]. split; [exact I1|]. intros x Hx. apply I2.
        destruct Hx as [[<-|X]|X]; [right; unfold dhas; rewrite dget_dset_eq; reflexivity|left; exact X|].
        right. unfold dhas in *. rewrite dget_dset. destruct (String.eqb x k); [reflexivity|exact X].
Qed.

Lemma sound_start : sound static0 [] [].
Proof. constructor; try (intros; discriminate); auto using ct_static; intros k []. Qed.

(** result of a finished search *)
Theorem constant_search_exact : forall fuel r, constant_search fuel g static0 = Some r ->
  exists static cst, r = Ok (static, cst) /\
    (forall k, In k (dkeys (nodemap g)) -> (dget cst k = Some true <-> const_node k)) /\
    (forall t, static t = true <-> const_tensor t).
Proof.
  intros fuel r H. unfold constant_search in H.
  pose proof (const_nodes_sound (dkeys (nodemap g)) fuel static0 [] (incl_refl _) sound_start) as S. rewrite H in S.
  destruct r as [[static cst]| | |]; try contradiction. destruct S as [S1 S2]. exists static, cst. split; [reflexivity|].
  assert (CT : forall t, const_tensor t -> static t = true).
  { intros t D. induction D as [t Ht|k n t I1 I2 I3 IH I4]; [apply (so_base _ _ _ S1); exact Ht|].
    pose proof (In_dget _ _ _ _ (co_nd g HC) I1) as E.
    assert (T : dget cst k = Some true).
    { apply (co_closed _ _ _ S1 k n E); [apply S2; left; apply in_map_iff; exists (k, n); auto|]. apply is_constant_iff. auto. }
    destruct (co_done _ _ _ S1 k n E T) as [[]|J]. apply J. exact I4. }
  split; [|intros t; split; [apply (so_static _ _ _ S1)|apply CT]].
  intros k Ik. split; [apply (so_cst _ _ _ S1)|]. intros (n & N1 & N2 & N3).
  apply (co_closed _ _ _ S1 k n); [apply In_dget; [apply HC|exact N1]|apply S2; left; exact Ik|]. apply is_constant_iff. split; [exact N2|]. auto.
Qed.

(** ---- termination on acyclic graphs ---- *)
Variable w : string -> nat.
Definition wsum (l : list string) : nat := fold_right (fun k a => w k + a) 0 l.
Hypothesis w_dec : forall k n, dget (nodemap g) k = Some n -> S (wsum (consumers n)) <= w k.

Lemma wsum_app : forall a b, wsum (a ++ b) = wsum a + wsum b.
Proof. induction a as [|x r IH]; intros b; [reflexivity|]. cbn [app wsum fold_right]. fold (wsum (r ++ b)) (wsum r). rewrite IH. lia. Qed.
Lemma wsum_filter : forall p l, wsum (filter p l) <= wsum l.
Proof. intros p. induction l as [|x r IH]; [auto|]. cbn [filter]. destruct (p x); cbn [wsum fold_right]; fold (wsum r); [fold (wsum (filter p r))|]; lia. Qed.

Lemma const_loop_total : forall fuel static cst q, wsum q < fuel -> const_loop fuel g static cst q <> None.
Proof.
  induction fuel as [|f IH]; intros static cst q H; [lia|].
  destruct q as [|k r]; cbn [const_loop]; [discriminate|]. destruct (dget (nodemap g) k) as [n|] eqn:E; [|discriminate].
  fold (consumers n).
  destruct (requeue_all_spec (add_static static (n_out n)) (consumers n) cst r (consumers_keys n)) as (cst' & F & _). rewrite F.
  apply IH. rewrite wsum_app. pose proof (wsum_filter (cnode (add_static static (n_out n))) (consumers n)). pose proof (w_dec k n E).
  cbn [wsum fold_right] in H. fold (wsum r) in H. lia.
Qed.
Lemma const_nodes_total : forall names fuel static cst, (forall k, In k names -> w k < fuel) -> const_nodes fuel g names static cst <> None.
Proof.
  induction names as [|k r IH]; intros fuel static cst H; cbn [const_nodes]; [discriminate|].
  assert (H' : forall k, In k r -> w k < fuel) by (intros; apply H; right; assumption).
  destruct (dhas cst k); [auto|]. destruct (dget (nodemap g) k) as [n|]; [|discriminate].
  destruct (is_node_constant static n); [|auto].
  pose proof (const_loop_total fuel static (dset cst k true) [k]) as L. cbn [wsum fold_right] in L. rewrite Nat.add_0_r in L.
  specialize (L (H k (or_introl eq_refl))). destruct (const_loop fuel g static (dset cst k true) [k]) as [[[s c]| | |]|]; try discriminate; try congruence.
  apply IH. exact H'.
Qed.
End Const.

(** a weight for every acyclic graph *)
Lemma list_bound : forall (f : string -> nat) l, exists M, forall x, In x l -> f x <= M.
Proof.
  intros f. induction l as [|y r [M IH]]; [exists 0; intros x []|]. exists (f y + M). intros x [<-|X]; [lia|]. specialize (IH x X). lia.
Qed.
Lemma wsum_bound : forall w l m, (forall x, In x l -> w x <= m) -> wsum w l <= length l * m.
Proof.
  intros w. induction l as [|y r IH]; intros m H; [auto|]. cbn [wsum fold_right length]. fold (wsum w r).
  specialize (IH m (fun x X => H x (or_intror X))). specialize (H y (or_introl eq_refl)). lia.
Qed.
Lemma weight_exists : forall g, consistent g -> acyclic (nodemap g) ->
  exists w, forall k n, dget (nodemap g) k = Some n -> S (wsum w (consumers g n)) <= w k.
Proof.
  intros g HC [rk HR].
  destruct (list_bound rk (dkeys (nodemap g))) as [R HRb].
  destruct (list_bound (fun k => match dget (nodemap g) k with Some n => length (consumers g n) | None => 0 end) (dkeys (nodemap g))) as [D HD].
  exists (fun k => Nat.pow (S D) (R - rk k)). intros k n E.
  assert (Kk : In k (dkeys (nodemap g))) by (eapply dget_Some_keys; exact E).
  pose proof (HD k Kk) as Dk. rewrite E in Dk.
  destruct (consumers g n) as [|c0 cs] eqn:EC.
  - cbn [wsum fold_right]. pose proof (Nat.pow_nonzero (S D) (R - rk k)). lia.
  - rewrite <- EC in *.
    assert (F : forall c, In c (consumers g n) -> rk k < rk c /\ rk c <= R).
    { intros c Ic. apply (consumers_reads g HC) in Ic. destruct Ic as (m & t & M1 & M2 & M3). split.
      - apply HR. exists n, m, t. split; [apply dget_In; exact E|]. auto.
      - apply HRb. apply in_map_iff. exists (c, m). auto. }
    assert (P : R - rk k = S (R - rk k - 1)).
    { destruct (F c0); [rewrite EC; left; reflexivity|]. lia. }
    rewrite P. cbn [Nat.pow]. set (m := Nat.pow (S D) (R - rk k - 1)).
    assert (m <> 0) by (apply Nat.pow_nonzero; discriminate).
    assert (wsum (fun x => S D ^ (R - rk x)) (consumers g n) <= length (consumers g n) * m).
    { apply wsum_bound. intros c Ic. apply Nat.pow_le_mono_r; [discriminate|]. destruct (F c Ic). lia. }
    assert (length (consumers g n) * m <= D * m) by (apply Nat.mul_le_mono_r; exact Dk). lia.
Qed.

Theorem constant_search_total : forall g static0, consistent g -> acyclic (nodemap g) ->
  exists fuel0, forall fuel, fuel0 <= fuel -> constant_search fuel g static0 <> None.
Proof.
  intros g static0 HC HA. destruct (weight_exists g HC HA) as [w Hw].
  destruct (list_bound w (dkeys (nodemap g))) as [M HM].
  exists (S M). intros fuel Hf. unfold constant_search. apply (const_nodes_total g HC w Hw). intros k Ik. specialize (HM k Ik). lia.
Qed.

(** constant = not dependent on run-time data *)
Lemma const_not_runtime : forall g static0 t, consistent g -> (forall t, static0 t = true -> ~ In t (outs_of (nodes_of g))) ->
  const_tensor g static0 t -> ~ runtime g static0 t.
Proof.
  intros g static0 t HC HD C. induction C as [t Ht|k n t I1 I2 I3 IH I4]; intros R.
  - destruct R as [t S N|k n t K1 K2 K3|k n t u K1 K2 K3 K4]; [congruence| |]; apply (HD t Ht); unfold outs_of, nodes_of; apply in_flat_map;
      exists n; (split; [apply in_map_iff; exists (k, n); auto|assumption]).
  - assert (U : forall k' n', In (k', n') (nodemap g) -> In t (n_out n') -> n' = n).
    { intros k' n' J1 J2. assert (k' = k) by (eapply outs_unique_key; [apply (co_uniq g HC)|exact J1|exact I1|exact J2|exact I4]). subst.
      apply In_dget in J1; [|apply HC]. apply In_dget in I1; [|apply HC]. congruence. }
    destruct R as [t S N|k' n' t K1 K2 K3|k' n' t u K1 K2 K3 K4].
    + apply N. unfold outs_of, nodes_of. apply in_flat_map. exists n. split; [apply in_map_iff; exists (k, n); auto|exact I4].
    + rewrite (U _ _ K1 K3) in K2. contradiction.
    + rewrite (U _ _ K1 K4) in K2. exact (IH u K2 K3).
Qed.
Lemma not_runtime_const : forall g static0, consistent g -> acyclic (nodemap g) ->
  (forall k n, In (k, n) (nodemap g) -> ~ runtime_node g static0 n -> const_node g static0 k) /\
  forall t, ~ runtime g static0 t -> const_tensor g static0 t.
Proof.
  intros g static0 HC [rk HR].
  assert (P : forall m k n, rk k < m -> In (k, n) (nodemap g) -> (forall u, In u (n_in n) -> ~ runtime g static0 u) -> forall u, In u (n_in n) -> const_tensor g static0 u).
  { induction m as [|m IH]; intros k n Hm Ik Hn u Iu; [lia|].
    destruct (in_dec string_dec u (outs_of (nodes_of g))) as [J|J].
    - unfold outs_of, nodes_of in J. apply in_flat_map in J. destruct J as (p & J1 & J2). apply in_map_iff in J1. destruct J1 as ([a p'] & X & J1). cbn in X. subst p'.
      assert (rk a < rk k) by (apply HR; exists p, n, u; auto).
      apply (ct_made g static0 a p u J1); [|apply (IH a p); [lia|exact J1|]|exact J2].
      + intro X. apply (Hn u Iu). eapply rt_dequant; eauto.
      + intros x X R. apply (Hn u Iu). eapply rt_made; eauto.
    - destruct (static0 u) eqn:S; [apply ct_static; exact S|]. exfalso. apply (Hn u Iu). apply rt_input; assumption. }
  split.
  - intros k n Ik Hn. exists n. split; [exact Ik|]. split; [intro X; apply Hn; left; exact X|].
    apply (P (S (rk k)) k n); [lia|exact Ik|]. intros u U R. apply Hn. right. exists u. auto.
  - intros t Ht. destruct (in_dec string_dec t (outs_of (nodes_of g))) as [J|J].
    + unfold outs_of, nodes_of in J. apply in_flat_map in J. destruct J as (p & J1 & J2). apply in_map_iff in J1. destruct J1 as ([a p'] & X & J1). cbn in X. subst p'.
      apply (ct_made g static0 a p t J1); [| |exact J2].
      * intro X. apply Ht. eapply rt_dequant; eauto.
      * apply (P (S (rk a)) a p); [lia|exact J1|]. intros u U R. apply Ht. eapply rt_made; eauto.
    + destruct (static0 t) eqn:S; [apply ct_static; exact S|]. exfalso. apply Ht. apply rt_input; assumption.
Qed.

Theorem constant_search_correct : forall g static0, consistent g -> acyclic (nodemap g) ->
  (forall t, static0 t = true -> ~ In t (outs_of (nodes_of g))) ->
  exists fuel0, forall fuel, fuel0 <= fuel -> exists static cst, constant_search fuel g static0 = Some (Ok (static, cst)) /\
    (forall k n, In (k, n) (nodemap g) -> (dget cst k = Some true <-> ~ runtime_node g static0 n)) /\
    (forall t, static t = true <-> ~ runtime g static0 t).
Proof.
  intros g static0 HC HA HD. destruct (constant_search_total g static0 HC HA) as [f0 H0]. exists f0. intros fuel Hf.
  destruct (constant_search fuel g static0) as [r|] eqn:E; [|exfalso; exact (H0 fuel Hf E)].
  destruct (constant_search_exact g HC static0 fuel r E) as (static & cst & -> & X1 & X2). exists static, cst. split; [reflexivity|].
  destruct (not_runtime_const g static0 HC HA) as [N1 N2]. split.
  - intros k n Ik. rewrite X1 by (apply in_map_iff; exists (k, n); auto). split; [|apply N1; exact Ik].
    intros (n' & M1 & M2 & M3). assert (n' = n) by (apply In_dget in M1; [|apply HC]; apply In_dget in Ik; [|apply HC]; congruence). subst n'.
    intros [D|(u & U1 & U2)]; [contradiction|]. exact (const_not_runtime g static0 u HC HD (M3 u U1) U2).
  - intros t. rewrite X2. split; [apply const_not_runtime; assumption|apply N2].
Qed.
