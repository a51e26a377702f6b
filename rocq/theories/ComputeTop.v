From Verif Require Import PyBase PyBaseFacts GraphModel CompressSpec RelSpec RelProofs TopSortSpec EditModel EditSpec
  RemoveProofs IoProofs FuseProofs ComputeModel ComputeSpec ComputeProofs.
Local Open Scope string_scope.
Local Open Scope list_scope.

Lemma compute_ok : forall g calc fuel, consistent g -> enough_fuel g fuel -> (forall k, In k calc -> In k (dkeys (nodemap g))) ->
  exists self' cg rm, get_compute_graph fuel g calc = Some (Ok (self', cg)) /\ consistent self' /\ cg = with_dynamics self' (new_dynamics self') /\
    nodemap self' = outside rm (nodemap g) /\ (forall x, In x rm <-> dropped g calc x) /\
    tensormap self' = tensormap g /\ initials self' = initials g /\ dynamics self' = dynamics g /\ g_input self' = g_input g /\
    (forall t, In t (g_output self') -> In t (g_output g)) /\
    (forall t, In t (g_output g) -> ~ made_inside g rm t -> In t (g_output self')).
Proof.
  intros g calc fuel HC (rk & Hrk & HF) HK. destruct (scan_all g calc HC rk Hrk fuel HF HK) as (rm & E & H).
  destruct (remove_nodes_ok rm g HC) as (g1 & R & C1 & M1 & T1 & I1 & D1 & GI1 & A1 & A2 & A3).
  exists g1, (with_dynamics g1 (new_dynamics g1)), rm. unfold get_compute_graph. rewrite E, R. cbn [bind].
  repeat (split; [first [reflexivity|assumption]|]). assumption.
Qed.
Lemma consistent_dynamics : forall g d, consistent g -> consistent (with_dynamics g d).
Proof. intros g d [H1 H2 H3 H4 H5]. constructor; assumption. Qed.

Lemma node_in : forall g n, In n (nodes_of g) <-> exists k, In (k, n) (nodemap g).
Proof.
  intros g n. unfold nodes_of. rewrite in_map_iff. split; [intros ([k m] & <- & I); eauto|intros (k & I); exists (k, n); auto].
Qed.
Lemma read_in : forall g t, In t (reads_of (nodes_of g)) <-> exists k n, In (k, n) (nodemap g) /\ In t (n_in n).
Proof.
  intros g t. unfold reads_of. rewrite in_flat_map. split.
  - intros (n & I & O). apply node_in in I. destruct I as (k & I). eauto.
  - intros (k & n & I & O). exists n. split; [apply node_in; eauto|exact O].
Qed.
Lemma out_in : forall g t, In t (outs_of (nodes_of g)) <-> exists k n, In (k, n) (nodemap g) /\ In t (n_out n).
Proof.
  intros g t. unfold outs_of. rewrite in_flat_map. split.
  - intros (n & I & O). apply node_in in I. destruct I as (k & I). eauto.
  - intros (k & n & I & O). exists n. split; [apply node_in; eauto|exact O].
Qed.
Lemma sole_reader_eq : forall g t k n m mn, consistent g -> count t (reads_of (nodes_of g)) = 1 ->
  In (k, n) (nodemap g) -> In t (n_in n) -> In (m, mn) (nodemap g) -> In t (n_in mn) -> k = m.
Proof.
  intros g t k n m mn HC E I1 R1 I2 R2. rewrite <- (consistent_reads g t HC) in E.
  assert (X1 : In k (glist (consumedby g) t)) by (apply cons_spec; eauto).
  assert (X2 : In m (glist (consumedby g) t)) by (apply cons_spec; eauto).
  destruct (glist (consumedby g) t) as [|a [|b r]]; try discriminate. destruct X1 as [<-|[]], X2 as [<-|[]]. reflexivity.
Qed.
(** the operand of a kept node comes from a kept node, a shape node or no node *)
Lemma kept_operand : forall g calc x xn t p pn, consistent g -> one_wanted_output g -> In (x, xn) (nodemap g) -> ~ dropped g calc x ->
  In t (n_in xn) -> In (p, pn) (nodemap g) -> In t (n_out pn) -> ~ dropped g calc p \/ In p calc.
Proof.
  intros g calc x xn t p pn HC H1 Ix Dx Rt Ip Ot.
  assert (ND : upstream g calc p -> False).
  { intros U. inversion U as [k D E|p' k U' F E]; subst.
    - destruct D as (_ & n & In' & H).
      assert (n = pn) by (pose proof (node_at g HC _ _ Ip); pose proof (node_at g HC _ _ In'); congruence). subst n.
      apply Dx. left. eapply (proj2 (H t Ot)); eauto.
    - destruct F as (pn' & kn & s & J1 & J2 & J3 & J4 & J5).
      assert (pn' = pn) by (pose proof (node_at g HC _ _ Ip); pose proof (node_at g HC _ _ J1); congruence). subst pn'.
      assert (s = t). { eapply H1; [exact Ip|exact J3|exact Ot| |]; left; apply read_in; eauto. }
      subst s. assert (x = k) by (eapply sole_reader_eq; eauto). subst k. apply Dx. right. exact U'. }
  destruct (in_dec string_dec p calc) as [I|N]; [right; exact I|left]. intros [D|D]; auto.
Qed.

Lemma compute_values : forall V (sem : node -> list V -> list V) g calc self' (v w : string -> V) rm rk, consistent g ->
  (forall a b, feeds (nodemap g) a b -> rk a < rk b) -> one_wanted_output g ->
  nodemap self' = outside rm (nodemap g) -> (forall x, In x rm <-> dropped g calc x) ->
  solves sem (nodes_of g) v -> solves sem (nodes_of self') w ->
  (forall t, source g t \/ made_by g (fun k => In k calc) t -> w t = v t) ->
  forall k n, In (k, n) (nodemap self') -> forall t, In t (n_in n) \/ In t (n_out n) -> w t = v t.
Proof.
  intros V sem g calc self' v w rm rk HC Hrk H1 M HR Sv Sw Hs.
  assert (K : forall k n, In (k, n) (nodemap self') <-> In (k, n) (nodemap g) /\ ~ dropped g calc k).
  { intros k n. rewrite M, In_outside, HR. reflexivity. }
  assert (Main : forall m k n, rk k < m -> In (k, n) (nodemap self') -> forall t, In t (n_in n) \/ In t (n_out n) -> w t = v t).
  { induction m as [|m IH]; intros k n L I; [lia|].
    assert (Ins : forall t, In t (n_in n) -> w t = v t).
    { intros t R. pose proof I as I'. apply K in I'. destruct I' as [Ig Dk].
      destruct (in_dec string_dec t (outs_of (nodes_of g))) as [O|O]; [|apply Hs; left; exact O].
      apply out_in in O. destruct O as (p & pn & Ip & Op).
      destruct (kept_operand g calc k n t p pn HC H1 Ig Dk R Ip Op) as [Kp|Cp].
      - apply (IH p pn); [|apply K; auto|right; exact Op].
        assert (rk p < rk k) by (apply Hrk; exists pn, n, t; auto). lia.
      - apply Hs. right. exists p, pn. auto. }
    intros t [R|O]; [apply Ins, R|].
    assert (E : map w (n_out n) = map v (n_out n)).
    { rewrite (Sw n) by (apply node_in; eauto). rewrite (Sv n) by (apply node_in; exists k; apply K in I; apply I).
      f_equal. apply map_ext_in. intros u U. apply Ins, U. }
    clear - E O. induction (n_out n) as [|a r IHr]; [destruct O|]. cbn [map] in E. injection E as E1 E2. destruct O as [<-|O]; auto. }
  intros k n. apply (Main (S (rk k))). lia.
Qed.

Lemma outputs_kept : forall g calc rm t, consistent g -> outputs_unread g -> one_wanted_output g -> (forall x, In x rm <-> dropped g calc x) ->
  In t (g_output g) -> ~ made_by g (fun k => In k calc) t -> ~ made_inside g rm t.
Proof.
  intros g calc rm t HC HO H1 HR It Nc (k & n & Ik & In' & Ot). apply HR in Ik. destruct Ik as [C|U]; [apply Nc; exists k, n; auto|].
  inversion U as [k' D E|p' m U' F E]; subst.
  - destruct D as (_ & n' & I' & H). assert (n' = n) by (pose proof (node_at g HC _ _ In'); pose proof (node_at g HC _ _ I'); congruence). subst n'.
    destruct (H t Ot) as [(q & qn & Q1 & Q2) _]. apply (HO t It). apply read_in. eauto.
  - destruct F as (n' & kn & s & J1 & J2 & J3 & J4 & J5).
    assert (n' = n) by (pose proof (node_at g HC _ _ In'); pose proof (node_at g HC _ _ J1); congruence). subst n'.
    assert (s = t). { eapply H1; [exact In'|exact J3|exact Ot|left; apply read_in; eauto|right; exact It]. }
    subst s. apply (HO t It). apply read_in. eauto.
Qed.

Lemma new_dynamics_spec : forall g, (forall k, In k (dkeys (nodemap g)) -> ~ In k (g_input g ++ g_output g ++ outs_of (nodes_of g))) ->
  forall t, In t (new_dynamics g) <-> In t (g_input g) \/ In t (g_output g) \/ In t (outs_of (nodes_of g)).
Proof.
  intros g H t. unfold new_dynamics.
  assert (G : forall kns d, (forall k, In k (dkeys kns) -> ~ In k d /\ ~ In k (flat_map (fun kn => n_out (snd kn)) kns)) ->
     fold_left (fun d kn => fold_left (fun d o => if memb (fst kn) d then d else d ++ [o]) (n_out (snd kn)) d) kns d = d ++ flat_map (fun kn => n_out (snd kn)) kns).
  { induction kns as [|[k n] r IH]; intros d Hd; [cbn; now rewrite app_nil_r|]. cbn [fold_left flat_map fst snd].
    assert (E : forall os d', ~ In k d' -> ~ In k os -> fold_left (fun d o => if memb k d then d else d ++ [o]) os d' = d' ++ os).
    { induction os as [|o os IHo]; intros d' N1 N2; [cbn; now rewrite app_nil_r|]. cbn [fold_left].
      assert (memb k d' = false) as -> by (apply memb_nIn; exact N1). rewrite IHo.
      - rewrite <- app_assoc. reflexivity.
      - intros X. apply in_app_iff in X. destruct X as [X|[X|[]]]; [auto|]. apply N2. left. exact X.
      - intros X. apply N2. right. exact X. }
    destruct (Hd k (or_introl eq_refl)) as [A B]. cbn [flat_map snd] in B.
    rewrite E; [|exact A|intros X; apply B, in_app_iff; left; exact X]. rewrite IH; [now rewrite app_assoc|].
    intros k' Hk'. destruct (Hd k' (or_intror Hk')) as [A' B']. cbn [flat_map snd] in B'. split.
    - intros X. apply in_app_iff in X. destruct X as [X|X]; [auto|]. apply B', in_app_iff. left. exact X.
    - intros X. apply B', in_app_iff. right. exact X. }
  rewrite G.
  - rewrite flat_map_snd. change (flat_map n_out (map snd (nodemap g))) with (outs_of (nodes_of g)). rewrite !in_app_iff. tauto.
  - intros k Hk. rewrite flat_map_snd. change (flat_map n_out (map snd (nodemap g))) with (outs_of (nodes_of g)).
    specialize (H k Hk). rewrite !in_app_iff in H. rewrite in_app_iff. tauto.
Qed.
Lemma outs_outside_NoDup : forall P rm nm, NoDup (named (P ++ flat_map (fun kn => n_out (snd kn)) nm)) ->
  NoDup (named (P ++ flat_map (fun kn => n_out (snd kn)) (outside rm nm))).
Proof.
  intros P rm nm. revert P. induction nm as [|[k n] r IH]; intros P H; [exact H|]. cbn [outside filter fst].
  cbn [flat_map snd] in H. rewrite app_assoc in H. apply IH in H. fold (outside rm r).
  destruct (negb (memb k rm)); [cbn [flat_map snd]; rewrite app_assoc; exact H|].
  rewrite <- app_assoc in H. unfold named in *. rewrite !filter_app in *.
  apply NoDup_app_inv in H. destruct H as (A & B & C). apply NoDup_app_inv in B. destruct B as (_ & B & _).
  apply NoDup_app_intro; [exact A|exact B|]. intros x X1 X2. apply (C x X1). apply in_app_iff. right. exact X2.
Qed.
