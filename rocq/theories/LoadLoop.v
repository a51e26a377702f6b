(** The loader's constant pass with values simulates [PartitionModel.constant_search]. *)
From Verif Require Import PyBase PyBaseFacts GraphModel CompressSpec RelSpec RelProofs TopSortSpec OrderProofs
  EditModel EditSpec RemoveProofs IoProofs PartitionModel PartitionSpec PartitionProofs ConstProofs RegressModel LoadModel LoadSpec.
Local Open Scope nat_scope.
Local Open Scope list_scope.

Lemma is_const_ext s s' n : (forall t, s t = s' t) -> is_node_constant s n = is_node_constant s' n.
Proof. intros H. unfold is_node_constant. f_equal. induction (n_in n) as [|x l IH]; [reflexivity|]. cbn [forallb]. rewrite H, IH. reflexivity. Qed.
Lemma requeue_ext s s' nm : (forall t, s t = s' t) -> forall cs st, requeue_all nm s cs st = requeue_all nm s' cs st.
Proof.
  intros H. induction cs as [|c r IH]; intros [cst q]; [reflexivity|]. cbn [requeue_all]. unfold requeue.
  destruct (dget nm c) as [cn|]; [|reflexivity]. rewrite (is_const_ext s s' cn H). cbn [bind]. apply IH.
Qed.
Lemma is_const_mono s s' n : (forall t, s t = true -> s' t = true) -> is_node_constant s n = true -> is_node_constant s' n = true.
Proof.
  intros H. unfold is_node_constant. rewrite !andb_true_iff, !forallb_forall. intros [A B]. split; [exact A|]. intros x I. apply H, B, I.
Qed.

Section FUEL.
Context {D V : Type}.
Variable info_of : D -> V.
Variable v0 : V.
Variable eval : node -> list (option D) -> nat -> option D.
Lemma loop_fuel fold g : forall f f' tm cst q, f <= f' -> fold_loop info_of eval f fold g tm cst q <> None ->
  fold_loop info_of eval f' fold g tm cst q = fold_loop (V:=V) info_of eval f fold g tm cst q.
Proof.
  induction f as [|f IH]; intros [|f'] tm cst [|k r] L; cbn [fold_loop]; try reflexivity; try congruence; try lia.
  destruct (dget (nodemap g) k) as [n|]; [|reflexivity]. destruct (requeue_all _ _ _ _) as [[c q]| | |]; try reflexivity. intros H. apply IH; [lia|exact H].
Qed.
Lemma nodes_fuel fold g f f' names : f <= f' -> forall tm cst, fold_nodes info_of eval f fold g names tm cst <> None ->
  fold_nodes info_of eval f' fold g names tm cst = fold_nodes (V:=V) info_of eval f fold g names tm cst.
Proof.
  intros L. induction names as [|k r IH]; intros tm cst; cbn [fold_nodes]; [reflexivity|]. destruct (dhas cst k); [apply IH|]. destruct (dget (nodemap g) k) as [n|]; [|reflexivity].
  destruct (is_node_constant (static_of tm) n); [|apply IH]. intros H.
  assert (X : fold_loop info_of eval f fold g tm (dset cst k true) [k] <> None) by (intros X; apply H; rewrite X; reflexivity).
  rewrite (loop_fuel fold g f f' _ _ _ L X). destruct (fold_loop info_of eval f fold g tm (dset cst k true) [k]) as [[[t c]| | |]|]; try reflexivity. apply IH. exact H.
Qed.
(** more fuel does not change an outcome *)
Lemma load_fuel (p : @proto D V) cfg f f' : f <= f' -> load_graph info_of v0 eval f cfg p <> None ->
  load_graph info_of v0 eval f' cfg p = load_graph info_of v0 eval f cfg p.
Proof.
  intros L. unfold load_graph. destruct (load_nodes (c_rename cfg) (p_nodes p)) as [nm [pr cn]]. unfold constant_pass. intros H. rewrite (nodes_fuel _ _ f f'); [reflexivity|exact L|].
  intros X. rewrite X in H. apply H. reflexivity.
Qed.
End FUEL.

Section LOOP.
Context {D V : Type}.
Variable info_of : D -> V.
Variable eval : node -> list (option D) -> nat -> option D.
Variable fold : bool.
Implicit Types tm : dict (@ltensor D V).
Let mark := mark_outputs info_of eval fold.

(** the record written for output number [i] of [n] *)
Definition marked_as (n : node) (args : list (option D)) (i : nat) (x : @ltensor D V) : ltensor :=
  if fold then match eval n args i with Some d => stored info_of d | None => mkLT STATIC None (lt_info x) end
  else mkLT STATIC (lt_data x) (lt_info x).
Lemma marked_static n args i x : lt_kind (marked_as n args i x) = STATIC.
Proof. unfold marked_as, stored. destruct fold; [destruct (eval n args i)|]; reflexivity. Qed.

Lemma mark_go n args : forall os j tm t, NoDup os ->
  dget (fold_left (mark_output info_of eval fold n args) (combine (seq j (length os)) os) tm) t =
  match dget tm t with
  | None => None
  | Some x => Some (fold_left (fun x io => if String.eqb t (snd io) then marked_as n args (fst io) x else x) (combine (seq j (length os)) os) x)
  end.
Proof.
  induction os as [|o r IH]; intros j tm t ND; cbn [length seq combine fold_left].
  - destruct (dget tm t); reflexivity.
  - inversion ND; subst. rewrite IH by assumption. cbn [fst snd]. unfold mark_output. cbn [fst snd].
    destruct (dget tm o) as [y|] eqn:E.
    + rewrite dget_dset. destruct (String.eqb_spec t o) as [->|N]; [|reflexivity]. rewrite E. reflexivity.
    + destruct (String.eqb_spec t o) as [->|N]; [rewrite E; reflexivity|reflexivity].
Qed.
Lemma pick_none t f : forall os j (x : @ltensor D V), ~ In t os ->
  fold_left (fun x io => if String.eqb t (snd io) then f (fst io) x else x) (combine (seq j (length os)) os) x = x.
Proof.
  induction os as [|o r IH]; intros j x H; cbn [length seq combine fold_left fst snd]; [reflexivity|].
  destruct (String.eqb_spec t o) as [->|N]; [exfalso; apply H; left; reflexivity|]. apply IH. intros I. apply H. right. exact I.
Qed.
Lemma pick_some t f : forall os j i (x : @ltensor D V), NoDup os -> nth_error os i = Some t ->
  fold_left (fun x io => if String.eqb t (snd io) then f (fst io) x else x) (combine (seq j (length os)) os) x = f (j + i) x.
Proof.
  induction os as [|o r IH]; intros j i x ND H; [destruct i; discriminate|]. cbn [length seq combine fold_left fst snd]. inversion ND; subst.
  destruct i as [|i]; cbn [nth_error] in H.
  - injection H as ->. rewrite String.eqb_refl, pick_none by assumption. rewrite Nat.add_0_r. reflexivity.
  - destruct (String.eqb_spec t o) as [->|N]; [exfalso; apply nth_error_In in H; contradiction|]. rewrite (IH (S j) i) by assumption. f_equal. lia.
Qed.
Lemma mark_out n tm t i x : NoDup (n_out n) -> nth_error (n_out n) i = Some t -> dget tm t = Some x ->
  dget (mark n tm) t = Some (marked_as n (map (data_of tm) (n_in n)) i x).
Proof.
  intros ND E H. unfold mark, mark_outputs, indexed. rewrite mark_go, H by exact ND. f_equal. exact (pick_some t (fun i x => marked_as n _ i x) _ 0 i x ND E).
Qed.
Lemma mark_other n tm t : NoDup (n_out n) -> ~ In t (n_out n) -> dget (mark n tm) t = dget tm t.
Proof.
  intros ND E. unfold mark, mark_outputs, indexed. rewrite mark_go by exact ND. destruct (dget tm t) as [x|]; [|reflexivity]. f_equal.
  exact (pick_none t (fun i x => marked_as n _ i x) _ 0 x E).
Qed.
Lemma mark_keys n tm : dkeys (mark n tm) = dkeys tm.
Proof.
  unfold mark, mark_outputs. generalize (indexed (n_out n)) as l, (map (data_of tm) (n_in n)) as args. intros l args. revert tm.
  induction l as [|io r IH]; intros tm; [reflexivity|]. cbn [fold_left]. rewrite IH. unfold mark_output. destruct (dget tm (snd io)) as [y|] eqn:E; [|reflexivity].
  apply dkeys_dset_in. eapply dget_Some_keys. exact E.
Qed.
Lemma mark_static n tm t : NoDup (n_out n) -> (forall o, In o (n_out n) -> dhas tm o = true) ->
  static_of (mark n tm) t = add_static (static_of tm) (n_out n) t.
Proof.
  intros ND H. unfold add_static. destruct (memb t (n_out n)) eqn:M; cbn [orb].
  - apply memb_In in M. specialize (H t M). apply In_nth_error in M as [i M]. unfold dhas in H. destruct (dget tm t) as [x|] eqn:E; [|discriminate].
    unfold static_of. rewrite (mark_out n tm t i x ND M E), marked_static. reflexivity.
  - apply memb_nIn in M. unfold static_of. rewrite mark_other by assumption. reflexivity.
Qed.

Variable g : graph.
Hypothesis HC : consistent g.
Hypothesis HD : forall k n, In (k, n) (nodemap g) -> NoDup (n_out n).
Definition covers tm : Prop := forall k n o, In (k, n) (nodemap g) -> In o (n_out n) -> dhas tm o = true.
Lemma covers_mark n tm : covers tm -> covers (mark n tm).
Proof.
  intros H k m o I O. specialize (H k m o I O). unfold dhas in *. destruct (dget (mark n tm) o) eqn:E; [reflexivity|]. apply dget_None in E.
  rewrite mark_keys in E. apply dget_None in E. rewrite E in H. discriminate.
Qed.

Lemma sim_loop : forall fuel tm s cst q, (forall t, s t = static_of tm t) -> covers tm ->
  match const_loop fuel g s cst q, fold_loop info_of eval fuel fold g tm cst q with
  | Some (Ok (s', c1)), Some (Ok (tm', c2)) => c1 = c2 /\ (forall t, s' t = static_of tm' t) /\ covers tm'
  | Some KeyError, Some KeyError | Some ValueError, Some ValueError | Some AssertionError, Some AssertionError | None, None => True
  | _, _ => False
  end.
Proof.
  induction fuel as [|f IH]; intros tm s cst [|k r] Hs Hc; cbn [const_loop fold_loop]; auto.
  destruct (dget (nodemap g) k) as [n|] eqn:E; [|exact I]. apply dget_In in E. fold mark.
  assert (X : forall t, add_static s (n_out n) t = static_of (mark n tm) t).
  { intros t. rewrite mark_static; [unfold add_static; rewrite Hs; reflexivity|apply (HD _ _ E)|]. intros o O. exact (Hc k n o E O). }
  rewrite (requeue_ext _ _ (nodemap g) X). destruct (requeue_all (nodemap g) _ _ (cst, r)) as [[c' q']| | |]; auto.
  apply IH; [exact X|apply covers_mark; exact Hc].
Qed.
Lemma sim_nodes : forall fuel names tm s cst, (forall t, s t = static_of tm t) -> covers tm ->
  match const_nodes fuel g names s cst, fold_nodes info_of eval fuel fold g names tm cst with
  | Some (Ok (s', c1)), Some (Ok (tm', c2)) => c1 = c2 /\ (forall t, s' t = static_of tm' t) /\ covers tm'
  | Some KeyError, Some KeyError | Some ValueError, Some ValueError | Some AssertionError, Some AssertionError | None, None => True
  | _, _ => False
  end.
Proof.
  intros fuel. induction names as [|k r IH]; intros tm s cst Hs Hc; cbn [const_nodes fold_nodes]; auto.
  destruct (dhas cst k); [apply IH; assumption|]. destruct (dget (nodemap g) k) as [n|]; [|exact I].
  rewrite (is_const_ext _ _ n Hs). destruct (is_node_constant (static_of tm) n); [|apply IH; assumption].
  assert (S := sim_loop fuel tm s (dset cst k true) [k] Hs Hc).
  destruct (const_loop fuel g s (dset cst k true) [k]) as [[[s' c1]| | |]|], (fold_loop info_of eval fuel fold g tm (dset cst k true) [k]) as [[[tm' c2]| | |]|]; auto; try contradiction.
  destruct S as (<- & S1 & S2). apply IH; assumption.
Qed.

(** a property preserved by evaluating one constant node holds at the end *)
Variable P : dict (@ltensor D V) -> Prop.
Hypothesis HP : forall tm k n, P tm -> covers tm -> In (k, n) (nodemap g) -> is_node_constant (static_of tm) n = true -> P (mark n tm).
Definition ready tm (q : list string) : Prop := forall k, In k q -> exists n, dget (nodemap g) k = Some n /\ is_node_constant (static_of tm) n = true.
Lemma mark_mono n k tm : In (k, n) (nodemap g) -> covers tm -> forall t, static_of tm t = true -> static_of (mark n tm) t = true.
Proof.
  intros E Hc t H. rewrite mark_static; [unfold add_static; rewrite H; apply orb_true_r|apply (HD _ _ E)|]. intros o O. exact (Hc k n o E O).
Qed.
Lemma inv_loop : forall fuel tm cst q tm' cst', P tm -> covers tm -> ready tm q -> fold_loop info_of eval fuel fold g tm cst q = Some (Ok (tm', cst')) -> P tm' /\ covers tm'.
Proof.
  induction fuel as [|f IH]; intros tm cst [|k r] tm' cst' HPt Hc Hr; cbn [fold_loop]; try discriminate; try (intros H; injection H as <- <-; auto; fail).
  destruct (dget (nodemap g) k) as [n|] eqn:E; [|discriminate]. fold mark. assert (E' := dget_In _ _ _ _ E).
  assert (Kn : is_node_constant (static_of tm) n = true).
  { destruct (Hr k (or_introl eq_refl)) as (n' & E1 & E2). rewrite E in E1. injection E1 as <-. exact E2. }
  fold (consumers g n). destruct (requeue_all_spec g (static_of (mark n tm)) (consumers g n) cst r (consumers_keys g HC n)) as (c' & F & _). rewrite F.
  apply IH; [apply (HP tm k n); assumption|apply covers_mark; exact Hc|].
  intros x X. apply in_app_iff in X as [X|X].
  - destruct (Hr x (or_intror X)) as (m & M1 & M2). exists m. split; [exact M1|]. revert M2. apply is_const_mono. apply (mark_mono n k); assumption.
  - apply filter_In in X as [_ X]. unfold cnode in X. destruct (dget (nodemap g) x) as [m|]; [|discriminate]. eauto.
Qed.
Lemma inv_nodes : forall fuel names tm cst tm' cst', P tm -> covers tm ->
  fold_nodes info_of eval fuel fold g names tm cst = Some (Ok (tm', cst')) -> P tm' /\ covers tm'.
Proof.
  intros fuel. induction names as [|k r IH]; intros tm cst tm' cst' HPt Hc; cbn [fold_nodes]; [intros H; injection H as <- <-; auto|].
  destruct (dhas cst k); [apply IH; assumption|]. destruct (dget (nodemap g) k) as [n|] eqn:E; [|discriminate].
  destruct (is_node_constant (static_of tm) n) eqn:Kn; [|apply IH; assumption].
  destruct (fold_loop info_of eval fuel fold g tm (dset cst k true) [k]) as [[[t1 c1]| | |]|] eqn:L; try discriminate.
  apply inv_loop in L as [L1 L2]; auto; [apply IH; assumption|]. intros x [<-|[]]. eauto.
Qed.
End LOOP.
