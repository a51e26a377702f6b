(** What the removal of If nodes does to the tensor table. *)
From Verif Require Import PyBase PyBaseFacts GraphModel RelSpec EditModel EditSpec RemoveProofs ShapeModel ConvBNModel IfModel IfSpec IfProofs InferLoop TopKProofs RelProofs ComputeTop.
From Coq Require Import Lia.
Local Open Scope string_scope.
Local Open Scope list_scope.
Local Open Scope nat_scope.

Definition grows (tm tm' : dict GraphModel.tensor) : Prop := forall t x, dget tm t = Some x -> dget tm' t = Some x.
Definition covered (nm : dict node) (tm : dict GraphModel.tensor) (except : list string) : Prop :=
  forall k n t, In (k, n) nm -> ~ In k except -> In t (n_in n) \/ In t (n_out n) -> dhas tm t = true.
Lemma grows_has tm tm' t : grows tm tm' -> dhas tm t = true -> dhas tm' t = true.
Proof. intros H D. apply dhas_dget in D as (x & D). apply dhas_dget. exists x. apply H, D. Qed.
Lemma new_tensors_ok l : forall tm, grows tm (fold_left new_tensor l tm) /\ forall t, In t l -> dhas (fold_left new_tensor l tm) t = true.
Proof.
  induction l as [|a r IH]; intro tm; cbn [fold_left]; [split; [intros t x H; exact H|intros t []]|].
  destruct (IH (new_tensor tm a)) as (G & C).
  assert (G1 : grows tm (new_tensor tm a)).
  { intros t x H. unfold new_tensor. destruct (dhas tm a) eqn:D; [exact H|]. rewrite dget_dset_neq; [exact H|]. intros ->. assert (dhas tm t = true) by (apply dhas_dget; eauto). congruence. }
  split; [intros t x H; apply G, G1, H|]. intros t [<-|I]; [|apply C, I]. eapply grows_has; [exact G|]. unfold new_tensor. destruct (dhas tm a) eqn:D; [exact D|]. rewrite dhas_dset, String.eqb_refl. reflexivity.
Qed.
Lemma revise_tensors pre new : forall names nm tm prod nm' tm' prod', NoDup (dkeys nm) -> revise pre new names (nm, tm, prod) = SOk (nm', tm', prod') ->
  dhas tm new = true -> covered nm tm names -> grows tm tm' /\ covered nm' tm' [].
Proof.
  induction names as [|k r IH]; intros nm tm prod nm' tm' prod' ND E Hn C; [cbn in E; injection E as <- <- _; split; [intros t x H; exact H|exact C]|].
  cbn [revise] in E. destruct (revise1 pre new k (nm, tm, prod)) as [[[nm1 tm1] prod1]|] eqn:E1; [|discriminate]. cbn [sbind] in E.
  unfold revise1 in E1. destruct (dget nm k) as [n|] eqn:D; [|discriminate].
  assert (X : nm1 = dset nm k (mkNode (n_name n) (n_op n) (n_in n) (renamed pre new (n_out n))) /\ tm1 = fold_left new_tensor (n_in n ++ n_out n) tm).
  { destruct (memb pre (n_out n)); [destruct (dget prod new); [|discriminate]|]; split; congruence. }
  destruct X as (-> & ->). destruct (new_tensors_ok (n_in n ++ n_out n) tm) as (G1 & C1).
  destruct (IH _ _ _ _ _ _ (NoDup_dkeys_dset _ _ _ _ ND) E) as (G2 & C2).
  - eapply grows_has; eauto.
  - intros k' n' t I Nk Ht. apply In_dset in I. destruct I as [[-> ->]|I].
    + cbn [n_in n_out] in Ht. destruct Ht as [Ht|Ht]; [apply C1, in_app_iff; auto|]. unfold renamed in Ht. apply in_map_iff in Ht as (o & <- & Io). destruct (String.eqb o pre); [eapply grows_has; eauto|apply C1, in_app_iff; auto].
    + destruct (String.eqb_spec k' k) as [->|Ne].
      * apply (In_dget _ _ _ _ ND) in I. rewrite D in I. injection I as <-. apply C1, in_app_iff. tauto.
      * eapply grows_has; [exact G1|]. apply (C k' n' t I); [|exact Ht]. intros [<-|I']; [congruence|exact (Nk I')].
  - split; [intros t x H; apply G2, G1, H|exact C2].
Qed.
Lemma add_branch_nodes ns : forall nm pc, NoDup (dkeys nm) ->
  let nm' := fst (fold_left (fun st n => (dset (fst st) (n_name n) n, upd_node (snd st) n)) ns (nm, pc)) in
  NoDup (dkeys nm') /\ forall k n, In (k, n) nm' -> In k (map n_name ns) \/ In (k, n) nm.
Proof.
  induction ns as [|a r IH]; intros nm pc ND; cbn [fold_left fst snd map]; [split; [exact ND|intros; right; assumption]|].
  destruct (IH (dset nm (n_name a) a) (upd_node pc a) (NoDup_dkeys_dset _ _ _ _ ND)) as (A & B). split; [exact A|].
  intros k n I. destruct (B k n I) as [X|X]; [left; right; exact X|]. apply In_dset in X. destruct X as [[-> ->]|X]; [left; left; reflexivity|right; exact X].
Qed.
Section T.
Variable body : string -> branch.
Definition okst (s : ist) : Prop := NoDup (dkeys (i_nm s)) /\ covered (i_nm s) (i_tm s) [].
Lemma do_if_tensors fuel k n s s' : In (k, n) (i_nm s) -> okst s -> do_if body fuel n s = Some (SOk s') -> grows (i_tm s) (i_tm s') /\ okst s'.
Proof.
  intros I (ND & C) E. unfold do_if in E.
  destruct (if_chain _ _ _ _ _ _ _) as [[[cns rm]|]|] eqn:Ch; try discriminate. destruct (memb "" _); [discriminate|].
  destruct (add_branch (body (n_name n)) (i_nm s) (i_prod s) cns) as [nm [prod cns']] eqn:A.
  destruct (b_outs (body (n_name n))) as [|pre bo] eqn:Eb; [discriminate|]. destruct (n_out n) as [|new no] eqn:En; [discriminate|].
  destruct (revise pre new _ (nm, i_tm s, prod)) as [[[nm' tm'] prod']|] eqn:R; [|discriminate]. injection E as <-. cbn [i_nm i_tm].
  destruct (add_branch_nodes (b_nodes (body (n_name n))) (i_nm s) (i_prod s, cns) ND) as (ND1 & IN). unfold add_branch in A. rewrite A in ND1, IN. cbn [fst] in ND1, IN.
  assert (ND' : NoDup (dkeys nm')).
  { clear - R ND1. revert nm prod R ND1. generalize (i_tm s). induction (map n_name (b_nodes (body (n_name n)))) as [|k r IH]; intros tm nm prod R ND; [cbn in R; injection R as <- _ _; exact ND|].
    cbn [revise] in R. destruct (revise1 pre new k (nm, tm, prod)) as [[[nm1 tm1] prod1]|] eqn:E1; [|discriminate]. cbn [sbind] in R. apply (IH _ _ _ R).
    unfold revise1 in E1. destruct (dget nm k) as [m|]; [|discriminate]. destruct (memb pre (n_out m)); [destruct (dget prod new); [|discriminate]|]; injection E1 as <- _ _; apply NoDup_dkeys_dset; exact ND. }
  destruct (revise_tensors pre new _ _ _ _ _ _ _ ND1 R) as (G & C').
  - apply (C k n new I); [intros []|right; rewrite En; left; reflexivity].
  - intros k' n' t I' Nk Ht. destruct (IN k' n' I') as [X|X]; [contradiction|]. apply (C k' n' t X); [intros []|exact Ht].
  - split; [exact G|]. split; [exact ND'|exact C'].
Qed.
Lemma pass_tensors fuel : forall keys s s', okst s -> if_pass body fuel keys s = Some (SOk s') -> grows (i_tm s) (i_tm s') /\ okst s'.
Proof.
  induction keys as [|k r IH]; intros s s' H E; cbn [if_pass] in E; [injection E as <-; split; [intros t x Hx; exact Hx|exact H]|].
  destruct (dget (i_nm s) k) as [n|] eqn:D; [|discriminate]. destruct (String.eqb (n_op n) "If"); [|exact (IH _ _ H E)].
  destruct (do_if body fuel n s) as [[s1|]|] eqn:F; try discriminate. destruct (do_if_tensors _ k _ _ _ (dget_In _ _ _ _ D) H F) as (G1 & H1). destruct (IH _ _ H1 E) as (G2 & H2).
  split; [intros t x Hx; apply G2, G1, Hx|exact H2].
Qed.
Lemma remove_nodes_tensors : forall names g g', NoDup (dkeys (nodemap g)) -> remove_nodes g names = Ok g' ->
  tensormap g' = tensormap g /\ NoDup (dkeys (nodemap g')) /\ forall k n, In (k, n) (nodemap g') -> In (k, n) (nodemap g).
Proof.
  induction names as [|k r IH]; intros g g' ND E; [injection E as <-; auto|]. rewrite remove_nodes_cons in E.
  destruct (remove_node1 g k) as [[g1 nn]| | |] eqn:R; cbn [bind] in E; try discriminate.
  pose proof (remove_node1_sub g k g1 nn R) as SB.
  assert (X : tensormap g1 = tensormap g /\ NoDup (dkeys (nodemap g1))).
  { unfold remove_node1 in R. destruct (dget (nodemap g) k) as [n|]; [|injection R as <- _; auto].
    destruct (rm_outs _ _ _) as [[prod out]| | |]; cbn [bind] in R; try discriminate.
    destruct (rm_ins _ _ _ _ _ _) as [[cns nn']| | |]; cbn [bind] in R; try discriminate. injection R as <- _. cbn. split; [reflexivity|apply NoDup_dkeys_ddel, ND]. }
  destruct X as (X1 & X2). destruct (IH g1 g' X2 E) as (A & B & C). split; [congruence|]. split; [exact B|]. intros k' n' I. apply SB, C, I.
Qed.
Theorem remove_if_tensors : forall n fuel g g', NoDup (dkeys (nodemap g)) -> covered (nodemap g) (tensormap g) [] -> remove_if body n fuel g = Some (SOk g') ->
  grows (tensormap g) (tensormap g') /\ covered (nodemap g') (tensormap g') [].
Proof.
  induction n as [|n IH]; intros fuel g g' ND C E; [discriminate|]. cbn [remove_if] in E.
  destruct (if_pass body fuel (dkeys (nodemap g)) _) as [[s|]|] eqn:P; try discriminate.
  destruct (pass_tensors fuel _ _ _ (conj ND C : okst (mkIst (nodemap g) (tensormap g) (producedby g) (consumedby g) [])) P) as (G & ND1 & C1). cbn [i_tm] in G.
  destruct (i_rm s) as [|x rm]; [injection E as <-; split; [exact G|exact C1]|].
  destruct (remove_nodes _ (x :: rm)) as [g2| | |] eqn:R; try discriminate. apply remove_nodes_tensors in R; [|exact ND1]. destruct R as (R1 & R2 & R3). cbn [tensormap nodemap] in R1, R3.
  assert (C2 : covered (nodemap g2) (tensormap g2) []) by (intros k m t I Nk Ht; rewrite R1; apply (C1 k m t); auto).
  destruct (IH fuel g2 g' R2 C2 E) as (G' & C'). rewrite R1 in G'. split; [intros t y Hy; apply G', G, Hy|exact C'].
Qed.
End T.
