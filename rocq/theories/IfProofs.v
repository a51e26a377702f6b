From Verif Require Import PyBase PyBaseFacts GraphModel CompressSpec RelSpec RelProofs TopSortSpec EditModel EditSpec
  RemoveProofs ShapeModel ConvBNModel ComputeSpec ComputeTop TopKProofs IfModel IfSpec.
Local Open Scope string_scope.
Local Open Scope list_scope.
Local Open Scope nat_scope.

Lemma In_dset : forall A (d : dict A) k v x y, In (x, y) (dset d k v) -> (x = k /\ y = v) \/ In (x, y) d.
Proof.
  intros A. induction d as [|[a b] r IH]; intros k v x y I; cbn [dset] in I.
  - destruct I as [E|[]]. injection E as <- <-. auto.
  - destruct (String.eqb_spec k a) as [->|N].
    + destruct I as [E|I]; [injection E as <- <-; auto|right; right; exact I].
    + destruct I as [E|I]; [right; left; exact E|]. destruct (IH _ _ _ _ I) as [H|H]; [auto|right; right; exact H].
Qed.

Section SOUND.
Variable body : string -> branch.
Variable g0 : graph.
(** [b] is what tensor [a] is called after some renamings of branch outputs *)
Inductive ren : string -> string -> Prop :=
| ren_refl : forall a, ren a a
| ren_step : forall m a q b, taken body g0 m -> n_op m = "If" -> nth_error (b_outs (body (n_name m))) 0 = Some a ->
    nth_error (n_out m) 0 = Some q -> ren q b -> ren a b.
Lemma ren_trans : forall a b c, ren a b -> ren b c -> ren a c.
Proof. intros a b c H. induction H as [|m a q b A B C D E IH]; intros K; [exact K|]. eapply ren_step; eauto. Qed.
Lemma ren_value : forall V (sem : node -> list V -> list V) v, if_model body g0 sem v -> forall a b, ren a b -> v a = v b.
Proof.
  intros V sem v H a b R. induction R as [|m a q b A B C D E IH]; [reflexivity|]. rewrite <- IH. symmetry. apply (proj2 (H m A) B 0 q a D C).
Qed.
Definition origin (n n' : node) : Prop :=
  taken body g0 n /\ n_name n' = n_name n /\ n_op n' = n_op n /\ n_in n' = n_in n /\ Forall2 ren (n_out n) (n_out n').
Definition Inv (nm : dict node) : Prop := NoDup (dkeys nm) /\ forall k n', In (k, n') nm -> n_name n' = k /\ exists n, origin n n'.
Lemma Forall2_refl : forall l, Forall2 ren l l.
Proof. induction l; constructor; [apply ren_refl|assumption]. Qed.

Lemma Inv_add : forall m, taken body g0 m -> n_op m = "If" -> forall ns, incl ns (b_nodes (body (n_name m))) -> forall nm pc, Inv nm ->
  Inv (fst (fold_left (fun st n => (dset (fst st) (n_name n) n, upd_node (snd st) n)) ns (nm, pc))).
Proof.
  intros m Tm Om. induction ns as [|n r IH]; intros HI nm pc Hn; [exact Hn|]. cbn [fold_left fst snd]. apply IH; [intros x X; apply HI; right; exact X|].
  split; [apply NoDup_dkeys_dset, Hn|]. intros k n' I. apply In_dset in I. destruct I as [[-> ->]|I]; [|apply Hn, I]. split; [reflexivity|]. exists n.
  split; [eapply tk_branch; eauto; apply HI; left; reflexivity|]. repeat (split; [reflexivity|]). apply Forall2_refl.
Qed.
Lemma ren_rename : forall pre new, ren pre new -> forall l l', Forall2 ren l l' -> Forall2 ren l (renamed pre new l').
Proof.
  intros pre new H l l' F. induction F as [|a b l l' A F IH]; [constructor|]. cbn [renamed map]. constructor; [|exact IH].
  destruct (String.eqb_spec b pre) as [->|N]; [eapply ren_trans; eauto|exact A].
Qed.
Lemma Inv_revise : forall pre new, ren pre new -> forall names nm tm prod nm' tm' prod', Inv nm -> revise pre new names (nm, tm, prod) = SOk (nm', tm', prod') -> Inv nm'.
Proof.
  intros pre new Hr. induction names as [|k r IH]; intros nm tm prod nm' tm' prod' Hn E; [cbn in E; injection E as <- _ _; exact Hn|]. cbn [revise] in E.
  destruct (revise1 pre new k (nm, tm, prod)) as [[[nm1 tm1] prod1]|] eqn:E1; [|discriminate]. cbn [sbind] in E. apply (IH _ _ _ _ _ _) in E; [exact E|].
  unfold revise1 in E1. destruct (dget nm k) as [n|] eqn:D; [|discriminate].
  assert (nm1 = dset nm k (mkNode (n_name n) (n_op n) (n_in n) (renamed pre new (n_out n)))) as ->.
  { destruct (memb pre (n_out n)); [destruct (dget prod new); [|discriminate]|]; congruence. }
  split; [apply NoDup_dkeys_dset, Hn|]. intros k' n' I. apply In_dset in I. destruct I as [[-> ->]|I]; [|apply Hn, I]. apply dget_In in D. destruct (proj2 Hn _ _ D) as (A & m & B1 & B2 & B3 & B4 & B5).
  split; [exact A|]. exists m. repeat (split; [assumption|]). cbn [n_out]. now apply ren_rename.
Qed.
Lemma chain_nonempty : forall fuel nm prod sub q cns rm cns' rm', if_chain fuel nm prod sub q cns rm = Some (SOk (cns', rm')) -> incl (rm ++ q) rm'.
Proof.
  induction fuel as [|f IH]; intros nm prod sub [|s r] cns rm cns' rm' E; cbn [if_chain] in E; try discriminate.
  1, 2: injection E as <- <-; rewrite app_nil_r; apply incl_refl.
  destruct (dget nm s) as [n|]; [|discriminate]. destruct (if_inputs prod sub s (n_in n) r cns) as [[q' c']|] eqn:I; [|discriminate].
  apply IH in E. assert (Q : incl r q').
  { clear - I. revert r cns q' c' I. induction (n_in n) as [|i ins IHi]; intros r cns q' c' I; cbn [if_inputs] in I; [injection I as <- <-; apply incl_refl|].
    destruct (dget cns i) as [l|]; [|discriminate].
    destruct (Nat.eqb (length l) 1 && negb (memb i sub)); [destruct (dget prod i) as [[|p ps]|]; try discriminate|];
      (destruct (memb s l); [|discriminate]); apply IHi in I; intros x X; apply I; auto. apply in_app_iff. auto. }
  intros x X. apply E. apply in_app_iff in X. rewrite !in_app_iff. cbn [In] in *. destruct X as [X|[X|X]]; auto.
Qed.
Lemma do_if_Inv : forall fuel k n s s', Inv (i_nm s) -> In (k, n) (i_nm s) -> n_op n = "If" -> do_if body fuel n s = Some (SOk s') -> Inv (i_nm s') /\ In k (i_rm s') /\ incl (i_rm s) (i_rm s').
Proof.
  intros fuel k n s s' Hn I O E. unfold do_if in E. destruct (proj2 Hn _ _ I) as (Nk & m & B1 & B2 & B3 & B4 & B5).
  destruct (if_chain _ _ _ _ _ _ _) as [[[cns rm]|]|] eqn:C; try discriminate. destruct (memb "" _); [discriminate|].
  destruct (add_branch (body (n_name n)) (i_nm s) (i_prod s) cns) as [nm [prod cns']] eqn:A.
  destruct (b_outs (body (n_name n))) as [|pre bo] eqn:Eb; [discriminate|]. destruct (n_out n) as [|new no] eqn:En; [discriminate|].
  destruct (revise pre new _ (nm, i_tm s, prod)) as [[[nm' tm'] prod']|] eqn:R; [|discriminate]. injection E as <-. cbn [i_nm i_rm].
  apply chain_nonempty in C. split; [|split; [apply C, in_app_iff; right; left; exact Nk|intros x X; apply C, in_app_iff; auto]].
  apply (Inv_revise pre new) in R; [exact R| |].
  - inversion B5 as [|q new' mo no' Rq Rs E1 E2]; subst. eapply (ren_step m pre q new); [exact B1|congruence| | |exact Rq].
    + rewrite <- B2, Eb. reflexivity.
    + rewrite <- E1. reflexivity.
  - assert (X : nm = fst (add_branch (body (n_name n)) (i_nm s) (i_prod s) cns)) by (rewrite A; reflexivity). rewrite X. unfold add_branch. rewrite B2.
    apply (Inv_add m); [exact B1|congruence|apply incl_refl|exact Hn].
Qed.
Lemma pass_Inv : forall fuel keys s s', Inv (i_nm s) -> if_pass body fuel keys s = Some (SOk s') ->
  Inv (i_nm s') /\ incl (i_rm s) (i_rm s') /\ (i_rm s' = [] -> i_nm s' = i_nm s /\ forall k n, In k keys -> dget (i_nm s) k = Some n -> n_op n <> "If").
Proof.
  intros fuel. induction keys as [|k r IH]; intros s s' Hn E; cbn [if_pass] in E.
  - injection E as <-. split; [exact Hn|]. split; [apply incl_refl|]. intros _. split; [reflexivity|intros k n []].
  - destruct (dget (i_nm s) k) as [n|] eqn:D; [|discriminate]. destruct (String.eqb_spec (n_op n) "If") as [O|O].
    + destruct (do_if body fuel n s) as [[s1|]|] eqn:F; try discriminate.
      apply (do_if_Inv _ k) in F; [|exact Hn|apply dget_In; exact D|exact O]. destruct F as (F1 & F2 & F3). destruct (IH _ _ F1 E) as (A & B & C).
      split; [exact A|]. split; [intros x X; apply B, F3, X|]. intros Z. exfalso. apply B in F2. rewrite Z in F2. destruct F2.
    + destruct (IH _ _ Hn E) as (A & B & C). split; [exact A|]. split; [exact B|]. intros Z. destruct (C Z) as [C1 C2]. split; [exact C1|].
      intros k' n' [<-|I'] D'; [congruence|eauto].
Qed.
Lemma remove_nodes_Inv : forall names g g', Inv (nodemap g) -> remove_nodes g names = Ok g' -> Inv (nodemap g').
Proof.
  induction names as [|k r IH]; intros g g' Hn E; [injection E as <-; exact Hn|]. rewrite remove_nodes_cons in E.
  destruct (remove_node1 g k) as [[g1 nn]| | |] eqn:R; cbn [bind] in E; try discriminate. apply (IH g1 g'); [|exact E].
  pose proof (remove_node1_sub g k g1 nn R) as S. split; [|intros k' n' I; apply Hn, S, I].
  unfold remove_node1 in R. destruct (dget (nodemap g) k) as [n|]; [|injection R as <- _; apply Hn].
  destruct (rm_outs _ _ _) as [[prod out]| | |]; cbn [bind] in R; try discriminate.
  destruct (rm_ins _ _ _ _ _ _) as [[cns nn']| | |]; cbn [bind] in R; try discriminate. injection R as <- _. cbn. apply NoDup_dkeys_ddel, Hn.
Qed.
Lemma remove_if_Inv : forall n fuel g g', Inv (nodemap g) -> remove_if body n fuel g = Some (SOk g') ->
  Inv (nodemap g') /\ forall k m, In (k, m) (nodemap g') -> n_op m <> "If".
Proof.
  induction n as [|n IH]; intros fuel g g' Hn E; [discriminate|]. cbn [remove_if] in E.
  destruct (if_pass body fuel (dkeys (nodemap g)) _) as [[s|]|] eqn:P; try discriminate.
  destruct (pass_Inv _ _ _ _ (Hn : Inv (i_nm (mkIst (nodemap g) (tensormap g) (producedby g) (consumedby g) []))) P) as (A & B & C). cbn [i_nm] in C. destruct (i_rm s) as [|x rm] eqn:Er.
  - injection E as <-. cbn [nodemap]. split; [exact A|]. destruct (C eq_refl) as [C1 C2]. rewrite C1. intros k m D. apply (C2 k m).
    + apply in_map_iff. exists (k, m). auto.
    + apply In_dget; [apply Hn|exact D].
  - destruct (remove_nodes _ (x :: rm)) as [g2| | |] eqn:R; try discriminate. apply remove_nodes_Inv in R; [|exact A]. exact (IH fuel g2 g' R E).
Qed.
End SOUND.
Lemma Inv_start : forall body g, NoDup (dkeys (nodemap g)) -> names_match g -> Inv body g (nodemap g).
Proof.
  intros body g ND HN. split; [exact ND|]. intros k n I. split; [apply HN, I|]. exists n. split; [eapply tk_main; exact I|]. repeat (split; [reflexivity|]). apply Forall2_refl.
Qed.
Lemma origin_outs : forall body g V (sem : node -> list V -> list V) v n n', if_model body g sem v -> origin body g n n' -> map v (n_out n') = map v (n_out n).
Proof.
  intros body g V sem v n n' H (_ & _ & _ & _ & F). induction F as [|a b l l' R F IH]; [reflexivity|]. cbn [map]. rewrite IH. f_equal. symmetry. eapply ren_value; eauto.
Qed.
