From Verif Require Import PyBase PyBaseFacts GraphModel CompressSpec RelSpec RelProofs ExecModel ExecProofs CompressProofs CompressTop TopSortSpec TopSortProofs
  OrderSpec OrderProofs EditModel EditSpec RemoveProofs DanglingProofs IoProofs FuseProofs.
From Coq Require Import Permutation.
Local Open Scope list_scope.

(** every occurrence of [out] replaced by [ind] *)
Definition ren (out ind t : string) : string := if String.eqb t out then ind else t.
Definition read_instead (out ind : string) (m : node) : node := set_in m (map (ren out ind) (n_in m)).

Fixpoint replk (k : nat) (out ind : string) (l : list string) : list string :=
  match k with O => l | S k => match replace_first out ind l with Some l' => replk k out ind l' | None => l end end.

Lemma replace_first_spec : forall out ind l,
  (In out l -> exists a b, l = a ++ out :: b /\ ~ In out a /\ replace_first out ind l = Some (a ++ ind :: b)) /\
  (~ In out l -> replace_first out ind l = None).
Proof.
  intros out ind. induction l as [|z r [IH1 IH2]]; [split; [intros []|reflexivity]|]. cbn [replace_first].
  destruct (String.eqb_spec z out) as [->|N].
  - split; [intros _; exists [], r; auto|intros H; exfalso; apply H; left; reflexivity].
  - split.
    + intros [H|H]; [congruence|]. destruct (IH1 H) as (a & b & -> & Na & E). exists (z :: a), b. rewrite E.
      repeat split; auto. intros [X|X]; [congruence|contradiction].
    + intros H. rewrite IH2; [reflexivity|]. intro. apply H. right. assumption.
Qed.

Lemma ren_map_notin : forall out ind l, ~ In out l -> map (ren out ind) l = l.
Proof.
  intros out ind l N. rewrite <- (map_id l) at 2. apply map_ext_in. intros t I. unfold ren.
  destruct (String.eqb_spec t out) as [->|X]; [contradiction|reflexivity].
Qed.

Lemma replk_all : forall out ind, ind <> out -> forall k l, count out l = k -> replk k out ind l = map (ren out ind) l.
Proof.
  intros out ind Nio. induction k as [|k IH]; intros l C; cbn [replk].
  - symmetry. apply ren_map_notin. apply count_zero. exact C.
  - assert (I : In out l) by (apply count_pos; lia).
    destruct (replace_first_spec out ind l) as [H _]. destruct (H I) as (a & b & -> & Na & E). rewrite E.
    rewrite count_app in C. cbn [count] in C. rewrite String.eqb_refl in C. apply count_zero in Na as Ca.
    rewrite IH.
    + rewrite !map_app. cbn [map]. assert (ren out ind out = ind) as -> by (unfold ren; now rewrite String.eqb_refl).
      assert (ren out ind ind = ind) as -> by (unfold ren; destruct (String.eqb ind out); reflexivity). reflexivity.
    + rewrite count_app. cbn [count]. destruct (String.eqb_spec out ind); [congruence|]. lia.
Qed.

Lemma dset_map : forall A (d : dict A) k v, In k (dkeys d) -> NoDup (dkeys d) ->
  dset d k v = map (fun kn => (fst kn, if String.eqb (fst kn) k then v else snd kn)) d.
Proof.
  induction d as [|[k0 v0] r IH]; intros k v I ND; [destruct I|]. cbn [dkeys map fst] in ND. inversion ND as [|? ? N1 N2]; subst.
  cbn [dset map fst snd]. rewrite (String.eqb_sym k0 k). destruct (String.eqb_spec k k0) as [->|N].
  - f_equal. rewrite <- (map_id r) at 1. apply map_ext_in. intros [a b] J. cbn [fst snd].
    destruct (String.eqb_spec a k0) as [->|]; [|reflexivity]. exfalso. apply N1. apply in_map_iff. exists (k0, b). auto.
  - f_equal. destruct I as [I|I]; [cbn in I; congruence|]. apply IH; assumption.
Qed.
Lemma dget_map : forall A B (f : string -> A -> B) (d : dict A) k,
  dget (map (fun kn => (fst kn, f (fst kn) (snd kn))) d) k = option_map (f k) (dget d k).
Proof.
  induction d as [|[k0 v0] r IH]; intros k; [reflexivity|]. cbn [map fst snd dget]. destruct (String.eqb_spec k k0) as [->|N]; [reflexivity|apply IH].
Qed.
Lemma dkeys_map : forall A B (f : string -> A -> B) (d : dict A), dkeys (map (fun kn => (fst kn, f (fst kn) (snd kn))) d) = dkeys d.
Proof. intros. unfold dkeys. rewrite map_map. reflexivity. Qed.

Lemma node_eta : forall m, set_in m (n_in m) = m. Proof. intros []; reflexivity. Qed.

(** rewiring a list of consumers *)
Definition rewired (out ind : string) (cl : list string) (nm : dict node) : dict node :=
  map (fun kn => (fst kn, set_in (snd kn) (replk (count (fst kn) cl) out ind (n_in (snd kn))))) nm.

Lemma replace_first_None : forall out ind l, replace_first out ind l = None -> ~ In out l.
Proof. intros out ind l E I. destruct (replace_first_spec out ind l) as [H _]. destruct (H I) as (a & b & _ & _ & X). congruence. Qed.
Lemma replk_None : forall k out ind l, ~ In out l -> replk k out ind l = l.
Proof. intros k out ind l N. destruct k; [reflexivity|]. cbn [replk]. destruct (replace_first_spec out ind l) as [_ H]. rewrite (H N). reflexivity. Qed.

Lemma rewire_all_spec : forall out ind cl nm cns, NoDup (dkeys nm) -> incl cl (dkeys nm) ->
  exists cns', rewire_all out ind cl (nm, cns) = Ok (rewired out ind cl nm, cns') /\ forall t, t <> ind -> dget cns' t = dget cns t.
Proof.
  intros out ind. induction cl as [|c r IH]; intros nm cns ND HI.
  - exists cns. split; [|auto]. cbn [rewire_all]. unfold rewired. cbn [count replk]. do 2 f_equal.
    rewrite <- (map_id nm) at 1. apply map_ext. intros [k m]. cbn [fst snd]. rewrite node_eta. reflexivity.
  - cbn [rewire_all]. unfold rewire. assert (Ic : In c (dkeys nm)) by (apply HI; left; reflexivity).
    destruct (dget nm c) as [cn|] eqn:E; [|apply dget_None in E; contradiction].
    destruct (replace_first out ind (n_in cn)) as [l|] eqn:RF; cbn [bind].
    + destruct (IH (dset nm c (set_in cn l)) (dpush cns ind c)) as (cns' & F & G).
      { apply NoDup_dkeys_dset, ND. }
      { rewrite dkeys_dset_in by exact Ic. intros x X. apply HI. right. exact X. }
      rewrite F. exists cns'. split.
      * do 2 f_equal. rewrite dset_map by assumption. unfold rewired. rewrite map_map. apply map_ext_in. intros [k m] I. cbn [fst snd].
        f_equal. cbn [count]. destruct (String.eqb_spec k c) as [->|N]; [|reflexivity].
        apply In_dget in I; [|exact ND]. rewrite E in I. injection I as <-. cbn [set_in n_in n_name n_op n_out replk]. rewrite RF. reflexivity.
      * intros t Nt. rewrite G by exact Nt. unfold dpush. destruct (dget cns ind); rewrite dget_dset_neq; congruence.
    + destruct (IH nm cns ND) as (cns' & F & G); [intros x X; apply HI; right; exact X|].
      rewrite F. exists cns'. split; [|exact G]. do 2 f_equal. unfold rewired. apply map_ext_in. intros [k m] I. cbn [fst snd].
      f_equal. cbn [count]. destruct (String.eqb_spec k c) as [->|N]; [|reflexivity].
      apply In_dget in I; [|exact ND]. rewrite E in I. injection I as <-. apply replace_first_None in RF. rewrite !replk_None by exact RF. reflexivity.
Qed.

Lemma ddel_map : forall (f : string -> node -> node) (d : dict node) k,
  ddel (map (fun kn => (fst kn, f (fst kn) (snd kn))) d) k = map (fun kn => (fst kn, f (fst kn) (snd kn))) (ddel d k).
Proof.
  intros f. induction d as [|[k0 v0] r IH]; intros k; [reflexivity|]. cbn [map ddel fst snd].
  destruct (String.eqb k k0); [reflexivity|]. cbn [map fst snd]. f_equal. apply IH.
Qed.
Lemma In_filter_sing : forall p l (x : string), filter p l = [x] -> In x l /\ p x = true.
Proof. intros p l x E. apply filter_In. rewrite E. left. reflexivity. Qed.

Theorem skip_consumed : forall g name n ind out, consistent g -> dget (nodemap g) name = Some n ->
  filter (fun i => memb i (dynamics g)) (n_in n) = [ind] -> n_out n = [out] -> ind <> out ->
  In out (reads_of (nodes_of g)) ->
  exists g', skip_node g name = Ok g' /\
    nodemap g' = map (fun kn => (fst kn, read_instead out ind (snd kn))) (ddel (nodemap g) name) /\
    g_input g' = g_input g /\ g_output g' = g_output g /\ tensormap g' = tensormap g /\ initials g' = initials g /\ dynamics g' = dynamics g /\
    producedby g' = producedby g.
Proof.
  intros g name n ind out HC E EF EO Nio HR. unfold skip_node. rewrite E, EF, EO.
  destruct (In_filter_sing _ _ _ EF) as [Ii _].
  assert (Hin : In name (glist (consumedby g) ind)).
  { apply count_pos. rewrite (tb_cnt _ _ _ _ _ (co_cons g HC)). unfold cnt_sel. rewrite E. apply count_pos in Ii. cbn [count]. destruct (String.eqb name ""); lia. }
  assert (exists l, dget (consumedby g) ind = Some l /\ In name l) as (l & El & Il).
  { unfold glist in Hin. destruct (dget (consumedby g) ind) as [l|]; [eauto|destruct Hin]. }
  rewrite El. assert (memb name l = true) as -> by (apply memb_In; exact Il). cbn [negb].
  rewrite dget_dset_neq by congruence.
  apply (read_iff g) in HR. destruct HR as (k & m & K1 & K2).
  assert (Hk : In k (glist (consumedby g) out)).
  { apply count_pos. rewrite (tb_cnt _ _ _ _ _ (co_cons g HC)). unfold cnt_sel. rewrite (In_dget _ _ _ _ (co_nd g HC) K1). apply count_pos in K2. cbn [count]. destruct (String.eqb k ""); lia. }
  assert (exists cl, dget (consumedby g) out = Some cl) as (cl & Ecl).
  { unfold glist in Hk. destruct (dget (consumedby g) out) as [cl|]; [eauto|destruct Hk]. }
  assert (CL : forall x, count x cl = cnt_sel (nodemap g) n_in x out).
  { intros x. pose proof (tb_cnt _ _ _ _ _ (co_cons g HC) out x) as H. unfold glist in H. rewrite Ecl in H. rewrite H. cbn [count]. destruct (String.eqb x ""); lia. }
  rewrite Ecl.
  destruct (rewire_all_spec out ind cl (nodemap g) (dset (consumedby g) ind (remove1 name l)) (co_nd g HC)) as (cns' & F & _).
  { intros x X. apply count_pos in X. rewrite CL in X. unfold cnt_sel in X. destruct (dget (nodemap g) x) eqn:Ex; [|lia]. eapply dget_Some_keys; exact Ex. }
  rewrite F. cbn [bind]. eexists. split; [reflexivity|]. cbn [with_rel nodemap g_input g_output tensormap initials dynamics producedby].
  split; [|auto 10].
  unfold rewired. rewrite (ddel_map (fun k m => set_in m (replk (count k cl) out ind (n_in m)))).
  apply map_ext_in. intros [x m'] I. cbn [fst snd]. f_equal. unfold read_instead. f_equal. apply replk_all; [exact Nio|].
  rewrite CL. unfold cnt_sel. apply In_ddel in I; [|apply HC]. rewrite (In_dget _ _ _ _ (co_nd g HC) (proj1 I)). reflexivity.
Qed.

Section SkipSem.
Variable sem : node -> list bytes -> list bytes.
Local Notation run := (run_private sem).
(** an operator's function does not depend on the names of its operands and results *)
Hypothesis sem_names : forall m l args, sem (set_in m l) args = sem m args.

Lemma read_instead_id : forall out ind m, ~ In out (n_in m) -> read_instead out ind m = m.
Proof. intros out ind m N. unfold read_instead. rewrite ren_map_notin by exact N. apply node_eta. Qed.
Lemma outs_read_instead : forall out ind ns, outs_of (map (read_instead out ind) ns) = outs_of ns.
Proof. intros. unfold outs_of. induction ns as [|m r IH]; [reflexivity|]. cbn [map flat_map]. rewrite IH. reflexivity. Qed.

Lemma run_renamed : forall out ind B e1 e2, out <> ""%string -> ind <> ""%string -> ind <> out ->
  (forall t, t <> out -> e1 t = e2 t) -> e1 out = e1 ind -> ~ In out (outs_of B) -> ~ In ind (outs_of B) ->
  forall t, t <> out -> run e2 (map (read_instead out ind) B) t = run e1 B t.
Proof.
  intros out ind. induction B as [|m r IH]; intros e1 e2 No Ni Nio H Ho N1 N2 t Nt; [symmetry; apply H; exact Nt|].
  unfold outs_of in N1, N2. cbn [flat_map] in N1, N2. rewrite in_app_iff in N1, N2. fold (outs_of r) in N1, N2.
  cbn [map]. unfold run_private. cbn [fold_left].
  assert (EA : map (look_private e2) (n_in (read_instead out ind m)) = map (look_private e1) (n_in m)).
  { unfold read_instead. cbn [set_in n_in]. rewrite map_map. apply map_ext. intros u. unfold ren, look_private.
    destruct (String.eqb_spec u out) as [->|Nu].
    - destruct (String.eqb_spec ind ""); [contradiction|]. destruct (String.eqb_spec out ""); [contradiction|].
      rewrite Ho. symmetry. apply H. exact Nio.
    - destruct (String.eqb u ""); [reflexivity|]. symmetry. apply H. exact Nu. }
  apply IH; auto; try tauto.
  - intros u Nu. unfold step_private. cbn [read_instead set_in n_out]. rewrite EA. unfold read_instead. rewrite sem_names. apply writes_ext, H, Nu.
  - unfold step_private. rewrite !writes_notin by tauto. exact Ho.
Qed.
End SkipSem.

Lemma In_outs_nodes : forall g k n t, In (k, n) (nodemap g) -> In t (n_out n) -> In t (outs_of (nodes_of g)).
Proof. intros g k n t I J. unfold outs_of, nodes_of. apply in_flat_map. exists n. split; [apply in_map_iff; exists (k, n); auto|exact J]. Qed.
Lemma uniq_outs : forall g, consistent g -> NoDup (outs_of (nodes_of g)).
Proof. intros g HC. rewrite nodes_outs. apply (co_uniq g HC). Qed.

Section SkipTop.
Variable sem : node -> list bytes -> list bytes.
Local Notation run := (run_private sem).
Hypothesis sem_in : forall m l args, sem (set_in m l) args = sem m args.
Hypothesis sem_out : forall m l args, sem (set_out m l) args = sem m args.

Lemma nodes_ddel_perm : forall (d : dict node) k n, NoDup (dkeys d) -> dget d k = Some n -> Permutation (n :: map snd (ddel d k)) (map snd d).
Proof.
  induction d as [|[k0 n0] r IH]; intros k n ND E; [discriminate|]. cbn [dkeys map fst] in ND. inversion ND as [|? ? N1 N2]; subst.
  cbn [dget] in E. cbn [ddel]. destruct (String.eqb k k0); [injection E as ->; apply Permutation_refl|]. cbn [map snd].
  eapply Permutation_trans; [apply perm_swap|]. constructor. apply IH; assumption.
Qed.

Lemma respects_renamed : forall out ind ns, ~ In ind (outs_of ns) -> respects_deps ns -> respects_deps (map (read_instead out ind) ns).
Proof.
  intros out ind. induction ns as [|m r IH]; intros N H; [exact H|]. apply respects_cons in H. destruct H as [H1 H2]. cbn [map].
  apply respects_cons. split; [|apply IH; [|exact H2]; intro X; apply N; unfold outs_of; cbn [flat_map]; apply in_app_iff; right; exact X].
  intros t I Nt J. change (read_instead out ind m :: map (read_instead out ind) r) with (map (read_instead out ind) (m :: r)) in J.
  rewrite outs_read_instead in J. unfold read_instead in I. cbn [set_in n_in] in I. apply in_map_iff in I. destruct I as (u & Eu & Iu).
  unfold ren in Eu. destruct (String.eqb u out); [subst; contradiction|]. subst u. exact (H1 t Iu Nt J).
Qed.

(** C16, the output is read by some node *)
Theorem skip_consumed_values : forall g name n ind out A B, consistent g -> dget (nodemap g) name = Some n ->
  filter (fun i => memb i (dynamics g)) (n_in n) = [ind] -> n_out n = [out] -> ind <> ""%string -> out <> ""%string ->
  In out (reads_of (nodes_of g)) ->
  Permutation (A ++ n :: B) (nodes_of g) -> respects_deps (A ++ n :: B) ->
  (forall e, sem n (map (look_private e) (n_in n)) = [e ind]) ->
  exists g', skip_node g name = Ok g' /\ nodemap g' = map (fun kn => (fst kn, read_instead out ind (snd kn))) (ddel (nodemap g) name) /\
    Permutation (map (read_instead out ind) (A ++ B)) (nodes_of g') /\
    respects_deps (map (read_instead out ind) (A ++ B)) /\
    forall e t, t <> ""%string -> t <> out -> run e (map (read_instead out ind) (A ++ B)) t = run e (A ++ n :: B) t.
Proof.
  intros g name n ind out A B HC E EF EO Ni No HR HP HD HS.
  destruct (In_filter_sing _ _ _ EF) as [Ii _].
  assert (Hread : ~ In ind (outs_of (n :: B))) by (exact (HD A n B ind eq_refl Ii Ni)).
  assert (Nio : ind <> out).
  { intro. subst. apply Hread. unfold outs_of. cbn [flat_map]. rewrite EO. left. reflexivity. }
  destruct (skip_consumed g name n ind out HC E EF EO Nio HR) as (g' & F & M & _).
  exists g'. split; [exact F|]. split; [exact M|].
  assert (NDo : NoDup (outs_of (A ++ n :: B))).
  { eapply Permutation_NoDup; [apply Permutation_outs, Permutation_sym; exact HP|apply uniq_outs; exact HC]. }
  rewrite outs_app in NDo. unfold outs_of at 2 in NDo. cbn [flat_map] in NDo. fold (outs_of B) in NDo. rewrite EO in NDo.
  destruct (NoDup_app_inv _ _ _ NDo) as (_ & ND2 & D2). cbn [app] in ND2. inversion ND2 as [|? ? N1 N2]; subst.
  assert (NoB : ~ In out (outs_of B)) by exact N1.
  assert (NiB : ~ In ind (outs_of B)).
  { intro X. apply Hread. unfold outs_of. cbn [flat_map]. apply in_app_iff. right. exact X. }
  assert (rA : forall m, In m A -> ~ In out (n_in m)).
  { intros m I J. apply in_split in I. destruct I as (a & b & ->). rewrite <- app_assoc in HD. cbn [app] in HD.
    apply (HD a m (b ++ n :: B) out eq_refl J No). change (m :: b ++ n :: B) with ((m :: b) ++ n :: B). rewrite outs_app. apply in_app_iff. right.
    unfold outs_of. cbn [flat_map]. rewrite EO. left. reflexivity. }
  assert (mA : map (read_instead out ind) A = A).
  { rewrite <- (map_id A) at 2. apply map_ext_in. intros m I. apply read_instead_id, rA, I. }
  split; [|split].
  - unfold nodes_of. rewrite M, map_map. cbn [snd]. rewrite <- (map_map snd (read_instead out ind)). apply Permutation_map.
    apply (Permutation_cons_inv (a := n)). eapply Permutation_trans; [apply Permutation_middle|].
    eapply Permutation_trans; [exact HP|]. apply Permutation_sym. apply nodes_ddel_perm; [apply HC|exact E].
  - rewrite map_app, mA. apply (respects_swap A (n :: B)); [exact HD| |].
    + rewrite outs_read_instead. intros t X. unfold outs_of. cbn [flat_map]. apply in_app_iff. right. exact X.
    + apply respects_renamed; [exact NiB|]. apply respects_tail in HD. apply respects_cons in HD. apply HD.
  - intros e t Nt Nto. rewrite map_app, mA, !run_app. change (n :: B) with ([n] ++ B). rewrite run_app.
    assert (ES : forall u, run (run e A) [n] u = if String.eqb u out then run e A ind else run e A u).
    { intros u. unfold run_private at 1. cbn [fold_left]. unfold step_private. rewrite HS, EO. cbn [combine fold_left].
      unfold write_private, upd. cbn [fst snd]. reflexivity. }
    apply run_renamed; auto.
    + intros u Nu. rewrite ES. destruct (String.eqb_spec u out); [contradiction|reflexivity].
    + rewrite !ES, String.eqb_refl. destruct (String.eqb_spec ind out); [contradiction|reflexivity].
Qed.

(** ... and when the skipped tensor is itself a declared output, nobody produces it any more *)
Theorem skip_consumed_output_lost : forall g name n ind out, consistent g -> dget (nodemap g) name = Some n ->
  filter (fun i => memb i (dynamics g)) (n_in n) = [ind] -> n_out n = [out] -> ind <> out ->
  In out (reads_of (nodes_of g)) -> In out (g_output g) ->
  exists g', skip_node g name = Ok g' /\ In out (g_output g') /\ ~ In out (outs_of (nodes_of g')) /\
    dget (nodemap g') name = None /\ dget (producedby g') out = Some [name].
Proof.
  intros g name n ind out HC E EF EO Nio HR HO.
  destruct (skip_consumed g name n ind out HC E EF EO Nio HR) as (g' & F & M & _ & GO & _ & _ & _ & PB).
  exists g'. split; [exact F|]. split; [rewrite GO; exact HO|].
  assert (U : forall k m, In (k, m) (nodemap g) -> In out (n_out m) -> k = name).
  { intros k m I J. eapply outs_unique_key; [apply (co_uniq g HC)|exact I|apply dget_In; exact E|exact J|rewrite EO; left; reflexivity]. }
  split; [|split].
  - intro I. unfold outs_of, nodes_of in I. rewrite M, map_map in I. cbn [snd] in I. apply in_flat_map in I. destruct I as (m & I & J).
    apply in_map_iff in I. destruct I as ([k m0] & <- & I). cbn [snd read_instead set_in n_out] in J. apply In_ddel in I; [|apply HC].
    destruct I as [I1 I2]. apply I2. eapply U; eauto.
  - rewrite M. rewrite (dget_map _ _ (fun _ m => read_instead out ind m)). rewrite dget_ddel_eq by apply HC. reflexivity.
  - rewrite PB. pose proof (tb_cnt _ _ _ _ _ (co_prod g HC) out) as C. cbn [count] in C.
    assert (Cn : count name (glist (producedby g) out) = 1).
    { rewrite C. unfold cnt_sel. rewrite E, EO. cbn [count]. rewrite String.eqb_refl. destruct (String.eqb name ""); reflexivity. }
    assert (Co : forall x, In x (glist (producedby g) out) -> x = name).
    { intros x X. destruct (tbl_of _ _ _ _ _ _ _ (co_prod g HC) X) as (xn & X1 & X2 & _). eapply U; [apply dget_In; exact X1|exact X2]. }
    unfold glist in *. destruct (dget (producedby g) out) as [l|]; [|discriminate].
    f_equal. destruct l as [|a [|b l]]; [discriminate| |].
    + rewrite (Co a (or_introl eq_refl)). reflexivity.
    + exfalso. rewrite (Co a (or_introl eq_refl)), (Co b (or_intror (or_introl eq_refl))) in Cn. cbn [count] in Cn. rewrite String.eqb_refl in Cn. lia.
Qed.

(** C16, nobody reads the output: its producer is renamed *)
Theorem skip_unconsumed : forall g name n ind out p pn, consistent g -> dget (nodemap g) name = Some n ->
  filter (fun i => memb i (dynamics g)) (n_in n) = [ind] -> n_out n = [out] -> ind <> out ->
  ~ In out (reads_of (nodes_of g)) -> dget (nodemap g) p = Some pn -> n_out pn = [ind] ->
  exists g', skip_node g name = Ok g' /\
    nodemap g' = ddel (dset (nodemap g) p (set_out pn [out])) name /\
    g_input g' = g_input g /\ g_output g' = g_output g /\ producedby g' = producedby g.
Proof.
  intros g name n ind out p pn HC E EF EO Nio HR Ep EPo. unfold skip_node. rewrite E, EF, EO.
  destruct (In_filter_sing _ _ _ EF) as [Ii _].
  assert (Hin : In name (glist (consumedby g) ind)).
  { apply count_pos. rewrite (tb_cnt _ _ _ _ _ (co_cons g HC)). unfold cnt_sel. rewrite E. apply count_pos in Ii. cbn [count]. destruct (String.eqb name ""); lia. }
  assert (exists l, dget (consumedby g) ind = Some l /\ In name l) as (l & El & Il).
  { unfold glist in Hin. destruct (dget (consumedby g) ind) as [l|]; [eauto|destruct Hin]. }
  rewrite El. assert (memb name l = true) as -> by (apply memb_In; exact Il). cbn [negb].
  rewrite dget_dset_neq by congruence.
  destruct (dget (consumedby g) out) as [cl|] eqn:Ec.
  { exfalso. destruct cl as [|x cl]; [exact (tb_ne _ _ _ _ _ (co_cons g HC) out Ec)|].
    assert (X : In x (glist (consumedby g) out)) by (unfold glist; rewrite Ec; left; reflexivity).
    destruct (tbl_of _ _ _ _ _ _ _ (co_cons g HC) X) as (xn & X1 & X2 & _). apply HR, (read_iff g). exists x, xn. split; [apply dget_In; exact X1|exact X2]. }
  assert (U : forall k m, In (k, m) (nodemap g) -> In ind (n_out m) -> k = p).
  { intros k m I J. eapply outs_unique_key; [apply (co_uniq g HC)|exact I|apply dget_In; exact Ep|exact J|rewrite EPo; left; reflexivity]. }
  assert (PB : dget (producedby g) ind = Some [p]).
  { pose proof (tb_cnt _ _ _ _ _ (co_prod g HC) ind) as C. cbn [count] in C.
    assert (Cn : count p (glist (producedby g) ind) = 1).
    { rewrite C. unfold cnt_sel. rewrite Ep, EPo. cbn [count]. rewrite String.eqb_refl. destruct (String.eqb p ""); reflexivity. }
    assert (Co : forall x, In x (glist (producedby g) ind) -> x = p).
    { intros x X. destruct (tbl_of _ _ _ _ _ _ _ (co_prod g HC) X) as (xn & X1 & X2 & _). eapply U; [apply dget_In; exact X1|exact X2]. }
    unfold glist in *. destruct (dget (producedby g) ind) as [l'|]; [|discriminate].
    f_equal. destruct l' as [|a [|b l']]; [discriminate| |].
    - rewrite (Co a (or_introl eq_refl)). reflexivity.
    - exfalso. rewrite (Co a (or_introl eq_refl)), (Co b (or_intror (or_introl eq_refl))) in Cn. cbn [count] in Cn. rewrite String.eqb_refl in Cn. lia. }
  rewrite PB. cbn [rename_producers]. rewrite Ep, EPo. cbn [bind rename_producers].
  eexists. split; [reflexivity|]. cbn [with_rel nodemap g_input g_output producedby]. auto.
Qed.

Theorem skip_unconsumed_values : forall g name n ind out p pn A1 A2 B, consistent g -> dget (nodemap g) name = Some n ->
  filter (fun i => memb i (dynamics g)) (n_in n) = [ind] -> n_out n = [out] -> ind <> ""%string -> out <> ""%string ->
  ~ In out (reads_of (nodes_of g)) -> dget (nodemap g) p = Some pn -> n_out pn = [ind] ->
  Permutation (A1 ++ pn :: A2 ++ n :: B) (nodes_of g) -> respects_deps (A1 ++ pn :: A2 ++ n :: B) ->
  (forall m, In m (nodes_of g) -> In ind (n_in m) -> m = n) ->
  (forall args, length (sem pn args) = 1) ->
  (forall e, sem n (map (look_private e) (n_in n)) = [e ind]) ->
  exists g', skip_node g name = Ok g' /\
    Permutation (A1 ++ set_out pn [out] :: A2 ++ B) (nodes_of g') /\
    forall e t, t <> ""%string -> t <> ind -> run e (A1 ++ set_out pn [out] :: A2 ++ B) t = run e (A1 ++ pn :: A2 ++ n :: B) t.
Proof.
  intros g name n ind out p pn A1 A2 B HC E EF EO Ni No HR Ep EPo HP HD HI HL HS.
  destruct (In_filter_sing _ _ _ EF) as [Ii _].
  assert (NDo : NoDup (outs_of (A1 ++ pn :: A2 ++ n :: B))).
  { eapply Permutation_NoDup; [apply Permutation_outs, Permutation_sym; exact HP|apply uniq_outs; exact HC]. }
  assert (EOS : outs_of (A1 ++ pn :: A2 ++ n :: B) = outs_of A1 ++ ind :: outs_of A2 ++ out :: outs_of B).
  { rewrite outs_app. unfold outs_of at 2. cbn [flat_map]. rewrite EPo. cbn [app]. rewrite flat_map_app. cbn [flat_map]. rewrite EO. reflexivity. }
  rewrite EOS in NDo. clear EOS.
  destruct (NoDup_app_inv _ _ _ NDo) as (_ & ND2 & D1). inversion ND2 as [|? ? N1 ND3]; subst.
  destruct (NoDup_app_inv _ _ _ ND3) as (_ & ND4 & D2). inversion ND4 as [|? ? N2 _]; subst.
  rewrite in_app_iff in N1. cbn [In] in N1.
  assert (Nio : ind <> out) by (intro; subst; tauto).
  assert (Nout2 : ~ In out (outs_of A2)) by (intro X; apply (D2 out X); left; reflexivity).
  destruct (skip_unconsumed g name n ind out p pn HC E EF EO Nio HR Ep EPo) as (g' & F & M & _).
  exists g'. split; [exact F|].
  assert (Npn : p <> name).
  { intros ->. rewrite E in Ep. injection Ep as <-. rewrite EO in EPo. injection EPo as ->. contradiction. }
  assert (NDnodes : NoDup (A1 ++ pn :: A2 ++ n :: B)).
  { eapply Permutation_NoDup; [apply Permutation_sym; exact HP|]. apply (NoDup_map_inv n_name). unfold nodes_of. rewrite map_map.
    erewrite map_ext_in; [exact (co_nd g HC)|]. intros [k m] I. cbn. apply (co_names g HC). exact I. }
  split.
  - unfold nodes_of. rewrite M. apply (Permutation_cons_inv (a := n)).
    eapply Permutation_trans; [|apply Permutation_sym, nodes_ddel_perm; [apply NoDup_dkeys_dset, HC|rewrite dget_dset_neq by exact Npn; exact E]].
    assert (PD : forall (d : dict node) v, NoDup (dkeys d) -> dget d p = Some pn -> Permutation (map snd (dset d p v)) (v :: map snd (ddel d p))).
    { intros d v. induction d as [|[k0 n0] r IH]; intros ND X; [discriminate|]. cbn [dkeys map fst] in ND. inversion ND as [|? ? M1 M2]; subst.
      cbn [dget] in X. cbn [dset ddel]. destruct (String.eqb p k0); [apply Permutation_refl|]. cbn [map snd].
      eapply Permutation_trans; [constructor; apply IH; assumption|]. apply perm_swap. }
    eapply Permutation_trans; [|apply Permutation_sym, PD; [apply HC|exact Ep]].
    assert (P0 : Permutation (A1 ++ A2 ++ n :: B) (map snd (ddel (nodemap g) p))).
    { apply (Permutation_cons_inv (a := pn)). eapply Permutation_trans; [apply Permutation_middle|].
      eapply Permutation_trans; [exact HP|]. apply Permutation_sym, nodes_ddel_perm; [apply HC|exact Ep]. }
    eapply Permutation_trans; [|constructor; exact P0].
    eapply Permutation_trans; [constructor; apply Permutation_sym, Permutation_middle|].
    eapply Permutation_trans; [apply perm_swap|]. constructor.
    rewrite !app_assoc. apply Permutation_middle.
  - intros e t Nt Nti. rewrite !run_app. change (set_out pn [out] :: A2 ++ B) with ([set_out pn [out]] ++ A2 ++ B).
    change (pn :: A2 ++ n :: B) with ([pn] ++ A2 ++ [n] ++ B). rewrite !run_app. set (e0 := run e A1).
    set (v := sem pn (map (look_private e0) (n_in pn))).
    assert (V : exists w, v = [w]).
    { specialize (HL (map (look_private e0) (n_in pn))). fold v in HL. destruct v as [|w [|? ?]]; try discriminate. eauto. }
    destruct V as [w Ew].
    assert (S1 : forall u, run e0 [pn] u = if String.eqb u ind then w else e0 u).
    { intros u. unfold run_private. cbn [fold_left]. unfold step_private. fold v. rewrite Ew, EPo. reflexivity. }
    assert (S2 : forall u, run e0 [set_out pn [out]] u = if String.eqb u out then w else e0 u).
    { intros u. unfold run_private. cbn [fold_left]. unfold step_private. cbn [set_out n_in n_out]. rewrite sem_out. fold v. rewrite Ew. reflexivity. }
    set (ea := run e0 [pn]) in *. set (eb := run e0 [set_out pn [out]]) in *.
    assert (inAll : forall m, In m A2 \/ In m B -> In m (nodes_of g) /\ m <> n).
    { intros m Im. split.
      - eapply Permutation_in; [exact HP|]. apply in_app_iff. right. right. apply in_app_iff. destruct Im as [Im|Im]; [left|right; right]; exact Im.
      - intros ->. destruct (NoDup_app_inv _ _ _ NDnodes) as (_ & X & _). inversion X as [|? ? _ X2]; subst.
        destruct (NoDup_app_inv _ _ _ X2) as (_ & X3 & X4). inversion X3 as [|? ? X5 _]; subst.
        destruct Im as [Im|Im]; [apply (X4 n Im); left; reflexivity|contradiction]. }
    assert (rd : forall m u, In m A2 \/ In m B -> In u (n_in m) -> u <> ind /\ u <> out).
    { intros m u Im Iu. destruct (inAll m Im) as [I1 I2]. split; intros ->.
      - apply I2, HI; assumption.
      - apply HR. unfold reads_of. apply in_flat_map. exists m. auto. }
    assert (S3 : forall u, u <> ind /\ u <> out -> run eb A2 u = run ea A2 u).
    { apply run_agree.
      - intros u [U1 U2]. rewrite S1, S2. destruct (String.eqb_spec u ind); [contradiction|]. destruct (String.eqb_spec u out); [contradiction|]. reflexivity.
      - intros m u Im Iu _. eapply rd; eauto. }
    assert (S4 : forall u, u <> ind -> run eb A2 u = run (run ea A2) [n] u).
    { intros u Nu. assert (ES : run (run ea A2) [n] u = if String.eqb u out then run ea A2 ind else run ea A2 u).
      { unfold run_private at 1. cbn [fold_left]. unfold step_private. rewrite HS, EO. reflexivity. }
      rewrite ES. destruct (String.eqb_spec u out) as [->|Nuo]; [|apply S3; auto].
      rewrite !run_notin by (try exact Nout2; intro X; apply N1; left; exact X).
      rewrite S1, S2, !String.eqb_refl. reflexivity. }
    apply (run_agree sem (fun u => u <> ind)); [exact S4| |exact Nti].
    intros m u Im Iu _. destruct (rd m u (or_intror Im) Iu). assumption.
Qed.

(** the operand is a graph input (no producer) and nobody reads the result: the call raises KeyError *)
Theorem skip_input_crash : forall g name n ind out, consistent g -> dget (nodemap g) name = Some n ->
  filter (fun i => memb i (dynamics g)) (n_in n) = [ind] -> n_out n = [out] -> ind <> out ->
  ~ In out (reads_of (nodes_of g)) -> ~ In ind (outs_of (nodes_of g)) -> skip_node g name = KeyError.
Proof.
  intros g name n ind out HC E EF EO Nio HR HP. unfold skip_node. rewrite E, EF, EO.
  destruct (In_filter_sing _ _ _ EF) as [Ii _].
  assert (Hin : In name (glist (consumedby g) ind)).
  { apply count_pos. rewrite (tb_cnt _ _ _ _ _ (co_cons g HC)). unfold cnt_sel. rewrite E. apply count_pos in Ii. cbn [count]. destruct (String.eqb name ""); lia. }
  unfold glist in Hin. destruct (dget (consumedby g) ind) as [l|]; [|destruct Hin].
  apply memb_In in Hin. rewrite Hin. cbn [negb]. rewrite dget_dset_neq by congruence.
  destruct (dget (consumedby g) out) as [cl|] eqn:Ec.
  { exfalso. destruct cl as [|x cl]; [exact (tb_ne _ _ _ _ _ (co_cons g HC) out Ec)|].
    assert (X : In x (glist (consumedby g) out)) by (unfold glist; rewrite Ec; left; reflexivity).
    destruct (tbl_of _ _ _ _ _ _ _ (co_cons g HC) X) as (xn & X1 & X2 & _). apply HR, (read_iff g). exists x, xn. split; [apply dget_In; exact X1|exact X2]. }
  destruct (dget (producedby g) ind) as [pl|] eqn:Ep; [|reflexivity]. exfalso.
  destruct pl as [|x pl]; [exact (tb_ne _ _ _ _ _ (co_prod g HC) ind Ep)|].
  assert (X : In x (glist (producedby g) ind)) by (unfold glist; rewrite Ep; left; reflexivity).
  destruct (tbl_of _ _ _ _ _ _ _ (co_prod g HC) X) as (xn & X1 & X2 & _). apply HP. eapply In_outs_nodes; [apply dget_In; exact X1|exact X2].
Qed.
End SkipTop.
