From Verif Require Import PyBase PyBaseFacts GraphModel CompressSpec RelSpec RelProofs TopSortSpec EditModel EditSpec
  RemoveProofs IoProofs FuseProofs ShapeModel ConvBNModel ComputeSpec ComputeProofs ComputeTop TopKProofs IfModel IfSpec IfProofs.
Local Open Scope string_scope.
Local Open Scope list_scope.
Local Open Scope nat_scope.

Section FLAT.
Variable body : string -> branch.
Variable g : graph.
Hypothesis HC : consistent g.
Hypothesis HP : plain_ifs body g.

Notation main := (nodemap g).
Lemma main_eq : forall q m m', In (q, m) main -> In (q, m') main -> m = m'.
Proof. intros q m m' A B. pose proof (node_at g HC _ _ A). pose proof (node_at g HC _ _ B). congruence. Qed.
Lemma main_key : forall k n, In (k, n) main -> In k (dkeys main).
Proof. intros k n I. apply in_map_iff. exists (k, n). auto. Qed.
Lemma if_named : forall k n, is_if g k n -> n_name n = k.
Proof. intros k n [I _]. apply (co_names g HC), I. Qed.

Notation placed := (IfSpec.placed body).
(** every reader of [t] in the graph is in [rm] *)
Definition readers_in (rm : list string) (t : string) : Prop := forall r rn, In (r, rn) main -> In t (n_in rn) -> In r rm.
Definition Q (k : string) (rm : list string) (x : string) : Prop :=
  (exists n, x = k /\ is_if g k n) \/ exists t xn s sn, In (x, xn) main /\ In t (n_out xn) /\ cond_only body g k s /\ In (s, sn) main /\ In t (n_in sn) /\
     ~ In t (sub_input (body k)) /\ readers_in rm t.
Lemma Q_mono : forall k rm rm' x, incl rm rm' -> Q k rm x -> Q k rm' x.
Proof.
  intros k rm rm' x I [H|(t & xn & s & sn & A & B & C & D & E & F & G)]; [left; exact H|right]. exists t, xn, s, sn. repeat (split; [assumption|]).
  intros r rn R1 R2. apply I. eapply G; eauto.
Qed.
Definition all_cond (rm : list string) : Prop := forall x, In x rm -> exists k, cond_only body g k x.
Lemma Q_cond : forall k rm x, all_cond rm -> Q k rm x -> cond_only body g k x.
Proof.
  intros k rm x H [(n & -> & I)|(t & xn & s & sn & A & B & C & D & E & F & G)]; [eapply co_if; eauto|].
  eapply co_feed; [exact C|exact D|exact E|intros m Im It; apply F; unfold sub_input; apply in_flat_map; exists m; split; [exact Im|exact It]|exact A|exact B|]. intros r rn R1 R2. apply H. eapply G; eauto.
Qed.
Lemma cond_main : forall k x, cond_only body g k x -> exists xn, In (x, xn) main.
Proof. intros k x H. destruct H as [k n [I _]|k s sn t p pn _ _ _ _ I _ _]; eauto. Qed.
Lemma Q_main : forall k rm x, Q k rm x -> exists xn, In (x, xn) main.
Proof. intros k rm x [(n & -> & I & _)|(t & xn & s & sn & A & _)]; eauto. Qed.

(** the tables on the tensors of the graph: producers of the graph come first *)
Definition prod_ok (prod : dict (list string)) : Prop :=
  (forall p pn t, In (p, pn) main -> In t (n_out pn) -> exists l, dget prod t = Some (p :: l)) /\
  (forall t, In t (reads_of (nodes_of g)) -> ~ In t (outs_of (nodes_of g)) -> dget prod t = None).
Definition cons_ok (cns : dict (list string)) (rm : list string) : Prop :=
  forall r rn t, In (r, rn) main -> In t (n_in rn) -> In r rm \/ In r (glist cns t).

Lemma inputs_ok : forall prod k rm s sn, prod_ok prod -> cond_only body g k s -> In (s, sn) main -> forall ins q cns q' cns', incl ins (n_in sn) ->
  (forall r rn t, In (r, rn) main -> In t (n_in rn) -> r <> s -> In r rm \/ In r (glist cns t)) ->
  if_inputs prod (sub_input (body k)) s ins q cns = SOk (q', cns') ->
  (forall r rn t, In (r, rn) main -> In t (n_in rn) -> r <> s -> In r rm \/ In r (glist cns' t)) /\
  (forall x, In x q' -> In x q \/ Q k (rm ++ [s]) x).
Proof.
  intros prod k rm s sn [HP1 HP2] Cs Is. induction ins as [|i r IH]; intros q cns q' cns' HI HN E; cbn [if_inputs] in E.
  - injection E as <- <-. auto.
  - destruct (dget cns i) as [l|] eqn:D; [|discriminate].
    assert (HI' : incl r (n_in sn)) by (intros x X; apply HI; right; exact X).
    assert (HN' : forall r rn t, In (r, rn) main -> In t (n_in rn) -> r <> s -> In r rm \/ In r (glist (dset cns i (remove1 s l)) t)).
    { intros x xn t A B N. destruct (HN x xn t A B N) as [H|H]; [auto|right]. unfold glist in *. rewrite dget_dset. destruct (String.eqb_spec t i) as [->|N']; [|exact H].
      rewrite D in H. apply count_pos. rewrite count_remove1_neq by exact N. now apply count_pos. }
    destruct (Nat.eqb_spec (length l) 1) as [L|L]; cbn [andb] in E.
    + destruct (memb i (sub_input (body k))) eqn:Ms; cbn [negb] in E.
      * destruct (memb s l); [|discriminate]. exact (IH _ _ _ _ HI' HN' E).
      * destruct (dget prod i) as [[|p ps]|] eqn:Dp; [discriminate| |].
        -- destruct (memb s l) eqn:Ml; [|discriminate]. destruct (IH _ _ _ _ HI' HN' E) as [A B]. split; [exact A|].
           intros x X. destruct (B x X) as [H|H]; [|auto]. apply in_app_iff in H. destruct H as [H|[<-|[]]]; [auto|]. right. right.
           assert (Ro : In i (reads_of (nodes_of g))) by (apply read_in; exists s, sn; split; [exact Is|apply HI; left; reflexivity]).
           destruct (in_dec string_dec i (outs_of (nodes_of g))) as [O|O]; [|rewrite (HP2 i Ro O) in Dp; discriminate].
           apply out_in in O. destruct O as (p' & pn & Ip & Op). destruct (HP1 _ _ _ Ip Op) as (l' & Dl). rewrite Dl in Dp. injection Dp as -> _.
           exists i, pn, s, sn. repeat (split; [first [assumption|apply HI; left; reflexivity]|]).
           split; [apply memb_nIn; exact Ms|]. intros x xn Ix Rx. apply in_app_iff. destruct (string_dec x s) as [->|N]; [right; left; reflexivity|left].
           destruct (HN x xn i Ix Rx N) as [H|H]; [exact H|exfalso]. unfold glist in H. rewrite D in H. destruct l as [|a [|b l]]; try discriminate.
           apply memb_In in Ml. destruct Ml as [->|[]]. destruct H as [H|[]]. congruence.
        -- destruct (memb s l); [|discriminate]. exact (IH _ _ _ _ HI' HN' E).
    + destruct (memb s l); [|discriminate]. exact (IH _ _ _ _ HI' HN' E).
Qed.
Lemma chain_ok : forall prod nm k, prod_ok prod -> (forall x xn, In (x, xn) main -> dget nm x = Some xn) ->
  forall fuel q cns rm cns' rm', all_cond rm -> cons_ok cns rm -> (forall x, In x q -> Q k rm x) ->
  if_chain fuel nm prod (sub_input (body k)) q cns rm = Some (SOk (cns', rm')) ->
  all_cond rm' /\ cons_ok cns' rm' /\ incl rm rm' /\ (forall x, In x rm' -> In x rm \/ Q k rm' x).
Proof.
  intros prod nm k Hp Hnm. induction fuel as [|f IH]; intros [|s r] cns rm cns' rm' HA HK HQ E; cbn [if_chain] in E; try discriminate.
  1, 2: injection E as <- <-; repeat (split; [first [assumption|apply incl_refl]|]); auto.
  assert (Qs : Q k rm s) by (apply HQ; left; reflexivity). destruct (Q_main _ _ _ Qs) as (sn & Is). rewrite (Hnm _ _ Is) in E.
  destruct (if_inputs prod _ s (n_in sn) r cns) as [[q1 c1]|] eqn:I; [|discriminate].
  pose proof (Q_cond _ _ _ HA Qs) as Cs.
  destruct (inputs_ok prod k rm s sn Hp Cs Is (n_in sn) r cns q1 c1 (incl_refl _)) as [A B]; [intros x xn t A B _; eapply HK; eauto|exact I|].
  destruct (IH q1 c1 (rm ++ [s]) cns' rm') as (X1 & X2 & X3 & X4).
  - intros x X. apply in_app_iff in X. destruct X as [X|[<-|[]]]; [auto|eauto].
  - intros x xn t Ix Rx. destruct (string_dec x s) as [->|N]; [left; apply in_app_iff; right; left; reflexivity|].
    destruct (A x xn t Ix Rx N) as [H|H]; [left; apply in_app_iff; auto|auto].
  - intros x X. destruct (B x X) as [H|H]; [|exact H]. eapply Q_mono; [|apply HQ; right; exact H]. intros y Y. apply in_app_iff. auto.
  - exact E.
  - split; [exact X1|]. split; [exact X2|]. assert (X5 : incl rm rm') by (intros y Y; apply X3, in_app_iff; auto). split; [exact X5|].
    intros x X. destruct (X4 x X) as [H|H]; [|auto]. apply in_app_iff in H. destruct H as [H|[<-|[]]]; [auto|right]. eapply Q_mono; eauto.
Qed.

(** adding and renaming branch nodes *)
Lemma add_get : forall ns nm pc, NoDup (map n_name ns) ->
  let nm' := fst (fold_left (fun st n => (dset (fst st) (n_name n) n, upd_node (snd st) n)) ns (nm, pc)) in
  (forall m, In m ns -> dget nm' (n_name m) = Some m) /\ (forall k, ~ In k (map n_name ns) -> dget nm' k = dget nm k).
Proof.
  induction ns as [|n r IH]; intros nm pc ND; cbv zeta; [split; [intros m []|reflexivity]|]. cbn [map] in ND. inversion ND as [|? ? N1 N2]; subst.
  cbn [fold_left fst snd]. destruct (IH (dset nm (n_name n) n) (upd_node pc n) N2) as [A B]. split.
  - intros m [<-|I]; [|auto]. rewrite (B _ N1). apply dget_dset_eq.
  - intros k N. cbn [map In] in N. rewrite B by tauto. apply dget_dset_neq. tauto.
Qed.
Lemma push_head : forall v ts d t p l, dget d t = Some (p :: l) -> exists l', dget (fold_left (fun d t => dpush d t v) ts d) t = Some (p :: l').
Proof.
  intros v. induction ts as [|a r IH]; intros d t p l E; [cbn; eauto|]. cbn [fold_left]. unfold dpush at 2. destruct (dget d a) as [la|] eqn:D.
  - destruct (String.eqb_spec t a) as [->|N].
    + rewrite E in D. injection D as <-. eapply IH. rewrite dget_dset_eq. reflexivity.
    + eapply IH. rewrite dget_dset_neq by congruence. exact E.
  - destruct (String.eqb_spec t a) as [->|N]; [congruence|]. eapply IH. rewrite dget_dset_neq by congruence. exact E.
Qed.
Lemma push_none : forall v ts d t, ~ In t ts -> dget (fold_left (fun d t => dpush d t v) ts d) t = dget d t.
Proof.
  intros v. induction ts as [|a r IH]; intros d t N; [reflexivity|]. cbn [fold_left]. rewrite IH by (intros X; apply N; right; exact X).
  unfold dpush. destruct (dget d a); apply dget_dset_neq; intros ->; apply N; left; reflexivity.
Qed.
Lemma add_tables : forall ns nm prod cns,
  let st := fold_left (fun st n => (dset (fst st) (n_name n) n, upd_node (snd st) n)) ns (nm, (prod, cns)) in
  (forall t p l, dget prod t = Some (p :: l) -> exists l', dget (fst (snd st)) t = Some (p :: l')) /\
  (forall t, ~ In t (flat_map n_out ns) -> dget (fst (snd st)) t = dget prod t) /\
  (forall t x, In x (glist cns t) -> In x (glist (snd (snd st)) t)).
Proof.
  induction ns as [|n r IH]; intros nm prod cns; cbv zeta; [cbn; eauto|]. cbn [fold_left fst snd upd_node].
  destruct (IH (dset nm (n_name n) n) (fold_left (fun d t => dpush d t (n_name n)) (n_out n) prod) (fold_left (fun d t => dpush d t (n_name n)) (n_in n) cns)) as (A & B & C).
  split; [|split].
  - intros t p l E. destruct (push_head (n_name n) (n_out n) prod t p l E) as (l' & E'). eapply A; eauto.
  - intros t N. cbn [flat_map] in N. rewrite in_app_iff in N. rewrite B by tauto. apply push_none. tauto.
  - intros t x I. apply C. rewrite fold_dpush. apply in_app_iff. auto.
Qed.
Lemma revise_get : forall pre new names nm tm prod nm' tm' prod', NoDup names -> revise pre new names (nm, tm, prod) = SOk (nm', tm', prod') ->
  (forall k n, In k names -> dget nm k = Some n -> dget nm' k = Some (mkNode (n_name n) (n_op n) (n_in n) (renamed pre new (n_out n)))) /\
  (forall k, ~ In k names -> dget nm' k = dget nm k) /\
  (forall t p l, dget prod t = Some (p :: l) -> exists l', dget prod' t = Some (p :: l')) /\
  (forall t, t <> new -> dget prod' t = dget prod t).
Proof.
  intros pre new. induction names as [|a r IH]; intros nm tm prod nm' tm' prod' ND E; cbn [revise] in E.
  - injection E as <- <- <-. split; [intros k n []|]. split; [reflexivity|]. split; [eauto|reflexivity].
  - inversion ND as [|? ? N1 N2]; subst. destruct (revise1 pre new a (nm, tm, prod)) as [[[nm1 tm1] prod1]|] eqn:E1; [|discriminate]. cbn [sbind] in E.
    destruct (IH _ _ _ _ _ _ N2 E) as (A & B & C & D). unfold revise1 in E1. destruct (dget nm a) as [n|] eqn:G; [|discriminate].
    assert (nm1 = dset nm a (mkNode (n_name n) (n_op n) (n_in n) (renamed pre new (n_out n))) /\
      ((forall t p l, dget prod t = Some (p :: l) -> exists l', dget prod1 t = Some (p :: l')) /\ forall t, t <> new -> dget prod1 t = dget prod t)) as (-> & P1 & P2).
    { destruct (memb pre (n_out n)).
      - destruct (dget prod new) as [ln|] eqn:Dn; [|discriminate]. injection E1 as <- _ <-. split; [reflexivity|]. split.
        + intros t p l E'. rewrite dget_dset. destruct (String.eqb_spec t new) as [->|N]; [|eauto]. rewrite Dn in E'. injection E' as ->. cbn [Datatypes.app]. eauto.
        + intros t N. apply dget_dset_neq. congruence.
      - injection E1 as <- _ <-. split; [reflexivity|]. split; [eauto|reflexivity]. }
    split; [|split; [|split]].
    + intros k m [<-|I] Dk.
      * rewrite (B _ N1), dget_dset_eq. congruence.
      * assert (N : a <> k) by (intros ->; contradiction). apply A; [exact I|]. rewrite dget_dset_neq by exact N. exact Dk.
    + intros k N. cbn [In] in N. rewrite B by tauto. apply dget_dset_neq. tauto.
    + intros t p l E'. destruct (P1 _ _ _ E') as (l' & E''). eauto.
    + intros t N. rewrite (D t N). apply P2, N.
Qed.

(** invariant of a pass; [done] are the Ifs treated *)
Record J (done : list string) (s : ist) : Prop := {
  j_main : forall x xn, In (x, xn) main -> dget (i_nm s) x = Some xn;
  j_branch : forall k n m, In k done -> is_if g k n -> In m (b_nodes (body k)) -> dget (i_nm s) (n_name m) = Some (placed k n m);
  j_only : forall x, dget (i_nm s) x <> None -> In x (dkeys main) \/ exists k m, In k done /\ branch_node body g k m /\ x = n_name m;
  j_prod : prod_ok (i_prod s);
  j_cons : cons_ok (i_cons s) (i_rm s);
  j_cond : all_cond (i_rm s);
  j_rm : forall x, In x (i_rm s) -> exists k, Q k (i_rm s) x;
  j_done : forall k n, In k done -> is_if g k n -> In k (i_rm s)
}.
Lemma do_if_J : forall fuel done k n s s', J done s -> is_if g k n -> ~ In k done -> do_if body fuel n s = Some (SOk s') -> J (done ++ [k]) s'.
Proof.
  intros fuel done k n s s' [J1 J2 J3 J4 J5 J6 J7 J8] Ik Nk E. unfold do_if in E. rewrite (if_named k n Ik) in E.
  destruct (pi_one _ _ HP k n Ik) as (c & o & p & Ei & Eo & Eb & _).
  pose proof (pi_nodup _ _ HP k n Ik) as ND.
  destruct (if_chain _ _ _ _ _ _ _) as [[[cns rm]|]|] eqn:C; try discriminate. destruct (memb "" _); [discriminate|].
  destruct (add_branch (body k) (i_nm s) (i_prod s) cns) as [nm [prod cns']] eqn:A. rewrite Eb, Eo in E.
  destruct (revise p o _ (nm, i_tm s, prod)) as [[[nm' tm'] prod']|] eqn:R; [|discriminate]. injection E as <-.
  destruct (chain_ok (i_prod s) (i_nm s) k J4 J1 fuel [k] (i_cons s) (i_rm s) cns rm J6 J5) as (X1 & X2 & X3 & X4).
  { intros x [<-|[]]. left. eauto. }
  { exact C. }
  pose proof (add_get (b_nodes (body k)) (i_nm s) (i_prod s, cns) ND) as AG. cbv zeta in AG.
  pose proof (add_tables (b_nodes (body k)) (i_nm s) (i_prod s) cns) as AT. cbv zeta in AT.
  unfold add_branch in A. rewrite A in AG, AT. cbn [fst snd] in AG, AT. destruct AG as [AG1 AG2]. destruct AT as (AT1 & AT2 & AT3).
  destruct (revise_get _ _ _ _ _ _ _ _ _ ND R) as (RG1 & RG2 & RG3 & RG4).
  assert (Kk : In k rm) by (apply (chain_nonempty _ _ _ _ _ _ _ _ _ C), in_app_iff; right; left; reflexivity).
  assert (BN : forall m, In m (b_nodes (body k)) -> branch_node body g k m) by (intros m I; exists n; auto).
  assert (NotMain : forall x, In x (map n_name (b_nodes (body k))) -> ~ In x (dkeys main)).
  { intros x X. apply in_map_iff in X. destruct X as (m & <- & Im). apply (pi_fresh _ _ HP k m), BN, Im. }
  constructor; cbn [i_nm i_tm i_prod i_cons i_rm].
  - intros x xn Ix. assert (N : ~ In x (map n_name (b_nodes (body k)))) by (intros X; apply (NotMain x X); eapply main_key; eauto).
    rewrite (RG2 _ N), (AG2 _ N). apply J1, Ix.
  - intros k' n' m Ik' If' Im. apply in_app_iff in Ik'. destruct Ik' as [Ik'|[<-|[]]].
    + assert (N : ~ In (n_name m) (map n_name (b_nodes (body k)))).
      { intros X. apply in_map_iff in X. destruct X as (m' & E' & Im'). assert (k = k') by (eapply (pi_own _ _ HP k m' k' m); [apply BN, Im'|exists n'; auto|exact E']). subst k'. contradiction. }
      rewrite (RG2 _ N), (AG2 _ N). apply (J2 k' n' m); assumption.
    + assert (n' = n) by (eapply main_eq; [apply If'|apply Ik]). subst n'. unfold IfSpec.placed. fold (renamed (hd "" (b_outs (body k))) (hd "" (n_out n)) (n_out m)). rewrite Eb, Eo. cbn [hd]. apply RG1; [apply in_map, Im|apply AG1, Im].
  - intros x D. destruct (in_dec string_dec x (map n_name (b_nodes (body k)))) as [I|N].
    + right. apply in_map_iff in I. destruct I as (m & <- & Im). exists k, m. split; [apply in_app_iff; right; left; reflexivity|]. split; [apply BN, Im|reflexivity].
    + rewrite (RG2 _ N), (AG2 _ N) in D. destruct (J3 x D) as [H|(k' & m & A1 & A2 & A3)]; [left; exact H|right]. exists k', m. split; [apply in_app_iff; auto|auto].
  - destruct J4 as [P1 P2]. split.
    + intros q qn t Iq Oq. destruct (P1 q qn t Iq Oq) as (l & El). destruct (AT1 _ _ _ El) as (l' & El'). destruct (RG3 _ _ _ El') as (l'' & El''). eauto.
    + intros t Rt Ot. rewrite RG4.
      * rewrite AT2; [apply P2; assumption|]. intros X. apply in_flat_map in X. destruct X as (m & Im & Om). destruct (pi_local _ _ HP k m t (BN m Im) Om) as (_ & L & _). contradiction.
      * intros ->. apply Ot, out_in. exists k, n. split; [apply Ik|rewrite Eo; left; reflexivity].
  - intros x xn t Ix Rx. destruct (X2 x xn t Ix Rx) as [H|H]; [auto|right; apply AT3, H].
  - exact X1.
  - intros x Ix. destruct (X4 x Ix) as [H|H]; [|eauto]. destruct (J7 x H) as (k' & Q'). exists k'. eapply Q_mono; eauto.
  - intros k' n' Ik' If'. apply in_app_iff in Ik'. destruct Ik' as [Ik'|[<-|[]]]; [|exact Kk]. apply X3. eapply J8; eauto.
Qed.
Lemma pass_J : forall fuel keys done s s', NoDup (done ++ keys) -> incl keys (dkeys main) -> J done s -> if_pass body fuel keys s = Some (SOk s') ->
  J (done ++ keys) s'.
Proof.
  intros fuel. induction keys as [|k r IH]; intros done s s' ND HI HJ E; cbn [if_pass] in E.
  - injection E as <-. now rewrite app_nil_r.
  - assert (Kd : In k (dkeys main)) by (apply HI; left; reflexivity). apply in_map_iff in Kd. destruct Kd as ([k' n] & E' & Ik). cbn in E'. subst k'.
    rewrite (j_main _ _ HJ k n Ik) in E. assert (HI' : incl r (dkeys main)) by (intros x X; apply HI; right; exact X).
    assert (ND' : NoDup ((done ++ [k]) ++ r)) by (rewrite <- app_assoc; exact ND).
    replace (done ++ k :: r) with ((done ++ [k]) ++ r) by (rewrite <- app_assoc; reflexivity).
    destruct (String.eqb_spec (n_op n) "If") as [O|O].
    + destruct (do_if body fuel n s) as [[s1|]|] eqn:F; try discriminate. apply (IH (done ++ [k]) s1 s' ND' HI'); [|exact E].
      eapply do_if_J; [exact HJ|split; [exact Ik|exact O]| |exact F]. apply NoDup_remove_2 in ND. intros X. apply ND, in_app_iff. auto.
    + apply (IH (done ++ [k]) s s' ND' HI'); [|exact E]. destruct HJ as [J1 J2 J3 J4 J5 J6 J7 J8]. constructor; try assumption.
      * intros k' n' m I If' Im. apply in_app_iff in I. destruct I as [I|[<-|[]]]; [eapply J2; eauto|]. exfalso. apply O. assert (n' = n) by (eapply main_eq; [apply If'|exact Ik]). subst. apply If'.
      * intros x D. destruct (J3 x D) as [H|(k' & m & A1 & A2 & A3)]; [auto|right]. exists k', m. split; [apply in_app_iff; auto|auto].
      * intros k' n' I If'. apply in_app_iff in I. destruct I as [I|[<-|[]]]; [eapply J8; eauto|]. exfalso. apply O. assert (n' = n) by (eapply main_eq; [apply If'|exact Ik]). subst. apply If'.
Qed.
Lemma J_start : J [] (mkIst main (tensormap g) (producedby g) (consumedby g) []).
Proof.
  constructor; cbn [i_nm i_tm i_prod i_cons i_rm].
  - intros x xn Ix. apply (node_at g HC _ _ Ix).
  - intros k n m [].
  - intros x D. left. destruct (dget main x) as [n|] eqn:E; [|congruence]. apply dget_In in E. eapply main_key; eauto.
  - split.
    + intros p pn t Ip Ot. assert (X : In p (glist (producedby g) t)) by (apply (prod_spec g HC); eauto). unfold glist in X. destruct (dget (producedby g) t) as [[|a l]|] eqn:E; [destruct X| |destruct X].
      assert (a = p) as ->. { exact (prod_hd g HC t (a :: l) p pn E Ip Ot). } eauto.
    + intros t _ O. destruct (dget (producedby g) t) as [ps|] eqn:E; [|reflexivity]. destruct (prod_some g HC t ps E) as (pn & A & B). exfalso. apply O, out_in. eauto.
  - intros r rn t Ir Rt. right. apply (cons_spec g HC). eauto.
  - intros x [].
  - intros x [].
  - intros k n [].
Qed.

Lemma remove1_nodes : forall g1 k g2 nn, remove_node1 g1 k = Ok (g2, nn) -> NoDup (dkeys (nodemap g1)) ->
  NoDup (dkeys (nodemap g2)) /\ forall x, dget (nodemap g2) x = if String.eqb x k then None else dget (nodemap g1) x.
Proof.
  intros g1 k g2 nn R ND. unfold remove_node1 in R. destruct (dget (nodemap g1) k) as [n|] eqn:D.
  - destruct (rm_outs _ _ _) as [[prod out]| | |]; cbn [bind] in R; try discriminate.
    destruct (rm_ins _ _ _ _ _ _) as [[cns nn']| | |]; cbn [bind] in R; try discriminate. injection R as <- _. cbn. split; [apply NoDup_dkeys_ddel, ND|].
    intros x. destruct (String.eqb_spec x k) as [->|N]; [now apply dget_ddel_eq|apply dget_ddel_neq; congruence].
  - injection R as <- _. split; [exact ND|]. intros x. destruct (String.eqb_spec x k) as [->|N]; [exact D|reflexivity].
Qed.
Lemma remove_nodes_get : forall names g1 g2, remove_nodes g1 names = Ok g2 -> NoDup (dkeys (nodemap g1)) ->
  NoDup (dkeys (nodemap g2)) /\ forall x, dget (nodemap g2) x = if memb x names then None else dget (nodemap g1) x.
Proof.
  induction names as [|k r IH]; intros g1 g2 E ND; [injection E as <-; auto|]. rewrite remove_nodes_cons in E.
  destruct (remove_node1 g1 k) as [[g3 nn]| | |] eqn:R; cbn [bind] in E; try discriminate. destruct (remove1_nodes _ _ _ _ R ND) as [A B].
  destruct (IH _ _ E A) as [C D]. split; [exact C|]. intros x. rewrite D, B. cbn [memb]. destruct (String.eqb x k), (memb x r); reflexivity.
Qed.
Lemma remove_nodes_rest : forall names g1 g2, remove_nodes g1 names = Ok g2 -> initials g2 = initials g1 /\ g_input g2 = g_input g1.
Proof.
  induction names as [|k r IH]; intros g1 g2 E; [injection E as <-; auto|]. rewrite remove_nodes_cons in E.
  destruct (remove_node1 g1 k) as [[g3 nn]| | |] eqn:R; cbn [bind] in E; try discriminate. destruct (IH _ _ E) as [-> ->].
  unfold remove_node1 in R. destruct (dget (nodemap g1) k) as [n|]; [|injection R as <- _; auto].
  destruct (rm_outs _ _ _) as [[prod out]| | |]; cbn [bind] in R; try discriminate.
  destruct (rm_ins _ _ _ _ _ _) as [[cns nn']| | |]; cbn [bind] in R; try discriminate. injection R as <- _. auto.
Qed.
Lemma pass_no_if : forall fuel keys s, (forall k, In k keys -> exists n, dget (i_nm s) k = Some n /\ n_op n <> "If") -> if_pass body fuel keys s = Some (SOk s).
Proof.
  intros fuel. induction keys as [|k r IH]; intros s H; [reflexivity|]. cbn [if_pass]. destruct (H k (or_introl eq_refl)) as (n & D & O). rewrite D.
  destruct (String.eqb_spec (n_op n) "If"); [contradiction|]. apply IH. intros x X. apply H. right. exact X.
Qed.
Lemma pass_NoDup : forall s s' fuel keys, Inv body g (i_nm s) -> if_pass body fuel keys s = Some (SOk s') -> NoDup (dkeys (i_nm s')).
Proof. intros s s' fuel keys H E. destruct (pass_Inv body g fuel keys s s' H E) as ([A _] & _). exact A. Qed.

Lemma rm_outs_output : forall name outs prod out prod' out', rm_outs name outs (prod, out) = Ok (prod', out') ->
  (forall t, In t out' -> In t out) /\ (forall t, In t out -> ~ In t outs -> In t out').
Proof.
  intros name. induction outs as [|o r IH]; intros prod out prod' out' E; [injection E as <- <-; auto|]. cbn [rm_outs] in E. unfold rm_out in E at 1.
  destruct (dget prod o) as [l|]; cbn [bind] in E.
  - destruct (memb name l); cbn [bind] in E; [|discriminate]. destruct (IH _ _ _ _ E) as [A B]. split.
    + intros t I. apply A in I. destruct (memb o out); [|exact I]. now apply In_remove1 in I.
    + intros t I N. cbn [In] in N. apply B; [|tauto]. destruct (memb o out); [|exact I]. apply count_pos. rewrite count_remove1_neq by (intros ->; tauto). now apply count_pos.
  - destruct (IH _ _ _ _ E) as [A B]. split; [exact A|]. intros t I N. cbn [In] in N. apply B; tauto.
Qed.
Lemma remove_nodes_output : forall names g1 g2, remove_nodes g1 names = Ok g2 -> NoDup (dkeys (nodemap g1)) ->
  (forall t, In t (g_output g2) -> In t (g_output g1)) /\
  (forall t, In t (g_output g1) -> (forall x xn, In x names -> dget (nodemap g1) x = Some xn -> ~ In t (n_out xn)) -> In t (g_output g2)).
Proof.
  induction names as [|k r IH]; intros g1 g2 E ND; [injection E as <-; auto|]. rewrite remove_nodes_cons in E.
  destruct (remove_node1 g1 k) as [[g3 nn]| | |] eqn:R; cbn [bind] in E; try discriminate. destruct (remove1_nodes _ _ _ _ R ND) as [A B].
  assert (S : (forall t, In t (g_output g3) -> In t (g_output g1)) /\ (forall t, In t (g_output g1) -> (forall xn, dget (nodemap g1) k = Some xn -> ~ In t (n_out xn)) -> In t (g_output g3))).
  { unfold remove_node1 in R. destruct (dget (nodemap g1) k) as [n|]; [|injection R as <- _; auto].
    destruct (rm_outs _ _ _) as [[prod out]| | |] eqn:RO; cbn [bind] in R; try discriminate.
    destruct (rm_ins _ _ _ _ _ _) as [[cns nn']| | |]; cbn [bind] in R; try discriminate. injection R as <- _. cbn.
    destruct (rm_outs_output _ _ _ _ _ _ RO) as [X Y]. split; [exact X|]. intros t I H. apply Y; [exact I|]. apply H. reflexivity. }
  destruct S as [S1 S2]. destruct (IH _ _ E A) as [C D]. split; [intros t I; apply S1, C, I|]. intros t I H. apply D.
  - apply S2; [exact I|]. intros xn. apply H. left. reflexivity.
  - intros x xn Ix Dx. rewrite B in Dx. destruct (String.eqb x k); [discriminate|]. apply (H x xn); [right; exact Ix|exact Dx].
Qed.
(** the result: the nodes of the graph that are not removed, and the branch nodes *)
Lemma flat_result : forall n fuel g', remove_if body n fuel g = Some (SOk g') -> exists s,
  J (dkeys main) s /\ NoDup (dkeys (nodemap g')) /\ (forall x, dget (nodemap g') x = if memb x (i_rm s) then None else dget (i_nm s) x) /\
  initials g' = initials g /\ g_input g' = g_input g /\ (forall t, In t (g_output g') -> In t (g_output g)) /\
  (forall t, In t (g_output g) -> (forall x xn, In x (i_rm s) -> In (x, xn) main -> ~ In t (n_out xn)) -> In t (g_output g')).
Proof.
  intros n fuel g' E. destruct n as [|n]; [discriminate|]. cbn [remove_if] in E.
  destruct (if_pass body fuel (dkeys (nodemap g)) _) as [[s|]|] eqn:P; try discriminate.
  pose proof (pass_J fuel (dkeys main) [] _ s (co_nd g HC) (incl_refl _) J_start P) as HJ. cbn [Datatypes.app] in HJ.
  assert (I0 : Inv body g (i_nm (mkIst main (tensormap g) (producedby g) (consumedby g) []))) by (apply Inv_start; [apply (co_nd g HC)|apply (co_names g HC)]).
  pose proof (pass_NoDup _ _ _ _ I0 P) as ND. exists s. split; [exact HJ|].
  destruct (i_rm s) as [|y rm] eqn:Er; [injection E as <-; split; [exact ND|]; repeat (split; [first [reflexivity|auto]|]); auto|].
  destruct (remove_nodes _ (y :: rm)) as [g2| | |] eqn:R; try discriminate. destruct (remove_nodes_get _ _ _ R ND) as [A B]. cbn [nodemap] in B.
  destruct n as [|n]; [discriminate|]. cbn [remove_if] in E. rewrite pass_no_if in E.
  - cbn [i_rm] in E. injection E as <-. cbn [nodemap i_nm initials g_input g_output]. split; [exact A|]. split; [exact B|].
    destruct (remove_nodes_output _ _ _ R ND) as [O1 O2]. cbn [g_output nodemap] in O1, O2.
    destruct (remove_nodes_rest _ _ _ R) as [R1 R2]. split; [exact R1|]. split; [exact R2|]. split; [exact O1|].
    intros t It H. apply O2; [exact It|]. intros x xn Ix Dx. apply (H x xn Ix). assert (Ix' : In x (i_rm s)) by (rewrite Er; exact Ix).
    destruct (j_rm _ _ HJ x Ix') as (kk & q). destruct (Q_main _ _ _ q) as (xn' & Im). rewrite (j_main _ _ HJ _ _ Im) in Dx. injection Dx as <-. exact Im.
  - intros k Ik. cbn [i_nm]. apply in_map_iff in Ik. destruct Ik as ([k' m] & E' & Im). cbn in E'. subst k'. exists m. pose proof (In_dget _ _ _ _ A Im) as D. split; [exact D|].
    rewrite B in D. destruct (memb k (y :: rm)) eqn:Mk; [discriminate|]. intros O.
    destruct (j_only _ _ HJ k) as [K|(k' & m' & K1 & K2 & K3)]; [congruence| |].
    + apply in_map_iff in K. destruct K as ([k' mn] & E' & K). cbn in E'. subst k'. rewrite (j_main _ _ HJ _ _ K) in D. injection D as ->.
      assert (X : In k (i_rm s)) by (eapply (j_done _ _ HJ); [eapply main_key; eauto|split; eauto]). rewrite Er in X. apply memb_nIn in Mk. contradiction.
    + destruct K2 as (kn & K4 & K5). subst k. rewrite (j_branch _ _ HJ k' kn m' K1 K4 K5) in D. injection D as <-. cbn in O.
      apply (pi_flat _ _ HP k' m'); [exists kn; auto|exact O].
Qed.
Lemma kept_main : forall s x xn, J (dkeys main) s -> In (x, xn) main -> ~ In x (i_rm s) -> n_op xn <> "If".
Proof. intros s x xn HJ I N O. apply N. eapply (j_done _ _ HJ); [eapply main_key; eauto|split; eauto]. Qed.
Lemma rm_main : forall s x, J (dkeys main) s -> In x (i_rm s) -> exists xn, In (x, xn) main.
Proof. intros s x HJ I. destruct (j_rm _ _ HJ x I) as (k & q). eapply Q_main; eauto. Qed.
(** nodes of the result *)
Lemma result_nodes : forall s nm', J (dkeys main) s -> NoDup (dkeys nm') -> (forall x, dget nm' x = if memb x (i_rm s) then None else dget (i_nm s) x) ->
  forall x m', In (x, m') nm' <-> (In (x, m') main /\ ~ In x (i_rm s)) \/ exists k n m, is_if g k n /\ In m (b_nodes (body k)) /\ x = n_name m /\ m' = placed k n m.
Proof.
  intros s nm' HJ ND B x m'. assert (D : In (x, m') nm' <-> dget nm' x = Some m') by (split; [apply In_dget, ND|apply dget_In]). rewrite D, B. split.
  - destruct (memb x (i_rm s)) eqn:M; [discriminate|]. intros E. destruct (j_only _ _ HJ x) as [K|(k & m & K1 & K2 & K3)]; [congruence| |].
    + left. apply in_map_iff in K. destruct K as ([k' n] & E' & K). cbn in E'. subst k'. rewrite (j_main _ _ HJ _ _ K) in E. injection E as <-. split; [exact K|now apply memb_nIn].
    + right. destruct K2 as (n & K4 & K5). exists k, n, m. subst x. rewrite (j_branch _ _ HJ k n m K1 K4 K5) in E. injection E as <-. auto.
  - intros [[I N]|(k & n & m & I & Im & -> & ->)].
    + apply memb_nIn in N. rewrite N. apply (j_main _ _ HJ _ _ I).
    + assert (N : memb (n_name m) (i_rm s) = false).
      { apply memb_nIn. intros X. destruct (rm_main s _ HJ X) as (xn & X'). apply (pi_fresh _ _ HP k m); [exists n; auto|eapply main_key; eauto]. }
      rewrite N. apply (j_branch _ _ HJ); [eapply main_key; apply I|exact I|exact Im].
Qed.
Lemma renamed_In : forall pre new o l, In o l -> In (if String.eqb o pre then new else o) (renamed pre new l).
Proof. intros pre new o l I. unfold renamed. apply in_map_iff. exists o. auto. Qed.
(** no operand of the result lost its producer *)
Lemma flat_no_orphan : one_if_wanted body g -> branch_operands_kept body g -> forall n fuel g', remove_if body n fuel g = Some (SOk g') ->
  forall t, In t (reads_of (nodes_of g')) -> In t (outs_of (nodes_of g')) \/ if_source body g t.
Proof.
  intros H1 HB n fuel g' E t Rt. destruct (flat_result n fuel g' E) as (s & HJ & ND & B & _). pose proof (result_nodes s _ HJ ND B) as RN.
  assert (Made : forall k kn m o, is_if g k kn -> In m (b_nodes (body k)) -> In o (n_out m) -> In (if String.eqb o (hd "" (b_outs (body k))) then hd "" (n_out kn) else o) (outs_of (nodes_of g'))).
  { intros k kn m o Ik Im Oo. apply out_in. exists (n_name m), (placed k kn m). split; [apply RN; right; exists k, kn, m; auto|]. cbn [IfSpec.placed n_out]. apply renamed_In, Oo. }
  assert (IfOut : forall k kn o, is_if g k kn -> In o (n_out kn) -> In o (outs_of (nodes_of g'))).
  { intros k kn o Ik Oo. destruct (pi_one _ _ HP k kn Ik) as (c & o' & p & Ei & Eo & Eb & m & Im & Om). rewrite Eo in Oo. destruct Oo as [<-|[]].
    specialize (Made k kn m p Ik Im Om). rewrite Eb, Eo in Made. cbn [hd] in Made. rewrite eqb_refl' in Made. exact Made. }
  assert (MainOut : forall p pn x xn, In (p, pn) main -> In t (n_out pn) -> In (x, xn) main -> ~ In x (i_rm s) -> In t (n_in xn) -> In t (outs_of (nodes_of g'))).
  { intros p pn x xn Ip Op Ix Nx Rx. destruct (string_dec (n_op pn) "If") as [O|O]; [eapply (IfOut p pn); [split; eauto|exact Op]|].
    destruct (in_dec string_dec p (i_rm s)) as [Rp|Np]; [exfalso|apply out_in; exists p, pn; split; [apply RN; left; auto|exact Op]].
    destruct (j_rm _ _ HJ p Rp) as (k & [(kn & -> & Ik)|(u & pn' & z & zn & A1 & A2 & A3 & A4 & A5 & A6 & A7)]).
    - apply O. assert (kn = pn) by (eapply main_eq; [apply Ik|exact Ip]). subst. apply Ik.
    - assert (pn' = pn) by (eapply main_eq; eauto). subst pn'. assert (u = t).
      { eapply H1; [exact Ip|exact A2|exact Op| |]; left; left; apply read_in; eauto. }
      subst u. apply Nx. eapply A7; eauto. }
  destruct (in_dec string_dec t (outs_of (nodes_of g'))) as [Y|NY]; [left; exact Y|right]. intros m Tm Om. apply NY.
  apply read_in in Rt. destruct Rt as (x & m' & Ix & Rx). apply RN in Ix.
  assert (Tm' : (exists k, In (k, m) main) \/ exists k, branch_node body g k m).
  { clear - Tm HC HP. induction Tm as [k n I|a b Ta IH Oa Ib]; [eauto|right]. destruct IH as [(k & I)|(k & I)].
    - pose proof (if_named k a (conj I Oa)) as N. subst k. exists (n_name a), a. split; [split; auto|exact Ib].
    - exfalso. exact (pi_flat _ _ HP k a I Oa). }
  destruct Ix as [[Ix Nx]|(k & kn & b & Ik & Ib & -> & ->)].
  - destruct Tm' as [(p & Ip)|(k & Bm)]; [exact (MainOut p m x m' Ip Om Ix Nx Rx)|]. exfalso. destruct (pi_local _ _ HP k m t Bm Om) as (_ & L & _). apply L, read_in. eauto.
  - cbn [IfSpec.placed n_in] in Rx. assert (Bb : branch_node body g k b) by (exists kn; auto). destruct Tm' as [(p & Ip)|(k' & Bm)].
    + destruct (string_dec (n_op m) "If") as [O|O]; [eapply (IfOut p m); [split; eauto|exact Om]|].
      destruct (in_dec string_dec p (i_rm s)) as [Rp|Np]; [exfalso|apply out_in; exists p, m; split; [apply RN; left; auto|exact Om]].
      destruct (j_cond _ _ HJ p Rp) as (k'' & Ck). exact (HB k b t p m Bb Rx Ip Om O k'' Ck).
    + destruct (pi_local _ _ HP k' m t Bm Om) as (_ & _ & L3 & L4). assert (k = k') by (eapply L3; eauto). subst k'.
      destruct Bm as (kn' & Ik' & Im). specialize (Made k kn m t Ik Im Om). destruct (pi_one _ _ HP k kn Ik) as (c & o' & p & Ei & Eo & Eb & _).
      rewrite Eb in Made. cbn [hd] in Made. destruct (String.eqb_spec t p) as [->|N]; [|exact Made]. exfalso. eapply (L4 ltac:(rewrite Eb; left; reflexivity) b Bb Rx).
Qed.
End FLAT.
