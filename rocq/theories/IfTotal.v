From Verif Require Import PyBase PyBaseFacts GraphModel CompressSpec RelSpec RelProofs TopSortSpec TopSortProofs EditModel EditSpec
  RemoveProofs IoProofs FuseProofs ShapeModel ConvBNModel ComputeSpec ComputeProofs ComputeTop TopKProofs IfModel IfSpec IfProofs IfFlat.
Local Open Scope string_scope.
Local Open Scope list_scope.
Local Open Scope nat_scope.

Section TOTAL.
Variable body : string -> branch.
Variable g : graph.
Hypothesis HC : consistent g.
Hypothesis HP : plain_ifs body g.
Hypothesis H1 : one_if_wanted body g.
Hypothesis HF : conditions_without_ifs body g.
Hypothesis HN : forall k m, branch_node body g k m -> n_name m <> "".
Notation main := (nodemap g).

Definition read (t : string) : Prop := In t (reads_of (nodes_of g)).
Definition dry (cns : dict (list string)) (t : string) : Prop := forall r rn, In (r, rn) main -> count r (glist cns t) = 0.
Definition spent (cns : dict (list string)) (done : list string) (x : string) : Prop :=
  (exists n, is_if g x n /\ In x done) \/ exists xn t, In (x, xn) main /\ n_op xn <> "If" /\ In t (n_out xn) /\ read t /\ dry cns t.
Definition table (cns : dict (list string)) : Prop := forall t, read t -> dget cns t <> None.
Definition exact_but (s : string) (cns : dict (list string)) (vis : list string) : Prop :=
  forall r rn t, In (r, rn) main -> r <> s -> count r (glist cns t) = if memb r vis then 0 else count t (n_in rn).
Definition exact_all (cns : dict (list string)) (vis : list string) : Prop :=
  forall r rn t, In (r, rn) main -> count r (glist cns t) = if memb r vis then 0 else count t (n_in rn).
Lemma read_of : forall s sn i, In (s, sn) main -> In i (n_in sn) -> read i.
Proof. intros s sn i A B. apply read_in. eauto. Qed.
Lemma glist_dset : forall (d : dict (list string)) k l t, glist (dset d k l) t = if String.eqb t k then l else glist d t.
Proof. intros d k l t. unfold glist. rewrite dget_dset. destruct (String.eqb t k); reflexivity. Qed.
Lemma spent_mono : forall cns cns' done x, (forall t, dry cns t -> dry cns' t) -> spent cns done x -> spent cns' done x.
Proof. intros cns cns' done x H [A|(xn & t & A & B & C & D & E)]; [left; exact A|right; exists xn, t; repeat (split; [assumption|]); auto]. Qed.
Lemma dry_remove : forall cns i l s, dget cns i = Some l -> forall t, dry cns t -> dry (dset cns i (remove1 s l)) t.
Proof.
  intros cns i l s E t D r rn I. rewrite glist_dset. destruct (String.eqb_spec t i) as [->|N]; [|eapply D; eauto].
  specialize (D r rn I). unfold glist in D. rewrite E in D. apply count_zero in D. apply count_zero. intros X. apply D. now apply In_remove1 in X.
Qed.

Lemma inputs_total : forall prod k s sn done rm, prod_ok g prod -> cond_only body g k s -> In (s, sn) main -> forall ins q cns, incl ins (n_in sn) ->
  exact_but s cns rm -> (forall t, count s (glist cns t) = count t ins) -> table cns -> NoDup (rm ++ s :: q) ->
  (forall x, In x (rm ++ s :: q) -> spent cns done x) ->
  exists q' cns', if_inputs prod (sub_input (body k)) s ins q cns = SOk (q', cns') /\ exact_but s cns' rm /\ (forall t, count s (glist cns' t) = 0) /\
    table cns' /\ NoDup (rm ++ s :: q') /\ (forall x, In x (rm ++ s :: q') -> spent cns' done x).
Proof.
  intros prod k s sn done rm [P1 P2] Cs Is. induction ins as [|i r IH]; intros q cns HI HE HS HT ND HX; cbn [if_inputs].
  - exists q, cns. repeat (split; [first [reflexivity|assumption]|]). exact HX.
  - assert (Ri : read i) by (eapply read_of; [exact Is|apply HI; left; reflexivity]).
    destruct (dget cns i) as [l|] eqn:D; [|exfalso; exact (HT i Ri D)].
    assert (Cl : count s l = S (count i r)).
    { specialize (HS i). unfold glist in HS. rewrite D in HS. cbn [count] in HS. rewrite eqb_refl' in HS. exact HS. }
    assert (Ml : memb s l = true) by (apply memb_In, count_pos; lia). rewrite Ml.
    set (c1 := dset cns i (remove1 s l)).
    assert (HI' : incl r (n_in sn)) by (intros x X; apply HI; right; exact X).
    assert (HE' : exact_but s c1 rm).
    { intros x xn t Ix N. unfold c1. rewrite glist_dset. destruct (String.eqb_spec t i) as [->|N']; [|apply HE; assumption].
      rewrite count_remove1_neq by exact N. rewrite <- (HE x xn i Ix N). unfold glist. now rewrite D. }
    assert (HS' : forall t, count s (glist c1 t) = count t r).
    { intros t. unfold c1. rewrite glist_dset. pose proof (HS t) as HSt. cbn [count] in HSt. destruct (String.eqb_spec t i) as [Et|N'].
      - rewrite Et, count_remove1_eq, Cl. reflexivity.
      - destruct (String.eqb_spec i t) as [Et|_]; [congruence|exact HSt]. }
    assert (HT' : table c1).
    { intros t Rt. unfold c1. rewrite dget_dset. destruct (String.eqb t i); [discriminate|apply HT, Rt]. }
    assert (HM : forall t, dry cns t -> dry c1 t) by (intros t; apply dry_remove; exact D).
    assert (HX' : forall x, In x (rm ++ s :: q) -> spent c1 done x) by (intros x X; eapply spent_mono; [exact HM|apply HX, X]).
    assert (Skip : exists q' cns', if_inputs prod (sub_input (body k)) s r q c1 = SOk (q', cns') /\ exact_but s cns' rm /\ (forall t, count s (glist cns' t) = 0) /\
      table cns' /\ NoDup (rm ++ s :: q') /\ (forall x, In x (rm ++ s :: q') -> spent cns' done x)) by (apply IH; assumption).
    destruct (Nat.eqb_spec (length l) 1) as [L|L]; cbn [andb]; [|exact Skip].
    destruct (memb i (sub_input (body k))); cbn [negb]; [exact Skip|].
    destruct (in_dec string_dec i (outs_of (nodes_of g))) as [O|O]; [|rewrite (P2 i Ri O); exact Skip].
    apply out_in in O. destruct O as (p & pn & Ip & Op). destruct (P1 _ _ _ Ip Op) as (l' & Dp). rewrite Dp.
    assert (El : l = [s]). { destruct l as [|a [|b l]]; try discriminate. apply memb_In in Ml. destruct Ml as [->|[]]. reflexivity. }
    assert (Op' : n_op pn <> "If"). { intros O. eapply (HF p pn i s sn k); eauto; [split; eauto|]. apply HI. left. reflexivity. }
    assert (Di : dry c1 i).
    { intros x xn Ix. unfold c1. rewrite glist_dset, eqb_refl', El. cbn [remove1]. now rewrite eqb_refl'. }
    assert (Np : ~ In p (rm ++ s :: q)).
    { intros X. destruct (HX p X) as [(n & [I1 I2] & _)|(xn & t & A & B & C & D' & E)].
      - apply Op'. assert (n = pn) by (eapply (main_eq g HC); eauto). subst. exact I2.
      - assert (xn = pn) by (eapply (main_eq g HC); eauto). subst xn. assert (t = i) by (eapply H1; [exact Ip|exact C|exact Op|left; left; exact D'|left; left; exact Ri]). subst t.
        specialize (E s sn Is). unfold glist in E. rewrite D in E. lia. }
    apply IH; try assumption.
    + replace (rm ++ s :: q ++ [p]) with ((rm ++ s :: q) ++ [p]) by (rewrite <- app_assoc; reflexivity).
      apply NoDup_app_intro; [exact ND|constructor; [intros []|constructor]|]. intros x X [<-|[]]. contradiction.
    + intros x X. replace (rm ++ s :: q ++ [p]) with ((rm ++ s :: q) ++ [p]) in X by (rewrite <- app_assoc; reflexivity).
      apply in_app_iff in X. destruct X as [X|[<-|[]]]; [apply HX', X|]. right. exists pn, i. auto.
Qed.
Lemma spent_main : forall cns done x, spent cns done x -> exists xn, In (x, xn) main.
Proof. intros cns done x [(n & [I _] & _)|(xn & t & I & _)]; eauto. Qed.
Lemma NoDup_bound : forall l, NoDup l -> (forall x, In x l -> exists xn, In (x, xn) main) -> length l <= length main.
Proof.
  intros l ND H. unfold dkeys. rewrite <- (map_length fst main). apply NoDup_incl_length; [exact ND|]. intros x X. destruct (H x X) as (xn & I). apply in_map_iff. exists (x, xn). auto.
Qed.
Lemma chain_total : forall prod nm k done, prod_ok g prod -> (forall x xn, In (x, xn) main -> dget nm x = Some xn) ->
  forall fuel q cns rm, all_cond body g rm -> cons_ok g cns rm -> (forall x, In x q -> Q body g k rm x) ->
  exact_all cns rm -> table cns -> NoDup (rm ++ q) -> (forall x, In x (rm ++ q) -> spent cns done x) -> length main <= fuel + length rm ->
  exists cns' rm', if_chain fuel nm prod (sub_input (body k)) q cns rm = Some (SOk (cns', rm')) /\ exact_all cns' rm' /\ table cns' /\ NoDup rm' /\
    (forall x, In x rm' -> spent cns' done x).
Proof.
  intros prod nm k done Hp Hnm. induction fuel as [|f IH]; intros [|s r] cns rm HA HK HQ HE HT ND HX L; cbn [if_chain].
  1, 3: exists cns, rm; rewrite app_nil_r in *; auto.
  - exfalso. assert (B : length (rm ++ s :: r) <= length main) by (apply NoDup_bound; [exact ND|intros x X; eapply spent_main, HX, X]). rewrite app_length in B. cbn in B, L. lia.
  - assert (Qs : Q body g k rm s) by (apply HQ; left; reflexivity). destruct (Q_main _ _ _ _ _ Qs) as (sn & Is). rewrite (Hnm _ _ Is).
    pose proof (Q_cond _ _ _ _ _ HA Qs) as Cs. apply NoDup_remove in ND as ND'. destruct ND' as [ND1 ND2].
    assert (Ns : memb s rm = false) by (apply memb_nIn; intros X; apply ND2, in_app_iff; auto).
    destruct (inputs_total prod k s sn done rm Hp Cs Is (n_in sn) r cns) as (q' & c' & E & E1 & E2 & E3 & E4 & E5); try assumption; [apply incl_refl| | |].
    + intros x xn t Ix N. apply HE, Ix.
    + intros t. rewrite (HE s sn t Is), Ns. reflexivity.
    + rewrite E. destruct (inputs_ok body g prod k rm s sn Hp Cs Is (n_in sn) r cns q' c' (incl_refl _)) as [A B]; [intros x xn t A B _; eapply HK; eauto|exact E|].
      apply IH.
      * intros x X. apply in_app_iff in X. destruct X as [X|[<-|[]]]; [auto|eauto].
      * intros x xn t Ix Rx. destruct (string_dec x s) as [->|N]; [left; apply in_app_iff; right; left; reflexivity|].
        destruct (A x xn t Ix Rx N) as [H|H]; [left; apply in_app_iff; auto|auto].
      * intros x X. destruct (B x X) as [H|H]; [|exact H]. eapply Q_mono; [|apply HQ; right; exact H]. intros y Y. apply in_app_iff. auto.
      * intros x xn t Ix. destruct (string_dec x s) as [->|N].
        -- rewrite E2. assert (M : memb s (rm ++ [s]) = true) by (apply memb_In, in_app_iff; right; left; reflexivity). now rewrite M.
        -- rewrite (E1 x xn t Ix N). assert (M : memb x (rm ++ [s]) = memb x rm).
           { destruct (memb x rm) eqn:M; [apply memb_In, in_app_iff; left; now apply memb_In|]. apply memb_nIn. apply memb_nIn in M. intros X. apply in_app_iff in X. destruct X as [X|[X|[]]]; [contradiction|congruence]. }
           now rewrite M.
      * exact E3.
      * rewrite <- app_assoc. exact E4.
      * intros x X. apply E5. rewrite <- app_assoc in X. exact X.
      * rewrite app_length. cbn. lia.
Qed.

(** one If *)
Record T (done : list string) (s : ist) : Prop := {
  t_exact : exact_all (i_cons s) (i_rm s);
  t_table : table (i_cons s);
  t_nd : NoDup (i_rm s);
  t_spent : forall x, In x (i_rm s) -> spent (i_cons s) done x;
  t_pnd : NoDup (dkeys (i_prod s));
  t_prod : forall t, (forall k m, branch_node body g k m -> ~ In t (n_out m)) -> (forall k n, is_if g k n -> ~ In t (n_out n)) -> dget (i_prod s) t = dget (producedby g) t
}.
Lemma revise_total : forall pre new names nm tm prod, (forall k, In k names -> dget nm k <> None) -> dget prod new <> None ->
  exists st, revise pre new names (nm, tm, prod) = SOk st.
Proof.
  intros pre new. induction names as [|k r IH]; intros nm tm prod Hn Hp; [eexists; reflexivity|]. cbn [revise]. unfold revise1.
  destruct (dget nm k) as [n|] eqn:D; [|exfalso; apply (Hn k (or_introl eq_refl) D)].
  assert (Hn' : forall k' v, In k' r -> dget (dset nm k v) k' <> None) by (intros k' v I; rewrite dget_dset; destruct (String.eqb k' k); [discriminate|apply Hn; right; exact I]).
  destruct (memb pre (n_out n)).
  - destruct (dget prod new) as [l|] eqn:E; [|congruence]. cbn [sbind]. apply IH; [intros k' I; apply Hn', I|]. rewrite dget_dset_eq. discriminate.
  - cbn [sbind]. apply IH; [intros k' I; apply Hn', I|exact Hp].
Qed.
Lemma add_counts : forall ns nm prod cns r, ~ In r (map n_name ns) -> forall t,
  count r (glist (snd (snd (fold_left (fun st n => (dset (fst st) (n_name n) n, upd_node (snd st) n)) ns (nm, (prod, cns))))) t) = count r (glist cns t) .
Proof.
  induction ns as [|n ns IH]; intros nm prod cns r N t; [reflexivity|]. cbn [fold_left fst snd upd_node]. cbn [map In] in N. rewrite IH by tauto.
  rewrite fold_dpush, count_app. assert (Z : count r (map (fun _ => n_name n) (filter (String.eqb t) (n_in n))) = 0).
  { apply count_zero. intros X. apply in_map_iff in X. destruct X as (y & E & _). tauto. }
  rewrite Z. lia.
Qed.
Lemma add_table : forall ns nm prod cns t, dget cns t <> None -> dget (snd (snd (fold_left (fun st n => (dset (fst st) (n_name n) n, upd_node (snd st) n)) ns (nm, (prod, cns))))) t <> None.
Proof.
  induction ns as [|n ns IH]; intros nm prod cns t H; [exact H|]. cbn [fold_left fst snd upd_node]. apply IH.
  assert (G : forall v ts d, dget d t <> None -> dget (fold_left (fun d t => dpush d t v) ts d) t <> None).
  { intros v. induction ts as [|a ts IHt]; intros d Hd; [exact Hd|]. cbn [fold_left]. apply IHt. unfold dpush. destruct (dget d a) as [la|]; rewrite dget_dset; destruct (String.eqb t a); congruence. }
  apply G, H.
Qed.
Lemma pushes_nd : forall v ts d, NoDup (dkeys d) -> NoDup (dkeys (fold_left (fun d t => dpush d t v) ts d)).
Proof. intros v. induction ts as [|a ts IHt]; intros d Hd; [exact Hd|]. cbn [fold_left]. apply IHt, NoDup_dpush, Hd. Qed.
Lemma add_nd : forall ns nm prod cns, NoDup (dkeys prod) -> NoDup (dkeys (fst (snd (fold_left (fun st n => (dset (fst st) (n_name n) n, upd_node (snd st) n)) ns (nm, (prod, cns)))))).
Proof. induction ns as [|n ns IH]; intros nm prod cns H; [exact H|]. cbn [fold_left fst snd upd_node]. apply IH, pushes_nd, H. Qed.
Lemma revise_nd : forall pre new names nm tm prod nm' tm' prod', NoDup (dkeys prod) -> revise pre new names (nm, tm, prod) = SOk (nm', tm', prod') -> NoDup (dkeys prod').
Proof.
  intros pre new. induction names as [|k r IH]; intros nm tm prod nm' tm' prod' H E; [injection E as _ _ <-; exact H|]. cbn [revise] in E. unfold revise1 in E.
  destruct (dget nm k) as [n|]; [|discriminate]. destruct (memb pre (n_out n)).
  - destruct (dget prod new) as [l|]; [|discriminate]. cbn [sbind] in E. eapply IH; [|exact E]. apply NoDup_dkeys_dset, H.
  - cbn [sbind] in E. eapply IH; [|exact E]. exact H.
Qed.
Lemma do_if_total : forall fuel done k n s, J body g done s -> T done s -> is_if g k n -> ~ In k done -> length main <= fuel ->
  exists s', do_if body fuel n s = Some (SOk s') /\ J body g (done ++ [k]) s' /\ T (done ++ [k]) s'.
Proof.
  intros fuel done k n s HJ [T1 T2 T3 T4 Tp T5] Ik Nk L. destruct (pi_one _ _ HP k n Ik) as (c & o & p & Ei & Eo & Eb & m0 & Im0 & Om0).
  pose proof (pi_nodup _ _ HP k n Ik) as ND.
  assert (Nr : ~ In k (i_rm s)).
  { intros X. destruct (T4 k X) as [(n' & _ & Y)|(xn & t & A & B & _)]; [contradiction|]. apply B. assert (xn = n) by (eapply (main_eq g HC); [exact A|apply Ik]). subst. apply Ik. }
  destruct (chain_total (i_prod s) (i_nm s) k (done ++ [k]) (j_prod _ _ _ _ HJ) (j_main _ _ _ _ HJ) fuel [k] (i_cons s) (i_rm s)) as (cns & rm & C & X1 & X2 & X3 & X4).
  { exact (j_cond _ _ _ _ HJ). }
  { exact (j_cons _ _ _ _ HJ). }
  { intros x [<-|[]]. left. eauto. }
  { exact T1. }
  { exact T2. }
  { apply NoDup_app_intro; [exact T3|constructor; [intros []|constructor]|]. intros x A [<-|[]]. contradiction. }
  { intros x A. apply in_app_iff in A. destruct A as [A|[<-|[]]].
    - destruct (T4 x A) as [(n' & B & D)|B]; [left; exists n'; split; [exact B|apply in_app_iff; auto]|right; exact B].
    - left. exists n. split; [exact Ik|apply in_app_iff; right; left; reflexivity]. }
  { lia. }
  assert (BN : forall m, In m (b_nodes (body k)) -> branch_node body g k m) by (intros m I; exists n; auto).
  destruct (add_branch (body k) (i_nm s) (i_prod s) cns) as [nm [prod cns']] eqn:A.
  pose proof (add_get (b_nodes (body k)) (i_nm s) (i_prod s, cns) ND) as AG. cbv zeta in AG.
  pose proof (add_tables (b_nodes (body k)) (i_nm s) (i_prod s) cns) as AT. cbv zeta in AT.
  pose proof (add_counts (b_nodes (body k)) (i_nm s) (i_prod s) cns) as AC. pose proof (add_table (b_nodes (body k)) (i_nm s) (i_prod s) cns) as AB.
  pose proof A as A'. unfold add_branch in A'. rewrite A' in AG, AT, AC, AB. cbn [fst snd] in AG, AT, AC, AB. destruct AG as [AG1 AG2]. destruct AT as (AT1 & AT2 & AT3).
  destruct (j_prod _ _ _ _ HJ) as [P1 P2]. destruct (P1 k n o) as (lo & Elo); [apply Ik|rewrite Eo; left; reflexivity|]. destruct (AT1 _ _ _ Elo) as (lo' & Elo').
  destruct (revise_total p o (map n_name (b_nodes (body k))) nm (i_tm s) prod) as ([[nm' tm'] prod'] & R).
  { intros x X. apply in_map_iff in X. destruct X as (m & <- & Im). rewrite (AG1 m Im). discriminate. }
  { rewrite Elo'. discriminate. }
  assert (E : do_if body fuel n s = Some (SOk (mkIst nm' tm' prod' cns' rm))).
  { unfold do_if. rewrite (if_named g HC k n Ik), C.
    assert (M : memb "" (map n_name (b_nodes (body k))) = false).
    { apply memb_nIn. intros X. apply in_map_iff in X. destruct X as (m & Em & Im). exact (HN k m (BN m Im) Em). }
    rewrite M, A, Eb, Eo, R. reflexivity. }
  exists (mkIst nm' tm' prod' cns' rm). split; [exact E|]. split; [eapply do_if_J; eauto|].
  assert (NotB : forall r rn, In (r, rn) main -> ~ In r (map n_name (b_nodes (body k)))).
  { intros r rn Ir X. apply in_map_iff in X. destruct X as (m & <- & Im). apply (pi_fresh _ _ HP k m (BN m Im)). eapply main_key; eauto. }
  constructor; cbn [i_nm i_tm i_prod i_cons i_rm].
  - intros r rn t Ir. rewrite (AC r (NotB r rn Ir) t). apply X1, Ir.
  - intros t Rt. apply AB, X2, Rt.
  - exact X3.
  - intros x Ix. eapply spent_mono; [|apply X4, Ix]. intros t D r rn Ir. rewrite (AC r (NotB r rn Ir) t). eapply D; eauto.
  - eapply revise_nd; [|exact R]. pose proof (add_nd (b_nodes (body k)) (i_nm s) (i_prod s) cns Tp) as Z. rewrite A' in Z. exact Z.
  - intros t Nb Ni. destruct (revise_get _ _ _ _ _ _ _ _ _ ND R) as (_ & _ & _ & RG4). rewrite RG4.
    + rewrite AT2; [apply T5; assumption|]. intros X. apply in_flat_map in X. destruct X as (m & Im & Om). exact (Nb k m (BN m Im) Om).
    + intros ->. apply (Ni k n Ik). rewrite Eo. left. reflexivity.
Qed.
Lemma pass_total : forall fuel, length main <= fuel -> forall keys done s, NoDup (done ++ keys) -> incl keys (dkeys main) -> J body g done s -> T done s ->
  exists s', if_pass body fuel keys s = Some (SOk s') /\ J body g (done ++ keys) s' /\ T (done ++ keys) s'.
Proof.
  intros fuel L. induction keys as [|k r IH]; intros done s ND HI HJ HT; cbn [if_pass]; [exists s; rewrite app_nil_r; auto|].
  assert (Kd : In k (dkeys main)) by (apply HI; left; reflexivity). apply in_map_iff in Kd. destruct Kd as ([k' n] & E' & Ik). cbn in E'. subst k'.
  rewrite (j_main _ _ _ _ HJ k n Ik). assert (HI' : incl r (dkeys main)) by (intros x X; apply HI; right; exact X).
  assert (ND' : NoDup ((done ++ [k]) ++ r)) by (rewrite <- app_assoc; exact ND).
  replace (done ++ k :: r) with ((done ++ [k]) ++ r) by (rewrite <- app_assoc; reflexivity).
  destruct (String.eqb_spec (n_op n) "If") as [O|O].
  - destruct (do_if_total fuel done k n s HJ HT (conj Ik O)) as (s' & E & J' & T'); [apply NoDup_remove_2 in ND; intros X; apply ND, in_app_iff; auto|exact L|]. rewrite E.
    apply IH; assumption.
  - assert (E1 : if_pass body fuel [k] s = Some (SOk s)).
    { cbn [if_pass]. rewrite (j_main _ _ _ _ HJ k n Ik). destruct (String.eqb_spec (n_op n) "If"); [contradiction|reflexivity]. }
    assert (J' : J body g (done ++ [k]) s).
    { eapply (pass_J body g HC HP fuel [k] done s s); [|intros x [<-|[]]; apply HI; left; reflexivity|exact HJ|exact E1].
      apply NoDup_app_inv in ND'. apply ND'. }
    apply IH; try assumption. destruct HT as [T1 T2 T3 T4 Tp T5]. constructor; try assumption.
    intros x Ix. destruct (T4 x Ix) as [(n' & A & B)|B]; [left; exists n'; split; [exact A|apply in_app_iff; auto]|right; exact B].
Qed.
Lemma T_start : T [] (mkIst main (tensormap g) (producedby g) (consumedby g) []).
Proof.
  constructor; cbn [i_nm i_tm i_prod i_cons i_rm].
  - intros r rn t Ir. cbn [memb]. rewrite (tb_cnt _ _ _ _ _ (co_cons g HC)). unfold cnt_sel. rewrite (node_at g HC _ _ Ir). cbn [count]. destruct (String.eqb r ""); lia.
  - intros t Rt. apply read_in in Rt. destruct Rt as (k & n & I & R). destruct (read_table g HC k n t I R) as (cs & E). congruence.
  - constructor.
  - intros x [].
  - apply (tb_nd _ _ _ _ _ (co_prod g HC)).
  - reflexivity.
Qed.

(** removing the collected nodes *)
Record R (rest : list string) (nm : dict node) (prod : dict (list string)) : Prop := {
  r_out : forall x xn o, In x rest -> In (x, xn) main -> In o (n_out xn) -> dget prod o = None \/ exists l, dget prod o = Some l /\ In x l;
  r_in : forall x xn t, In x rest -> In (x, xn) main -> In t (n_in xn) -> dget prod t = None \/ exists p pn, dget prod t = Some [p] /\ In (p, pn) main /\ In t (n_out pn) /\ dget nm p <> None;
  r_nd : NoDup (dkeys prod);
  r_nm : NoDup (dkeys nm);
  r_main : forall x xn, In x rest -> In (x, xn) main -> dget nm x = Some xn
}.
Lemma rm_outs_total : forall x outs prod out, NoDup outs -> NoDup (dkeys prod) -> (forall o, In o outs -> dget prod o = None \/ exists l, dget prod o = Some l /\ In x l) ->
  exists prod' out', rm_outs x outs (prod, out) = Ok (prod', out') /\ NoDup (dkeys prod') /\ (forall t, ~ In t outs -> dget prod' t = dget prod t) /\
    (forall t, In t outs -> dget prod' t = None \/ exists l, dget prod t = Some l /\ remove1 x l <> [] /\ dget prod' t = Some (remove1 x l)).
Proof.
  intros x. induction outs as [|o r IH]; intros prod out ND NP H; cbn [rm_outs]; [exists prod, out; repeat (split; [first [reflexivity|assumption|auto]|]); intros t []|].
  inversion ND as [|? ? N1 N2]; subst. unfold rm_out at 1. destruct (dget prod o) as [l|] eqn:D; cbn [bind].
  - destruct (H o (or_introl eq_refl)) as [Y|(l' & E' & I)]; [congruence|]. rewrite D in E'. injection E' as <-. apply memb_In in I. rewrite I. cbn [bind].
    assert (K : forall t, dget (put_or_pop prod o (remove1 x l)) t = if String.eqb t o then match remove1 x l with [] => None | _ => Some (remove1 x l) end else dget prod t).
    { intros t. unfold put_or_pop. destruct (remove1 x l) as [|a b]; destruct (String.eqb_spec t o) as [->|N].
      - now apply dget_ddel_eq. - apply dget_ddel_neq; congruence. - apply dget_dset_eq. - apply dget_dset_neq; congruence. }
    destruct (IH (put_or_pop prod o (remove1 x l)) (if memb o out then remove1 o out else out) N2) as (prod' & out' & E & A & B & C).
    + apply NoDup_put, NP.
    + intros t I'. rewrite K. destruct (String.eqb_spec t o) as [->|N]; [contradiction|]. apply H. right. exact I'.
    + exists prod', out'. split; [exact E|]. split; [exact A|]. split.
      * intros t N. cbn [In] in N. rewrite B by tauto. rewrite K. destruct (String.eqb_spec t o) as [->|N']; [tauto|reflexivity].
      * intros t [<-|I'].
        -- rewrite (B o N1), K, eqb_refl'. destruct (remove1 x l) eqn:Er; [left; reflexivity|right]. exists l. split; [exact D|rewrite Er; split; [discriminate|reflexivity]].
        -- destruct (C t I') as [Y|(l' & E1 & E2)]; [left; exact Y|]. rewrite K in E1. destruct (String.eqb_spec t o) as [->|N']; [contradiction|right; exists l'; split; [exact E1|exact E2]].
  - destruct (IH prod out N2 NP) as (prod' & out' & E & A & B & C).
    + intros t I'. apply H. right. exact I'.
    + exists prod', out'. split; [exact E|]. split; [exact A|]. split.
      * intros t N. cbn [In] in N. apply B; tauto.
      * intros t [<-|I']; [left; rewrite (B o N1); exact D|apply C, I'].
Qed.
Lemma rm_ins_total : forall nm prod out x ins cns nn, (forall t, In t ins -> dget prod t = None \/ exists p, dget prod t = Some [p] /\ dget nm p <> None) ->
  exists st, rm_ins nm prod out x ins (cns, nn) = Ok st.
Proof.
  intros nm prod out x. induction ins as [|i r IH]; intros cns nn H; [eexists; reflexivity|]. cbn [rm_ins]. unfold rm_in at 1.
  assert (H' : forall t, In t r -> dget prod t = None \/ exists p, dget prod t = Some [p] /\ dget nm p <> None) by (intros t I; apply H; right; exact I).
  destruct (dget cns i) as [l|]; cbn [bind]; [|apply IH, H'].
  destruct (Nat.eqb (length l) 1); cbn [bind]; [|apply IH, H'].
  destruct (H i (or_introl eq_refl)) as [->|(p & -> & Np)]; cbn [bind]; [apply IH, H'|].
  unfold dangling. destruct (dget nm p) as [pn|]; [|congruence]. cbn [bind]. apply IH, H'.
Qed.
Lemma main_outs_nd : forall x xn, In (x, xn) main -> NoDup (n_out xn).
Proof.
  intros x xn I. destruct (co_uniq g HC) as [_ U]. clear - U I. induction main as [|[k n] r IH]; [destruct I|]. cbn [flat_map snd] in U.
  apply NoDup_app_inv in U. destruct U as (U1 & U2 & _). destruct I as [E|I]; [injection E as -> ->; exact U1|auto].
Qed.
Lemma remove_total : forall rest g1, NoDup rest -> (forall x, In x rest -> exists xn, In (x, xn) main) -> R rest (nodemap g1) (producedby g1) ->
  exists g2, remove_nodes g1 rest = Ok g2.
Proof.
  induction rest as [|x r IH]; intros g1 ND HM [R1 R2 R3 R4 R5]; [eexists; reflexivity|]. inversion ND as [|? ? N1 N2]; subst. rewrite remove_nodes_cons.
  destruct (HM x (or_introl eq_refl)) as (xn & Ix). unfold remove_node1. rewrite (R5 x xn (or_introl eq_refl) Ix).
  destruct (rm_outs_total x (n_out xn) (producedby g1) (g_output g1) (main_outs_nd x xn Ix) R3) as (prod & out & E & A & B & C).
  { intros o Io. apply (R1 x xn o); [left; reflexivity|exact Ix|exact Io]. }
  rewrite E. cbn [bind].
  assert (IN : forall y yn t, In y (x :: r) -> In (y, yn) main -> In t (n_in yn) ->
    dget prod t = None \/ exists p pn, dget prod t = Some [p] /\ In (p, pn) main /\ In t (n_out pn) /\ dget (nodemap g1) p <> None /\ p <> x).
  { intros y yn t Iy Iyn It. destruct (R2 y yn t Iy Iyn It) as [Y|(p & pn & E3 & Ip & Op & Np)].
    - left. destruct (in_dec string_dec t (n_out xn)) as [O|O]; [|now rewrite (B t O)]. destruct (C t O) as [Z|(l & E1 & _)]; [exact Z|congruence].
    - destruct (in_dec string_dec t (n_out xn)) as [O|O].
      + left. destruct (C t O) as [Z|(l & E1 & E2 & _)]; [exact Z|]. rewrite E3 in E1. injection E1 as <-.
        assert (p = x) by (eapply outs_unique_key; [apply (co_uniq g HC)|exact Ip|exact Ix|exact Op|exact O]). subst p. cbn [remove1] in E2. rewrite eqb_refl' in E2. congruence.
      + right. exists p, pn. rewrite (B t O). repeat (split; [assumption|]). intros ->. apply O. assert (pn = xn) by (eapply (main_eq g HC); eauto). subst. exact Op. }
  destruct (rm_ins_total (nodemap g1) prod out x (n_in xn) (consumedby g1) []) as ([cns nn] & E').
  { intros t It. destruct (IN x xn t (or_introl eq_refl) Ix It) as [Y|(p & pn & Y1 & _ & _ & Y2 & _)]; [left; exact Y|right; eauto]. }
  rewrite E'. cbn [bind]. apply IH; [exact N2|intros y Iy; apply HM; right; exact Iy|]. cbn [with_rel nodemap producedby]. constructor.
  - intros y yn o Iy Iyn Oy. assert (No : ~ In o (n_out xn)).
    { intros O. assert (y = x) by (eapply outs_unique_key; [apply (co_uniq g HC)|exact Iyn|exact Ix|exact Oy|exact O]). subst. contradiction. }
    rewrite (B o No). apply (R1 y yn o); [right; exact Iy|exact Iyn|exact Oy].
  - intros y yn t Iy Iyn It. destruct (IN y yn t (or_intror Iy) Iyn It) as [Y|(p & pn & Y1 & Y2 & Y3 & Y4 & Y5)]; [left; exact Y|right]. exists p, pn. repeat (split; [assumption|]).
    rewrite dget_ddel_neq by congruence. exact Y4.
  - exact A.
  - apply NoDup_dkeys_ddel, R4.
  - intros y yn Iy Iyn. rewrite dget_ddel_neq by (intros ->; contradiction). apply (R5 y yn); [right; exact Iy|exact Iyn].
Qed.
Lemma only_one : forall (p : string) l, (forall x, In x l -> x = p) -> count p l = 1 -> l = [p].
Proof.
  intros p l H C. destruct l as [|a l]; [discriminate|]. assert (a = p) by (apply H; left; reflexivity). subst a. cbn [count] in C. rewrite eqb_refl' in C.
  destruct l as [|b l]; [reflexivity|]. exfalso. assert (b = p) by (apply H; right; left; reflexivity). subst b. cbn [count] in C. rewrite eqb_refl' in C. lia.
Qed.
Lemma prod_single : forall t p pn, In (p, pn) main -> In t (n_out pn) -> dget (producedby g) t = Some [p].
Proof.
  intros t p pn Ip Op. assert (X : In p (glist (producedby g) t)) by (apply (prod_spec g HC); eauto).
  pose proof (tb_cnt _ _ _ _ _ (co_prod g HC) t p) as TC. unfold cnt_sel in TC. rewrite (node_at g HC _ _ Ip) in TC. cbn [count] in TC.
  assert (U : forall x, In x (glist (producedby g) t) -> x = p).
  { intros x Ix. apply (prod_spec g HC) in Ix. destruct Ix as (xn & I1 & I2). eapply outs_unique_key; [apply (co_uniq g HC)|exact I1|exact Ip|exact I2|exact Op]. }
  assert (L : count t (n_out pn) <= 1).
  { pose proof (main_outs_nd p pn Ip) as ND. clear - ND. induction (n_out pn) as [|y r IH]; cbn [count]; [lia|]. inversion ND as [|? ? N1 N2]; subst.
    specialize (IH N2). destruct (String.eqb_spec t y) as [->|N]; [|exact IH]. apply count_zero in N1. lia. }
  assert (C1 : count p (glist (producedby g) t) = 1) by (apply count_pos in X; destruct (String.eqb p ""); lia).
  pose proof (only_one p _ U C1) as G. unfold glist in G. destruct (dget (producedby g) t) as [l|]; [congruence|discriminate].
Qed.
Lemma total : forall fuel n, length main <= fuel -> 2 <= n -> exists g', remove_if body n fuel g = Some (SOk g').
Proof.
  intros fuel n L Ln. destruct n as [|[|n]]; [lia|lia|]. 
  destruct (pass_total fuel L (dkeys main) [] _ (co_nd g HC) (incl_refl _) (J_start body g HC) T_start) as (s & P & HJ & HT). cbn [Datatypes.app] in HJ, HT.
  assert (I0 : Inv body g (i_nm (mkIst main (tensormap g) (producedby g) (consumedby g) []))) by (apply Inv_start; [apply (co_nd g HC)|apply (co_names g HC)]).
  pose proof (pass_NoDup body g _ _ _ _ I0 P) as ND.
  remember (S n) as m eqn:Em. cbn [remove_if]. rewrite P. destruct (i_rm s) as [|y rm] eqn:Er; [eexists; reflexivity|].
  destruct (remove_total (y :: rm) (mkGraph (i_nm s) (i_tm s) (i_prod s) (i_cons s) (initials g) (dynamics g) (g_input g) (g_output g))) as (g2 & R2).
  - rewrite <- Er. apply (t_nd _ _ HT).
  - intros x Ix. apply (rm_main body g s x HJ). rewrite Er. exact Ix.
  - cbn [nodemap producedby]. constructor.
    + intros x xn o _ Ix Oo. destruct (proj1 (j_prod _ _ _ _ HJ) x xn o Ix Oo) as (l & E). right. exists (x :: l). split; [exact E|left; reflexivity].
    + intros x xn t Ix Ixn It. rewrite <- Er in Ix. destruct (j_cond _ _ _ _ HJ x Ix) as (k & Ck).
      assert (Rt : read t) by (eapply read_of; eauto).
      assert (E : dget (i_prod s) t = dget (producedby g) t).
      { apply (t_prod _ _ HT); [intros k' m' Bm Om; destruct (pi_local _ _ HP k' m' t Bm Om) as (_ & Y & _); exact (Y Rt)|].
        intros k' n' Ik On. exact (HF k' n' t x xn k Ik On Ixn It Ck). }
      rewrite E. destruct (in_dec string_dec t (outs_of (nodes_of g))) as [O|O].
      * apply out_in in O. destruct O as (p & pn & Ip & Op). right. exists p, pn. split; [apply (prod_single t p pn Ip Op)|]. split; [exact Ip|]. split; [exact Op|].
        rewrite (j_main _ _ _ _ HJ p pn Ip). discriminate.
      * left. rewrite <- E. exact (proj2 (j_prod _ _ _ _ HJ) t Rt O).
    + apply (t_pnd _ _ HT).
    + exact ND.
    + intros x xn _ Ix. apply (j_main _ _ _ _ HJ x xn Ix).
  - rewrite R2. destruct (remove_nodes_get _ _ _ R2 ND) as [A B]. cbn [nodemap] in B. subst m. cbn [remove_if]. rewrite pass_no_if; [cbn [i_rm]; eexists; reflexivity|].
    intros k Ik. cbn [i_nm]. apply in_map_iff in Ik. destruct Ik as ([k' m] & E' & Im). cbn in E'. subst k'. exists m. pose proof (In_dget _ _ _ _ A Im) as D. split; [exact D|].
    rewrite B in D. destruct (memb k (y :: rm)) eqn:Mk; [discriminate|]. intros O.
    destruct (j_only _ _ _ _ HJ k) as [K|(k' & m' & K1 & K2 & K3)]; [congruence| |].
    + apply in_map_iff in K. destruct K as ([k' mn] & E' & K). cbn in E'. subst k'. rewrite (j_main _ _ _ _ HJ _ _ K) in D. injection D as ->.
      assert (X : In k (i_rm s)) by (eapply (j_done _ _ _ _ HJ); [eapply main_key; eauto|split; eauto]). rewrite Er in X. apply memb_nIn in Mk. contradiction.
    + destruct K2 as (kn & K4 & K5). subst k. rewrite (j_branch _ _ _ _ HJ k' kn m' K1 K4 K5) in D. injection D as <-. cbn in O.
      apply (pi_flat _ _ HP k' m'); [exists kn; auto|exact O].
Qed.
End TOTAL.
