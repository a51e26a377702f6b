From Verif Require Import PyBase PyBaseFacts GraphModel CompressSpec RelSpec RelProofs TopSortSpec TopSortProofs OrderProofs EditModel EditSpec RemoveProofs.
Local Open Scope list_scope.

Lemma ddel_length : forall A (d : dict A) k v, dget d k = Some v -> S (length (ddel d k)) = length d.
Proof.
  induction d as [|[k0 v0] r IH]; intros k v E; [discriminate|]. cbn [dget] in E. cbn [ddel].
  destruct (String.eqb k k0); [reflexivity|]. cbn [length]. rewrite (IH _ _ E). reflexivity.
Qed.
Lemma ddel_absent : forall A (d : dict A) k, dget d k = None -> ddel d k = d.
Proof.
  induction d as [|[k0 v0] r IH]; intros k E; [reflexivity|]. cbn [dget] in E. cbn [ddel].
  destruct (String.eqb k k0); [discriminate|]. f_equal. apply IH. exact E.
Qed.
Lemma dkeys_ddel : forall A (d : dict A) k, dkeys (ddel d k) = remove1 k (dkeys d).
Proof.
  induction d as [|[k0 v0] r IH]; intros k; [reflexivity|]. cbn [ddel dkeys map fst remove1].
  destruct (String.eqb k k0); [reflexivity|]. cbn [map fst]. f_equal. apply IH.
Qed.

Section Dangling.
Variable g0 : graph.                       (* the graph as loaded *)
Hypothesis C0 : consistent g0.
Hypothesis Unread : outputs_unread g0.
Local Notation nx := (next_nodes g0).

(** keys listed in dependency order: a later key never feeds an earlier one *)
Inductive ordered_keys : list string -> Prop :=
| ok_nil : ordered_keys []
| ok_cons : forall k r, (forall p, In p r -> ~ feeds (nodemap g0) p k) -> ordered_keys r -> ordered_keys (k :: r).

Lemma ordered_remove1 : forall l x, ordered_keys l -> ordered_keys (remove1 x l).
Proof.
  induction l as [|y r IH]; intros x H; [exact H|]. inversion H as [|? ? H1 H2]; subst. cbn [remove1].
  destruct (String.eqb x y); [exact H2|]. constructor; [|apply IH; exact H2].
  intros p I. apply H1. eapply In_remove1; exact I.
Qed.

(** states reached by the sweeps *)
Record Good (g : graph) : Prop := {
  go_con : consistent g;
  go_sub : forall k n, dget (nodemap g) k = Some n -> dget (nodemap g0) k = Some n;
  go_out : g_output g = g_output g0;
  go_keep : forall k, needed g0 k -> dhas (nodemap g) k = true;
  go_ord : ordered_keys (dkeys (nodemap g))
}.

Lemma nx_spec : forall k n, In (k, n) (nodemap g0) -> forall o y yn, In o (n_out n) -> In (y, yn) (nodemap g0) -> In o (n_in yn) ->
  exists l, dget nx k = Some l /\ In y l.
Proof.
  intros k n I o y yn Io Iy Ir.
  exists (flat_map (glist (consumedby g0)) (n_out n)). split.
  - apply In_dget.
    + unfold dkeys, next_nodes. rewrite map_map. cbn [fst]. apply C0.
    + unfold next_nodes. apply in_map_iff. exists (k, n). split; [reflexivity|exact I].
  - apply in_flat_map. exists o. split; [exact Io|].
    apply In_dget in Iy; [|apply C0].
    destruct (co_cons g0 C0) as [_ _ HC]. apply count_pos. rewrite HC. unfold cnt_sel. rewrite Iy. cbn [count].
    apply count_pos in Ir. destruct (String.eqb y ""); lia.
Qed.

Lemma needed_in : forall k, needed g0 k -> exists n, dget (nodemap g0) k = Some n.
Proof.
  intros k H. inversion H as [k' n o I _ _|k' m F _]; subst.
  - exists n. apply In_dget; [apply C0|exact I].
  - destruct F as (na & nb & t & Ia & _). exists na. apply In_dget; [apply C0|exact Ia].
Qed.

Lemma unused_not_needed : forall g k n, Good g -> dget (nodemap g) k = Some n -> node_used nx g k n = false -> ~ needed g0 k.
Proof.
  intros g k n G E U H. unfold node_used in U. apply orb_false_iff in U. destruct U as [U1 U2].
  pose proof (go_sub g G k n E) as E0.
  inversion H as [k' n' o I1 I2 I3|k' m F Hm]; subst.
  - apply In_dget in I1; [|apply C0]. rewrite E0 in I1. injection I1 as <-.
    assert (existsb (fun o => memb o (g_output g)) (n_out n) = true); [|congruence].
    apply existsb_exists. exists o. split; [exact I2|]. rewrite (go_out g G). apply memb_In. exact I3.
  - destruct F as (na & nb & t & Ia & Ib & Ta & Tb).
    destruct (nx_spec k na Ia t m nb Ta Ib Tb) as (l & L1 & L2). rewrite L1 in U2.
    assert (existsb (fun m => dhas (nodemap g) m) l = true); [|congruence].
    apply existsb_exists. exists m. split; [exact L2|]. apply (go_keep g G). exact Hm.
Qed.

Lemma useless_not_needed : forall g k n p, Good g -> dget (nodemap g) k = Some n -> ~ needed g0 k ->
  useless (nodemap g) k n (g_output g) p -> ~ needed g0 p /\ (forall pn, dget (nodemap g) p = Some pn -> forall o, In o (n_out pn) -> ~ In o (g_output g0)).
Proof.
  intros g k n p G E Nk (Np & pn & i & P1 & P2 & P3 & P4).
  pose proof (go_sub g G k n E) as E0. pose proof (go_sub g G p pn P1) as EP.
  assert (Ho : forall o, In o (n_out pn) -> ~ In o (g_output g0)).
  { intros o Io Oo. destruct (String.eqb_spec o i) as [->|No].
    - apply (Unread i Oo). unfold reads_of, nodes_of. apply in_flat_map. exists n. split; [|exact P2].
      apply in_map_iff. exists (k, n). split; [reflexivity|]. apply dget_In. exact E0.
    - destruct (P4 o Io) as [_ K]. apply (K No). rewrite (go_out g G). exact Oo. }
  split.
  - intros H. inversion H as [k' n' o I1 I2 I3|k' m F Hm]; subst.
    + apply In_dget in I1; [|apply C0]. rewrite EP in I1. injection I1 as <-. exact (Ho o I2 I3).
    + destruct F as (na & nb & t & Ia & Ib & Ta & Tb).
      apply In_dget in Ia; [|apply C0]. rewrite EP in Ia. injection Ia as <-.
      assert (Nm : m <> k) by (intro; subst; contradiction).
      pose proof (go_keep g G m Hm) as K. unfold dhas in K. destruct (dget (nodemap g) m) as [mn|] eqn:Em; [|discriminate].
      pose proof (go_sub g G m mn Em) as Em0. apply In_dget in Ib; [|apply C0]. rewrite Em0 in Ib. injection Ib as <-.
      destruct (P4 t Ta) as [K1 _]. exact (K1 m mn Nm Em Tb).
  - intros pn' E'. rewrite P1 in E'. injection E' as <-. exact Ho.
Qed.

(** removing one node that is not needed and produces no output *)
Lemma good_remove : forall g k n, Good g -> dget (nodemap g) k = Some n -> ~ needed g0 k ->
  (forall o, In o (n_out n) -> ~ In o (g_output g0)) ->
  exists g' nn, remove_node1 g k = Ok (g', nn) /\ Good g' /\ nodemap g' = ddel (nodemap g) k /\
    (forall p, In p nn -> useless (nodemap g) k n (g_output g) p).
Proof.
  intros g k n G E Nk Ho.
  destruct (remove_node1_ok g k n (go_con g G) E) as (g' & nn & R1 & R2 & R3 & _ & _ & _ & _ & _ & _ & _ & R8 & R9).
  assert (EO : g_output g' = g_output g) by (apply R8; intros o Io; rewrite (go_out g G); auto).
  exists g', nn. split; [exact R1|]. split; [|split; [exact R3|rewrite EO in R9; exact R9]].
  constructor.
  - exact R2.
  - intros x m Ex. rewrite R3 in Ex. destruct (string_dec x k) as [->|N].
    + rewrite dget_ddel_eq in Ex; [discriminate|apply (go_con g G)].
    + rewrite dget_ddel_neq in Ex by congruence. apply (go_sub g G). exact Ex.
  - rewrite EO. apply (go_out g G).
  - intros x Hx. unfold dhas. rewrite R3. rewrite dget_ddel_neq by (intro; subst; contradiction). apply (go_keep g G). exact Hx.
  - rewrite R3, dkeys_ddel. apply ordered_remove1, (go_ord g G).
Qed.

Lemma remove_nodes_good : forall nn g, Good g ->
  (forall p, In p nn -> ~ needed g0 p /\ (forall pn, dget (nodemap g) p = Some pn -> forall o, In o (n_out pn) -> ~ In o (g_output g0))) ->
  exists g', remove_nodes g nn = Ok g' /\ Good g' /\ (length (nodemap g') <= length (nodemap g)) /\
    (forall x, dhas (nodemap g) x = true -> ~ In x nn -> dhas (nodemap g') x = true) /\
    (forall x, dget (nodemap g) x = None -> dget (nodemap g') x = None).
Proof.
  induction nn as [|p r IH]; intros g G H.
  - exists g. split; [reflexivity|]. split; [exact G|]. split; [lia|]. split; auto.
  - destruct (H p (or_introl eq_refl)) as [Np Ho].
    unfold remove_nodes. cbn [fold_left bind].
    destruct (dget (nodemap g) p) as [pn|] eqn:Ep.
    + destruct (good_remove g p pn G Ep Np (Ho pn eq_refl)) as (g1 & nn1 & R1 & G1 & M1 & _).
      rewrite R1. cbn [bind].
      destruct (IH g1 G1) as (g' & F & G' & L & K1 & K2).
      { intros q Iq. destruct (H q (or_intror Iq)) as [Nq Hq]. split; [exact Nq|].
        intros qn Eq. apply Hq. rewrite M1 in Eq. destruct (string_dec q p) as [->|N].
        - rewrite dget_ddel_eq in Eq; [discriminate|apply (go_con g G)].
        - rewrite dget_ddel_neq in Eq by congruence. exact Eq. }
      exists g'. split; [exact F|]. split; [exact G'|]. split; [|split].
      * rewrite M1 in L. pose proof (ddel_length _ _ _ _ Ep). lia.
      * intros x Hx Nx. apply K1; [|intro; apply Nx; right; assumption]. unfold dhas. rewrite M1, dget_ddel_neq; [exact Hx|].
        intro; subst; apply Nx; left; reflexivity.
      * intros x Hx. apply K2. rewrite M1. destruct (string_dec x p) as [->|N]; [apply dget_ddel_eq, (go_con g G)|].
        rewrite dget_ddel_neq by congruence. exact Hx.
    + rewrite (remove_node1_absent g p Ep). cbn [bind].
      destruct (IH g G) as (g' & F & G' & L & K1 & K2); [intros q Iq; apply H; right; exact Iq|].
      exists g'. split; [exact F|]. split; [exact G'|]. split; [exact L|]. split; [|exact K2].
      intros x Hx Nx. apply K1; [exact Hx|]. intro; apply Nx; right; assumption.
Qed.

(** one unused node, recursively *)
Lemma remove_rec_good : forall g k n, Good g -> dget (nodemap g) k = Some n -> node_used nx g k n = false ->
  exists g', remove_node g k true = Ok g' /\ Good g' /\ S (length (nodemap g')) <= length (nodemap g) /\
    (forall x, dhas (nodemap g) x = true -> x <> k -> ~ feeds (nodemap g0) x k -> dhas (nodemap g') x = true) /\
    (forall x, dget (nodemap g) x = None -> dget (nodemap g') x = None).
Proof.
  intros g k n G E U. pose proof (unused_not_needed g k n G E U) as Nk.
  assert (Ho : forall o, In o (n_out n) -> ~ In o (g_output g0)).
  { intros o Io Oo. unfold node_used in U. apply orb_false_iff in U. destruct U as [U _].
    assert (existsb (fun o => memb o (g_output g)) (n_out n) = true); [|congruence].
    apply existsb_exists. exists o. split; [exact Io|]. rewrite (go_out g G). apply memb_In. exact Oo. }
  destruct (good_remove g k n G E Nk Ho) as (g1 & nn & R1 & G1 & M1 & Hnn).
  unfold remove_node. rewrite R1. cbn [bind].
  destruct (remove_nodes_good nn g1 G1) as (g' & F & G' & L & K1 & K2).
  { intros p Ip. destruct (useless_not_needed g k n p G E Nk (Hnn p Ip)) as [N1 N2]. split; [exact N1|].
    intros pn Ep. apply N2. rewrite M1 in Ep. destruct (string_dec p k) as [->|N].
    - rewrite dget_ddel_eq in Ep; [discriminate|apply (go_con g G)].
    - rewrite dget_ddel_neq in Ep by congruence. exact Ep. }
  exists g'. split; [exact F|]. split; [exact G'|]. split; [|split].
  - rewrite M1 in L. pose proof (ddel_length _ _ _ _ E). lia.
  - intros x Hx Nx Nf. apply K1.
    + unfold dhas. rewrite M1, dget_ddel_neq by congruence. exact Hx.
    + intro I. destruct (Hnn x I) as (_ & pn & i & P1 & P2 & P3 & _). apply Nf.
      exists pn, n, i. repeat split; auto; apply dget_In; apply (go_sub g G); assumption.
  - intros x Hx. apply K2. rewrite M1. destruct (string_dec x k) as [->|N]; [apply dget_ddel_eq, (go_con g G)|].
    rewrite dget_ddel_neq by congruence. exact Hx.
Qed.

Lemma sweep_ok : forall names g again, Good g -> ordered_keys names -> NoDup names ->
  (forall k, In k names -> dhas (nodemap g) k = true) ->
  exists g' again', sweep nx names g again = Ok (g', again') /\ Good g' /\
    length (nodemap g') <= length (nodemap g) /\
    (again' = true -> again = true \/ length (nodemap g') < length (nodemap g)) /\
    (again' = false -> g' = g /\ again = false /\ forall k n, In k names -> dget (nodemap g) k = Some n -> node_used nx g k n = true).
Proof.
  induction names as [|k r IH]; intros g again G HO ND HK; cbn [sweep].
  - exists g, again. split; [reflexivity|]. split; [exact G|]. split; [lia|]. split; [auto|]. intros ->. split; [reflexivity|]. split; [reflexivity|]. intros k n [].
  - pose proof (HK k (or_introl eq_refl)) as Hk. unfold dhas in Hk. destruct (dget (nodemap g) k) as [n|] eqn:E; [|discriminate].
    inversion HO as [|? ? O1 O2]; subst. inversion ND as [|? ? D1 D2]; subst.
    destruct (node_used nx g k n) eqn:U.
    + destruct (IH g again G O2 D2) as (g' & a' & S1 & S2 & S3 & S4 & S5); [intros x I; apply HK; right; exact I|].
      exists g', a'. split; [exact S1|]. split; [exact S2|]. split; [exact S3|]. split; [exact S4|].
      intros Ha. destruct (S5 Ha) as (T1 & T2 & T3). split; [exact T1|]. split; [exact T2|].
      intros x m [<-|I] Ex; [congruence|]. eapply T3; eauto.
    + destruct (remove_rec_good g k n G E U) as (g1 & R1 & R2 & R3 & R4 & _). rewrite R1. cbn [bind].
      destruct (IH g1 true R2 O2 D2) as (g' & a' & S1 & S2 & S3 & S4 & S5).
      { intros x I. apply R4; [apply HK; right; exact I|intro; subst; contradiction|apply O1; exact I]. }
      exists g', a'. split; [exact S1|]. split; [exact S2|]. split; [lia|]. split; [intros _; right; lia|].
      intros Ha. destruct (S5 Ha) as (_ & T2 & _). discriminate.
Qed.

Lemma loop_ok : forall fuel g, length (nodemap g) < fuel -> Good g ->
  exists g', dangling_loop fuel nx g = Some (Ok g') /\ Good g' /\
    (forall k n, dget (nodemap g') k = Some n -> node_used nx g' k n = true).
Proof.
  induction fuel as [|f IH]; intros g HL G; [lia|]. cbn [dangling_loop].
  destruct (sweep_ok (dkeys (nodemap g)) g false G (go_ord g G) (co_nd g (go_con g G))) as (g' & a & S1 & S2 & S3 & S4 & S5).
  { intros k I. unfold dhas. destruct (dget (nodemap g) k) eqn:E; [reflexivity|]. apply dget_None in E. contradiction. }
  rewrite S1. destruct a.
  - destruct (S4 eq_refl) as [X|X]; [discriminate|]. apply IH; [lia|exact S2].
  - destruct (S5 eq_refl) as (-> & _ & T). exists g. split; [reflexivity|]. split; [exact G|].
    intros k n E. apply (T k n); [eapply dget_Some_keys; exact E|exact E].
Qed.

Lemma used_needed : forall rk g', (forall a b, feeds (nodemap g0) a b -> rk a < rk b) -> Good g' ->
  (forall k n, dget (nodemap g') k = Some n -> node_used nx g' k n = true) ->
  forall k, dhas (nodemap g') k = true -> needed g0 k.
Proof.
  intros rk g' HR G HU.
  assert (B : exists M, forall k, In k (dkeys (nodemap g0)) -> rk k <= M).
  { generalize (dkeys (nodemap g0)). induction l as [|x r [M IH]]; [exists 0; intros k []|].
    exists (Nat.max M (rk x)). intros k [<-|I]; [lia|]. specialize (IH k I). lia. }
  destruct B as [M B].
  assert (Gm : forall m k, M - rk k < m -> dhas (nodemap g') k = true -> needed g0 k).
  { induction m as [|m IH]; intros k Hm Hk; [lia|].
    unfold dhas in Hk. destruct (dget (nodemap g') k) as [n|] eqn:E; [|discriminate].
    pose proof (go_sub g' G k n E) as E0. pose proof (HU k n E) as U. unfold node_used in U. apply orb_prop in U.
    destruct U as [U|U].
    - apply existsb_exists in U. destruct U as (o & O1 & O2). apply memb_In in O2. rewrite (go_out g' G) in O2.
      eapply needed_out; [apply dget_In; exact E0|exact O1|exact O2].
    - apply existsb_exists in U. destruct U as (y & Y1 & Y2).
      destruct (dget nx k) as [l|] eqn:EL; [|destruct Y1].
      apply dget_In in EL. unfold next_nodes in EL. apply in_map_iff in EL. destruct EL as ([k' n'] & X & I). cbn [fst snd] in X.
      injection X as -> <-. apply in_flat_map in Y1. destruct Y1 as (o & Io & Iy).
      change (In y (glist (consumedby g0) o)) in Iy.
      destruct (tbl_of _ _ _ _ _ _ _ (co_cons g0 C0) Iy) as (yn & Ey & Ir & _).
      assert (F : feeds (nodemap g0) k y) by (exists n', yn, o; repeat split; auto; apply dget_In; exact Ey).
      apply (needed_feed g0 k y F). apply IH; [|exact Y2]. pose proof (HR k y F).
      assert (rk y <= M) by (apply B; eapply dget_Some_keys; exact Ey). lia. }
  intros k Hk. exact (Gm (S (M - rk k)) k (Nat.lt_succ_diag_r _) Hk).
Qed.

Hypothesis Ord0 : ordered_keys (dkeys (nodemap g0)).

Lemma good_start : Good g0.
Proof.
  constructor; auto. intros k H. destruct (needed_in k H) as (n & E). unfold dhas. rewrite E. reflexivity.
Qed.

Lemma remove_dangling_exact : forall rk, (forall a b, feeds (nodemap g0) a b -> rk a < rk b) ->
  exists g', remove_dangling_nodes nx g0 = Some (Ok g') /\ g_output g' = g_output g0 /\
   (forall k n, In (k, n) (nodemap g') <-> In (k, n) (nodemap g0) /\ needed g0 k).
Proof.
  intros rk HR. destruct (loop_ok (S (length (nodemap g0))) g0 (Nat.lt_succ_diag_r _) good_start) as (g' & E & G & U).
  exists g'. split; [exact E|]. split; [apply (go_out g' G)|]. intros k n. split.
  - intros I. apply In_dget in I; [|apply (go_con g' G)]. split; [apply dget_In, (go_sub g' G), I|].
    eapply used_needed; eauto. unfold dhas. rewrite I. reflexivity.
  - intros [I H]. pose proof (go_keep g' G k H) as K. unfold dhas in K. destruct (dget (nodemap g') k) as [m|] eqn:Em; [|discriminate].
    pose proof (go_sub g' G k m Em) as E0. apply In_dget in I; [|apply C0]. rewrite I in E0. injection E0 as <-.
    apply dget_In. exact Em.
Qed.
End Dangling.

Lemma before_ordered : forall g, consistent g -> listed_in_order g -> ordered_keys g (dkeys (nodemap g)).
Proof.
  intros g HC HO. unfold listed_in_order in HO.
  assert (Gen : forall r a, dkeys (nodemap g) = a ++ r -> ordered_keys g r).
  { induction r as [|k r IH]; intros a E; [constructor|]. constructor.
    - intros p I F. apply HO in F. pose proof (co_nd g HC) as ND.
      pose proof (before_split _ p k a r ND F E) as J. rewrite E in ND.
      destruct (NoDup_app_inv _ _ _ ND) as (_ & _ & K). apply (K p J). right. exact I.
    - apply (IH (a ++ [k])). rewrite <- app_assoc. exact E. }
  apply (Gen _ []). reflexivity.
Qed.

Lemma before_rank : forall g, NoDup (map fst (nodemap g)) -> listed_in_order g -> acyclic (nodemap g).
Proof.
  intros g ND HO.
  set (idx := fix idx (l : list string) (k : string) : nat := match l with [] => 0 | y :: r => if String.eqb k y then 0 else S (idx r k) end).
  exists (idx (map fst (nodemap g))). intros a b F. apply HO in F. destruct F as (p & q & s & E). rewrite E in *.
  clear E. induction p as [|x p IH]; cbn [app idx] in *.
  - inversion ND as [|? ? N1 N2]; subst. rewrite String.eqb_refl.
    destruct (String.eqb_spec b a) as [->|N]; [|lia]. exfalso. apply N1. apply in_app_iff. right. left. reflexivity.
  - inversion ND as [|? ? N1 N2]; subst.
    destruct (String.eqb_spec a x) as [->|Na]; [exfalso; apply N1, in_app_iff; right; left; reflexivity|].
    destruct (String.eqb_spec b x) as [->|Nb]; [exfalso; apply N1, in_app_iff; right; right; apply in_app_iff; right; left; reflexivity|].
    specialize (IH N2). lia.
Qed.

Theorem remove_dangling_correct : forall g0 g, g = update_consumer_producer g0 -> names_match g0 ->
  unique_producers (nodemap g0) -> listed_in_order g0 -> outputs_unread g0 ->
  exists g', remove_dangling_nodes (next_nodes g) g = Some (Ok g') /\ g_output g' = g_output g0 /\
   (forall k n, In (k, n) (nodemap g') <-> In (k, n) (nodemap g0) /\ needed g0 k).
Proof.
  intros g0 g -> HN HU HO HR.
  pose proof (loaded_consistent g0 (proj1 HU) HN HU) as HC.
  pose proof (ucp_spec g0) as H. cbv zeta in H. destruct H as (_ & _ & _ & _ & H5 & H6 & H7 & H8 & H9 & H10).
  set (g := update_consumer_producer g0) in *.
  assert (EO : g_output g = g_output g0).
  { unfold g, update_consumer_producer. destruct (fold_left upd_node (nodes_of g0) ([], [])). reflexivity. }
  assert (HR' : outputs_unread g) by (intros o Io; unfold nodes_of; rewrite H5; apply HR; rewrite <- EO; exact Io).
  assert (HO' : listed_in_order g) by (intros a b F; rewrite H5 in *; auto).
  destruct (before_rank g (co_nd g HC) HO') as (rk & Hrk).
  destruct (remove_dangling_exact g HC HR' (before_ordered g HC HO') rk Hrk) as (g' & E1 & E2 & E3).
  exists g'. split; [exact E1|]. split; [rewrite E2; exact EO|].
  assert (NE : forall k, needed g k <-> needed g0 k).
  { intros k. split; intros H; induction H as [k n o I1 I2 I3|k m F _ IH].
    - rewrite H5 in I1. rewrite EO in I3. eapply needed_out; eauto.
    - rewrite H5 in F. eapply needed_feed; eauto.
    - rewrite <- H5 in I1. rewrite <- EO in I3. eapply needed_out; eauto.
    - rewrite <- H5 in F. eapply needed_feed; eauto. }
  intros k n. rewrite E3, NE, H5. reflexivity.
Qed.
