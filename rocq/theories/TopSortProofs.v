From Verif Require Import PyBase PyBaseFacts GraphModel RelSpec RelProofs TopSortModel TopSortSpec.
From Coq Require Import Permutation.
Local Open Scope Z_scope.

Definition outs (nm : dict node) : list string := flat_map (fun kn => n_out (snd kn)) nm.
Definition cnt_in (l ins : list string) : Z := Z.of_nat (length (filter (fun t => memb t l) ins)).
Definition nouts (nm : dict node) (k : string) : list string :=
  match dget nm k with Some n => n_out n | None => [] end.
Definition O_of (nm : dict node) (l : list string) : list string := flat_map (nouts nm) l.

Lemma dep_decr : forall d k x, dep (decr d k) x = dep d x - (if String.eqb x k then 1 else 0).
Proof.
  intros d k x. unfold decr, dep at 1. rewrite dget_dset.
  destruct (String.eqb_spec x k) as [->|N]; [reflexivity|]. unfold dep. lia.
Qed.

Lemma dep_fold_decr : forall l d x, dep (fold_left decr l d) x = dep d x - Z.of_nat (count x l).
Proof.
  induction l as [|y r IH]; intros d x; cbn [fold_left count]; [lia|].
  rewrite IH, dep_decr. destruct (String.eqb x y); lia.
Qed.

Lemma ts_pick_spec : forall names d q d', NoDup names -> ts_pick names d = (q, d') ->
  q = filter (fun k => dep d k =? 0) names /\
  forall x, dep d' x = dep d x - (if memb x q then 1 else 0).
Proof.
  induction names as [|k r IH]; intros d q d' ND E; cbn [ts_pick] in E.
  - injection E as <- <-. split; [reflexivity|]. intros; simpl; lia.
  - inversion ND as [|? ? N1 N2]; subst. cbn [filter].
    destruct (dep d k =? 0) eqn:Z0.
    + destruct (ts_pick r (decr d k)) as [q1 d1] eqn:E1. injection E as <- <-.
      destruct (IH _ _ _ N2 E1) as [K1 K2].
      assert (K1' : q1 = filter (fun x => dep d x =? 0) r).
      { rewrite K1. apply filter_ext_in. intros x I. rewrite dep_decr.
        destruct (String.eqb_spec x k); [subst; contradiction|]. rewrite Z.sub_0_r. reflexivity. }
      split; [f_equal; assumption|].
      intros x. rewrite K2, dep_decr. cbn [memb].
      destruct (String.eqb_spec x k) as [->|N]; [|lia].
      assert (memb k q1 = false) as ->; [|lia].
      apply memb_nIn. rewrite K1'. intro I. apply filter_In in I. tauto.
    + destruct (IH _ _ _ N2 E) as [K1 K2]. split; assumption.
Qed.

Lemma ts_relax_list : forall nm cns q d,
  ts_relax nm cns q d = fold_left decr (flat_map (fun k => flat_map (glist cns) (nouts nm k)) q) d.
Proof.
  intros nm cns. induction q as [|k r IH]; intros d; [reflexivity|].
  unfold ts_relax in *. cbn [fold_left flat_map]. rewrite fold_left_app. rewrite <- IH. f_equal.
  unfold nouts. destruct (dget nm k) as [n|]; [|reflexivity].
  generalize (n_out n) as os. clear. intros os. revert d.
  induction os as [|o os IH]; intros d; [reflexivity|]. cbn [fold_left flat_map].
  rewrite fold_left_app, <- IH. f_equal. unfold glist. destruct (dget cns o); reflexivity.
Qed.

(** ---- totality on every node map ---- *)
Lemma ts_loop_total : forall fuel nm cns names deps ordered,
  NoDup names -> NoDup ordered -> incl ordered names ->
  (forall k, In k ordered -> dep deps k < 0) ->
  (length names < length ordered + fuel)%nat ->
  exists l, ts_loop fuel nm cns names deps ordered = Some l /\ NoDup l /\ incl l names.
Proof.
  induction fuel as [|f IH]; intros nm cns names deps ordered ND NO HI HD HL.
  { exfalso. pose proof (NoDup_incl_length NO HI). lia. }
  cbn [ts_loop]. destruct (ts_pick names deps) as [q d1] eqn:E.
  destruct (ts_pick_spec _ _ _ _ ND E) as [Q1 Q2].
  destruct q as [|k0 q0]; [exists ordered; auto|].
  assert (Hq : forall k, In k (k0 :: q0) -> In k names /\ dep deps k = 0).
  { intros k I. rewrite Q1 in I. apply filter_In in I. destruct I as [I1 I2]. split; [assumption|lia]. }
  assert (NDq : NoDup (k0 :: q0)) by (rewrite Q1; apply NoDup_filter; assumption).
  apply IH; auto.
  - apply NoDup_app_intro; auto. intros k I1 I2. specialize (HD k I1). apply Hq in I2. lia.
  - intros k I. apply in_app_iff in I. destruct I as [I|I]; [auto|apply Hq in I; tauto].
  - intros k I. rewrite ts_relax_list, dep_fold_decr, Q2. apply in_app_iff in I.
    destruct I as [I|I].
    + specialize (HD k I). destruct (memb k (k0 :: q0)); lia.
    + assert (memb k (k0 :: q0) = true) as -> by (apply memb_In; assumption). apply Hq in I. lia.
  - rewrite app_length. simpl. lia.
Qed.

Lemma topsort_total : forall nm, NoDup (map fst nm) ->
  exists l, topsort nm = Some l /\ NoDup l /\ incl l (map fst nm).
Proof.
  intros nm ND. unfold topsort. destruct (ts_deps (ts_produced nm) nm) as [cns deps].
  apply ts_loop_total; auto.
  - constructor.
  - intros x [].
  - intros k [].
  - unfold dkeys. rewrite map_length. simpl. lia.
Qed.

(** ---- the tables ---- *)
Lemma ts_produced_spec : forall nm t, dhas (ts_produced nm) t = memb t (outs nm).
Proof.
  intros nm t. unfold ts_produced, outs.
  assert (H1 : forall (k : string) os (d : dict string), dhas (fold_left (fun d t => dset d t k) os d) t = memb t os || dhas d t).
  { intros k. induction os as [|o r IH]; intros d; [reflexivity|]. cbn [fold_left memb].
    rewrite IH. unfold dhas. rewrite dget_dset. destruct (String.eqb_spec t o) as [->|N].
    - now rewrite orb_true_r.
    - reflexivity. }
  assert (G : forall (ns : dict node) (d : dict string), dhas (fold_left (fun d kn => fold_left (fun d t => dset d t (fst kn)) (n_out (snd kn)) d) ns d) t
     = memb t (flat_map (fun kn => n_out (snd kn)) ns) || dhas d t).
  { induction ns as [|[k n] r IH]; intros d; [reflexivity|]. cbn [fold_left flat_map fst snd].
    rewrite IH, H1.
    assert (MA : forall a b, memb t (a ++ b) = memb t a || memb t b).
    { induction a as [|x a IHa]; intros b; [reflexivity|]. simpl. destruct (String.eqb t x); [reflexivity|apply IHa]. }
    rewrite MA. destruct (memb t (n_out n)), (memb t (flat_map (fun kn => n_out (snd kn)) r)); reflexivity. }
  rewrite G. now rewrite orb_false_r.
Qed.

Lemma ts_count_spec : forall prod name ins c cns c' cns', ts_count prod name ins (c, cns) = (c', cns') ->
  c' = c + Z.of_nat (length (filter (fun t => dhas prod t) ins)) /\
  forall t, glist cns' t = (glist cns t ++ if dhas prod t then map (fun _ => name) (filter (String.eqb t) ins) else [])%list.
Proof.
  intros prod name. unfold ts_count.
  induction ins as [|x r IH]; intros c cns c' cns' E; cbn [fold_left] in E.
  - injection E as <- <-. split; [simpl; lia|]. intros t. destruct (dhas prod t); simpl; now rewrite app_nil_r.
  - cbn [filter fst snd] in *. destruct (dhas prod x) eqn:D.
    + apply IH in E. destruct E as [E1 E2]. split; [simpl length; lia|].
      intros t. rewrite E2, glist_dpush. destruct (String.eqb_spec t x) as [->|N].
      * rewrite D. cbn [map]. now rewrite <- app_assoc.
      * reflexivity.
    + apply IH in E. destruct E as [E1 E2]. split; [assumption|].
      intros t. rewrite E2. destruct (String.eqb_spec t x) as [->|N]; [|reflexivity].
      rewrite D. reflexivity.
Qed.

Lemma ts_deps_spec : forall prod ns cns deps, NoDup (map fst ns) -> ts_deps prod ns = (cns, deps) ->
  (forall k n, In (k, n) ns -> dep deps k = Z.of_nat (length (filter (fun t => dhas prod t) (n_in n)))) /\
  (forall t, glist cns t = if dhas prod t then flat_map (fun kn => map (fun _ => fst kn) (filter (String.eqb t) (n_in (snd kn)))) ns else []).
Proof.
  intros prod ns cns deps. unfold ts_deps.
  set (f := fun cd kn => _).
  assert (G : forall ns cd, NoDup (map fst ns) ->
    (forall k n, In (k, n) ns -> dep (snd (fold_left f ns cd)) k = Z.of_nat (length (filter (fun t => dhas prod t) (n_in n)))) /\
    (forall k, ~ In k (map fst ns) -> dep (snd (fold_left f ns cd)) k = dep (snd cd) k) /\
    (forall t, glist (fst (fold_left f ns cd)) t = (glist (fst cd) t ++ if dhas prod t then flat_map (fun kn => map (fun _ => fst kn) (filter (String.eqb t) (n_in (snd kn)))) ns else [])%list)).
  { clear ns cns deps. induction ns as [|[k n] r IH]; intros cd ND.
    { simpl. split; [intros ? ? []|]. split; [reflexivity|]. intros t. destruct (dhas prod t); now rewrite app_nil_r. }
    cbn [map fst] in ND. inversion ND as [|? ? N1 N2]; subst. cbn [fold_left].
    destruct (ts_count prod k (n_in n) (0, fst cd)) as [c cns1] eqn:E.
    assert (Ef : f cd (k, n) = (cns1, dset (snd cd) k c)) by (unfold f; cbn [fst snd]; now rewrite E).
    rewrite Ef.
    destruct (IH (cns1, dset (snd cd) k c) N2) as (I1 & I2 & I3).
    destruct (ts_count_spec _ _ _ _ _ _ _ E) as [C1 C2].
    cbn [fst snd] in *.
    repeat split.
    - intros k' n' [X|X].
      + injection X as <- <-. rewrite I2 by assumption. unfold dep. rewrite dget_dset_eq. lia.
      + apply I1. assumption.
    - intros k' X. simpl in X. rewrite I2 by tauto. unfold dep. rewrite dget_dset_neq by (intro; subst; tauto). reflexivity.
    - intros t. rewrite I3, C2, <- app_assoc. cbn [flat_map fst snd]. destruct (dhas prod t); reflexivity. }
  intros ND E. destruct (G ns ([], []) ND) as (K1 & _ & K3). rewrite E in *. cbn [fst snd] in *.
  split; [exact K1|]. intros t. rewrite K3. reflexivity.
Qed.

Lemma count_map_const : forall k (l : list string) x, count x (map (fun _ => k) l) = if String.eqb x k then length l else 0%nat.
Proof. intros k l x. induction l as [|y r IH]; simpl; [now destruct (String.eqb x k)|]. rewrite IH. destruct (String.eqb x k); reflexivity. Qed.

Lemma length_filter_eqb : forall t l, length (filter (String.eqb t) l) = count t l.
Proof. intros t. induction l as [|x r IH]; simpl; [reflexivity|]. destruct (String.eqb t x); simpl; rewrite IH; reflexivity. Qed.

Lemma count_cns : forall ns k n t, NoDup (map fst ns) -> In (k, n) ns ->
  count k (flat_map (fun kn => map (fun _ => fst kn) (filter (String.eqb t) (n_in (snd kn)))) ns) = count t (n_in n).
Proof.
  assert (Z : forall ns k t, ~ In k (map fst ns) ->
     count k (flat_map (fun kn => map (fun _ => fst kn) (filter (String.eqb t) (n_in (snd kn)))) ns) = 0%nat).
  { induction ns as [|[k0 n0] r IH]; intros k t NI; [reflexivity|]. cbn [flat_map fst snd]. simpl in NI.
    rewrite count_app, count_map_const, IH by tauto. destruct (String.eqb_spec k k0); [subst; tauto|reflexivity]. }
  induction ns as [|[k0 n0] r IH]; intros k n t ND I; [destruct I|].
  cbn [map fst] in ND. inversion ND as [|? ? N1 N2]; subst.
  cbn [flat_map fst snd]. rewrite count_app, count_map_const, length_filter_eqb.
  destruct I as [I|I].
  - injection I as -> ->. rewrite String.eqb_refl, Z by assumption. lia.
  - assert (In k (map fst r)) by (apply in_map_iff; exists (k, n); auto).
    destruct (String.eqb_spec k k0); [subst; contradiction|]. rewrite (IH k n t N2 I). reflexivity.
Qed.

Lemma cnt_in_cons_notin : forall x l ins, ~ In x l -> cnt_in (x :: l) ins = Z.of_nat (count x ins) + cnt_in l ins.
Proof.
  intros x l ins N. unfold cnt_in. induction ins as [|y r IH]; [reflexivity|].
  cbn [filter count memb]. destruct (String.eqb_spec y x) as [->|Ny].
  - rewrite String.eqb_refl. apply memb_nIn in N. rewrite N. simpl length. cbn [memb] in IH. lia.
  - destruct (String.eqb_spec x y); [congruence|]. destruct (memb y l); simpl length; cbn [memb] in IH; lia.
Qed.

Lemma cnt_in_app : forall a b ins, NoDup (a ++ b) -> cnt_in (a ++ b) ins = cnt_in a ins + cnt_in b ins.
Proof.
  induction a as [|x a IH]; intros b ins ND.
  - simpl. unfold cnt_in at 2. assert (filter (fun t => memb t []) ins = []) as ->; [|simpl; lia].
    induction ins; auto.
  - simpl in ND. inversion ND as [|? ? N1 N2]; subst. cbn [app].
    rewrite cnt_in_cons_notin by assumption. rewrite IH by assumption.
    rewrite cnt_in_cons_notin by (rewrite in_app_iff in N1; tauto). lia.
Qed.

Lemma filter_len_mono : forall (p q : string -> bool) l, (forall x, In x l -> p x = true -> q x = true) ->
  (length (filter p l) <= length (filter q l))%nat.
Proof.
  induction l as [|x r IH]; intros H; [simpl; lia|]. cbn [filter].
  assert (IH' : (length (filter p r) <= length (filter q r))%nat) by (apply IH; intros; apply H; auto; right; assumption).
  destruct (p x) eqn:P.
  - rewrite (H x (or_introl eq_refl) P). simpl. lia.
  - destruct (q x); simpl; lia.
Qed.

Lemma filter_len_eq : forall (p q : string -> bool) l, (forall x, In x l -> p x = true -> q x = true) ->
  length (filter p l) = length (filter q l) -> forall x, In x l -> q x = true -> p x = true.
Proof.
  induction l as [|y r IH]; intros H HL x I Q; [destruct I|]. cbn [filter] in HL.
  assert (M : (length (filter p r) <= length (filter q r))%nat) by (apply filter_len_mono; intros; apply H; auto; right; assumption).
  destruct (p y) eqn:P.
  - rewrite (H y (or_introl eq_refl) P) in HL. simpl in HL.
    destruct I as [->|I]; [assumption|]. apply IH; auto. intros; apply H; auto; right; assumption.
  - destruct (q y) eqn:Qy; simpl in HL; [lia|].
    destruct I as [->|I]; [congruence|]. apply IH; auto. intros; apply H; auto; right; assumption.
Qed.

Lemma app_split_cases : forall (o q l1 : list string) k l2, (o ++ q = l1 ++ k :: l2)%list ->
  (exists m, o = (l1 ++ k :: m)%list) \/ (In k q /\ incl o l1).
Proof.
  induction o as [|x r IH]; intros q l1 k l2 E.
  - simpl in E. right. split; [|intros y []]. rewrite E. apply in_app_iff. right. left. reflexivity.
  - destruct l1 as [|y l1]; simpl in E.
    + injection E as -> _. left. exists r. reflexivity.
    + injection E as -> E. destruct (IH _ _ _ _ E) as [(m & ->)|[K1 K2]].
      * left. exists m. reflexivity.
      * right. split; [assumption|]. intros z [->|Z]; [left; reflexivity|right; auto].
Qed.

Section Main.
Variable nm : dict node.
Hypothesis HU : unique_producers nm.

Lemma NDk : NoDup (map fst nm). Proof. apply HU. Qed.
Lemma NDo : NoDup (outs nm). Proof. apply HU. Qed.

Lemma nouts_in : forall k n, In (k, n) nm -> nouts nm k = n_out n.
Proof. intros k n I. unfold nouts. rewrite (In_dget _ nm k n NDk I). reflexivity. Qed.

Lemma nouts_incl : forall k, incl (nouts nm k) (outs nm).
Proof.
  intros k t I. unfold nouts in I. destruct (dget nm k) as [n|] eqn:E; [|destruct I].
  apply dget_In in E. unfold outs. apply in_flat_map. exists (k, n). auto.
Qed.

Lemma outs_unique_key : forall (ns : dict node) a na b nb t, NoDup (flat_map (fun kn => n_out (snd kn)) ns) ->
  In (a, na) ns -> In (b, nb) ns -> In t (n_out na) -> In t (n_out nb) -> a = b.
Proof.
  induction ns as [|[k n] r IH]; intros a na b nb t ND Ia Ib Ta Tb; [destruct Ia|].
  cbn [flat_map snd] in ND. destruct (NoDup_app_inv _ _ _ ND) as (N1 & N2 & N3).
  assert (HR : forall x nx, In (x, nx) r -> In t (n_out nx) -> In t (flat_map (fun kn => n_out (snd kn)) r)).
  { intros x nx I1 I2. apply in_flat_map. exists (x, nx). auto. }
  destruct Ia as [Ia|Ia], Ib as [Ib|Ib].
  - congruence.
  - injection Ia as <- <-. exfalso. apply (N3 t Ta). eauto.
  - injection Ib as <- <-. exfalso. apply (N3 t Tb). eauto.
  - eauto.
Qed.

Lemma nouts_unique : forall a b t, In t (nouts nm a) -> In t (nouts nm b) -> a = b.
Proof.
  intros a b t I J. unfold nouts in *.
  destruct (dget nm a) as [na|] eqn:Ea; [|destruct I]. destruct (dget nm b) as [nb|] eqn:Eb; [|destruct J].
  apply dget_In in Ea. apply dget_In in Eb. eapply outs_unique_key; eauto. apply NDo.
Qed.

Lemma NoDup_nouts : forall k, NoDup (nouts nm k).
Proof.
  intros k. unfold nouts. destruct (dget nm k) as [n|] eqn:E; [|constructor].
  apply dget_In in E. apply in_split in E. destruct E as (A & B & E).
  pose proof NDo as H. unfold outs in H. rewrite E, flat_map_app in H. cbn [flat_map snd] in H.
  apply NoDup_app_inv in H. destruct H as (_ & H & _). apply NoDup_app_inv in H. apply H.
Qed.

Lemma NoDup_O : forall l, NoDup l -> NoDup (O_of nm l).
Proof.
  induction l as [|k r IH]; intros ND; [constructor|]. inversion ND as [|? ? N1 N2]; subst.
  unfold O_of. cbn [flat_map]. apply NoDup_app_intro; [apply NoDup_nouts|apply IH; assumption|].
  intros t I J. apply in_flat_map in J. destruct J as (k' & K1 & K2).
  assert (k = k') by (eapply nouts_unique; eauto). subst. contradiction.
Qed.

Lemma O_incl : forall l, incl (O_of nm l) (outs nm).
Proof. intros l t I. apply in_flat_map in I. destruct I as (k & _ & I). eapply nouts_incl; eauto. Qed.

Variable cns : dict (list string).
Hypothesis Hcns : forall t, glist cns t = if dhas (ts_produced nm) t then
   flat_map (fun kn => map (fun _ => fst kn) (filter (String.eqb t) (n_in (snd kn)))) nm else [].

Lemma relax_count : forall os k n, incl os (outs nm) -> NoDup os -> In (k, n) nm ->
  Z.of_nat (count k (flat_map (glist cns) os)) = cnt_in os (n_in n).
Proof.
  induction os as [|o r IH]; intros k n HI ND I.
  - simpl. unfold cnt_in. assert (filter (fun t => memb t []) (n_in n) = []) as ->; [|reflexivity].
    induction (n_in n); auto.
  - inversion ND as [|? ? N1 N2]; subst. cbn [flat_map]. rewrite count_app, Nat2Z.inj_add.
    rewrite (IH k n); [|intros x X; apply HI; right; assumption|assumption|assumption].
    rewrite cnt_in_cons_notin by assumption. f_equal. f_equal.
    rewrite Hcns, ts_produced_spec.
    assert (memb o (outs nm) = true) as -> by (apply memb_In, HI; left; reflexivity).
    apply count_cns; [apply NDk|assumption].
Qed.

Definition Inv (ordered : list string) (deps : dict Z) : Prop :=
  NoDup ordered /\ incl ordered (map fst nm) /\
  (forall k n, In (k, n) nm -> dep deps k =
     cnt_in (outs nm) (n_in n) - cnt_in (O_of nm ordered) (n_in n) - (if memb k ordered then 1 else 0)) /\
  (forall l1 k l2 a, ordered = (l1 ++ k :: l2)%list -> feeds nm a k -> In a l1).

Lemma cnt_mono : forall a b ins, incl a b -> cnt_in a ins <= cnt_in b ins.
Proof.
  intros a b ins H. unfold cnt_in. apply inj_le. apply filter_len_mono. intros x _ M.
  apply memb_In. apply H. apply memb_In. assumption.
Qed.

Lemma feeds_ordered : forall ordered a k n, In (k, n) nm -> feeds nm a k ->
  cnt_in (outs nm) (n_in n) = cnt_in (O_of nm ordered) (n_in n) -> In a ordered.
Proof.
  intros ordered a k n I (na & nb & t & Ia & Ib & Ta & Tb) E.
  assert (nb = n).
  { pose proof (In_dget _ nm k nb NDk Ib). pose proof (In_dget _ nm k n NDk I). congruence. } subst nb.
  assert (Ht : In t (O_of nm ordered)).
  { apply memb_In. unfold cnt_in in E. apply Nat2Z.inj in E.
    apply (filter_len_eq (fun t => memb t (O_of nm ordered)) (fun t => memb t (outs nm)) (n_in n)); auto.
    - intros x _ M. apply memb_In. apply (O_incl ordered). apply memb_In. assumption.
    - apply memb_In. unfold outs. apply in_flat_map. exists (a, na). auto. }
  unfold O_of in Ht. apply in_flat_map in Ht. destruct Ht as (a' & A1 & A2).
  assert (a' = a); [|subst; assumption].
  eapply nouts_unique; eauto. rewrite (nouts_in a na Ia). assumption.
Qed.

Lemma step_inv : forall ordered deps q d1, Inv ordered deps -> ts_pick (map fst nm) deps = (q, d1) ->
  Inv (ordered ++ q) (ts_relax nm cns q d1).
Proof.
  intros ordered deps q d1 (ND & HI & HD & HP) E.
  destruct (ts_pick_spec _ _ _ _ NDk E) as [Q1 Q2].
  assert (Hq : forall k, In k q -> In k (map fst nm) /\ dep deps k = 0).
  { intros k I. rewrite Q1 in I. apply filter_In in I. destruct I as [I1 I2]. split; [assumption|lia]. }
  assert (NDq : NoDup q) by (rewrite Q1; apply NoDup_filter, NDk).
  assert (Hdisj : forall k, In k ordered -> ~ In k q).
  { intros k I J. destruct (Hq k J) as [K1 K2]. apply in_map_iff in K1. destruct K1 as ([k' n] & E1 & K1).
    simpl in E1. subst k'. pose proof (HD k n K1) as D.
    assert (memb k ordered = true) as M by (apply memb_In; assumption). rewrite M in D.
    assert (cnt_in (O_of nm ordered) (n_in n) <= cnt_in (outs nm) (n_in n)) by (apply cnt_mono, O_incl).
    assert (cnt_in (outs nm) (n_in n) = cnt_in (O_of nm ordered) (n_in n) + 1) as X by lia.
    (* k is closed, hence every input is served *)
    apply in_split in I. destruct I as (l1 & l2 & EI).
    assert (cnt_in (outs nm) (n_in n) <= cnt_in (O_of nm ordered) (n_in n)); [|lia].
    unfold cnt_in. apply inj_le. apply filter_len_mono. intros t It Mt.
    apply memb_In in Mt. unfold outs in Mt. apply in_flat_map in Mt. destruct Mt as ([a na] & A1 & A2). simpl in A2.
    apply memb_In. unfold O_of. apply in_flat_map. exists a. split.
    - rewrite EI. apply in_app_iff. left. apply (HP l1 k l2 a EI). exists na, n, t. auto.
    - rewrite (nouts_in a na A1). assumption. }
  assert (NDall : NoDup (ordered ++ q)) by (apply NoDup_app_intro; auto).
  split; [assumption|]. split; [|split].
  - intros k I. apply in_app_iff in I. destruct I as [I|I]; [auto|apply Hq in I; tauto].
  - intros k n I.
    rewrite ts_relax_list, dep_fold_decr, Q2, (HD k n I).
    assert (Ef : flat_map (fun k0 => flat_map (glist cns) (nouts nm k0)) q = flat_map (glist cns) (O_of nm q)).
    { unfold O_of. clear. induction q as [|x r IH]; [reflexivity|]. cbn [flat_map]. rewrite flat_map_app, IH. reflexivity. }
    rewrite Ef, (relax_count (O_of nm q) k n (O_incl q) (NoDup_O q NDq) I).
    assert (Eo : O_of nm (ordered ++ q) = (O_of nm ordered ++ O_of nm q)%list) by (unfold O_of; apply flat_map_app).
    rewrite Eo, cnt_in_app by (rewrite <- Eo; apply NoDup_O; assumption).
    assert (M : memb k (ordered ++ q) = memb k ordered || memb k q).
    { clear. induction ordered as [|x r IH]; [reflexivity|]. simpl. destruct (String.eqb k x); [reflexivity|apply IH]. }
    rewrite M. destruct (memb k ordered) eqn:M1; destruct (memb k q) eqn:M2; simpl; try lia.
    exfalso. apply memb_In in M1. apply memb_In in M2. exact (Hdisj k M1 M2).
  - intros l1 k l2 a EI F.
    destruct (app_split_cases ordered q l1 k l2 EI) as [(m & Em)|[Kq Hin]]; [eapply HP; eauto|].
    apply Hin. destruct (Hq k Kq) as [K1 K2]. apply in_map_iff in K1. destruct K1 as ([k' n] & E1 & K1).
    simpl in E1. subst k'. eapply feeds_ordered; eauto.
    pose proof (HD k n K1) as D.
    assert (memb k ordered = false) as M by (apply memb_nIn; intro X; exact (Hdisj k X Kq)).
    rewrite M in D. lia.
Qed.

Lemma loop_inv : forall fuel deps ordered l, Inv ordered deps ->
  ts_loop fuel nm cns (map fst nm) deps ordered = Some l ->
  exists deps', Inv l deps' /\ forall k, In k (map fst nm) -> dep deps' k <> 0.
Proof.
  induction fuel as [|f IH]; intros deps ordered l HI E; [discriminate|].
  cbn [ts_loop] in E. destruct (ts_pick (map fst nm) deps) as [q d1] eqn:P.
  destruct q as [|k0 q0].
  - injection E as <-. exists deps. split; [assumption|].
    destruct (ts_pick_spec _ _ _ _ NDk P) as [Q1 _]. intros k I Z0.
    assert (In k []) as []. rewrite Q1. apply filter_In. split; [assumption|lia].
  - eapply IH; [|exact E]. eapply step_inv; eauto.
Qed.
End Main.

Lemma topsort_inv : forall nm l, unique_producers nm -> topsort nm = Some l ->
  exists deps, Inv nm l deps /\ forall k, In k (map fst nm) -> dep deps k <> 0.
Proof.
  intros nm l HU E. unfold topsort in E.
  destruct (ts_deps (ts_produced nm) nm) as [cns deps] eqn:D.
  destruct (ts_deps_spec _ _ _ _ (NDk nm HU) D) as [D1 D2].
  eapply (loop_inv nm HU cns D2); [|exact E].
  split; [constructor|]. split; [intros x []|]. split.
  - intros k n I. rewrite (D1 k n I). simpl. unfold cnt_in.
    rewrite (filter_ext (fun t => dhas (ts_produced nm) t) (fun t => memb t (outs nm))) by (intros; apply ts_produced_spec).
    assert (filter (fun t => memb t []) (n_in n) = []) as -> by (induction (n_in n); auto). simpl. lia.
  - intros l1 k l2 a X. destruct l1; discriminate.
Qed.

(** unscheduled nodes have an unscheduled producer *)
Lemma topsort_stuck : forall nm l k, unique_producers nm -> topsort nm = Some l ->
  In k (map fst nm) -> ~ In k l -> exists a, feeds nm a k /\ ~ In a l.
Proof.
  intros nm l k HU E I N.
  destruct (topsort_inv nm l HU E) as (deps & (ND & HI & HD & HP) & HZ).
  pose proof I as I'. apply in_map_iff in I'. destruct I' as ([k' n] & E1 & K1). simpl in E1. subst k'.
  pose proof (HD k n K1) as D. apply memb_nIn in N. rewrite N in D. specialize (HZ k I).
  assert (cnt_in (O_of nm l) (n_in n) <> cnt_in (outs nm) (n_in n)) as X by lia.
  (* find the witness input *)
  assert (exists t, In t (n_in n) /\ memb t (outs nm) = true /\ memb t (O_of nm l) = false) as (t & T1 & T2 & T3).
  { destruct (existsb (fun t => memb t (outs nm) && negb (memb t (O_of nm l))) (n_in n)) eqn:EX.
    - apply existsb_exists in EX. destruct EX as (t & T1 & T2). apply andb_prop in T2. destruct T2 as [T2 T3].
      exists t. rewrite negb_true_iff in T3. auto.
    - exfalso. apply X. unfold cnt_in. f_equal. f_equal. apply filter_ext_in. intros t It.
      assert (Hf : memb t (outs nm) && negb (memb t (O_of nm l)) = false).
      { destruct (memb t (outs nm) && negb (memb t (O_of nm l))) eqn:F; [|reflexivity].
        assert (existsb (fun t => memb t (outs nm) && negb (memb t (O_of nm l))) (n_in n) = true)
          by (apply existsb_exists; exists t; auto). congruence. }
      destruct (memb t (O_of nm l)) eqn:M2.
      + symmetry. apply memb_In. apply (O_incl nm l). apply memb_In. assumption.
      + destruct (memb t (outs nm)); [discriminate|reflexivity]. }
  apply memb_In in T2. unfold outs in T2. apply in_flat_map in T2. destruct T2 as ([a na] & A1 & A2). simpl in A2.
  exists a. split; [exists na, n, t; auto|].
  intro Ia. apply memb_nIn in T3. apply T3. unfold O_of. apply in_flat_map. exists a. split; [assumption|].
  rewrite (nouts_in nm HU a na A1). assumption.
Qed.

Lemma feeds_key : forall nm a b, feeds nm a b -> In a (map fst nm) /\ In b (map fst nm).
Proof.
  intros nm a b (na & nb & t & Ia & Ib & _). split; apply in_map_iff; [exists (a, na)|exists (b, nb)]; auto.
Qed.

Lemma topsort_executable : forall nm l k, unique_producers nm -> topsort nm = Some l ->
  (In k l <-> executable nm k).
Proof.
  intros nm l k HU E.
  destruct (topsort_inv nm l HU E) as (deps & (ND & HI & HD & HP) & HZ). split.
  - intros I.
    assert (G : forall m l1 k l2, (length l1 < m)%nat -> l = (l1 ++ k :: l2)%list -> executable nm k).
    { induction m as [|m IH]; intros l1 k' l2 HL EL; [lia|].
      constructor; [apply HI; rewrite EL; apply in_app_iff; right; left; reflexivity|].
      intros a F. pose proof (HP l1 k' l2 a EL F) as Ia. apply in_split in Ia. destruct Ia as (p & s & Ep).
      apply (IH p a (s ++ k' :: l2)%list).
      - rewrite Ep, app_length in HL. simpl in HL. lia.
      - rewrite EL, Ep, <- app_assoc. reflexivity. }
    apply in_split in I. destruct I as (l1 & l2 & EL). exact (G (S (length l1)) l1 k l2 (Nat.lt_succ_diag_r _) EL).
  - induction 1 as [k I Hp IH].
    destruct (in_dec string_dec k l) as [J|J]; [assumption|].
    destruct (topsort_stuck nm l k HU E I J) as (a & F & Na). exfalso. apply Na. auto.
Qed.

Lemma topsort_acyclic_all : forall nm l, unique_producers nm -> acyclic nm -> topsort nm = Some l ->
  forall k, In k (map fst nm) -> In k l.
Proof.
  intros nm l HU (rk & HR) E.
  assert (G : forall m k, (rk k < m)%nat -> In k (map fst nm) -> In k l).
  { induction m as [|m IH]; intros k HL I; [lia|].
    destruct (in_dec string_dec k l) as [J|J]; [assumption|].
    destruct (topsort_stuck nm l k HU E I J) as (a & F & Na). exfalso. apply Na.
    apply IH; [specialize (HR a k F); lia|]. apply (feeds_key nm a k F). }
  intros k I. exact (G (S (rk k)) k (Nat.lt_succ_diag_r _) I).
Qed.

Theorem topsort_correct : forall nm, unique_producers nm -> acyclic nm ->
  exists l, topsort nm = Some l /\ Permutation l (map fst nm) /\ (forall a b, feeds nm a b -> before l a b).
Proof.
  intros nm HU HA.
  destruct (topsort_total nm (NDk nm HU)) as (l & E & ND & HI).
  exists l. split; [assumption|].
  pose proof (topsort_acyclic_all nm l HU HA E) as All.
  split; [apply NoDup_Permutation; [assumption|apply NDk, HU|]; intros x; split; [apply HI|apply All]|].
  intros a b F. destruct (topsort_inv nm l HU E) as (deps & (_ & _ & _ & HP) & _).
  destruct (feeds_key nm a b F) as [_ Ib]. apply All in Ib. apply in_split in Ib. destruct Ib as (l1 & l2 & EL).
  pose proof (HP l1 b l2 a EL F) as Ia. apply in_split in Ia. destruct Ia as (p & s & Ep).
  exists p, s, l2. rewrite EL, Ep, <- app_assoc. reflexivity.
Qed.
