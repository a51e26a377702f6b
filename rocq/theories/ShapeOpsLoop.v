(** The whole of removeShapeOps. *)
From Verif Require Import PyBase PyBaseFacts GraphModel CompressSpec RelSpec RelProofs TopSortSpec OrderProofs
  EditModel EditSpec RemoveProofs IoProofs SkipProofs ConstProofs ShapeOpsModel ShapeOpsSpec ShapeOpsProofs.
Local Open Scope nat_scope.
Local Open Scope list_scope.

Lemma is_reshaping n : memb (n_op n) ShapeOps = true <-> reshaping n.
Proof. rewrite memb_In. unfold ShapeOps, reshaping. cbn [In]. split; intuition congruence. Qed.
Lemma keep_all {A} (f : A -> bool) l : (forall x, In x l -> f x = true) -> filter f l = l.
Proof. induction l as [|x r IH]; intros H; [reflexivity|]. cbn [filter]. rewrite (H x (or_introl eq_refl)), IH; [reflexivity|]. intros y I. apply H. right. exact I. Qed.
Lemma app_apart {A} (l1 l2 : list A) x : NoDup (l1 ++ l2) -> In x l1 -> ~ In x l2.
Proof. induction l1 as [|y r IH]; intros ND I J; [destruct I|]. cbn [app] in ND. inversion ND as [|? ? N1 N2]; subst. destruct I as [->|I]; [apply N1, in_app_iff; auto|exact (IH N2 I J)]. Qed.
Lemma ddel_filter {A} (d : dict A) k : NoDup (dkeys d) -> ddel d k = filter (fun kn => negb (String.eqb k (fst kn))) d.
Proof.
  induction d as [|[k0 v0] r IH]; intros ND; [reflexivity|]. cbn [dkeys map fst] in ND. inversion ND as [|? ? N1 N2]; subst. cbn [ddel filter fst].
  destruct (String.eqb_spec k k0) as [->|N]; cbn [negb]; [|f_equal; apply IH; exact N2].
  symmetry. apply keep_all. intros [k1 v1] I. cbn [fst]. apply negb_true_iff. destruct (String.eqb_spec k0 k1) as [<-|]; [|reflexivity].
  exfalso. apply N1. apply in_map_iff. exists (k0, v1). auto.
Qed.
Lemma filter_filter {A} (p q : A -> bool) l : filter p (filter q l) = filter (fun x => q x && p x) l.
Proof. induction l as [|x r IH]; [reflexivity|]. cbn [filter]. destruct (q x); cbn [filter andb]; [destruct (p x); rewrite IH; reflexivity|exact IH]. Qed.
Lemma filter_map_c {A B} (f : A -> B) (p : B -> bool) l : filter p (map f l) = map f (filter (fun x => p (f x)) l).
Proof. induction l as [|x r IH]; [reflexivity|]. cbn [map filter]. destruct (p (f x)); cbn [map]; rewrite IH; reflexivity. Qed.

Section LOOP.
Variable g0 : graph.
Hypothesis HC : consistent g0.
Hypothesis HD : forall t, In t (outs_of (nodes_of g0)) -> In t (dynamics g0).
Hypothesis HA : no_cycle g0.
Hypothesis HP : plain_reshapes g0.

(** one hop back over a reshaping node *)
Definition hop (t u : string) : Prop := exists n, In n (nodes_of g0) /\ reshaping n /\ n_out n = [t] /\ In u (n_in n) /\ In u (dynamics g0).
Inductive hops : string -> string -> Prop := hs_refl : forall t, hops t t | hs_snoc : forall t u v, hops t u -> hop u v -> hops t v.
Lemma hops_rank rk : (forall n t u, In n (nodes_of g0) -> In t (n_out n) -> In u (n_in n) -> rk u < rk t) -> forall t u, hops t u -> rk u <= rk t.
Proof. intros H t u X. induction X as [|t u v X IH (n & A & _ & B & C & _)]; [lia|]. specialize (H n u v A). rewrite B in H. specialize (H (or_introl eq_refl) C). lia. Qed.
Lemma hops_through t r : hops t r -> (forall n, In n (nodes_of g0) -> reshaping n -> ~ In r (n_out n)) -> through g0 t r.
Proof.
  intros H E. assert (X : through g0 r r) by (apply th_here; exact E). clear E. revert X. generalize r at 2 3 as z. intros z. revert z.
  induction H as [t|t u v H IH (n & A & B & C & D & F)]; intros z X; [exact X|]. apply IH. eapply th_step; eauto.
Qed.

Record inv (g : graph) (todo done : list string) (s : string -> string) : Prop := {
  iv_loose : loose g;
  iv_dyn : dynamics g = dynamics g0;
  iv_rest : g_input g = g_input g0 /\ g_output g = g_output g0 /\ tensormap g = tensormap g0 /\ initials g = initials g0;
  iv_nodes : nodemap g = map (fun kn => (fst kn, set_in (snd kn) (map s (n_in (snd kn))))) (filter (fun kn => negb (memb (fst kn) done)) (nodemap g0));
  iv_sdyn : forall t, memb (s t) (dynamics g0) = memb t (dynamics g0);
  iv_hops : forall t, hops t (s t);
  iv_gone : forall k n t, In k done -> In (k, n) (nodemap g0) -> ~ In (s t) (n_out n);
  iv_sep : forall k, In k todo -> ~ In k done;
  iv_todo : forall k, In k todo -> exists n o, In (k, n) (nodemap g0) /\ reshaping n /\ n_out n = [o] /\ In o (reads_of (nodes_of g))
}.
Lemma node_in k n : In (k, n) (nodemap g0) -> In n (nodes_of g0).
Proof. intros I. apply in_map_iff. exists (k, n). auto. Qed.
Lemma out_unique k1 n1 k2 n2 t : In (k1, n1) (nodemap g0) -> In (k2, n2) (nodemap g0) -> In t (n_out n1) -> In t (n_out n2) -> k1 = k2.
Proof.
  intros I1 I2 O1 O2. assert (U := proj2 (co_uniq g0 HC)). revert I1 I2 U. induction (nodemap g0) as [|[k n] r IH]; intros I1 I2 U; [destruct I1|].
  cbn [flat_map snd] in U. assert (DJ : forall k' n', In (k', n') r -> In t (n_out n') -> ~ In t (n_out n)).
  { intros k' n' I' O' O. apply (app_apart _ _ t U O). apply in_flat_map. exists (k', n'). auto. }
  destruct I1 as [E1|I1], I2 as [E2|I2].
  - congruence.
  - injection E1 as -> ->. exfalso. exact (DJ _ _ I2 O2 O1).
  - injection E2 as -> ->. exfalso. exact (DJ _ _ I1 O1 O2).
  - apply IH; auto. clear - U. induction (n_out n) as [|x l IHl]; [exact U|]. inversion U; auto.
Qed.

Lemma step g k todo done s : NoDup (k :: todo) -> inv g (k :: todo) done s -> exists g' s', skip_node g k = Ok g' /\ inv g' todo (done ++ [k]) s'.
Proof.
  intros NDT [L Y R NM SD SH SG SP TD]. destruct (TD k (or_introl eq_refl)) as (n & out & IK & RS & EO & RD).
  destruct (HP n (node_in k n IK) RS) as (i0 & o' & EF & EO' & _). rewrite EO in EO'. injection EO' as <-.
  set (n1 := set_in n (map s (n_in n))). set (ind := s i0).
  assert (NK : ~ In k done) by (apply SP; left; reflexivity).
  assert (E : dget (nodemap g) k = Some n1).
  { apply In_dget; [apply L|]. rewrite NM. apply in_map_iff. exists (k, n). split; [reflexivity|]. apply filter_In. split; [exact IK|]. cbn [fst]. apply negb_true_iff, memb_nIn. exact NK. }
  destruct (In_filter_sing _ _ _ EF) as [Ii Id].
  assert (EF1 : filter (fun t => memb t (dynamics g)) (n_in n1) = [ind]).
  { unfold n1, ind. cbn [set_in n_in]. rewrite Y, filter_map_c. rewrite (filter_ext _ _ SD). rewrite EF. reflexivity. }
  assert (Nio : ind <> out).
  { intros X. destruct HA as [rk H]. assert (H1 := hops_rank rk H i0 ind (SH i0)). assert (H2 := H n out i0 (node_in k n IK)). rewrite EO in H2. specialize (H2 (or_introl eq_refl) Ii). rewrite X in H1. lia. }
  assert (OD0 : In out (dynamics g0)). { apply HD. unfold outs_of. apply in_flat_map. exists n. split; [apply (node_in k); exact IK|rewrite EO; left; reflexivity]. }
  assert (ID0 : In ind (dynamics g0)). { apply memb_In. unfold ind. rewrite SD. exact Id. }
  destruct (skip_step g k n1 ind out L E EF1 EO Nio ltac:(rewrite Y; exact OD0) RD) as (g' & ES & NM' & Q1 & Q2 & Q3 & Q4 & Q5 & L').
  exists g', (fun t => ren out ind (s t)). split; [exact ES|]. constructor.
  - exact L'.
  - congruence.
  - destruct R as (R1 & R2 & R3 & R4). rewrite Q1, Q2, Q3, Q4. auto.
  - rewrite NM', ddel_filter by apply L. rewrite NM, filter_map_c, filter_filter, map_map. cbn [fst snd]. 
    rewrite (filter_ext (fun x : string * node => negb (memb (fst x) done) && negb (String.eqb k (fst x))) (fun kn => negb (memb (fst kn) (done ++ [k])))).
    + apply map_ext. intros [x m]. cbn [fst snd]. unfold read_instead, set_in. cbn [n_in n_name n_op n_out]. rewrite map_map. reflexivity.
    + intros [x m]. cbn [fst]. destruct (memb x (done ++ [k])) eqn:M.
      * apply memb_In, in_app_iff in M. destruct M as [M|[<-|[]]]; [apply memb_In in M; rewrite M; reflexivity|]. rewrite String.eqb_refl. apply andb_false_r.
      * apply memb_nIn in M. rewrite in_app_iff in M. destruct (memb x done) eqn:M1; [apply memb_In in M1; tauto|]. destruct (String.eqb_spec k x) as [->|]; [|reflexivity]. exfalso. apply M. right. left. reflexivity.
  - intros t. unfold ren. destruct (String.eqb_spec (s t) out) as [X|X]; [|apply SD]. rewrite <- (SD t), X. apply memb_In in ID0, OD0. rewrite ID0, OD0. reflexivity.
  - intros t. unfold ren. destruct (String.eqb_spec (s t) out) as [X|X]; [|apply SH].
    (* t ->* out -> i0 ->* ind *)
    assert (H1 := SH t). rewrite X in H1. assert (H2 : hop out i0). { exists n. repeat split; [apply (node_in k); exact IK|exact RS|exact EO|exact Ii|apply memb_In; exact Id]. }
    assert (H3 := SH i0). fold ind in H3. clear - H1 H2 H3. assert (H4 : hops t i0) by (eapply hs_snoc; eauto). clear H1 H2. revert H4. induction H3 as [|a b c H IH P]; intros Q; [exact Q|]. eapply hs_snoc; [apply IH; exact Q|exact P].
  - intros k' m t Ik Im. apply in_app_iff in Ik. unfold ren. destruct (String.eqb_spec (s t) out) as [X|X].
    + destruct Ik as [Ik|[<-|[]]]; [exact (SG k' m i0 Ik Im)|]. assert (m = n) as -> by (apply (In_dget _ _ _ _ (co_nd g0 HC)) in Im, IK; congruence). rewrite EO. intros [Z|[]]. congruence.
    + destruct Ik as [Ik|[<-|[]]]; [exact (SG k' m t Ik Im)|]. assert (m = n) as -> by (apply (In_dget _ _ _ _ (co_nd g0 HC)) in Im, IK; congruence). rewrite EO. intros [Z|[]]. congruence.
  - inversion NDT as [|? ? N1 N2]; subst. intros x Ix J. apply in_app_iff in J as [J|[<-|[]]]; [exact (SP x (or_intror Ix) J)|contradiction].
  - inversion NDT as [|? ? N1 N2]; subst. intros x Ix. destruct (TD x (or_intror Ix)) as (m & o & M1 & M2 & M3 & M4). exists m, o. split; [exact M1|]. split; [exact M2|]. split; [exact M3|].
    assert (No : o <> out). { intros ->. assert (x = k) by (apply (out_unique x m k n out M1 IK); [rewrite M3|rewrite EO]; left; reflexivity). congruence. }
    assert (Od : In o (dynamics g0)). { apply HD. unfold outs_of. apply in_flat_map. exists m. split; [apply (node_in x); exact M1|rewrite M3; left; reflexivity]. }
    apply reads_iff. rewrite NM'.
    assert (KEEP : forall kk mm u v, In (kk, mm) (nodemap g) -> kk <> k -> In u (n_in mm) -> ren out ind u = v -> exists k2 n2, In (k2, n2) (map (fun kn => (fst kn, read_instead out ind (snd kn))) (ddel (nodemap g) k)) /\ In v (n_in n2)).
    { intros kk mm u v A B C <-. exists kk, (read_instead out ind mm). split; [apply in_map_iff; exists (kk, mm); split; [reflexivity|]; apply In_ddel; [apply L|auto]|]. cbn [read_instead set_in n_in]. apply in_map. exact C. }
    assert (KN : forall mm, In (k, mm) (nodemap g) -> mm = n1) by (intros mm A; apply (In_dget _ _ _ _ (lo_nd g L)) in A; congruence).
    destruct (string_dec o ind) as [->|Ni].
    + apply reads_iff in RD as (kk & mm & A & B). apply (KEEP kk mm out ind A).
      * intros ->. rewrite (KN mm A) in B. assert (Z : In out (filter (fun t => memb t (dynamics g)) (n_in n1))) by (apply filter_In; split; [exact B|rewrite Y; apply memb_In; exact OD0]). rewrite EF1 in Z. destruct Z as [Z|[]]; congruence.
      * exact B.
      * unfold ren. rewrite String.eqb_refl. reflexivity.
    + apply reads_iff in M4 as (kk & mm & A & B). apply (KEEP kk mm o o A).
      * intros ->. rewrite (KN mm A) in B. assert (Z : In o (filter (fun t => memb t (dynamics g)) (n_in n1))) by (apply filter_In; split; [exact B|rewrite Y; apply memb_In; exact Od]). rewrite EF1 in Z. destruct Z as [Z|[]]; congruence.
      * exact B.
      * unfold ren. destruct (String.eqb_spec o out); [contradiction|reflexivity].
Qed.
Lemma loop todo : forall g done s, NoDup todo -> inv g todo done s -> exists g' s', skip_all todo g = Ok g' /\ inv g' [] (done ++ todo) s'.
Proof.
  induction todo as [|k r IH]; intros g done s ND H; [exists g, s; rewrite app_nil_r; auto|].
  destruct (step g k r done s ND H) as (g1 & s1 & E1 & H1). cbn [skip_all]. rewrite E1. cbn [bind]. inversion ND; subst.
  destruct (IH g1 (done ++ [k]) s1 ltac:(assumption) H1) as (g2 & s2 & E2 & H2). exists g2, s2. split; [exact E2|]. rewrite <- app_assoc in H2. exact H2.
Qed.
Definition rm : list string := map fst (filter (fun kn => memb (n_op (snd kn)) ShapeOps) (nodemap g0)).
Lemma rm_In k n : In (k, n) (nodemap g0) -> (In k rm <-> reshaping n).
Proof.
  intros I. unfold rm. rewrite in_map_iff. split.
  - intros ([k' m] & <- & J). apply filter_In in J as [J1 J2]. cbn [fst snd] in *. apply is_reshaping in J2. assert (m = n) as <- by (apply (In_dget _ _ _ _ (co_nd g0 HC)) in J1, I; congruence). exact J2.
  - intros R. exists (k, n). split; [reflexivity|]. apply filter_In. split; [exact I|]. apply is_reshaping. exact R.
Qed.
Lemma inv0 : inv g0 rm [] (fun t => t).
Proof.
  constructor.
  - apply consistent_loose. exact HC.
  - reflexivity.
  - auto.
  - rewrite keep_all by reflexivity. rewrite <- (map_id (nodemap g0)) at 1. apply map_ext. intros [k n]. cbn [fst snd]. rewrite map_id, node_eta. reflexivity.
  - reflexivity.
  - intros t. constructor.
  - intros k n t [].
  - intros k _ [].
  - intros k I. unfold rm in I. apply in_map_iff in I as ([k' n] & <- & I). apply filter_In in I as [I R]. apply is_reshaping in R. cbn [fst snd] in *.
    destruct (HP n (node_in k' n I) R) as (i & o & _ & E & RD). exists n, o. auto.
Qed.
Theorem removed : exists g' s, remove_shape_ops g0 = Ok g' /\
  nodemap g' = map (fun kn => (fst kn, set_in (snd kn) (map s (n_in (snd kn))))) (filter (fun kn => negb (memb (n_op (snd kn)) ShapeOps)) (nodemap g0)) /\
  (forall t, through g0 t (s t)) /\ consistent g' /\
  g_input g' = g_input g0 /\ g_output g' = g_output g0 /\ tensormap g' = tensormap g0 /\ initials g' = initials g0.
Proof.
  destruct (loop rm g0 [] (fun t => t)) as (g1 & s & E & [L Y R NM SD SH SG SP TD]).
  { unfold rm. assert (ND := co_nd g0 HC). unfold dkeys in ND. revert ND. generalize (nodemap g0). intros l. induction l as [|x r IH]; intros ND; [constructor|]. cbn [map] in ND. inversion ND as [|? ? N1 N2]; subst. cbn [filter].
    destruct (memb (n_op (snd x)) ShapeOps); [|auto]. cbn [map]. constructor; [|auto]. intros I. apply N1. apply in_map_iff in I as (y & <- & I). apply filter_In in I. apply in_map. tauto. }
  { exact inv0. }
  cbn [app] in *. exists (update_tensor_relations g1), s. split; [unfold remove_shape_ops; fold rm; rewrite E; reflexivity|].
  assert (NM1 : nodemap g1 = map (fun kn => (fst kn, set_in (snd kn) (map s (n_in (snd kn))))) (filter (fun kn => negb (memb (n_op (snd kn)) ShapeOps)) (nodemap g0))).
  { rewrite NM. f_equal. apply filter_ext_in. intros [k n] I. cbn [fst snd]. f_equal. destruct (memb k rm) eqn:M.
    - apply memb_In in M. apply (rm_In k n I) in M. apply is_reshaping in M. auto.
    - apply memb_nIn in M. destruct (memb (n_op n) ShapeOps) eqn:Z; [|reflexivity]. apply is_reshaping in Z. apply (rm_In k n I) in Z. contradiction. }
  destruct (ucp_spec g1) as (U1 & U2 & U3 & U4 & U5 & U6 & U7 & U8 & U9 & U10).
  assert (NMu : nodemap (update_tensor_relations g1) = nodemap g1) by exact U5.
  split; [rewrite NMu; exact NM1|]. split.
  { intros t. apply hops_through; [apply SH|]. intros n I RS. unfold nodes_of in I. apply in_map_iff in I as ([k m] & <- & I). apply (SG k m t); [apply (rm_In k m I); exact RS|exact I]. }
  split.
  { assert (X : consistent (update_consumer_producer g1)).
    { apply loaded_consistent.
      - apply L.
      - intros k n I. rewrite NM1 in I. apply in_map_iff in I as ([k0 n0] & Q & I). injection Q as <- <-. apply filter_In in I as [I _]. cbn. apply (co_names g0 HC k0 n0 I).
      - split; [apply L|]. rewrite NM1. assert (U := proj2 (co_uniq g0 HC)). revert U. generalize (nodemap g0). intros l. induction l as [|x r IH]; intros U; [constructor|]. cbn [filter]. cbn [flat_map] in U.
        assert (Ur : NoDup (flat_map (fun kn : string * node => n_out (snd kn)) r)). { clear - U. induction (n_out (snd x)) as [|y l IHl]; [exact U|]. inversion U; auto. }
        destruct (negb (memb (n_op (snd x)) ShapeOps)); [|auto]. cbn [map flat_map fst snd set_in n_out]. specialize (IH Ur). clear Ur.
        assert (SUB : forall z, In z (flat_map (fun kn : string * node => n_out (snd kn)) (map (fun kn => (fst kn, set_in (snd kn) (map s (n_in (snd kn))))) (filter (fun kn => negb (memb (n_op (snd kn)) ShapeOps)) r))) -> In z (flat_map (fun kn : string * node => n_out (snd kn)) r)).
        { intros z Z. apply in_flat_map in Z as (y & I & Z). apply in_map_iff in I as (y0 & <- & I). apply filter_In in I. apply in_flat_map. exists y0. split; [tauto|exact Z]. }
        clear - U IH SUB. induction (n_out (snd x)) as [|y l IHl]; [exact IH|]. cbn [app] in *. inversion U as [|? ? N1 N2]; subst. constructor; [|auto]. intros I. apply N1. apply in_app_iff in I. apply in_app_iff. destruct I as [I|I]; [auto|right; apply SUB; exact I]. }
    destruct X as [X1 X2 X3 X4 X5]. constructor; assumption. }
  destruct R as (R1 & R2 & R3 & R4). unfold update_tensor_relations. cbn [g_input g_output tensormap initials]. rewrite U6, U7, U9, U10. auto.
Qed.
End LOOP.
