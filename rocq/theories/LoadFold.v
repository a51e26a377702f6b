(** The graph returned by the constructor with constant folding. *)
From Verif Require Import PyBase PyBaseFacts GraphModel CompressSpec RelSpec RelProofs TopSortSpec OrderProofs
  EditModel EditSpec RemoveProofs IoProofs PartitionModel PartitionSpec PartitionProofs ConstProofs RegressModel LoadModel LoadSpec LoadNames LoadLoop LoadProofs LoadFinal.
Local Open Scope nat_scope.
Local Open Scope list_scope.

Section VALUES.
Context {D : Type}.
(** [sem] gives every tensor a value so that each node of [ns] computes its results from its operands and the stored
    tensors have their stored value; the empty name has no value *)
Definition solves (eval : node -> list (option D) -> nat -> option D) (ns : list node) (init : list (string * D)) (sem : string -> option D) : Prop :=
  sem ""%string = None /\ (forall t d, In (t, d) init -> sem t = Some d) /\
  forall n i t, In n ns -> nth_error (n_out n) i = Some t -> sem t = eval n (map sem (n_in n)) i.
End VALUES.

Section DEC.
Context {D V : Type}.
Variable p : @proto D V.
Hypothesis HV : valid_file p.
Lemma NoDup_flat_owner (ns : list node) n m t : NoDup (outs_of ns) -> In n ns -> In m ns -> In t (n_out n) -> In t (n_out m) -> n = m.
Proof.
  induction ns as [|x r IH]; intros ND In1 In2 T1 T2; [destruct In1|]. cbn [outs_of flat_map] in ND. apply NoDup_app_inv in ND as (N1 & N2 & N3).
  destruct In1 as [->|I1], In2 as [->|I2]; auto.
  - exfalso. apply (N3 t T1). apply in_flat_map. eauto.
  - exfalso. apply (N3 t T2). apply in_flat_map. eauto.
Qed.
Lemma at_runtime_dec t : at_runtime p t \/ ~ at_runtime p t.
Proof.
  destruct (vf_acyclic _ HV) as [rk R]. remember (S (rk t)) as N eqn:E. assert (L : rk t < N) by lia. clear E. revert t L.
  induction N as [|N IH]; intros t L; [lia|].
  destruct (in_dec string_dec t (outs_of (p_nodes p))) as [M|M].
  - apply made_outs in M as (n & In1 & T).
    assert (X : (exists u, In u (n_in n) /\ at_runtime p u) \/ ~ exists u, In u (n_in n) /\ at_runtime p u).
    { assert (Y : forall l, incl l (n_in n) -> (exists u, In u l /\ at_runtime p u) \/ ~ exists u, In u l /\ at_runtime p u).
      { induction l as [|u l IHl]; intros HI; [right; intros (u & [] & _)|]. destruct (IHl (fun x I => HI x (or_intror I))) as [(w & W1 & W2)|Y].
        - left. exists w. split; [right; exact W1|exact W2].
        - assert (LU : rk u < N). { assert (Q := R n t u In1 T (HI u (or_introl eq_refl))). lia. }
          destruct (IH u LU) as [A|A]; [left; exists u; split; [left; reflexivity|exact A]|].
          right. intros (w & [<-|W1] & W2); [contradiction|]. apply Y. eauto. }
      apply Y. apply incl_refl. }
    destruct X as [(u & U & A)|X]; [left; exact (ar_made p n t u In1 U A T)|].
    destruct (string_dec (n_op n) "DequantizeLinear") as [Q|Q]; [left; exact (ar_dequant p n t In1 Q T)|].
    right. intros A. inversion A as [? ? ? NM|m ? I2 O T2|m ? u I2 U A2 T2]; subst.
    + apply NM. exists n. auto.
    + assert (n = m) by (eapply NoDup_flat_owner; eauto; apply HV). subst m. contradiction.
    + assert (n = m) by (eapply NoDup_flat_owner; eauto; apply HV). subst m. apply X. eauto.
  - assert (M' : ~ made (p_nodes p) t) by (rewrite <- made_outs; exact M).
    destruct (string_dec t "") as [E|E].
    { right. intros A. inversion A; subst; [congruence| |]; apply M'; eexists; eauto. }
    destruct (in_dec string_dec t (map fst (p_init p))) as [S|S]; [|left; apply ar_free; assumption].
    right. intros A. inversion A; subst; [contradiction| |]; apply M'; eexists; eauto.
Qed.
Lemma runs_dec n : runs p n \/ ~ runs p n.
Proof.
  unfold runs. destruct (string_dec (n_op n) "DequantizeLinear") as [Q|Q]; [left; left; exact Q|].
  induction (n_in n) as [|u l IH]; [right; intros [X|(w & [] & _)]; contradiction|].
  destruct (at_runtime_dec u) as [A|A]; [left; right; exists u; split; [left; reflexivity|exact A]|].
  destruct IH as [[X|(w & W1 & W2)]|X]; [contradiction|left; right; exists w; split; [right; exact W1|exact W2]|].
  right. intros [Y|(w & [<-|W1] & W2)]; [contradiction|contradiction|]. apply X. right. eauto.
Qed.
End DEC.

Section FOLD.
Context {D V : Type}.
Variable info_of : D -> V.
Variable v0 : V.
Variable eval : node -> list (option D) -> nat -> option D.
Variable p : @proto D V.
Variable cfg : config.
Hypothesis HV : valid_file p.
Let ns := named_from (c_rename cfg) 0 (p_nodes p).
Hypothesis HN : NoDup (map n_name ns).
Let g0 := graph0 p cfg.
Let tm0 := load_tensors info_of v0 p (keyed ns).

Record folded_to (g : graph) (tm : dict (@ltensor D V)) : Prop := {
  ft_nodes : exists keep : node -> bool, nodemap g = keyed (filter keep ns) /\ forall n, In n ns -> (keep n = true <-> runs p n);
  ft_consistent : consistent g;
  ft_initials : forall t, In t (initials g) <-> read (nodes_of g) t /\ ~ at_runtime p t;
  ft_dynamics : forall t, In t (dynamics g) <-> made (nodes_of g) t \/ read (nodes_of g) t /\ at_runtime p t;
  ft_input : forall t, In t (g_input g) <-> read (p_nodes p) t /\ ~ made (p_nodes p) t /\ ~ stored_in p t /\ t <> ""%string;
  ft_input_once : NoDup (g_input g);
  ft_output : c_keep_outputs cfg = true -> g_output g = map fst (p_out p);
  ft_tensors : forall t, read (nodes_of g) t \/ made (nodes_of g) t -> dhas tm t = true;
  ft_only : forall t, dhas tm t = true -> read (nodes_of g) t \/ made (nodes_of g) t;
  ft_values : forall sem, solves eval ns (p_init p) sem -> forall t, In t (initials g) -> data_of tm t = sem t
}.

Section SEM.
Variable sem : string -> option D.
Hypothesis HS : solves eval ns (p_init p) sem.
Definition valued (tm : dict (@ltensor D V)) : Prop := forall t, static_of tm t = true -> data_of tm t = sem t.
Lemma valued0 : valued tm0.
Proof.
  intros t S. assert (S' := S). unfold tm0, ns in S'. apply static0_iff in S'; [|exact HV]. unfold data_of, tm0, ns. rewrite tm0_get by exact HV.
  destruct HS as (H1 & H2 & H3). destruct S' as [S'|[-> _]].
  - apply stored_get in S'. unfold dhas in S'. destruct (dget (p_init p) t) as [d|] eqn:E; [|discriminate]. cbn. symmetry. apply H2. apply dget_In. exact E.
  - assert (E : dget (p_init p) ""%string = None).
    { apply dget_None. intros I. apply (vf_decl_named _ HV). unfold declared. apply in_app_iff. left. exact I. }
    rewrite E, (told_named p HV). rewrite H1. destruct (used p cfg ""); reflexivity.
Qed.
Lemma valued_mark : forall tm k n, valued tm -> covers g0 tm -> In (k, n) (nodemap g0) -> is_node_constant (static_of tm) n = true ->
  valued (mark_outputs info_of eval true n tm).
Proof.
  intros tm k n H Hc I K t S. assert (ND : NoDup (n_out n)) by (apply (nodes_NoDup p cfg HV k); exact I).
  apply is_constant_iff in K as [_ K].
  assert (A : map (data_of tm) (n_in n) = map sem (n_in n)).
  { apply map_ext_in. intros u U. apply H. apply K. exact U. }
  destruct (in_dec string_dec t (n_out n)) as [O|O].
  - assert (Hk := Hc k n t I O). unfold dhas in Hk. destruct (dget tm t) as [x|] eqn:E; [|discriminate]. apply In_nth_error in O as [i O].
    unfold data_of. rewrite (mark_out info_of eval true n tm t i x ND O E). unfold marked_as. rewrite A.
    destruct HS as (_ & _ & H3). rewrite (H3 n i t); [|unfold g0 in I; rewrite graph0_nm in I; apply keyed_In in I; apply I|exact O].
    destruct (eval n (map sem (n_in n)) i); reflexivity.
  - unfold data_of. unfold static_of in S. rewrite (mark_other info_of eval true n tm t ND O) in *. apply H. exact S.
Qed.
End SEM.

Theorem loaded_folded : c_fold cfg = true -> exists fuel0, forall fuel, fuel0 <= fuel -> exists g tm,
  load_graph info_of v0 eval fuel cfg p = Some (Ok (g, tm)) /\ folded_to g tm.
Proof.
  intros HF. destruct (pass_ok info_of v0 eval p cfg HV HN) as [f0 H]. exists f0. intros fuel L. destruct (H fuel L) as (tm & cst & E & K1 & K2). clear H.
  rewrite load_unfold by assumption. rewrite E.
  destruct (g0_lists p cfg) as (G1 & G2 & G3 & G4).
  unfold update_nodes_tensors. rewrite HF. unfold drop_constant. rewrite G1, G2, (graph0_nm p cfg). fold ns.
  set (keep := fun n => match dget cst (n_name n) with Some true => false | _ => true end).
  assert (KF : filter (fun kn => match dget cst (fst kn) with Some true => false | _ => true end) (keyed ns) = keyed (filter keep ns)).
  { unfold keyed, keep. clear. induction ns as [|n r IH]; [reflexivity|]. cbn [map filter fst]. rewrite IH. destruct (dget cst (n_name n)) as [[|]|]; reflexivity. }
  rewrite KF, keyed_nodes. set (ks := filter keep ns). set (st := fold_left (sort_node tm) ks ([], [])). destruct st as [ini dyn] eqn:ST.
  assert (KR : forall n, In n ns -> (keep n = true <-> runs p n)).
  { intros n I. specialize (K1 n I). unfold keep. destruct (runs_dec p HV n) as [R|R]; [|split; [|contradiction]; apply K1 in R; rewrite R; discriminate].
    split; [intros _; exact R|]. intros _. destruct (dget cst (n_name n)) as [[|]|]; auto. exfalso. apply (proj1 K1 eq_refl). exact R. }
  assert (KI : forall n, In n ks <-> In n ns /\ runs p n).
  { intros n. unfold ks. rewrite filter_In. split; intros [A B]; (split; [exact A|]); apply KR; auto. }
  assert (US : forall t, In t (reads_of ks) -> used p cfg t = true).
  { intros t I. apply read_reads in I as (n & N & T). apply KI in N as [N _]. unfold used. apply orb_true_iff. left. apply memb_In, read_reads. exists n. auto. }
  assert (SI := sort_all tm ks ([], [])). fold st in SI. rewrite ST in SI. cbn [fst snd In] in SI.
  assert (INI : forall t, In t ini <-> read ks t /\ ~ at_runtime p t).
  { intros t. rewrite (proj1 (SI t)), <- read_reads. split.
    - intros [[]|[A B]]. split; [exact A|]. apply K2; [apply US; exact A|exact B].
    - intros [A B]. right. split; [exact A|]. apply K2; [apply US; exact A|exact B]. }
  assert (DYN : forall t, In t dyn <-> made ks t \/ read ks t /\ at_runtime p t).
  { intros t. rewrite (proj2 (SI t)), <- read_reads, <- made_outs. split.
    - intros [[]|[A|[A B]]]; [left; exact A|right; split; [exact A|]]. destruct (at_runtime_dec p HV t) as [R|R]; [exact R|]. apply K2 in R; [congruence|apply US; exact A].
    - intros [A|[A B]]; [right; left; exact A|right; right; split; [exact A|]]. destruct (static_of tm t) eqn:S; [|reflexivity]. apply K2 in S; [contradiction|apply US; exact A]. }
  set (inp := fold_left (fun acc n => fold_left (scan_in (producedby (graph0 p cfg)) dyn) (n_in n) acc) ks []).
  set (out := if c_keep_outputs cfg then g_output (graph0 p cfg) else _).
  set (gr := mkGraph (keyed ks) [] [] [] ini dyn inp out).
  eexists _, _. split; [reflexivity|].
  destruct (ucp_spec gr) as (_ & _ & _ & _ & U5 & _ & U7 & U8 & U9 & U10).
  assert (NO : nodes_of (update_consumer_producer gr) = ks) by (unfold nodes_of; rewrite U5; apply keyed_nodes).
  assert (HAS : forall t, memb t (ini ++ dyn) = true <-> read ks t \/ made ks t).
  { intros t. rewrite memb_In, in_app_iff, INI, DYN. destruct (at_runtime_dec p HV t); tauto. }
  assert (COV : forall t, used p cfg t = true -> dhas tm t = true).
  { intros t U. assert (SK : dkeys tm = dkeys tm0).
    { unfold constant_pass in E.
      destruct (inv_nodes info_of eval (c_fold cfg) (graph0 p cfg) (graph0_consistent p cfg HV HN) (nodes_NoDup p cfg HV) (fun tm => dkeys tm = dkeys tm0)
        (fun tm k n X C I _ => eq_trans (mark_keys info_of eval (c_fold cfg) n tm) X) fuel _ _ _ _ _ eq_refl (covers0 info_of v0 p cfg HV) E) as [A _]. exact A. }
    unfold dhas. destruct (dget tm t) eqn:T; [reflexivity|]. apply dget_None in T. rewrite SK in T. apply dget_None in T. unfold tm0, ns in T. rewrite tm0_get in T by exact HV.
    rewrite U in T. destruct (dget (p_init p) t); [discriminate|]. destruct (told p t); discriminate. }
  assert (PAY : forall t, dget (filter (fun x => memb (fst x) (ini ++ dyn)) tm) t = if memb t (ini ++ dyn) then dget tm t else None).
  { intros t. exact (dget_filter _ (fun k => memb k (ini ++ dyn)) tm t). }
  assert (NDK : NoDup (dkeys (keyed ks))).
  { rewrite keyed_keys. unfold ks. clear -HN. induction ns as [|n r IH]; [constructor|]. cbn [map] in HN. inversion HN; subst. cbn [filter].
    destruct (keep n); [|apply IH; assumption]. cbn [map]. constructor; [|apply IH; assumption]. intros I. apply in_map_iff in I as (m & E & M). apply filter_In in M as [M _].
    match goal with H : ~ In _ _ |- _ => apply H end. rewrite <- E. apply in_map. exact M. }
  constructor.
  - exists keep. split; [rewrite U5; reflexivity|exact KR].
  - apply loaded_consistent.
    + exact NDK.
    + intros k n I. cbn [gr nodemap] in I. unfold keyed in I. apply in_map_iff in I as (m & X & _). injection X as <- <-. reflexivity.
    + split; [exact NDK|]. cbn [gr nodemap].
      replace (flat_map (fun kn => n_out (snd kn)) (keyed ks)) with (outs_of ks) by (unfold outs_of, keyed; rewrite !flat_map_concat_map, map_map; reflexivity).
      assert (Q := vf_single _ HV). rewrite <- (ns_outs p cfg) in Q. fold ns in Q. unfold ks. clear -Q. unfold outs_of in *. induction ns as [|n r IH]; [constructor|].
      cbn [flat_map filter] in *. apply NoDup_app_inv in Q as (Q1 & Q2 & Q3). destruct (keep n); [|auto]. cbn [flat_map]. apply NoDup_app_intro; auto.
      intros x X Y. apply (Q3 x X). apply in_flat_map in Y as (m & M & T). apply filter_In in M as [M _]. apply in_flat_map. eauto.
  - intros t. rewrite U7, NO. apply INI.
  - intros t. rewrite U8, NO. apply DYN.
  - intros t. rewrite U9. cbn [gr g_input]. unfold inp. rewrite scan_in_all. rewrite prod0, DYN. cbn [In]. rewrite read_reads. split.
    + intros [[]|(R & M & X)]. destruct R as (n & N & T). apply KI in N as [N RN]. destruct (wiring_In _ _ _ (ns_wiring p cfg) N) as (m & Mi & E0 & E1 & E2).
      split; [exists m; rewrite E1; auto|]. split; [exact M|].
      assert (A : at_runtime p t).
      { destruct X as [(n' & N' & T')|[_ X]]; [|exact X]. exfalso. apply M. apply KI in N' as [N' _]. destruct (wiring_In _ _ _ (ns_wiring p cfg) N') as (m' & Mi' & _ & _ & F2).
        exists m'. rewrite F2. auto. }
      inversion A; subst; [auto| |]; exfalso; apply M; eexists; eauto.
    + intros (R & M & S & T). assert (A : at_runtime p t) by (apply ar_free; assumption). right.
      assert (R' : read ks t).
      { destruct R as (m & Mi & Tm). destruct (wiring_In _ _ _ (eq_sym (ns_wiring p cfg)) Mi) as (n & N & E0 & E1 & E2). exists n. rewrite E1. split; [|exact Tm].
        apply KI. split; [exact N|]. right. exists t. rewrite E1. auto. }
      auto.
  - rewrite U9. cbn [gr g_input]. unfold inp. apply scan_in_NoDup. constructor.
  - intros KO. rewrite U10. cbn [gr g_output]. unfold out. rewrite KO, G4, KO. reflexivity.
  - intros t H. rewrite NO in H. unfold dhas. rewrite PAY. rewrite (proj2 (HAS t) H).
    assert (X : dhas tm t = true); [|exact X]. apply COV. apply used_iff.
    destruct H as [(n & N & T)|(n & N & T)]; apply KI in N as [N _]; destruct (wiring_In _ _ _ (ns_wiring p cfg) N) as (m & Mi & E0 & E1 & E2);
      [left; exists m; rewrite E1; auto|right; exists m; rewrite E2; auto].
  - intros t H. rewrite NO. apply HAS. unfold dhas in H. rewrite PAY in H. destruct (memb t (ini ++ dyn)); [reflexivity|discriminate].
  - intros sem HS t H. rewrite U7 in H. cbn [gr initials] in H. assert (VT : valued sem tm).
    { unfold constant_pass in E. rewrite HF in E.
      destruct (inv_nodes info_of eval true (graph0 p cfg) (graph0_consistent p cfg HV HN) (nodes_NoDup p cfg HV) (valued sem) (valued_mark sem HS) fuel _ _ _ _ _
        (valued0 sem HS) (covers0 info_of v0 p cfg HV) E) as [A _]. exact A. }
    assert (MI : memb t (ini ++ dyn) = true) by (apply memb_In, in_app_iff; left; exact H).
    unfold data_of. rewrite PAY, MI. apply VT. apply INI in H as [R A]. apply K2; [|exact A]. apply US. apply read_reads. exact R.
Qed.
End FOLD.

(** same inputs, same results *)
Section SAME.
Context {D V : Type}.
Variable eval : node -> list (option D) -> nat -> option D.
Variable info_of : D -> V.
Variable p : @proto D V.
Variable cfg : config.
Hypothesis HV : valid_file p.
Let ns := named_from (c_rename cfg) 0 (p_nodes p).
Lemma folded_same g tm : folded_to eval p cfg g tm -> forall sem sem',
  solves eval ns (p_init p) sem ->
  (forall n i t, In n (nodes_of g) -> nth_error (n_out n) i = Some t -> sem' t = eval n (map sem' (n_in n)) i) ->
  (forall t, In t (initials g) -> sem' t = data_of tm t) ->
  (forall t, In t (g_input g) -> sem' t = sem t) ->
  forall t, read (nodes_of g) t \/ made (nodes_of g) t -> sem' t = sem t.
Proof.
  intros [F1 F2 F3 F4 F5 F6 F7 F8 F9 F10] sem sem' HS HE HI HG.
  destruct F1 as (keep & KE & KR). assert (NO : nodes_of g = filter keep ns) by (unfold nodes_of; rewrite KE; apply keyed_nodes).
  destruct (vf_acyclic _ HV) as [rk R].
  assert (R' : forall n t u, In n ns -> In t (n_out n) -> In u (n_in n) -> rk u < rk t).
  { intros n t u I A B. destruct (wiring_In _ _ _ (ns_wiring p cfg) I) as (m & M & _ & E1 & E2). rewrite <- E1 in B. rewrite <- E2 in A. eauto. }
  intros t. remember (S (rk t)) as N eqn:E. assert (L : rk t < N) by lia. clear E. revert t L.
  induction N as [|N IH]; intros t L; [lia|]. intros H.
  assert (MK : made (nodes_of g) t -> sem' t = sem t).
  { intros (n & I & T). assert (I' := I). rewrite NO in I'. apply filter_In in I' as [I' _]. apply In_nth_error in T as [i T].
    rewrite (HE n i t I T). destruct HS as (_ & _ & HS). rewrite (HS n i t I' T). f_equal. apply map_ext_in. intros u U. apply IH.
    - specialize (R' n t u I' (nth_error_In _ _ T) U). lia.
    - left. exists n. auto. }
  destruct H as [Rd|M]; [|auto].
  destruct (at_runtime_dec p HV t) as [A|A].
  - destruct (in_dec string_dec t (outs_of ns)) as [M|M].
    + apply MK. apply made_outs in M as (n & I & T). exists n. split; [|exact T]. rewrite NO. apply filter_In. split; [exact I|]. apply KR; [exact I|].
      destruct (wiring_In _ _ _ (ns_wiring p cfg) I) as (m & Mi & E0 & E1 & E2).
      inversion A as [? ? ? NM|m' ? I2 O T2|m' ? u I2 U A2 T2]; subst.
      * exfalso. apply NM. exists m. rewrite E2. auto.
      * assert (m = m') by (eapply (NoDup_flat_owner (p_nodes p)); eauto; [apply HV|rewrite E2; exact T]). subst m'. left. congruence.
      * assert (m = m') by (eapply (NoDup_flat_owner (p_nodes p)); eauto; [apply HV|rewrite E2; exact T]). subst m'. right. exists u. rewrite <- E1. auto.
    + apply HG. apply F5. unfold ns in M. rewrite ns_outs, made_outs in M. split.
      * destruct Rd as (n & I & T). rewrite NO in I. apply filter_In in I as [I _]. destruct (wiring_In _ _ _ (ns_wiring p cfg) I) as (m & Mi & E0 & E1 & E2). exists m. rewrite E1. auto.
      * split; [exact M|]. inversion A; subst; [auto| |]; exfalso; apply M; eexists; eauto.
  - assert (J : In t (initials g)) by (apply F3; auto). rewrite (HI t J). apply (F10 sem HS t J).
Qed.
End SAME.
