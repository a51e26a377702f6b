From Verif Require Import PyBase PyBaseFacts GraphModel CompressSpec RelSpec RelProofs TopSortSpec TopSortProofs OrderProofs
  EditModel EditSpec RemoveProofs OrderSpec ShapeModel InferModel InferSpec InferProofs.
Local Open Scope string_scope.
Local Open Scope list_scope.

Section LOOP.
Context {V : Type} (vshape : V -> list Z).
Context (sem : node -> list V -> option (list V)).
Context (srule : node -> list (trec (V := V)) -> sres (list (list Z))) (vrule : node -> list (trec (V := V)) -> sres (list V)).
Notation trec := (trec (V := V)).
Implicit Types (tm : dict trec).

Lemma dhas_dget {A} (d : dict A) k : dhas d k = true <-> exists x, dget d k = Some x.
Proof. unfold dhas. destruct (dget d k); split; intros H; try discriminate; eauto. destruct H; discriminate. Qed.
Lemma dhas_dset {A} (d : dict A) k v x : dhas (dset d k v) x = (String.eqb x k || dhas d x)%bool.
Proof. unfold dhas. rewrite dget_dset. rewrite (String.eqb_sym k x) || idtac. destruct (String.eqb x k); reflexivity. Qed.

Lemma set_values_get (f : string -> V) : forall outs tm, NoDup outs -> (forall o, In o outs -> dhas tm o = true) -> forall t,
  dget (set_values vshape tm outs (map f outs)) t = if memb t outs then Some (update_tensor vshape (f t)) else dget tm t.
Proof.
  induction outs as [|o r IH]; intros tm ND HD t; [reflexivity|]. inversion ND as [|? ? N1 N2]; subst. cbn [map set_values].
  rewrite (HD o (or_introl eq_refl)). rewrite IH; [|exact N2|].
  - cbn [memb]. rewrite dget_dset. destruct (String.eqb_spec t o) as [->|N]; [|reflexivity]. cbn [orb].
    destruct (memb o r) eqn:E; [apply memb_In in E; contradiction|reflexivity].
  - intros x Hx. rewrite dhas_dset, (HD x (or_intror Hx)), orb_true_r. reflexivity.
Qed.
Lemma set_shapes_get (f : string -> list Z) : forall outs tm, NoDup outs -> (forall o, In o outs -> dhas tm o = true) -> forall t,
  dget (set_shapes tm outs (map f outs)) t =
    if memb t outs then option_map (fun r : trec => mkT (f t) (tr_num r)) (dget tm t) else dget tm t.
Proof.
  induction outs as [|o r IH]; intros tm ND HD t; [reflexivity|]. inversion ND as [|? ? N1 N2]; subst. cbn [map set_shapes].
  destruct (proj1 (dhas_dget tm o) (HD o (or_introl eq_refl))) as (x & Ex). rewrite Ex. rewrite IH; [|exact N2|].
  - cbn [memb]. rewrite dget_dset. destruct (String.eqb_spec t o) as [->|N]; [|reflexivity]. cbn [orb]. rewrite Ex.
    destruct (memb o r) eqn:E; [apply memb_In in E; contradiction|reflexivity].
  - intros y Hy. rewrite dhas_dset, (HD y (or_intror Hy)), orb_true_r. reflexivity.
Qed.
Lemma lookup_all_ok tm : forall ts, (forall t, In t ts -> dhas tm t = true) ->
  exists rs, lookup_all tm ts = SOk rs /\ Forall2 (fun t r => dget tm t = Some r) ts rs.
Proof.
  induction ts as [|t r IH]; intros H; [exists []; split; [reflexivity|constructor]|]. cbn [lookup_all].
  destruct (proj1 (dhas_dget tm t) (H t (or_introl eq_refl))) as (x & Ex). rewrite Ex.
  destruct IH as (rs & E & F); [intros u Hu; apply H; right; exact Hu|]. rewrite E. exists (x :: rs). split; [reflexivity|]. constructor; assumption.
Qed.
Lemma update_input_get (truth : string -> V) : forall ins tm, (forall t v, In (t, v) ins -> v = truth t) -> forall t,
  dget (update_input_by_map vshape ins tm) t =
    if memb t (map fst ins) then option_map (fun _ => update_tensor vshape (truth t)) (dget tm t) else dget tm t.
Proof.
  unfold update_input_by_map. induction ins as [|[k v] r IH]; intros tm HI t; [reflexivity|]. cbn [fold_left fst snd map memb].
  rewrite IH; [|intros u w Hu; apply HI; right; exact Hu]. assert (v = truth k) by (apply HI; left; reflexivity). subst v.
  destruct (dhas tm k) eqn:E.
  - rewrite dget_dset. destruct (String.eqb_spec t k) as [->|N]; [|reflexivity]. cbn [orb]. apply dhas_dget in E as (x & E). rewrite E. cbn.
    destruct (memb k (map fst r)); reflexivity.
  - destruct (String.eqb_spec t k) as [->|N]; [|reflexivity]. cbn [orb]. unfold dhas in E. destruct (dget tm k); [discriminate|].
    cbn. destruct (memb k (map fst r)); reflexivity.
Qed.

Section GRAPH.
Variable g : graph.
Variable truth : string -> V.
Variable calc : list string.
Hypothesis HC : consistent g.
Hypothesis HI : forall t, In t (initials g) -> ~ In t (outs_of (nodes_of g)).
Hypothesis HM : forall k, In k calc <-> value_needed g k.
Hypothesis HR : a_run sem (nodes_of g) truth.
Hypothesis HS : forall n, In n (nodes_of g) -> shapes_right vshape sem srule n.
Hypothesis HV : forall n, In n (nodes_of g) -> values_right vshape sem vrule n.

(** what is known of the tensors the remaining nodes [ns] do not produce *)
Definition tensor (t : string) : Prop := In t (reads_of (nodes_of g)) \/ In t (outs_of (nodes_of g)).
Definition known (ns : list node) tm : Prop :=
  (forall t, tensor t -> dhas tm t = true) /\
  forall t r, dget tm t = Some r -> tensor t -> ~ In t (outs_of ns) -> tr_shape r = vshape (truth t) /\ (tensor_needed g t -> tr_num r = Some (truth t)).

Lemma node_name_key n : In n (nodes_of g) -> In (n_name n, n) (nodemap g).
Proof. unfold nodes_of. intros H. apply in_map_iff in H as ([k n'] & E & H). cbn in E. subst n'. rewrite (co_names g HC k n H). exact H. Qed.
Lemma produced_needed n t : In n (nodes_of g) -> In t (n_out n) -> tensor_needed g t -> In (n_name n) calc.
Proof.
  intros Hn Ht Hnd. assert (C : computes g (n_name n) t).
  { split; [|exists n; split; [apply node_name_key, Hn|exact Ht]]. intros Ii. apply (HI t Ii). unfold outs_of. apply in_flat_map. eauto. }
  apply HM. destruct Hnd as [(m & Hm & Hr)|(k & m & Hk & Hm & Hs & Hi)].
  - exact (vn_operand g _ t (n_name m) m (node_name_key m Hm) Hr C).
  - exact (vn_feed g _ t k m Hk Hm Hs Hi C).
Qed.
Lemma step_ok n ns tm : In n (nodes_of g) -> (forall m, In m ns -> In m (nodes_of g)) -> NoDup (outs_of (n :: ns)) ->
  (forall t, In t (n_in n) -> ~ In t (outs_of (n :: ns))) -> known (n :: ns) tm ->
  exists tm', infer_node vshape srule vrule calc tm n = SOk tm' /\ known ns tm' /\ forall t, ~ In t (n_out n) -> dget tm' t = dget tm t.
Proof.
  intros Hn Hns ND Ho [K1 K2].
  assert (Tin : forall t, In t (n_in n) -> tensor t) by (intros t Ht; left; unfold reads_of; apply in_flat_map; eauto).
  assert (Tout : forall t, In t (n_out n) -> tensor t) by (intros t Ht; right; unfold outs_of; apply in_flat_map; eauto).
  destruct (lookup_all_ok tm (n_in n)) as (recs & E1 & F1); [intros t Ht; apply K1, Tin, Ht|].
  destruct (lookup_all_ok tm (n_out n)) as (orecs & E2 & _); [intros t Ht; apply K1, Tout, Ht|].
  unfold infer_node. rewrite E1, E2. cbn [sbind].
  assert (NDo : NoDup (n_out n)) by (unfold outs_of in ND; cbn [flat_map] in ND; apply NoDup_app_inv in ND; tauto).
  assert (Dout : forall o, In o (n_out n) -> dhas tm o = true) by (intros o Hx; apply K1, Tout, Hx).
  assert (Fs : Forall2 (knows_shape vshape) recs (map truth (n_in n))).
  { assert (Q : forall l rs, (forall t, In t l -> In t (n_in n)) -> Forall2 (fun t r => dget tm t = Some r) l rs ->
      Forall2 (knows_shape vshape) rs (map truth l)).
    { intros l rs Hl F. induction F as [|t r l rs Hr F IH]; cbn [map]; constructor.
      - unfold knows_shape. apply (K2 t r Hr); [apply Tin, Hl; left; reflexivity|apply Ho, Hl; left; reflexivity].
      - apply IH. intros u Hu. apply Hl. right. exact Hu. }
    apply Q; auto. }
  assert (Lr : length recs = length (n_in n)) by (clear - F1; induction F1; cbn [length]; congruence).
  destruct (memb (n_name n) calc) eqn:Ec.
  - apply memb_In in Ec. assert (Vn : value_needed g (n_name n)) by (apply HM, Ec).
    rewrite (HV n Hn recs (map truth (n_in n)) (map truth (n_out n)) Lr Fs).
    + eexists. split; [reflexivity|]. split.
      * split.
        -- intros t Ht. unfold dhas. rewrite set_values_get by assumption. destruct (memb t (n_out n)); [reflexivity|]. apply K1, Ht.
        -- intros t r Hr Ht Hnot. rewrite set_values_get in Hr by assumption. destruct (memb t (n_out n)) eqn:Em.
           ++ inversion Hr; subst r. cbn. auto.
           ++ apply memb_nIn in Em. apply (K2 t r Hr Ht). unfold outs_of in *. cbn [flat_map]. rewrite in_app_iff. tauto.
      * intros t Ht. rewrite set_values_get by assumption. apply memb_nIn in Ht. rewrite Ht. reflexivity.
    + intros Hs. assert (Q : forall l rs, (forall t, In t l -> In t (n_in n)) -> Forall2 (fun t r => dget tm t = Some r) l rs ->
        Forall2 knows_value rs (map truth l)).
      { intros l rs Hl F. induction F as [|t r l rs Hr F IH]; cbn [map]; constructor.
        - unfold knows_value. apply (K2 t r Hr); [apply Tin, Hl; left; reflexivity|apply Ho, Hl; left; reflexivity|].
          right. exists (n_name n), n. split; [exact Vn|]. split; [apply node_name_key, Hn|]. split; [exact Hs|apply Hl; left; reflexivity].
        - apply IH. intros u Hu. apply Hl. right. exact Hu. }
      apply Q; auto.
    + apply HR, Hn.
  - apply memb_nIn in Ec. rewrite (HS n Hn recs (map truth (n_in n)) (map truth (n_out n)) Lr Fs).
    + rewrite map_map. eexists. split; [reflexivity|]. split.
      * split.
        -- intros t Ht. unfold dhas. rewrite (set_shapes_get (fun t => vshape (truth t))) by assumption.
           pose proof (K1 t Ht) as Kt. unfold dhas in Kt. destruct (memb t (n_out n)); [|exact Kt]. destruct (dget tm t); [reflexivity|discriminate].
        -- intros t r Hr Ht Hnot. rewrite (set_shapes_get (fun t => vshape (truth t))) in Hr by assumption. destruct (memb t (n_out n)) eqn:Em.
           ++ apply memb_In in Em. destruct (dget tm t); [|discriminate]. inversion Hr; subst r. cbn. split; [reflexivity|].
              intros Hnd. destruct (Ec (produced_needed n t Hn Em Hnd)).
           ++ apply memb_nIn in Em. apply (K2 t r Hr Ht). unfold outs_of in *. cbn [flat_map]. rewrite in_app_iff. tauto.
      * intros t Ht. rewrite (set_shapes_get (fun t => vshape (truth t))) by assumption. apply memb_nIn in Ht. rewrite Ht. reflexivity.
    + intros i r v Hi Hr Hv. rewrite nth_error_map in Hv. destruct (nth_error (n_in n) i) as [t|] eqn:Et; [|discriminate].
      inversion Hv; subst v. assert (It : In t (n_in n)) by (eapply nth_error_In; exact Et).
      assert (Hd : dget tm t = Some r).
      { clear - F1 Et Hr. revert i Et Hr. induction F1 as [|a b l rs Ha F IH]; intros [|i] Et Hr; try discriminate.
        - inversion Et; inversion Hr; subst. exact Ha.
        - exact (IH i Et Hr). }
      apply (K2 t r Hd (Tin t It) (Ho t It)). left. exists n. split; [exact Hn|]. exists i. auto.
    + apply HR, Hn.
Qed.
(** no node reads what it or a later node produces *)
Fixpoint in_order (ns : list node) : Prop :=
  match ns with [] => True | n :: r => (forall t, In t (n_in n) -> ~ In t (outs_of (n :: r))) /\ in_order r end.
Lemma nodes_ok : forall ns tm, (forall m, In m ns -> In m (nodes_of g)) -> NoDup (outs_of ns) -> in_order ns -> known ns tm ->
  exists tm', infer_nodes vshape srule vrule calc ns tm = SOk tm' /\ known [] tm' /\ forall t, ~ In t (outs_of ns) -> dget tm' t = dget tm t.
Proof.
  induction ns as [|n r IH]; intros tm Hin ND HO HK; [exists tm; split; [reflexivity|]; split; [exact HK|auto]|]. destruct HO as [Ho Hr]. cbn [infer_nodes].
  destruct (step_ok n r tm) as (tm1 & E1 & K1 & F1); auto; [apply Hin; left; reflexivity|intros m Hm; apply Hin; right; exact Hm|].
  rewrite E1. cbn [sbind]. destruct (IH tm1) as (tm2 & E2 & K2 & F2); auto.
  - intros m Hm. apply Hin. right. exact Hm.
  - unfold outs_of in *. cbn [flat_map] in ND. apply NoDup_app_inv in ND. tauto.
  - exists tm2. split; [exact E2|]. split; [exact K2|]. intros t Ht. unfold outs_of in Ht. cbn [flat_map] in Ht. rewrite in_app_iff in Ht.
    rewrite F2 by (intros X; apply Ht; right; exact X). apply F1. tauto.
Qed.
Lemma ordered_in ns : respects_deps ns -> ~ In "" (outs_of ns) -> in_order ns.
Proof.
  intros HR' HE. assert (Q : forall a b, ns = a ++ b -> in_order b).
  { intros a b. revert a. induction b as [|n b IH]; intros a E; [exact I|]. cbn [in_order]. split.
    - intros t Ht. destruct (string_dec t "") as [->|Nt].
      + intros X. apply HE. rewrite E. unfold outs_of in *. rewrite flat_map_app, in_app_iff. right. exact X.
      + exact (HR' a n b t E Ht Nt).
    - apply (IH (a ++ [n])). rewrite <- app_assoc. exact E. }
  exact (Q [] ns eq_refl).
Qed.
End GRAPH.

Lemma check_ok (tm : dict trec) : (forall v, Forall (fun d => (0 <= d)%Z) (vshape v)) -> forall (truth : string -> V) names,
  (forall t, In t names -> exists r, dget tm t = Some r /\ tr_shape r = vshape (truth t)) -> check_inputs names tm = SOk true.
Proof.
  intros HP truth. induction names as [|k r IH]; intros H; [reflexivity|]. cbn [check_inputs].
  destruct (H k (or_introl eq_refl)) as (x & E & Es). rewrite E, Es.
  assert (F : forallb (fun d => (0 <=? d)%Z) (vshape (truth k)) = true).
  { apply forallb_forall. intros d Hd. apply Z.leb_le. exact (proj1 (Forall_forall _ _) (HP (truth k)) d Hd). }
  rewrite F. apply IH. intros t Ht. apply H. right. exact Ht.
Qed.
Theorem infer_correct : forall g truth calc ins tm,
  consistent g -> respects_deps (nodes_of g) -> ~ In "" (outs_of (nodes_of g)) ->
  (forall t, In t (initials g) -> ~ In t (outs_of (nodes_of g))) -> (forall t, In t (g_input g) -> ~ In t (outs_of (nodes_of g))) ->
  (forall k, In k calc <-> value_needed g k) -> a_run sem (nodes_of g) truth ->
  (forall n, In n (nodes_of g) -> shapes_right vshape sem srule n) -> (forall n, In n (nodes_of g) -> values_right vshape sem vrule n) ->
  (forall v, Forall (fun d => (0 <= d)%Z) (vshape v)) -> sources_right vshape g truth ins tm ->
  exists tm', graph_shape_infer vshape srule vrule g calc ins tm = SOk tm' /\
    (forall t, In t (reads_of (nodes_of g)) \/ In t (outs_of (nodes_of g)) -> exists r, dget tm' t = Some r /\ tr_shape r = vshape (truth t) /\
      (tensor_needed g t -> tr_num r = Some (truth t))) /\
    (forall t, ~ In t (outs_of (nodes_of g)) -> dget tm' t = dget (update_input_by_map vshape ins tm) t).
Proof.
  intros g truth calc ins tm HC HO HE HI HG HM HR HS HV HP (S1 & S2 & S3). unfold graph_shape_infer.
  set (tm1 := update_input_by_map vshape ins tm).
  assert (G1 : forall t, dget tm1 t = if memb t (map fst ins) then option_map (fun _ => update_tensor vshape (truth t)) (dget tm t) else dget tm t)
    by (apply update_input_get; exact S2).
  assert (Src : forall t r, dget tm1 t = Some r -> ~ In t (outs_of (nodes_of g)) -> In t (reads_of (nodes_of g)) \/ In t (g_input g) ->
    tr_shape r = vshape (truth t) /\ (tensor_needed g t -> tr_num r = Some (truth t))).
  { intros t r Hr Hn Ht. rewrite G1 in Hr. destruct (memb t (map fst ins)) eqn:E.
    - destruct (dget tm t); [|discriminate]. inversion Hr; subst r. cbn. auto.
    - apply memb_nIn in E. exact (S3 t r Hn E Hr Ht). }
  assert (Dom : forall t, In t (reads_of (nodes_of g)) \/ In t (outs_of (nodes_of g)) \/ In t (g_input g) -> exists r, dget tm1 t = Some r).
  { intros t Ht. destruct (S1 t Ht) as (r & Er). rewrite G1, Er. destruct (memb t (map fst ins)); cbn; eauto. }
  rewrite (check_ok tm1 HP truth).
  2:{ intros t Ht. destruct (Dom t ltac:(tauto)) as (r & Er). exists r. split; [exact Er|]. apply (Src t r Er (HG t Ht)). tauto. }
  cbn [sbind].
  destruct (nodes_ok g truth calc HC HI HM HR HS HV (nodes_of g) tm1) as (tm' & E & [K1 K2] & F).
  - auto.
  - pose proof (proj2 (co_uniq g HC)) as U. unfold outs_of, nodes_of. rewrite flat_map_concat_map, map_map, <- flat_map_concat_map. exact U.
  - apply ordered_in; assumption.
  - split.
    + intros t Ht. apply dhas_dget. apply Dom. unfold tensor in Ht. tauto.
    + intros t r Hr Ht Hn. apply (Src t r Hr Hn). unfold tensor in Ht. tauto.
  - exists tm'. split; [exact E|]. split; [|exact F].
    intros t Ht. destruct (proj1 (dhas_dget tm' t) (K1 t Ht)) as (r & Er). exists r. split; [exact Er|]. apply (K2 t r Er Ht). intros [].
Qed.

(** earlier calls only change what nodes compute and what they were given *)
Lemma infer_nodes_frame calc : forall ns tm tm', infer_nodes vshape srule vrule calc ns tm = SOk tm' ->
  (forall t, ~ In t (outs_of ns) -> dget tm' t = dget tm t) /\ forall t, dhas tm t = true -> dhas tm' t = true.
Proof.
  assert (QS : forall outs ss tm, (forall t, ~ In t outs -> dget (set_shapes tm outs ss) t = dget tm t) /\
     forall t, dhas tm t = true -> dhas (set_shapes tm outs ss) t = true).
  { induction outs as [|o r IH]; intros [|s ss] tm; cbn [set_shapes]; auto. destruct (IH ss (match dget tm o with Some x => dset tm o (mkT s (tr_num x)) | None => tm end)) as [A B]. split.
    - intros t Ht. rewrite A by (intros X; apply Ht; right; exact X). destruct (dget tm o); [|reflexivity]. rewrite dget_dset.
      destruct (String.eqb_spec t o) as [->|]; [|reflexivity]. destruct Ht. left. reflexivity.
    - intros t Ht. apply B. destruct (dget tm o); [|exact Ht]. rewrite dhas_dset, Ht, orb_true_r. reflexivity. }
  assert (QV : forall outs ss tm, (forall t, ~ In t outs -> dget (set_values vshape tm outs ss) t = dget tm t) /\
     forall t, dhas tm t = true -> dhas (set_values vshape tm outs ss) t = true).
  { induction outs as [|o r IH]; intros [|s ss] tm; cbn [set_values]; auto. destruct (IH ss (if dhas tm o then dset tm o (update_tensor vshape s) else tm)) as [A B]. split.
    - intros t Ht. rewrite A by (intros X; apply Ht; right; exact X). destruct (dhas tm o); [|reflexivity]. rewrite dget_dset.
      destruct (String.eqb_spec t o) as [->|]; [|reflexivity]. destruct Ht. left. reflexivity.
    - intros t Ht. apply B. destruct (dhas tm o); [|exact Ht]. rewrite dhas_dset, Ht, orb_true_r. reflexivity. }
  induction ns as [|n r IH]; intros tm tm' H; cbn [infer_nodes] in H; [inversion H; subst; auto|].
  destruct (infer_node vshape srule vrule calc tm n) as [tm1|] eqn:E; [|discriminate]. cbn [sbind] in H. apply IH in H as [A B].
  assert (C : (forall t, ~ In t (n_out n) -> dget tm1 t = dget tm t) /\ forall t, dhas tm t = true -> dhas tm1 t = true).
  { unfold infer_node in E. destruct (lookup_all tm (n_in n)); [|discriminate]. destruct (lookup_all tm (n_out n)); [|discriminate]. cbn [sbind] in E.
    destruct (memb (n_name n) calc).
    - destruct (vrule n a) as [vs|]; [|discriminate]. inversion E. apply QV.
    - destruct (srule n a) as [vs|]; [|discriminate]. inversion E. apply QS. }
  destruct C as [C D]. split.
  - intros t Ht. unfold outs_of in Ht. cbn [flat_map] in Ht. rewrite in_app_iff in Ht. rewrite A by (intros X; apply Ht; right; exact X). apply C. tauto.
  - intros t Ht. apply B, D, Ht.
Qed.
Lemma update_frame : forall ins tm, (forall t, ~ In t (map fst ins) -> dget (update_input_by_map vshape ins tm) t = dget tm t) /\
  forall t, dhas tm t = true -> dhas (update_input_by_map vshape ins tm) t = true.
Proof.
  unfold update_input_by_map. induction ins as [|[k v] r IH]; intros tm; [split; auto|]. cbn [fold_left fst snd map].
  destruct (IH (if dhas tm k then dset tm k (update_tensor vshape v) else tm)) as [A B]. split.
  - intros t Ht. rewrite A by (intros X; apply Ht; right; exact X). destruct (dhas tm k); [|reflexivity]. rewrite dget_dset.
    destruct (String.eqb_spec t k) as [->|]; [|reflexivity]. destruct Ht. left. reflexivity.
  - intros t Ht. apply B. destruct (dhas tm k); [|exact Ht]. rewrite dhas_dset, Ht, orb_true_r. reflexivity.
Qed.
Lemma after_frame g calc K tm tm' : after_calls vshape srule vrule g calc K tm tm' ->
  (forall t, ~ In t (outs_of (nodes_of g)) -> ~ In t K -> dget tm' t = dget tm t) /\ forall t, dhas tm t = true -> dhas tm' t = true.
Proof.
  induction 1 as [|tm1 ins tm2 HA [IH1 IH2] HK HE]; [auto|]. unfold graph_shape_infer in HE.
  destruct (check_inputs (g_input g) (update_input_by_map vshape ins tm1)) as [[]|]; try discriminate. cbn [sbind] in HE.
  apply infer_nodes_frame in HE as [A B]. destruct (update_frame ins tm1) as [U1 U2]. split.
  - intros t Ht Hk. rewrite A, U1 by auto. auto.
  - intros t Ht. auto.
Qed.
Theorem infer_again : forall g truth calc ins tm tm1, sources_right vshape g truth ins tm -> after_calls vshape srule vrule g calc (map fst ins) tm tm1 ->
  sources_right vshape g truth ins tm1.
Proof.
  intros g truth calc ins tm tm1 (S1 & S2 & S3) HA. apply after_frame in HA as [A B]. split; [|split; [exact S2|]].
  - intros t Ht. apply dhas_dget, B, dhas_dget, S1, Ht.
  - intros t r Hn Hi Hr Ht. rewrite A in Hr by assumption. exact (S3 t r Hn Hi Hr Ht).
Qed.

(** ---- value inference ---- *)
Definition values_known (g : graph) (truth : string -> V) (ns : list node) tm : Prop :=
  forall t, In t (reads_of (nodes_of g)) \/ In t (outs_of (nodes_of g)) \/ In t (g_output g) -> exists r, dget tm t = Some r /\
    (~ In t (outs_of ns) -> tr_shape r = vshape (truth t) /\ tr_num r = Some (truth t)).
Lemma value_nodes_ok g truth : a_run sem (nodes_of g) truth -> (forall n, In n (nodes_of g) -> values_right vshape sem vrule n) ->
  forall ns tm, (forall m, In m ns -> In m (nodes_of g)) -> NoDup (outs_of ns) -> in_order ns -> values_known g truth ns tm ->
  exists tm', value_nodes vshape vrule ns tm = SOk tm' /\ values_known g truth [] tm'.
Proof.
  intros HR HV. induction ns as [|n r IH]; intros tm Hin ND HO HK; [exists tm; split; [reflexivity|exact HK]|]. destruct HO as [Ho Hr]. cbn [value_nodes].
  assert (Hn : In n (nodes_of g)) by (apply Hin; left; reflexivity).
  assert (Tin : forall t, In t (n_in n) -> In t (reads_of (nodes_of g))) by (intros t Ht; unfold reads_of; apply in_flat_map; eauto).
  assert (Tout : forall t, In t (n_out n) -> In t (outs_of (nodes_of g))) by (intros t Ht; unfold outs_of; apply in_flat_map; eauto).
  assert (D : forall t, In t (n_in n) \/ In t (n_out n) -> dhas tm t = true).
  { intros t Ht. apply dhas_dget. destruct (HK t) as (x & Ex & _); [destruct Ht as [Ht|Ht]; auto|]. eauto. }
  destruct (lookup_all_ok tm (n_in n)) as (recs & E1 & F1); [intros t Ht; apply D; tauto|].
  destruct (lookup_all_ok tm (n_out n)) as (orecs & E2 & _); [intros t Ht; apply D; tauto|].
  rewrite E1, E2. cbn [sbind].
  assert (Q : forall l rs, (forall t, In t l -> In t (n_in n)) -> Forall2 (fun t r => dget tm t = Some r) l rs ->
      Forall2 (knows_shape vshape) rs (map truth l) /\ Forall2 knows_value rs (map truth l)).
  { intros l rs Hl F. induction F as [|t x l rs Hx F IHF]; cbn [map]; [split; constructor|].
    destruct (HK t) as (x' & Ex & Kx); [left; apply Tin, Hl; left; reflexivity|]. assert (x' = x) by congruence. subst x'.
    destruct Kx as [K1 K2]; [apply Ho, Hl; left; reflexivity|]. destruct IHF as [I1 I2]; [intros u Hu; apply Hl; right; exact Hu|].
    split; constructor; assumption. }
  destruct (Q (n_in n) recs (fun t Ht => Ht) F1) as [Q1 Q2].
  assert (Lr : length recs = length (n_in n)) by (clear - F1; induction F1; cbn [length]; congruence).
  rewrite (HV n Hn recs (map truth (n_in n)) (map truth (n_out n)) Lr Q1 (fun _ => Q2) (HR n Hn)). cbn [sbind].
  assert (NDo : NoDup (n_out n)) by (unfold outs_of in ND; cbn [flat_map] in ND; apply NoDup_app_inv in ND; tauto).
  apply IH.
  - intros m Hm. apply Hin. right. exact Hm.
  - unfold outs_of in *. cbn [flat_map] in ND. apply NoDup_app_inv in ND. tauto.
  - exact Hr.
  - intros t Ht. rewrite set_values_get; [|exact NDo|intros o Hx; apply D; tauto]. destruct (memb t (n_out n)) eqn:E.
    + exists (update_tensor vshape (truth t)). split; [reflexivity|]. intros _. split; reflexivity.
    + destruct (HK t Ht) as (x & Ex & Kx). exists x. split; [exact Ex|]. intros Hn'. apply Kx. apply memb_nIn in E. unfold outs_of in *. cbn [flat_map].
      rewrite in_app_iff. tauto.
Qed.
Theorem value_infer_correct : forall g truth ins tm,
  consistent g -> respects_deps (nodes_of g) -> ~ In "" (outs_of (nodes_of g)) ->
  a_run sem (nodes_of g) truth -> (forall n, In n (nodes_of g) -> values_right vshape sem vrule n) ->
  (forall t, In t (reads_of (nodes_of g)) \/ In t (outs_of (nodes_of g)) \/ In t (g_output g) -> exists r, dget tm t = Some r) ->
  (forall t v, In (t, v) ins -> v = truth t) ->
  (forall t r, ~ In t (outs_of (nodes_of g)) -> ~ In t (map fst ins) -> dget tm t = Some r -> In t (reads_of (nodes_of g)) \/ In t (g_output g) ->
    tr_shape r = vshape (truth t) /\ tr_num r = Some (truth t)) ->
  graph_value_infer vshape vrule g ins tm = SOk (map (fun t => Some (truth t)) (g_output g)).
Proof.
  intros g truth ins tm HC HO HE HR HV S1 S2 S3. unfold graph_value_infer. set (tm1 := update_input_by_map vshape ins tm).
  assert (G1 : forall t, dget tm1 t = if memb t (map fst ins) then option_map (fun _ => update_tensor vshape (truth t)) (dget tm t) else dget tm t)
    by (apply update_input_get; exact S2).
  destruct (value_nodes_ok g truth HR HV (nodes_of g) tm1) as (tm2 & E & K).
  - auto.
  - pose proof (proj2 (co_uniq g HC)) as U. unfold outs_of, nodes_of. rewrite flat_map_concat_map, map_map, <- flat_map_concat_map. exact U.
  - apply ordered_in; assumption.
  - intros t Ht. destruct (S1 t Ht) as (x & Ex). rewrite G1, Ex. destruct (memb t (map fst ins)) eqn:Em; cbn [option_map].
    + eexists. split; [reflexivity|]. intros _. split; reflexivity.
    + exists x. split; [reflexivity|]. intros Hn. apply memb_nIn in Em. apply (S3 t x Hn Em Ex). tauto.
  - rewrite E. cbn [sbind]. assert (Q : forall l, (forall t, In t l -> In t (g_output g)) -> output_values tm2 l = SOk (map (fun t => Some (truth t)) l)).
    { induction l as [|t l IH]; intros Hl; [reflexivity|]. cbn [output_values map].
      destruct (K t) as (x & Ex & Kx); [right; right; apply Hl; left; reflexivity|]. rewrite Ex. destruct Kx as [_ Kx]; [intros []|]. rewrite Kx.
      rewrite IH by (intros u Hu; apply Hl; right; exact Hu). reflexivity. }
    apply Q. auto.
Qed.
End LOOP.
