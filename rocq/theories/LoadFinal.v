(** The graph returned by the constructor, without and with constant folding. *)
From Verif Require Import PyBase PyBaseFacts GraphModel CompressSpec RelSpec RelProofs TopSortSpec OrderProofs
  EditModel EditSpec RemoveProofs IoProofs PartitionModel PartitionSpec PartitionProofs ConstProofs RegressModel LoadModel LoadSpec LoadNames LoadLoop LoadProofs.
Local Open Scope nat_scope.
Local Open Scope list_scope.

Lemma dget_filter A (f : string -> bool) (tm : dict A) t : dget (filter (fun x => f (fst x)) tm) t = if f t then dget tm t else None.
Proof.
  induction tm as [|[k v] r IH]; cbn [filter dget fst]; [destruct (f t); reflexivity|].
  destruct (f k) eqn:F; cbn [dget]; rewrite IH; destruct (String.eqb_spec t k) as [->|N]; rewrite ?F; reflexivity.
Qed.
Lemma sort_in_all {D V} (tm : dict (@ltensor D V)) ts : forall st x,
  (In x (fst (fold_left (sort_in tm) ts st)) <-> In x (fst st) \/ In x ts /\ static_of tm x = true) /\
  (In x (snd (fold_left (sort_in tm) ts st)) <-> In x (snd st) \/ In x ts /\ static_of tm x = false).
Proof.
  induction ts as [|t r IH]; intros st x; cbn [fold_left In]; [tauto|]. destruct (IH (sort_in tm st t) x) as [A B]. rewrite A, B. unfold sort_in.
  destruct (static_of tm t) eqn:S; cbn [fst snd]; rewrite ?add_new_In; split; intuition (subst; try congruence; auto).
Qed.
Lemma sort_all {D V} (tm : dict (@ltensor D V)) ns : forall st x,
  (In x (fst (fold_left (sort_node tm) ns st)) <-> In x (fst st) \/ In x (reads_of ns) /\ static_of tm x = true) /\
  (In x (snd (fold_left (sort_node tm) ns st)) <-> In x (snd st) \/ In x (outs_of ns) \/ In x (reads_of ns) /\ static_of tm x = false).
Proof.
  induction ns as [|n r IH]; intros st x; cbn [fold_left reads_of outs_of flat_map]; [cbn; tauto|]. destruct (IH (sort_node tm st n) x) as [A B]. rewrite A, B.
  unfold sort_node. cbn [fst snd]. rewrite fold_addall_In. destruct (sort_in_all tm (n_in n) st x) as [P Q]. rewrite P, Q. unfold reads_of, outs_of.
  rewrite !in_app_iff. tauto.
Qed.

Section FINAL.
Context {D V : Type}.
Variable info_of : D -> V.
Variable v0 : V.
Variable eval : node -> list (option D) -> nat -> option D.
Variable p : @proto D V.
Variable cfg : config.
Hypothesis HV : valid_file p.
Let ns := named_from (c_rename cfg) 0 (p_nodes p).
Hypothesis HN : NoDup (map n_name ns).
Let g0 := graph0 p cfg.
Let tm0 := load_tensors info_of v0 p (keyed ns).

Definition data_in (t : string) : option D := dget (p_init p) t.
Definition info_in (t : string) : V :=
  match dget (p_init p) t with Some d => info_of d | None => match told p t with Some v => v | None => v0 end end.

(** payloads are untouched when nothing is folded *)
Definition same_payload (tm : dict (@ltensor D V)) : Prop := forall t,
  option_map (fun x => (lt_data x, lt_info x)) (dget tm t) = option_map (fun x => (lt_data x, lt_info x)) (dget tm0 t).
Lemma payload_mark : forall tm k n, same_payload tm -> covers g0 tm -> In (k, n) (nodemap g0) -> is_node_constant (static_of tm) n = true ->
  same_payload (mark_outputs info_of eval false n tm).
Proof.
  intros tm k n H Hc I _ t. assert (ND : NoDup (n_out n)) by (apply (nodes_NoDup p cfg HV k); exact I).
  destruct (in_dec string_dec t (n_out n)) as [O|O].
  - assert (Hk := Hc k n t I O). unfold dhas in Hk. destruct (dget tm t) as [x|] eqn:E; [|discriminate]. apply In_nth_error in O as [i O].
    rewrite (mark_out info_of eval false n tm t i x ND O E). unfold marked_as. cbn [option_map lt_data lt_info]. rewrite <- H, E. reflexivity.
  - rewrite (mark_other info_of eval false n tm t ND O). apply H.
Qed.
Lemma tm0_payload t : option_map (fun x => (lt_data x, lt_info x)) (dget tm0 t) =
  if dhas (p_init p) t || (match told p t with Some _ => true | None => false end) || used p cfg t then Some (data_in t, info_in t) else None.
Proof.
  unfold tm0, ns. rewrite tm0_get by exact HV. unfold data_in, info_in, dhas. destruct (dget (p_init p) t); [reflexivity|]. destruct (told p t); [reflexivity|].
  destruct (used p cfg t); reflexivity.
Qed.
Lemma prod0 t : dhas (producedby g0) t = false <-> ~ made (p_nodes p) t.
Proof.
  unfold g0, graph0. destruct (ucp_spec (raw_graph p cfg)) as (H & _). unfold dhas. rewrite H. unfold raw_graph, nodes_of. cbn [nodemap]. rewrite keyed_nodes.
  rewrite <- made_outs, <- (ns_outs p cfg). assert (N := occurrences_nil n_out (named_from (c_rename cfg) 0 (p_nodes p)) t). unfold outs_of in *.
  destruct (occurrences n_out (named_from (c_rename cfg) 0 (p_nodes p)) t); cbn [none_if_empty]; [tauto|]. split; [discriminate|]. intros X. apply N in X. discriminate.
Qed.
Lemma cons0 t : glist (consumedby g0) t = [] <-> ~ read (p_nodes p) t.
Proof.
  unfold g0, graph0. destruct (ucp_spec (raw_graph p cfg)) as (_ & H & _). unfold glist. rewrite H. unfold raw_graph, nodes_of. cbn [nodemap]. rewrite keyed_nodes.
  rewrite <- read_reads, <- (ns_reads p cfg). assert (N := occurrences_nil n_in (named_from (c_rename cfg) 0 (p_nodes p)) t). unfold reads_of in *.
  destruct (occurrences n_in (named_from (c_rename cfg) 0 (p_nodes p)) t); cbn [none_if_empty]; [tauto|]. split; [discriminate|]. intros X. apply N in X. discriminate.
Qed.
Lemma g0_lists : initials g0 = [] /\ dynamics g0 = [] /\ g_input g0 = [] /\ g_output g0 = if c_keep_outputs cfg then map fst (p_out p) else [].
Proof. unfold g0, graph0. destruct (ucp_spec (raw_graph p cfg)) as (_ & _ & _ & _ & _ & _ & H1 & H2 & H3 & H4). rewrite H1, H2, H3, H4. auto. Qed.

Record described_by (g : graph) (tm : dict (@ltensor D V)) : Prop := {
  db_nodes : nodemap g = keyed ns;
  db_consistent : consistent g;
  db_initials : initials g = map fst (p_init p);
  db_input : forall t, In t (g_input g) <-> read (p_nodes p) t /\ ~ made (p_nodes p) t /\ ~ stored_in p t;
  db_input_order : exists free, (forall t, read (p_nodes p) t -> (free t = true <-> ~ made (p_nodes p) t /\ ~ stored_in p t)) /\
    g_input g = firsts (filter free (reads_of (p_nodes p)));
  db_input_once : NoDup (g_input g);
  db_output : c_keep_outputs cfg = true -> g_output g = map fst (p_out p);
  db_output' : c_keep_outputs cfg = false -> forall t, In t (g_output g) <-> made (p_nodes p) t /\ ~ read (p_nodes p) t;
  db_dynamics : forall t, In t (dynamics g) <-> made (p_nodes p) t \/ read (p_nodes p) t /\ ~ stored_in p t;
  db_dynamics_once : NoDup (dynamics g);
  db_tensors : forall t, dhas tm t = true <-> stored_in p t \/ read (p_nodes p) t \/ made (p_nodes p) t;
  db_payload : forall t x, dget tm t = Some x -> lt_data x = data_in t /\ lt_info x = info_in t;
  db_kind : forall t x, dget tm t = Some x -> read (p_nodes p) t \/ made (p_nodes p) t -> (lt_kind x = STATIC <-> ~ at_runtime p t);
  db_kind_stored : forall t x, dget tm t = Some x -> stored_in p t -> lt_kind x = STATIC
}.

Lemma ns_used t : In t (outs_of ns) \/ In t (reads_of ns) <-> read (p_nodes p) t \/ made (p_nodes p) t.
Proof. unfold ns. rewrite ns_outs, ns_reads, made_outs, read_reads. tauto. Qed.

Theorem loaded_plain : c_fold cfg = false -> exists fuel0, forall fuel, fuel0 <= fuel -> exists g tm,
  load_graph info_of v0 eval fuel cfg p = Some (Ok (g, tm)) /\ described_by g tm.
Proof.
  intros HF. destruct (pass_ok info_of v0 eval p cfg HV HN) as [f0 H]. exists f0. intros fuel L. destruct (H fuel L) as (tm & cst & E & K1 & K2). clear H.
  rewrite load_unfold by assumption. rewrite E. 
  assert (SP : same_payload tm).
  { unfold constant_pass in E. rewrite HF in E.
    destruct (inv_nodes info_of eval false (graph0 p cfg) (graph0_consistent p cfg HV HN) (nodes_NoDup p cfg HV) same_payload payload_mark fuel _ _ _ _ _
      (fun t => eq_refl) (covers0 info_of v0 p cfg HV) E) as [A _]. exact A. }
  destruct g0_lists as (G1 & G2 & G3 & G4). unfold g0 in G1, G2, G3, G4.
  unfold update_nodes_tensors. rewrite HF. unfold drop_constant. rewrite G1, G2, G3, (graph0_nm p cfg). fold ns. cbn [app]. rewrite keyed_nodes.
  set (dyn := fold_left (dyn_node (map fst (p_init p))) ns []).
  set (inp := fold_left (fun acc n => fold_left (scan_in (producedby (graph0 p cfg)) dyn) (n_in n) acc) ns []).
  set (out := if c_keep_outputs cfg then g_output (graph0 p cfg) else _).
  set (gr := mkGraph (keyed ns) [] [] [] (map fst (p_init p)) dyn inp out).
  eexists _, _. split; [reflexivity|].
  destruct (ucp_spec gr) as (_ & _ & _ & _ & U5 & _ & U7 & U8 & U9 & U10).
  assert (DY : forall t, In t dyn <-> made (p_nodes p) t \/ read (p_nodes p) t /\ ~ stored_in p t).
  { intros t. unfold dyn. rewrite dyn_nodes_In. unfold ns. rewrite ns_outs, ns_reads, made_outs, read_reads. unfold stored_in. cbn. tauto. }
  assert (HAS : forall t, memb t (map fst (p_init p) ++ dyn) = true <-> stored_in p t \/ read (p_nodes p) t \/ made (p_nodes p) t).
  { intros t. rewrite memb_In, in_app_iff, DY. unfold stored_in. destruct (in_dec string_dec t (map fst (p_init p))); tauto. }
  assert (PAY : forall t, dget (filter (fun x => memb (fst x) (map fst (p_init p) ++ dyn)) tm) t = if memb t (map fst (p_init p) ++ dyn) then dget tm t else None).
  { intros t. exact (dget_filter _ (fun k => memb k (map fst (p_init p) ++ dyn)) tm t). }
  assert (GET : forall t, memb t (map fst (p_init p) ++ dyn) = true -> exists x, dget tm t = Some x /\ lt_data x = data_in t /\ lt_info x = info_in t).
  { intros t M. specialize (SP t). rewrite tm0_payload in SP.
    assert (X : dhas (p_init p) t || match told p t with Some _ => true | None => false end || used p cfg t = true).
    { apply HAS in M. destruct M as [M|M]; [apply stored_get in M; rewrite M; reflexivity|]. apply orb_true_iff. right. apply used_iff. exact M. }
    rewrite X in SP. destruct (dget tm t) as [x|]; [|discriminate]. cbn in SP. injection SP as S1 S2. eauto. }
  constructor.
  - rewrite U5. reflexivity.
  - apply loaded_consistent.
    + change (NoDup (dkeys (keyed ns))). rewrite keyed_keys. exact HN.
    + intros k n I. cbn [gr nodemap] in I. apply keyed_In in I as [_ ->]. reflexivity.
    + split; cbn [gr nodemap]; [change (NoDup (dkeys (keyed ns))); rewrite keyed_keys; exact HN|].
      replace (flat_map (fun kn => n_out (snd kn)) (keyed ns)) with (outs_of ns).
      * unfold ns. rewrite ns_outs. apply (vf_single _ HV).
      * unfold outs_of, keyed. rewrite !flat_map_concat_map, map_map. reflexivity.
  - rewrite U7. reflexivity.
  - intros t. rewrite U9. cbn [gr g_input]. unfold inp. rewrite scan_in_all. unfold ns at 1. rewrite ns_reads, read_reads. fold g0. rewrite prod0, DY. cbn [In]. tauto.
  - exists (fun t => negb (dhas (producedby (graph0 p cfg)) t) && memb t dyn). split.
    + intros t Rt. rewrite andb_true_iff, negb_true_iff, memb_In, DY. fold g0. rewrite prod0. tauto.
    + rewrite U9. cbn [gr g_input]. unfold inp. rewrite scan_in_firsts. unfold ns. rewrite ns_reads. reflexivity.
  - rewrite U9. cbn [gr g_input]. unfold inp. apply scan_in_NoDup. constructor.
  - intros KO. rewrite U10. cbn [gr g_output]. unfold out. rewrite KO, G4, KO. reflexivity.
  - intros KO t. rewrite U10. cbn [gr g_output]. unfold out. rewrite KO. rewrite scan_out_all. unfold ns at 1. rewrite ns_outs, made_outs. fold g0. rewrite cons0. cbn [In]. tauto.
  - intros t. rewrite U8. apply DY.
  - rewrite U8. cbn [gr dynamics]. apply dyn_nodes_NoDup. constructor.
  - intros t. unfold dhas. rewrite PAY. rewrite <- HAS. destruct (memb t (map fst (p_init p) ++ dyn)) eqn:M; [|tauto]. destruct (GET t M) as (x & -> & _). tauto.
  - intros t x Ex. rewrite PAY in Ex. destruct (memb t (map fst (p_init p) ++ dyn)) eqn:M; [|discriminate]. destruct (GET t M) as (y & Ey & Y1 & Y2).
    rewrite Ey in Ex. injection Ex as <-. auto.
  - intros t x Ex Us. rewrite PAY in Ex. destruct (memb t (map fst (p_init p) ++ dyn)) eqn:M; [|discriminate].
    specialize (K2 t (proj2 (used_iff p cfg t) Us)). unfold static_of in K2. rewrite Ex in K2. destruct (lt_kind x); rewrite <- K2; split; congruence.
  - intros t x Ex St. rewrite PAY in Ex. destruct (memb t (map fst (p_init p) ++ dyn)) eqn:M; [|discriminate].
    assert (MONO : forall u, static_of (load_tensors info_of v0 p (keyed ns)) u = true -> static_of tm u = true).
    { unfold constant_pass in E. 
      destruct (inv_nodes info_of eval (c_fold cfg) (graph0 p cfg) (graph0_consistent p cfg HV HN) (nodes_NoDup p cfg HV)
        (fun tm => forall u, static_of (load_tensors info_of v0 p (keyed ns)) u = true -> static_of tm u = true)
        (fun tm k n X C I _ u S => mark_mono info_of eval (c_fold cfg) (graph0 p cfg) (nodes_NoDup p cfg HV) n k tm I C u (X u S)) fuel _ _ _ _ _
        (fun u S => S) (covers0 info_of v0 p cfg HV) E) as [A _]. exact A. }
    assert (S0 : static_of (load_tensors info_of v0 p (keyed ns)) t = true) by (apply static0_iff; auto).
    specialize (MONO t S0). unfold static_of in MONO. rewrite Ex in MONO. destruct (lt_kind x); [reflexivity|discriminate].
Qed.
End FINAL.
