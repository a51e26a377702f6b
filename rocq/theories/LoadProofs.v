(** The loaded graph: nodes, relations, kinds, inputs. *)
From Verif Require Import PyBase PyBaseFacts GraphModel CompressSpec RelSpec RelProofs TopSortSpec OrderProofs
  EditModel EditSpec RemoveProofs IoProofs PartitionModel PartitionSpec PartitionProofs ConstProofs RegressModel LoadModel LoadSpec LoadNames LoadLoop.
Local Open Scope nat_scope.
Local Open Scope list_scope.

(** ---- accumulating lists ---- *)
Lemma add_new_In l t x : In x (add_new l t) <-> In x l \/ x = t.
Proof.
  unfold add_new. destruct (memb t l) eqn:M.
  - apply memb_In in M. split; [auto|]. intros [H| ->]; assumption.
  - rewrite in_app_iff. cbn. split; intros [H|H]; auto. destruct H as [ -> |[]]. auto.
Qed.
Lemma add_new_NoDup l t : NoDup l -> NoDup (add_new l t).
Proof. intros H. unfold add_new. destruct (memb t l) eqn:M; [exact H|]. apply memb_nIn in M. apply NoDup_snoc; assumption. Qed.
Lemma fold_add_In (c : string -> bool) ts : forall l x, In x (fold_left (fun l t => if c t then add_new l t else l) ts l) <-> In x l \/ In x ts /\ c x = true.
Proof.
  induction ts as [|t r IH]; intros l x; cbn [fold_left In]; [tauto|]. rewrite IH. destruct (c t) eqn:C.
  - rewrite add_new_In. split; [intros [[H| ->]|[H1 H2]]; auto|intros [H|[[ -> |H] H2]]; auto].
  - split; [intros [H|[H1 H2]]; auto|intros [H|[[ -> |H] H2]]; auto]. congruence.
Qed.
Lemma fold_add_NoDup (c : string -> bool) ts : forall l, NoDup l -> NoDup (fold_left (fun l t => if c t then add_new l t else l) ts l).
Proof. induction ts as [|t r IH]; intros l H; cbn [fold_left]; [exact H|]. apply IH. destruct (c t); [apply add_new_NoDup|]; exact H. Qed.
Lemma fold_left_ext A B (f h : A -> B -> A) l : (forall a b, f a b = h a b) -> forall a, fold_left f l a = fold_left h l a.
Proof. intros H. induction l as [|x r IH]; intros a; cbn [fold_left]; [reflexivity|]. rewrite H. apply IH. Qed.
Lemma fold_addall_In ts : forall l x, In x (fold_left add_new ts l) <-> In x l \/ In x ts.
Proof.
  intros l x. assert (H := fold_add_In (fun _ => true) ts l x). cbn beta iota in H. change (fun l0 t => add_new l0 t) with add_new in H. rewrite H. tauto.
Qed.
Lemma fold_addall_NoDup ts : forall l, NoDup l -> NoDup (fold_left add_new ts l).
Proof. intros l. exact (fold_add_NoDup (fun _ => true) ts l). Qed.

Lemma scan_in_all prod dyn ns : forall acc x,
  In x (fold_left (fun acc n => fold_left (scan_in prod dyn) (n_in n) acc) ns acc) <-> In x acc \/ In x (reads_of ns) /\ dhas prod x = false /\ In x dyn.
Proof.
  induction ns as [|n r IH]; intros acc x; cbn [fold_left reads_of flat_map]; [cbn; tauto|]. rewrite IH.
  rewrite (fold_left_ext _ _ (scan_in prod dyn) (fun l t => if negb (dhas prod t) && memb t dyn then add_new l t else l)) by reflexivity.
  rewrite fold_add_In, in_app_iff, andb_true_iff, negb_true_iff, memb_In. unfold reads_of. tauto.
Qed.
(** first occurrences, in order *)
Definition firsts (l : list string) : list string := fold_left add_new l [].
Lemma fold_cond_filter (c : string -> bool) ts : forall l, fold_left (fun l t => if c t then add_new l t else l) ts l = fold_left add_new (filter c ts) l.
Proof. induction ts as [|t r IH]; intros l; cbn [fold_left filter]; [reflexivity|]. rewrite IH. destruct (c t); reflexivity. Qed.
Lemma scan_in_firsts prod dyn ns : forall acc,
  fold_left (fun acc n => fold_left (scan_in prod dyn) (n_in n) acc) ns acc = fold_left add_new (filter (fun t => negb (dhas prod t) && memb t dyn) (reads_of ns)) acc.
Proof.
  induction ns as [|n r IH]; intros acc; cbn [fold_left reads_of flat_map]; [reflexivity|]. rewrite IH, filter_app, fold_left_app. f_equal.
  exact (fold_cond_filter (fun t => negb (dhas prod t) && memb t dyn) (n_in n) acc).
Qed.
Lemma scan_in_NoDup prod dyn ns : forall acc, NoDup acc -> NoDup (fold_left (fun acc n => fold_left (scan_in prod dyn) (n_in n) acc) ns acc).
Proof.
  induction ns as [|n r IH]; intros acc H; cbn [fold_left]; [exact H|]. apply IH.
  rewrite (fold_left_ext _ _ (scan_in prod dyn) (fun l t => if negb (dhas prod t) && memb t dyn then add_new l t else l)) by reflexivity.
  apply fold_add_NoDup. exact H.
Qed.
Lemma scan_out_all cns ns : forall acc x,
  In x (fold_left (fun acc n => fold_left (scan_out cns) (n_out n) acc) ns acc) <-> In x acc \/ In x (outs_of ns) /\ glist cns x = [].
Proof.
  induction ns as [|n r IH]; intros acc x; cbn [fold_left outs_of flat_map]; [cbn; tauto|]. rewrite IH.
  rewrite (fold_left_ext _ _ (scan_out cns) (fun l t => if (fun t => match glist cns t with [] => true | _ => false end) t then add_new l t else l)).
  - rewrite fold_add_In, in_app_iff. unfold outs_of. destruct (glist cns x); intuition; discriminate.
  - intros a b. unfold scan_out, glist. destruct (dget cns b) as [[|y l]|]; reflexivity.
Qed.
Lemma dyn_nodes_In ini ns : forall dyn x, In x (fold_left (dyn_node ini) ns dyn) <-> In x dyn \/ In x (outs_of ns) \/ In x (reads_of ns) /\ ~ In x ini.
Proof.
  induction ns as [|n r IH]; intros dyn x; cbn [fold_left outs_of reads_of flat_map]; [cbn; tauto|]. rewrite IH. unfold dyn_node.
  rewrite fold_addall_In.
  rewrite (fold_left_ext _ _ (fun dyn t => if memb t ini then dyn else add_new dyn t) (fun l t => if negb (memb t ini) then add_new l t else l)) by (intros a b; destruct (memb b ini); reflexivity).
  rewrite fold_add_In, !in_app_iff, negb_true_iff, memb_nIn. unfold outs_of, reads_of. tauto.
Qed.
Lemma dyn_nodes_NoDup ini ns : forall dyn, NoDup dyn -> NoDup (fold_left (dyn_node ini) ns dyn).
Proof.
  induction ns as [|n r IH]; intros dyn H; cbn [fold_left]; [exact H|]. apply IH. unfold dyn_node. apply fold_addall_NoDup.
  rewrite (fold_left_ext _ _ (fun dyn t => if memb t ini then dyn else add_new dyn t) (fun l t => if negb (memb t ini) then add_new l t else l)) by (intros a b; destruct (memb b ini); reflexivity).
  apply fold_add_NoDup. exact H.
Qed.

Lemma made_outs ns t : In t (outs_of ns) <-> made ns t.
Proof. unfold outs_of, made. rewrite in_flat_map. tauto. Qed.
Lemma read_reads ns t : In t (reads_of ns) <-> read ns t.
Proof. unfold reads_of, read. rewrite in_flat_map. tauto. Qed.
Lemma wiring_outs ns ns' : map wiring ns = map wiring ns' -> outs_of ns = outs_of ns'.
Proof.
  intros E. unfold outs_of. assert (Q := f_equal (flat_map (fun w : string * list string * list string => snd w)) E). rewrite !flat_map_concat_map, !map_map in Q.
  rewrite !flat_map_concat_map. exact Q.
Qed.
Lemma wiring_reads ns ns' : map wiring ns = map wiring ns' -> reads_of ns = reads_of ns'.
Proof.
  intros E. unfold reads_of. assert (Q := f_equal (flat_map (fun w : string * list string * list string => snd (fst w))) E). rewrite !flat_map_concat_map, !map_map in Q.
  rewrite !flat_map_concat_map. exact Q.
Qed.
Lemma wiring_In ns ns' n : map wiring ns = map wiring ns' -> In n ns -> exists m, In m ns' /\ n_op m = n_op n /\ n_in m = n_in n /\ n_out m = n_out n.
Proof.
  intros E I. apply (in_map wiring) in I. rewrite E in I. apply in_map_iff in I as (m & W & M). exists m. split; [exact M|]. unfold wiring in W. injection W. auto.
Qed.

Section LOADED.
Context {D V : Type}.
Variable info_of : D -> V.
Variable v0 : V.
Variable eval : node -> list (option D) -> nat -> option D.
Variable p : @proto D V.
Variable cfg : config.
Hypothesis HV : valid_file p.
Let ns := named_from (c_rename cfg) 0 (p_nodes p).
Hypothesis HN : NoDup (map n_name ns).

Lemma ns_wiring : map wiring ns = map wiring (p_nodes p). Proof. apply named_wiring. Qed.
Lemma ns_outs : outs_of ns = outs_of (p_nodes p). Proof. apply wiring_outs, ns_wiring. Qed.
Lemma ns_reads : reads_of ns = reads_of (p_nodes p). Proof. apply wiring_reads, ns_wiring. Qed.
Definition raw_graph : graph := mkGraph (keyed ns) [] [] [] [] [] [] (if c_keep_outputs cfg then map fst (p_out p) else []).
Definition graph0 : graph := update_consumer_producer raw_graph.
Lemma graph0_nm : nodemap graph0 = keyed ns.
Proof. unfold graph0, update_consumer_producer. destruct (fold_left upd_node (nodes_of raw_graph) ([], [])). reflexivity. Qed.
Lemma graph0_nodes : nodes_of graph0 = ns.
Proof. unfold nodes_of. rewrite graph0_nm. apply keyed_nodes. Qed.
Lemma keyed_In k n : In (k, n) (keyed ns) <-> In n ns /\ k = n_name n.
Proof. unfold keyed. rewrite in_map_iff. split; [intros (m & E & I); injection E as <- <-; auto|intros (I & ->); eauto]. Qed.
Lemma graph0_consistent : consistent graph0.
Proof.
  apply loaded_consistent.
  - cbn [raw_graph nodemap]. change (NoDup (dkeys (keyed ns))). rewrite keyed_keys. exact HN.
  - intros k n I. cbn [raw_graph nodemap] in I. apply keyed_In in I as [_ ->]. reflexivity.
  - split; cbn [raw_graph nodemap]; [change (NoDup (dkeys (keyed ns))); rewrite keyed_keys; exact HN|].
    replace (flat_map (fun kn => n_out (snd kn)) (keyed ns)) with (outs_of ns).
    + rewrite ns_outs. apply (vf_single _ HV).
    + unfold outs_of, keyed. rewrite !flat_map_concat_map, map_map. reflexivity.
Qed.
Lemma graph0_acyclic : acyclic (nodemap graph0).
Proof.
  rewrite graph0_nm. destruct (vf_acyclic _ HV) as [rk R].
  assert (R' : forall n t u, In n ns -> In t (n_out n) -> In u (n_in n) -> rk u < rk t).
  { intros n t u I A B. destruct (wiring_In _ _ _ ns_wiring I) as (m & M & _ & E1 & E2). rewrite <- E1 in B. rewrite <- E2 in A. eauto. }
  exists (fun k => match dget (keyed ns) k with Some n => fold_right (fun u a => Nat.max (S (rk u)) a) 0 (n_in n) | None => 0 end).
  assert (UB : forall l b, (forall u, In u l -> S (rk u) <= b) -> fold_right (fun u a => Nat.max (S (rk u)) a) 0 l <= b).
  { induction l as [|x l IH]; intros b H; cbn [fold_right]; [lia|]. assert (H1 := H x (or_introl eq_refl)). specialize (IH b (fun u I => H u (or_intror I))). lia. }
  assert (LB : forall l u, In u l -> S (rk u) <= fold_right (fun u a => Nat.max (S (rk u)) a) 0 l).
  { induction l as [|x l IH]; intros u H; [destruct H|]. cbn [fold_right]. destruct H as [ -> |H]; [lia|]. specialize (IH u H). lia. }
  intros a b (na & nb & t & A & B & TA & TB).
  assert (KD : NoDup (dkeys (keyed ns))) by (rewrite keyed_keys; exact HN).
  rewrite (In_dget _ _ _ _ KD A), (In_dget _ _ _ _ KD B). apply keyed_In in A as [A _].
  specialize (LB _ _ TB). assert (X : fold_right (fun u a => Nat.max (S (rk u)) a) 0 (n_in na) <= rk t); [|lia].
  apply UB. intros u U. specialize (R' na t u A TA U). lia.
Qed.

(** ---- tensors ---- *)
Definition used (t : string) : bool := memb t (reads_of ns) || memb t (outs_of ns).
Lemma used_iff t : used t = true <-> read (p_nodes p) t \/ made (p_nodes p) t.
Proof. unfold used. rewrite orb_true_iff, !memb_In, ns_reads, ns_outs, read_reads, made_outs. tauto. Qed.
Let tm0 := load_tensors info_of v0 p (keyed ns).
Lemma set_new_get A (tm : dict A) t x u : dget (set_new tm t x) u = match dget tm u with Some y => Some y | None => if String.eqb u t then Some x else None end.
Proof.
  unfold set_new, dhas. destruct (dget tm t) as [y|] eqn:E.
  - destruct (String.eqb_spec u t) as [ -> |N]; [rewrite E; reflexivity|destruct (dget tm u); reflexivity].
  - rewrite dget_dset. destruct (String.eqb_spec u t) as [ -> |N]; [rewrite E; reflexivity|destruct (dget tm u); reflexivity].
Qed.
Lemma fold_described l : forall (tm : dict (@ltensor D V)) u, dget (fold_left (fun tm x => set_new tm (fst x) (described (snd x))) l tm) u =
  match dget tm u with Some y => Some y | None => match dget l u with Some v => Some (described v) | None => None end end.
Proof.
  induction l as [|[k v] r IH]; intros tm u; cbn [fold_left dget fst snd]; [destruct (dget tm u); reflexivity|]. rewrite IH, set_new_get.
  destruct (dget tm u); [reflexivity|]. destruct (String.eqb u k); reflexivity.
Qed.
Lemma fold_stored l : forall (tm : dict (@ltensor D V)) u, NoDup (map fst l) -> dget (fold_left (fun tm x => dset tm (fst x) (stored info_of (snd x))) l tm) u =
  match dget l u with Some d => Some (stored info_of d) | None => dget tm u end.
Proof.
  induction l as [|[k d] r IH]; intros tm u H; cbn [fold_left dget fst snd]; [reflexivity|]. cbn [map fst] in H. inversion H; subst. rewrite IH by assumption.
  rewrite dget_dset. destruct (String.eqb_spec u k) as [ -> |N]; [|reflexivity].
  destruct (dget r k) as [d'|] eqn:E; [|reflexivity]. apply dget_Some_keys in E. contradiction.
Qed.
Lemma fold_bare1 l : forall (tm : dict (@ltensor D V)) u, dget (fold_left (fun tm t => set_new tm t (bare v0 t)) l tm) u =
  match dget tm u with Some y => Some y | None => if memb u l then Some (bare v0 u) else None end.
Proof.
  induction l as [|k r IH]; intros tm u; cbn [fold_left memb]; [destruct (dget tm u); reflexivity|]. rewrite IH, set_new_get.
  destruct (dget tm u); [reflexivity|]. destruct (String.eqb_spec u k) as [ -> |N]; reflexivity.
Qed.
Lemma fold_bare l : forall (tm : dict (@ltensor D V)) u, dget (fold_left (fun tm n => fold_left (fun tm t => set_new tm t (bare v0 t)) (n_in n ++ n_out n) tm) l tm) u =
  match dget tm u with Some y => Some y | None => if memb u (reads_of l) || memb u (outs_of l) then Some (bare v0 u) else None end.
Proof.
  induction l as [|n r IH]; intros tm u; cbn [fold_left]; [destruct (dget tm u); reflexivity|]. rewrite IH, fold_bare1.
  destruct (dget tm u); [reflexivity|]. cbn [reads_of outs_of flat_map].
  assert (MA : forall a b, memb u (a ++ b) = memb u a || memb u b).
  { clear. induction a as [|x a IH]; intros b; cbn [app memb]; [reflexivity|]. rewrite IH. destruct (String.eqb u x); reflexivity. }
  rewrite !MA. unfold reads_of, outs_of.
  destruct (memb u (n_in n)), (memb u (n_out n)), (memb u (flat_map n_in r)), (memb u (flat_map n_out r)); reflexivity.
Qed.
Definition told (t : string) : option V :=
  match dget (p_in p) t with Some v => Some v | None => match dget (p_out p) t with Some v => Some v | None => dget (p_vi p) t end end.
Lemma tm0_get t : dget tm0 t =
  match dget (p_init p) t with
  | Some d => Some (stored info_of d)
  | None => match told t with
            | Some v => Some (described v)
            | None => if used t then Some (bare v0 t) else None
            end
  end.
Proof.
  unfold tm0, load_tensors. rewrite fold_bare, !fold_described, fold_stored by apply HV. rewrite keyed_nodes. unfold told, used.
  destruct (dget (p_init p) t); [reflexivity|]. cbn [dget]. destruct (dget (p_in p) t); [reflexivity|]. destruct (dget (p_out p) t); [reflexivity|].
  destruct (dget (p_vi p) t); reflexivity.
Qed.
Lemma told_named : told ""%string = None.
Proof.
  assert (H := vf_decl_named _ HV). unfold declared in H. rewrite !in_app_iff in H. unfold told.
  assert (X : forall (l : dict V), ~ In ""%string (map fst l) -> dget l ""%string = None) by (intros l N; apply dget_None; exact N).
  rewrite !X by tauto. reflexivity.
Qed.
Lemma stored_get t : dhas (p_init p) t = true <-> stored_in p t.
Proof.
  unfold stored_in, dhas. destruct (dget (p_init p) t) as [d|] eqn:E; [apply dget_Some_keys in E; split; [intros _; exact E|reflexivity]|].
  apply dget_None in E. split; [discriminate|]. intros I. contradiction.
Qed.
Lemma static0_iff t : static_of tm0 t = true <-> stored_in p t \/ t = ""%string /\ used t = true.
Proof.
  unfold static_of. rewrite tm0_get. rewrite <- stored_get. unfold dhas. destruct (dget (p_init p) t) as [d|] eqn:E; [cbn; tauto|].
  destruct (told t) as [v|] eqn:F.
  - cbn. split; [discriminate|]. intros [H|[-> _]]; [discriminate|]. rewrite told_named in F. discriminate.
  - destruct (used t); cbn; [|intuition discriminate]. destruct (String.eqb_spec t "") as [ -> |N]; [tauto|]. split; [discriminate|]. intros [H|[H _]]; [discriminate|contradiction].
Qed.
Lemma covers0 : covers graph0 tm0.
Proof.
  intros k n o I O. rewrite graph0_nm in I. apply keyed_In in I as [I _]. unfold dhas. rewrite tm0_get. destruct (dget (p_init p) o); [reflexivity|]. destruct (told o); [reflexivity|].
  assert (U : used o = true). { unfold used. apply orb_true_iff. right. apply memb_In. apply made_outs. exists n. auto. }
  rewrite U. reflexivity.
Qed.
Lemma nodes_NoDup k n : In (k, n) (nodemap graph0) -> NoDup (n_out n).
Proof.
  rewrite graph0_nm. intros I. apply keyed_In in I as [I _]. assert (H := vf_single _ HV). rewrite <- ns_outs in H. apply in_split in I as (a & b & E). rewrite E in H.
  unfold outs_of in H. rewrite flat_map_app in H. apply NoDup_app_inv in H as (_ & H & _). cbn [flat_map] in H. apply NoDup_app_inv in H as (H & _). exact H.
Qed.
Lemma rt_iff t : used t = true -> (runtime graph0 (static_of tm0) t <-> at_runtime p t).
Proof.
  intros U. split.
  - intros H. revert U. induction H as [t S N|k n t I O T|k n t u I R H IH T]; intros U.
    + rewrite graph0_nodes in N. rewrite ns_outs, made_outs in N. assert (S' : ~ (stored_in p t \/ t = ""%string /\ used t = true)) by (rewrite <- static0_iff, S; discriminate).
      apply ar_free; tauto.
    + rewrite graph0_nm in I. apply keyed_In in I as [I _]. destruct (wiring_In _ _ _ ns_wiring I) as (m & M & E0 & E1 & E2). apply (ar_dequant p m); congruence.
    + rewrite graph0_nm in I. apply keyed_In in I as [I _]. destruct (wiring_In _ _ _ ns_wiring I) as (m & M & E0 & E1 & E2). apply (ar_made p m t u); try congruence.
      apply IH. apply used_iff. left. exists m. rewrite E1. auto.
  - intros H. revert U. induction H as [t N1 N2 N3|n t I O T|n t u I R H IH T]; intros U.
    + apply rt_input; [|rewrite graph0_nodes, ns_outs, made_outs; exact N3]. destruct (static_of tm0 t) eqn:S; [|reflexivity]. apply static0_iff in S. tauto.
    + destruct (wiring_In _ _ _ (eq_sym ns_wiring) I) as (m & M & E0 & E1 & E2). apply (rt_dequant _ _ (n_name m) m); try congruence. rewrite graph0_nm. apply keyed_In. auto.
    + destruct (wiring_In _ _ _ (eq_sym ns_wiring) I) as (m & M & E0 & E1 & E2). apply (rt_made _ _ (n_name m) m t u); try congruence; [rewrite graph0_nm; apply keyed_In; auto|].
      apply IH. apply used_iff. left. exists n. auto.
Qed.

(** the constant pass *)
Lemma load_unfold fuel : load_graph info_of v0 eval fuel cfg p =
  match constant_pass info_of eval fuel (c_fold cfg) graph0 tm0 with
  | Some (Ok (tm', cst)) => Some (Ok (update_nodes_tensors cfg (map fst (p_init p)) graph0 tm' cst))
  | Some KeyError => Some KeyError
  | Some ValueError => Some ValueError
  | Some AssertionError => Some AssertionError
  | None => None
  end.
Proof.
  unfold load_graph. rewrite loaded_nodes by exact HN. fold ns. unfold graph0, update_consumer_producer, nodes_of. cbn [raw_graph nodemap tensormap initials dynamics g_input g_output].
  rewrite keyed_nodes. destruct (fold_left upd_node ns ([], [])) as [pr cn]. reflexivity.
Qed.
Lemma pass_ok : exists fuel0, forall fuel, fuel0 <= fuel -> exists tm cst, constant_pass info_of eval fuel (c_fold cfg) graph0 tm0 = Some (Ok (tm, cst)) /\
  (forall n, In n ns -> (dget cst (n_name n) = Some true <-> ~ runs p n)) /\
  (forall t, used t = true -> (static_of tm t = true <-> ~ at_runtime p t)).
Proof.
  assert (S0 : forall t, static_of tm0 t = true -> ~ In t (outs_of (nodes_of graph0))).
  { intros t S. apply static0_iff in S. rewrite graph0_nodes, ns_outs, made_outs. destruct S as [S|[-> _]]; [apply (vf_init _ HV); exact S|apply (vf_out_named _ HV)]. }
  destruct (constant_search_correct graph0 (static_of tm0) graph0_consistent graph0_acyclic S0) as [f0 F].
  exists f0. intros fuel L. destruct (F fuel L) as (st & cst & E & F1 & F2).
  assert (X := sim_nodes info_of eval (c_fold cfg) graph0 nodes_NoDup fuel (dkeys (nodemap graph0)) tm0 (static_of tm0) [] (fun t => eq_refl) covers0).
  unfold constant_search in E. rewrite E in X. unfold constant_pass.
  destruct (fold_nodes info_of eval fuel (c_fold cfg) graph0 (dkeys (nodemap graph0)) tm0 []) as [[[tm c2]| | |]|]; try contradiction. destruct X as (<- & X1 & X2).
  exists tm, cst. split; [reflexivity|]. split.
  - intros n I. rewrite (F1 (n_name n) n) by (rewrite graph0_nm; apply keyed_In; auto). unfold runtime_node, runs.
    assert (Y : (exists u, In u (n_in n) /\ runtime graph0 (static_of tm0) u) <-> (exists u, In u (n_in n) /\ at_runtime p u)).
    { split; intros (u & U & R); exists u; (split; [exact U|]); apply rt_iff; auto; unfold used; apply orb_true_iff; left; apply memb_In, read_reads; exists n; auto. }
    rewrite Y. tauto.
  - intros t U. rewrite <- X1, F2, rt_iff by exact U. tauto.
Qed.
End LOADED.
