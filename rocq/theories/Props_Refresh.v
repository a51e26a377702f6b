(** C118: Graph.update_graph on a loaded graph. *)
From Coq Require Import Lia Bool.
From Verif Require Import PyBase PyBaseFacts GraphModel CompressSpec RelSpec RelProofs TopSortSpec EditModel EditSpec RemoveProofs Decide
  RegressModel PartitionModel FuseProofs LoadModel LoadSpec LoadNames LoadLoop LoadProofs LoadFinal LoadFold LoadSave Props_Load RefreshModel.
Local Open Scope string_scope.
Local Open Scope nat_scope.
Local Open Scope list_scope.

(** ---- nothing to add ---- *)
Lemma add_new_id l t : In t l -> add_new l t = l.
Proof. intros I. unfold add_new. apply memb_In in I. rewrite I. reflexivity. Qed.
Lemma add_all_id ts : forall l, incl ts l -> fold_left add_new ts l = l.
Proof. induction ts as [|t r IH]; intros l I; cbn [fold_left]; [reflexivity|]. rewrite add_new_id by (apply I; left; reflexivity). apply IH. intros x X. apply I. right. exact X. Qed.
Lemma dyn_add_id ini ts : forall l, (forall t, In t ts -> In t ini \/ In t l) -> fold_left (fun dyn t => if memb t ini then dyn else add_new dyn t) ts l = l.
Proof.
  induction ts as [|t r IH]; intros l I; cbn [fold_left]; [reflexivity|]. destruct (memb t ini) eqn:M; [apply IH; intros x X; apply I; right; exact X|].
  rewrite add_new_id; [apply IH; intros x X; apply I; right; exact X|]. destruct (I t (or_introl eq_refl)) as [X|X]; [|exact X]. apply memb_In in X. congruence.
Qed.
Lemma dyn_nodes_id ini ns : forall l, (forall t, In t (reads_of ns) -> In t ini \/ In t l) -> incl (outs_of ns) l -> fold_left (dyn_node ini) ns l = l.
Proof.
  induction ns as [|n r IH]; intros l R O; cbn [fold_left]; [reflexivity|]. unfold reads_of, outs_of in *. cbn [flat_map] in *.
  unfold dyn_node at 2. rewrite dyn_add_id by (intros t I; apply R, in_app_iff; auto). rewrite add_all_id by (intros t I; apply O, in_app_iff; auto).
  apply IH; [intros t I; apply R, in_app_iff; auto|intros t I; apply O, in_app_iff; auto].
Qed.
Lemma sort_in_id {D V} (tm : dict (@ltensor D V)) ts : forall st, (forall t, In t ts -> if static_of tm t then In t (fst st) else In t (snd st)) ->
  fold_left (sort_in tm) ts st = st.
Proof.
  induction ts as [|t r IH]; intros [a b] I; cbn [fold_left]; [reflexivity|]. unfold sort_in at 2. pose proof (I t (or_introl eq_refl)) as T.
  destruct (static_of tm t); cbn [fst snd] in T |- *; rewrite add_new_id by exact T; apply IH; intros x X; apply I; right; exact X.
Qed.
Lemma sort_nodes_id {D V} (tm : dict (@ltensor D V)) ns : forall st, (forall t, In t (reads_of ns) -> if static_of tm t then In t (fst st) else In t (snd st)) ->
  incl (outs_of ns) (snd st) -> fold_left (sort_node tm) ns st = st.
Proof.
  induction ns as [|n r IH]; intros st R O; cbn [fold_left]; [reflexivity|]. unfold reads_of, outs_of in *. cbn [flat_map] in *.
  unfold sort_node at 2. rewrite sort_in_id by (intros t I; apply R, in_app_iff; auto). cbv zeta. rewrite add_all_id by (intros t I; apply O, in_app_iff; auto).
  rewrite <- surjective_pairing. apply IH; [intros t I; apply R, in_app_iff; auto|intros t I; apply O, in_app_iff; auto].
Qed.
Lemma scan_in_ext prod prod' dyn dyn' ns : (forall t, In t (reads_of ns) -> negb (dhas prod t) && memb t dyn = negb (dhas prod' t) && memb t dyn') -> forall acc,
  fold_left (fun acc n => fold_left (scan_in prod dyn) (n_in n) acc) ns acc = fold_left (fun acc n => fold_left (scan_in prod' dyn') (n_in n) acc) ns acc.
Proof.
  intros H. induction ns as [|n r IH]; intros acc; cbn [fold_left]; [reflexivity|]. unfold reads_of in H. cbn [flat_map] in H.
  assert (E : forall ts, (forall t, In t ts -> In t (n_in n)) -> forall acc, fold_left (scan_in prod dyn) ts acc = fold_left (scan_in prod' dyn') ts acc).
  { induction ts as [|t q IHt]; intros I a; cbn [fold_left]; [reflexivity|]. unfold scan_in at 2 4. rewrite H by (apply in_app_iff; left; apply I; left; reflexivity).
    apply IHt. intros x X. apply I. right. exact X. }
  rewrite (E (n_in n)) by auto. apply IH. intros t I. apply H, in_app_iff. auto.
Qed.
Lemma scan_out_ext cns cns' ns : (forall t, In t (outs_of ns) -> glist cns t = [] <-> glist cns' t = []) -> forall acc,
  fold_left (fun acc n => fold_left (scan_out cns) (n_out n) acc) ns acc = fold_left (fun acc n => fold_left (scan_out cns') (n_out n) acc) ns acc.
Proof.
  intros H. induction ns as [|n r IH]; intros acc; cbn [fold_left]; [reflexivity|]. unfold outs_of in H. cbn [flat_map] in H.
  assert (E : forall ts, (forall t, In t ts -> In t (n_out n)) -> forall acc, fold_left (scan_out cns) ts acc = fold_left (scan_out cns') ts acc).
  { induction ts as [|t q IHt]; intros I a; cbn [fold_left]; [reflexivity|].
    assert (X : scan_out cns a t = scan_out cns' a t).
    { specialize (H t ltac:(apply in_app_iff; left; apply I; left; reflexivity)). unfold scan_out. unfold glist in H.
      destruct (dget cns t) as [[|c r1]|], (dget cns' t) as [[|c' r1']|]; try reflexivity; exfalso; destruct H as [H1 H2];
        (specialize (H1 eq_refl) || specialize (H2 eq_refl)); discriminate. }
    rewrite X. apply IHt. intros x Y. apply I. right. exact Y. }
  rewrite (E (n_out n)) by auto. apply IH. intros t I. apply H, in_app_iff. auto.
Qed.
Lemma filter_id A (f : A -> bool) l : (forall x, In x l -> f x = true) -> filter f l = l.
Proof. induction l as [|a r IH]; intros H; cbn [filter]; [reflexivity|]. rewrite H by (left; reflexivity). rewrite IH; [reflexivity|]. intros x X. apply H. right. exact X. Qed.

Section REFRESH.
Context {D V : Type}.
Variable info_of : D -> V.
Variable v0 : V.
Variable eval : node -> list (option D) -> nat -> option D.
Implicit Types (p : @proto D V) (tm : dict (@ltensor D V)) (g : graph) (cst : dict bool).

(** the loaded graph is that of [load_graph] *)
Lemma flags_load fuel cfg p s : load_with_flags info_of v0 eval fuel cfg p = Some (Ok s) -> load_graph info_of v0 eval fuel cfg p = Some (Ok (fst s)).
Proof.
  unfold load_with_flags, load_graph. destruct (load_nodes (c_rename cfg) (p_nodes p)) as [nm [pr cn]].
  destruct (constant_pass _ _ _ _ _ _) as [[[tm cst]| | |]|]; intros H; try discriminate. injection H as <-. reflexivity.
Qed.
Lemma load_flags fuel cfg p gt : load_graph info_of v0 eval fuel cfg p = Some (Ok gt) -> exists cst, load_with_flags info_of v0 eval fuel cfg p = Some (Ok (gt, cst)).
Proof.
  unfold load_with_flags, load_graph. destruct (load_nodes (c_rename cfg) (p_nodes p)) as [nm [pr cn]].
  destruct (constant_pass _ _ _ _ _ _) as [[[tm cst]| | |]|]; intros H; try discriminate. injection H as <-. eauto.
Qed.

(** ---- every node keeps its verdict ---- *)
Lemma requeue_flags nm (st : string -> bool) cs : forall c q c' q', requeue_all nm st cs (c, q) = Ok (c', q') -> forall k, dhas c k = true -> dhas c' k = true.
Proof.
  induction cs as [|x r IH]; intros c q c' q' H k K; cbn [requeue_all] in H; [injection H as <- <-; exact K|]. unfold requeue in H.
  destruct (dget nm x) as [n|]; cbn [bind] in H; [|discriminate]. destruct (is_node_constant st n); [|exact (IH _ _ _ _ H k K)].
  apply (IH _ _ _ _ H). unfold dhas in *. destruct (String.eqb_spec k x) as [->|N]; [rewrite dget_dset_eq; reflexivity|rewrite dget_dset_neq by congruence; exact K].
Qed.
Lemma loop_flags fold g : forall fuel tm cst q tm' cst', fold_loop info_of eval fuel fold g tm cst q = Some (Ok (tm', cst')) -> forall k, dhas cst k = true -> dhas cst' k = true.
Proof.
  induction fuel as [|f IH]; intros tm cst [|x r] tm' cst' H k K; cbn [fold_loop] in H; try discriminate; try (injection H as <- <-; exact K).
  destruct (dget (nodemap g) x) as [n|]; [|discriminate]. destruct (requeue_all _ _ _ _) as [[c q]| | |] eqn:E; try discriminate.
  apply (IH _ _ _ _ _ H). exact (requeue_flags _ _ _ _ _ _ _ E k K).
Qed.
Lemma nodes_flags fuel fold g : forall names tm cst tm' cst', fold_nodes info_of eval fuel fold g names tm cst = Some (Ok (tm', cst')) ->
  (forall k, dhas cst k = true -> dhas cst' k = true) /\ (forall k, In k names -> dhas cst' k = true).
Proof.
  induction names as [|x r IH]; intros tm cst tm' cst' H; cbn [fold_nodes] in H; [injection H as <- <-; split; [auto|intros k []]|].
  assert (S : forall c b k, dhas c k = true -> dhas (dset (A:=bool) c x b) k = true).
  { intros c b k K. unfold dhas in *. destruct (String.eqb_spec k x) as [->|N]; [rewrite dget_dset_eq; reflexivity|rewrite dget_dset_neq by congruence; exact K]. }
  assert (X : forall c b, dhas (dset (A:=bool) c x b) x = true) by (intros c b; unfold dhas; rewrite dget_dset_eq; reflexivity).
  destruct (dhas cst x) eqn:E.
  - destruct (IH _ _ _ _ H) as [A B]. split; [exact A|]. intros k [<-|I]; auto.
  - destruct (dget (nodemap g) x) as [n|]; [|discriminate]. destruct (is_node_constant (static_of tm) n).
    + destruct (fold_loop info_of eval fuel fold g tm (dset cst x true) [x]) as [[[t c]| | |]|] eqn:L; try discriminate.
      destruct (IH _ _ _ _ H) as [A B]. pose proof (loop_flags _ _ _ _ _ _ _ _ L) as M. split; [intros k K; apply A, M, S, K|]. intros k [<-|I]; [apply A, M, X|auto].
    + destruct (IH _ _ _ _ H) as [A B]. split; [intros k K; apply A, S, K|]. intros k [<-|I]; [apply A, X|auto].
Qed.
Lemma skip_all fuel fold g tm cst : forall names, (forall k, In k names -> dhas cst k = true) -> fold_nodes info_of eval fuel fold g names tm cst = Some (Ok (tm, cst)).
Proof. induction names as [|x r IH]; intros H; cbn [fold_nodes]; [reflexivity|]. rewrite H by (left; reflexivity). apply IH. intros k K. apply H. right. exact K. Qed.
Lemma ucp_nodemap nm ini dyn inp out : nodemap (update_consumer_producer (mkGraph nm [] [] [] ini dyn inp out)) = nm.
Proof. unfold update_consumer_producer. destruct (fold_left upd_node _ _). reflexivity. Qed.
Lemma unt_nodemap cfg raw g tm cst : nodemap (fst (update_nodes_tensors cfg raw g tm cst)) = drop_constant (c_fold cfg) cst (nodemap g).
Proof.
  unfold update_nodes_tensors. match goal with |- nodemap (fst (let '(_, _) := ?x in _)) = _ => destruct x as [ini dyn] end. cbn [fst]. apply ucp_nodemap.
Qed.
Lemma drop_sub fold cst nm k : In k (dkeys (drop_constant fold cst nm)) -> In k (dkeys nm).
Proof.
  unfold drop_constant. destruct fold; [|auto]. unfold dkeys. rewrite !in_map_iff. intros (x & E & I). apply filter_In in I as [I _]. eauto.
Qed.
Lemma drop_twice fold cst nm : drop_constant fold cst (drop_constant fold cst nm) = drop_constant fold cst nm.
Proof. unfold drop_constant. destruct fold; [|reflexivity]. apply filter_id. intros x I. apply filter_In in I. apply I. Qed.
Lemma loaded_flags fuel cfg p g tm cst : load_with_flags info_of v0 eval fuel cfg p = Some (Ok (g, tm, cst)) ->
  nodemap g = drop_constant (c_fold cfg) cst (nodemap g) /\ forall k, In k (dkeys (nodemap g)) -> dhas cst k = true.
Proof.
  unfold load_with_flags. destruct (load_nodes (c_rename cfg) (p_nodes p)) as [nm [pr cn]].
  destruct (constant_pass _ _ _ _ _ _) as [[[tm1 c]| | |]|] eqn:E; intros H; try discriminate. injection H as H <-.
  assert (N : nodemap g = drop_constant (c_fold cfg) c nm) by (pose proof (f_equal fst H) as Hf; cbn [fst] in Hf; rewrite <- Hf; apply unt_nodemap). split; [rewrite N; symmetry; apply drop_twice|].
  intros k K. rewrite N in K. apply drop_sub in K. unfold constant_pass in E. apply nodes_flags in E as [_ E]. apply E. exact K.
Qed.
(** Whatever has happened to the tensors since loading ([tm'] is any tensor map, e.g. one in which an input has become a stored
    constant), refreshing finds no constant: the search runs over nodes that all carry their old verdict. So no tensor gets a value and
    no node is folded away. *)
Theorem C118_late_constants_refuted : forall fuel cfg p g tm cst, load_with_flags info_of v0 eval fuel cfg p = Some (Ok (g, tm, cst)) ->
  forall fuel' tm' raw, exists g2 tm2, update_graph info_of eval fuel' cfg raw (g, tm', cst) = Some (Ok (g2, tm2, cst)) /\
    nodemap g2 = nodemap g /\ forall t, dget tm2 t = None \/ dget tm2 t = dget tm' t.
Proof.
  intros fuel cfg p g tm cst H fuel' tm' raw. destruct (loaded_flags _ _ _ _ _ _ H) as [N F]. unfold update_graph. rewrite skip_all by exact F.
  destruct (update_nodes_tensors cfg raw g tm' cst) as [g2 tm2] eqn:U. exists g2, tm2. split; [reflexivity|]. split.
  - replace g2 with (fst (update_nodes_tensors cfg raw g tm' cst)) by (rewrite U; reflexivity). rewrite unt_nodemap. symmetry. exact N.
  - intros t. unfold update_nodes_tensors in U.
    match type of U with (let '(_, _) := ?x in _) = _ => destruct x as [ini dyn] end. injection U as _ <-.
    rewrite (dget_filter _ (fun k => memb k (ini ++ dyn)) tm' t). destruct (memb t (ini ++ dyn)); auto.
Qed.

(** ---- without folding ---- *)
Theorem C118_plain : forall fuel cfg p g tm cst, c_fold cfg = false -> names_ok (c_rename cfg) p ->
  load_with_flags info_of v0 eval fuel cfg p = Some (Ok (g, tm, cst)) ->
  forall fuel', exists g2, update_graph info_of eval fuel' cfg (map fst (p_init p)) (g, tm, cst) = Some (Ok (g2, tm, cst)) /\
    nodemap g2 = nodemap g /\ producedby g2 = producedby g /\ consumedby g2 = consumedby g /\ g_input g2 = g_input g /\ g_output g2 = g_output g /\
    (* but every initializer is listed once more, and so is every input among the dynamic tensors *)
    initials g2 = initials g ++ map fst (p_init p) /\ dynamics g2 = dynamics g ++ g_input g.
Proof.
  intros fuel cfg p g tm cst HF HN H fuel'. destruct (loaded_flags _ _ _ _ _ _ H) as [_ F].
  unfold names_ok in HN. apply loaded_count in HN. unfold load_with_flags in H. rewrite loaded_nodes in H by exact HN.
  set (ns := named_from (c_rename cfg) 0 (p_nodes p)) in *. destruct (fold_left upd_node ns ([], [])) as [pr cn] eqn:PC.
  destruct (constant_pass _ _ _ _ _ _) as [[[tm1 c]| | |]|]; try discriminate. injection H as H <-.
  unfold update_nodes_tensors in H. rewrite HF in H. unfold drop_constant in H. cbn [nodemap initials dynamics g_input g_output producedby consumedby app] in H.
  rewrite keyed_nodes in H. set (raw := map fst (p_init p)) in *. set (dyn := fold_left (dyn_node raw) ns []) in *.
  set (inp := fold_left (fun acc n => fold_left (scan_in pr dyn) (n_in n) acc) ns []) in *.
  set (out := if c_keep_outputs cfg then _ else fold_left (fun acc n => fold_left (scan_out cn) (n_out n) acc) ns []) in *.
  unfold update_consumer_producer, nodes_of in H. cbn [nodemap initials dynamics g_input g_output tensormap] in H. rewrite keyed_nodes, PC in H.
  injection H as Hg Ht.
  assert (DI : forall t, In t dyn <-> In t (outs_of ns) \/ In t (reads_of ns) /\ ~ In t raw) by (intros t; unfold dyn; rewrite dyn_nodes_In; cbn; tauto).
  assert (II : incl inp dyn).
  { intros t I. unfold inp in I. apply scan_in_all in I. destruct I as [[]|I]. apply I. }
  unfold update_graph. rewrite skip_all by exact F. unfold update_nodes_tensors. rewrite HF. unfold drop_constant. rewrite <- Hg.
  cbn [nodemap initials dynamics g_input g_output producedby consumedby]. rewrite keyed_nodes.
  rewrite (dyn_nodes_id (raw ++ raw) ns (dyn ++ inp)).
  2:{ intros t I. destruct (in_dec string_dec t raw) as [R|R]; [left; apply in_app_iff; auto|right; apply in_app_iff; left; apply DI; auto]. }
  2:{ intros t I. apply in_app_iff. left. apply DI. auto. }
  rewrite (scan_in_ext pr pr (dyn ++ inp) dyn ns).
  2:{ intros t I. f_equal. destruct (memb t dyn) eqn:M; [apply memb_In, in_app_iff; left; apply memb_In; exact M|]. 
      destruct (memb t (dyn ++ inp)) eqn:M'; [|reflexivity]. apply memb_In, in_app_iff in M'. exfalso. assert (In t dyn) by (destruct M' as [X|X]; [exact X|apply II; exact X]).
      apply memb_In in H. congruence. }
  fold inp.
  replace (if c_keep_outputs cfg then out else fold_left (fun acc n => fold_left (scan_out cn) (n_out n) acc) ns []) with out by (unfold out; destruct (c_keep_outputs cfg); reflexivity).
  unfold update_consumer_producer, nodes_of. cbn [nodemap initials dynamics g_input g_output tensormap]. rewrite keyed_nodes, PC.
  rewrite (filter_id _ _ tm).
  2:{ intros x I. rewrite <- Ht in I. apply filter_In in I as [_ I]. apply memb_In in I. apply memb_In. rewrite !in_app_iff in *. tauto. }
  eexists. split; [reflexivity|]. cbn [nodemap producedby consumedby g_input g_output initials dynamics]. repeat split; reflexivity.
Qed.

(** ---- with folding: refreshing changes nothing at all ---- *)
Theorem C118_folded : forall fuel cfg p g tm cst, valid_file p -> c_fold cfg = true -> names_ok (c_rename cfg) p ->
  load_with_flags info_of v0 eval fuel cfg p = Some (Ok (g, tm, cst)) ->
  forall fuel' raw, update_graph info_of eval fuel' cfg raw (g, tm, cst) = Some (Ok (g, tm, cst)).
Proof.
  intros fuel cfg p g tm cst HV HF HN H fuel' raw. destruct (loaded_flags _ _ _ _ _ _ H) as [_ F].
  unfold names_ok in HN. apply loaded_count in HN. 
  destruct (pass_ok info_of v0 eval p cfg HV HN) as [f0 PO].
  assert (HL := flags_load _ _ _ _ H). rewrite load_unfold in HL by assumption. cbn [fst] in HL.
  unfold load_with_flags in H. rewrite loaded_nodes in H by exact HN.
  set (ns := named_from (c_rename cfg) 0 (p_nodes p)) in *. destruct (fold_left upd_node ns ([], [])) as [pr cn] eqn:PC.
  destruct (constant_pass info_of eval fuel (c_fold cfg) _ _) as [[[tm1 c]| | |]|] eqn:E in H; try discriminate. injection H as H <-.
  assert (G0 : graph0 p cfg = mkGraph (keyed ns) [] pr cn [] [] [] (if c_keep_outputs cfg then map fst (p_out p) else [])).
  { unfold graph0, update_consumer_producer, nodes_of, raw_graph. cbn [nodemap initials dynamics g_input g_output tensormap]. fold ns. rewrite keyed_nodes, PC. reflexivity. }
  rewrite <- G0 in E, H.
  assert (K : (forall n, In n ns -> (dget c (n_name n) = Some true <-> ~ runs p n)) /\
              (forall t, used p cfg t = true -> (static_of tm1 t = true <-> ~ at_runtime p t))).
  { destruct (PO (Nat.max f0 fuel) (Nat.le_max_l _ _)) as (tm2 & c2 & E2 & K1 & K2). unfold constant_pass in E, E2.
    rewrite (nodes_fuel info_of eval (c_fold cfg) (graph0 p cfg) fuel (Nat.max f0 fuel) _ (Nat.le_max_r _ _)) in E2 by (fold ns; rewrite E; discriminate).
    fold ns in E2. rewrite E in E2. injection E2 as -> ->. split; assumption. }
  destruct K as [K1 K2].
  unfold update_nodes_tensors in H. rewrite HF in H. rewrite (graph0_nm p cfg) in H. fold ns in H. unfold drop_constant in H.
  set (keep := fun n => match dget c (n_name n) with Some true => false | _ => true end) in *.
  assert (KF : filter (fun kn => match dget c (fst kn) with Some true => false | _ => true end) (keyed ns) = keyed (filter keep ns)).
  { unfold keyed, keep. clear. induction ns as [|n r IH]; [reflexivity|]. cbn [map filter fst]. rewrite IH. destruct (dget c (n_name n)) as [[|]|]; reflexivity. }
  rewrite KF, keyed_nodes in H. set (ks := filter keep ns) in *.
  assert (KI : forall n, In n ks <-> In n ns /\ runs p n).
  { intros n. unfold ks, keep. rewrite filter_In. split; intros [A B]; (split; [exact A|]); specialize (K1 n A).
    - destruct (runs_dec p HV n) as [R|R]; [exact R|]. apply K1 in R. rewrite R in B. discriminate.
    - destruct (dget c (n_name n)) as [[|]|]; try reflexivity. exfalso. apply (proj1 K1 eq_refl). exact B. }
  assert (INI0 : initials (graph0 p cfg) = [] /\ dynamics (graph0 p cfg) = []) by (rewrite G0; auto). destruct INI0 as [I0 D0]. rewrite I0, D0 in H.
  destruct (fold_left (sort_node tm1) ks ([], [])) as [ini dyn] eqn:ST.
  assert (SI := sort_all tm1 ks ([], [])). rewrite ST in SI. cbn [fst snd In] in SI.
  assert (PR : producedby (graph0 p cfg) = pr /\ consumedby (graph0 p cfg) = cn) by (rewrite G0; auto). destruct PR as [PR CN]. rewrite PR, CN in H.
  assert (GO : g_output (graph0 p cfg) = if c_keep_outputs cfg then map fst (p_out p) else []) by (rewrite G0; reflexivity). rewrite GO in H.
  set (inp := fold_left (fun acc n => fold_left (scan_in pr dyn) (n_in n) acc) ks []) in *.
  set (out := if c_keep_outputs cfg then _ else fold_left (fun acc n => fold_left (scan_out cn) (n_out n) acc) ks []) in *.
  unfold update_consumer_producer, nodes_of in H. cbn [nodemap initials dynamics g_input g_output tensormap] in H. rewrite keyed_nodes in H.
  destruct (fold_left upd_node ks ([], [])) as [pr1 cn1] eqn:PC1. injection H as Hg Ht.
  (* what the two producer and consumer maps know *)
  assert (PS : forall l pp cc, fold_left upd_node l ([], []) = (pp, cc) -> (forall t, dhas pp t = true <-> In t (outs_of l)) /\ (forall t, glist cc t = [] <-> ~ In t (reads_of l))).
  { intros l pp cc Q. destruct (ucp_spec (mkGraph (keyed l) [] [] [] [] [] [] [])) as (U1 & U2 & _).
    unfold update_consumer_producer, nodes_of in U1, U2. cbn [nodemap initials dynamics g_input g_output tensormap producedby consumedby] in U1, U2. rewrite keyed_nodes in U1, U2.
    rewrite Q in U1, U2. cbn [producedby consumedby] in U1, U2. split; intros t.
    - unfold dhas. rewrite U1. assert (X := occurrences_nil n_out l t). unfold outs_of. destruct (occurrences n_out l t); cbn [none_if_empty].
      + split; [discriminate|]. intros I. exfalso. apply (proj1 X eq_refl). exact I.
      + split; [|reflexivity]. intros _. destruct (in_dec string_dec t (flat_map n_out l)) as [I|I]; [exact I|]. apply X in I. discriminate.
    - unfold glist. rewrite U2. assert (X := occurrences_nil n_in l t). unfold reads_of. destruct (occurrences n_in l t); cbn [none_if_empty]; [tauto|]. split; [discriminate|]. intros I. apply X in I. discriminate. }
  destruct (PS _ _ _ PC) as [P0 C0]. destruct (PS _ _ _ PC1) as [P1 C1].
  assert (KW : forall n, In n ns -> exists m, In m (p_nodes p) /\ n_op m = n_op n /\ n_in m = n_in n /\ n_out m = n_out n) by (intros n I; exact (wiring_In _ _ _ (ns_wiring p cfg) I)).
  assert (KS : incl ks ns) by (intros n I; apply KI in I; apply I).
  (* a tensor made by a node that runs is a run-time tensor, and conversely *)
  assert (RT : forall n t, In n ns -> In t (n_out n) -> (runs p n <-> at_runtime p t)).
  { intros n t I T. destruct (KW n I) as (m & M & M0 & M1 & M2). split.
    - intros [R|(u & U & R)]; [apply (ar_dequant p m); [exact M|congruence|congruence]|apply (ar_made p m t u); congruence].
    - intros A. assert (TM : In t (n_out m)) by congruence. inversion A as [t' X1 X2 X3|m' t' X1 X2 X3|m' t' u X1 X2 X3 X4]; subst.
      + exfalso. apply X3. exists m. auto.
      + assert (m' = m) by (apply (NoDup_flat_owner (p_nodes p) m' m t (vf_single _ HV)); auto). subst. left. congruence.
      + assert (m' = m) by (apply (NoDup_flat_owner (p_nodes p) m' m t (vf_single _ HV)); auto). subst. right. exists u. split; [congruence|exact X3]. }
  assert (US : forall t, In t (reads_of ks) -> used p cfg t = true).
  { intros t I. apply used_iff. left. apply in_flat_map in I as (n & N & T). destruct (KW n (KS n N)) as (m & M & M0 & M1 & M2). exists m. rewrite M1. auto. }
  (* the refreshed lists *)
  unfold update_graph. rewrite skip_all by exact F. unfold update_nodes_tensors. rewrite HF. unfold drop_constant. rewrite <- Hg.
  cbn [nodemap initials dynamics g_input g_output producedby consumedby].
  assert (KF2 : filter (fun kn => match dget c (fst kn) with Some true => false | _ => true end) (keyed ks) = keyed ks).
  { apply filter_id. intros x I. rewrite <- KF in I. apply filter_In in I. apply I. }
  rewrite KF2, keyed_nodes.
  rewrite (sort_nodes_id tm ks (ini, dyn)).
  2:{ intros t I. cbn [fst snd]. assert (IO : In t (ini ++ dyn)).
      { apply in_app_iff. destruct (static_of tm1 t) eqn:S; [left; apply SI; auto|right; apply SI; auto]. }
      assert (X : static_of tm t = static_of tm1 t).
      { unfold static_of. rewrite <- Ht. rewrite (dget_filter _ (fun k => memb k (ini ++ dyn)) tm1 t). apply memb_In in IO. rewrite IO. reflexivity. }
      rewrite X. destruct (static_of tm1 t) eqn:S; apply SI; auto. }
  2:{ intros t I. cbn [snd]. apply SI. auto. }
  rewrite (scan_in_ext pr1 pr dyn dyn ks).
  2:{ intros t I. destruct (memb t dyn) eqn:MD; [|rewrite !andb_false_r; reflexivity]. f_equal. f_equal. apply memb_In in MD.
      assert (Q : dhas pr1 t = true <-> dhas pr t = true).
      { rewrite P0, P1. split; [intros O; apply in_flat_map in O as (n & N & T); apply in_flat_map; exists n; auto|].
        intros O. apply in_flat_map in O as (n & N & T). apply in_flat_map. exists n. split; [|exact T]. apply KI. split; [exact N|]. apply (RT n t N T).
        apply SI in MD. destruct MD as [[]|[MD|[MD S]]].
        - apply in_flat_map in MD as (n' & N' & T'). apply KI in N' as [N' R']. apply (RT n' t N' T'). exact R'.
        - destruct (at_runtime_dec p HV t) as [A|A]; [exact A|]. apply K2 in A; [congruence|apply US; exact MD]. }
      destruct (dhas pr1 t), (dhas pr t); try reflexivity; exfalso; destruct Q as [Q1 Q2]; (discriminate (Q1 eq_refl) || discriminate (Q2 eq_refl)). }
  fold inp.
  assert (OUT : (if c_keep_outputs cfg then out else fold_left (fun acc n => fold_left (scan_out cn1) (n_out n) acc) ks []) = out).
  { unfold out. destruct (c_keep_outputs cfg); [reflexivity|]. apply scan_out_ext. intros t I. rewrite C0, C1. 
    assert (Q : In t (reads_of ks) <-> In t (reads_of ns)); [|tauto].
    split; [intros O; apply in_flat_map in O as (n & N & T); apply in_flat_map; exists n; auto|].
    intros O. apply in_flat_map in O as (n & N & T). apply in_flat_map. exists n. split; [|exact T]. apply KI. split; [exact N|]. right. exists t. split; [exact T|].
    apply in_flat_map in I as (n' & N' & T'). apply KI in N' as [N' R']. apply (RT n' t N' T'). exact R'. }
  rewrite OUT. unfold update_consumer_producer, nodes_of. cbn [nodemap initials dynamics g_input g_output tensormap]. rewrite keyed_nodes, PC1.
  rewrite (filter_id _ _ tm); [reflexivity|]. intros x I. rewrite <- Ht in I. apply filter_In in I as [_ I]. exact I.
Qed.
End REFRESH.

(** ---- concrete files: D = nat, V = nat ---- *)
(** [x] becomes a stored constant after loading (Graph.tensormap[x].update_tensor, type STATIC): its reader is constant now, and stays. *)
Definition file_x : @proto nat nat := mkProto [mkNode "a" "Add" ["x"; "w"] ["s"]; mkNode "b" "Relu" ["s"] ["y"]] [("w", 5)] [("x", 3)] [("y", 4)] [].
Example C118_late_case : exists g tm cst,
  load_with_flags (fun d => d) 0 ev_sum 10 (mkCfg true false true) file_x = Some (Ok (g, tm, cst)) /\
  let tm' := dset tm "x" (stored (fun d => d) 3) in
  is_node_constant (static_of tm') (mkNode "a" "Add" ["x"; "w"] ["s"]) = true /\
  (exists g2 tm2, update_graph (fun d => d) ev_sum 10 (mkCfg true false true) ["w"] (g, tm', cst) = Some (Ok (g2, tm2, cst)) /\ map fst (nodemap g2) = ["a"; "b"]) /\
  (* loading the file in which [x] is stored folds both nodes *)
  exists g3 tm3, load_graph (fun d => d) 0 ev_sum 10 (mkCfg true false true) (mkProto (p_nodes file_x) [("w", 5); ("x", 3)] [] (p_out file_x) []) = Some (Ok (g3, tm3)) /\ nodemap g3 = [].
Proof.
  do 3 eexists. split; [vm_compute; reflexivity|]. split; [vm_compute; reflexivity|]. split; do 2 eexists; (split; [vm_compute; reflexivity|vm_compute; reflexivity]).
Qed.
Lemma file_x_valid : valid_file file_x.
Proof.
  constructor.
  - apply nodupb_ok. reflexivity.
  - apply nodupb_ok. reflexivity.
  - intros t S M. apply made_outs in M. cbn in S, M. intuition congruence.
  - intros M. apply made_outs in M. cbn in M. intuition discriminate.
  - cbn. intuition discriminate.
  - exists (fun t => if String.eqb t "y" then 2 else if String.eqb t "s" then 1 else 0). intros n t u I A B. cbn in I.
    destruct I as [<-|[<-|[]]]; cbn in A, B; intuition (subst; cbn; lia).
Qed.
Example C118_case : valid_file file_x /\ names_ok false file_x /\ valid_file file_a /\ names_ok false file_a.
Proof. split; [exact file_x_valid|]. split; [reflexivity|]. split; [exact file_a_valid|reflexivity]. Qed.
(** The doubled list is visible in the saved file: an initializer that no node reads is saved as a graph input, and after a refresh as
    two graph inputs of the same name, which is not a valid model. *)
Theorem C118_saved_inputs_refuted : exists p : @proto nat nat, valid_file p /\ names_ok false p /\ exists g tm cst g2 tm2,
  load_with_flags (fun d => d) 0 ev_sum 10 default_cfg p = Some (Ok (g, tm, cst)) /\
  update_graph (fun d => d) ev_sum 10 default_cfg (map fst (p_init p)) (g, tm, cst) = Some (Ok (g2, tm2, cst)) /\
  NoDup (map fst (p_in (save_graph 0 g tm))) /\ ~ NoDup (map fst (p_in (save_graph 0 g2 tm2))).
Proof.
  exists (mkProto [mkNode "b" "Relu" ["x"] ["y"]] [("u", 5)] [("x", 3)] [("y", 4)] []). split.
  { constructor.
    - apply nodupb_ok. reflexivity.
    - apply nodupb_ok. reflexivity.
    - intros t S M. apply made_outs in M. cbn in S, M. intuition congruence.
    - intros M. apply made_outs in M. cbn in M. intuition discriminate.
    - cbn. intuition discriminate.
    - exists (fun t => if String.eqb t "y" then 2 else 0). intros n t u I A B. cbn in I. destruct I as [<-|[]]; cbn in A, B; intuition (subst; cbn; lia). }
  split; [reflexivity|]. do 5 eexists. split; [vm_compute; reflexivity|]. split; [vm_compute; reflexivity|]. split; [apply nodupb_ok; vm_compute; reflexivity|].
  vm_compute. intros N. inversion N as [|? ? _ N']; subst. inversion N' as [|? ? X _]; subst. apply X. left. reflexivity.
Qed.
