(** C121: dumping intermediate tensors. *)
From Coq Require Import Bool Lia.
From Verif Require Import PyBase PyBaseFacts GraphModel CompressModel CompressSpec RelSpec CompressTop MemTop ExecModel TopSortSpec OrderSpec OrderProofs EditModel EditSpec RemoveProofs ShapeModel InferModel InferSpec LoadModel
  Props_Infer Props_Memory Demo Decide DumpModel.
Local Open Scope string_scope. Local Open Scope list_scope.

(** one element stands before another *)
Definition before (t u : string) (l : list string) : Prop := exists a b c, l = a ++ t :: b ++ u :: c.
(** [extra] is what a request adds to the outputs of [g]: the requested tensors that the graph has and that are not outputs already,
    once each, in the order in which they are first requested *)
Record additions (g : graph) (names extra : list string) : Prop := {
  ad_once : NoDup extra;
  ad_which : forall t, In t extra <-> In t names /\ dget (tensormap g) t <> None /\ ~ In t (g_output g);
  ad_order : forall t u, before t u extra -> exists l1 l2, names = l1 ++ t :: l2 /\ ~ In t l1 /\ ~ In u l1 }.

Lemma known_dec g t : dhas (tensormap g) t = true <-> dget (tensormap g) t <> None.
Proof. unfold dhas. destruct (dget (tensormap g) t); split; congruence. Qed.
Lemma F2_impl {A C} (R Q : A -> C -> Prop) l l' : Forall2 R l l' -> (forall x y, R x y -> Q x y) -> Forall2 Q l l'.
Proof. intros F H. induction F; constructor; auto. Qed.
Lemma first_split (x : string) l : In x l -> exists l1 l2, l = l1 ++ x :: l2 /\ ~ In x l1.
Proof.
  induction l as [|y l IH]; [intros []|]. intros I. destruct (string_dec y x) as [->|N]; [exists [], l; split; [reflexivity|intros []]|].
  destruct I as [I|I]; [congruence|]. destruct (IH I) as (l1 & l2 & -> & P). exists (y :: l1), l2. split; [reflexivity|]. intros [J|J]; [congruence|exact (P J)].
Qed.
Lemma with_output_same g : with_output (g_output g) g = g.
Proof. destruct g; reflexivity. Qed.
Lemma before_snoc t u l x : before t u (l ++ [x]) -> before t u l \/ (u = x /\ In t l).
Proof.
  intros (a & b & c & E). destruct (@exists_last _ (u :: c) ltac:(discriminate)) as (c' & y & Ec).
  replace (a ++ t :: b ++ u :: c) with (a ++ t :: b ++ c' ++ [y]) in E by (rewrite <- Ec; reflexivity). replace (a ++ t :: b ++ c' ++ [y]) with ((a ++ t :: b ++ c') ++ [y]) in E by (rewrite <- app_assoc; cbn [app]; rewrite <- app_assoc; reflexivity).
  apply app_inj_tail in E as [-> <-]. destruct c' as [|z c'].
  - right. cbn [app] in Ec. injection Ec as -> _. split; [reflexivity|]. apply in_app_iff. right. left. reflexivity.
  - left. cbn [app] in Ec. injection Ec as -> _. exists a, b, c'. reflexivity.
Qed.
Lemma dump_spec g : forall names, exists extra, additions g names extra /\ add_dump_tensors names g = with_output (g_output g ++ extra) g.
Proof.
  intros names. induction names as [|x names IH] using rev_ind.
  - exists []. split; [split|cbn; rewrite app_nil_r; symmetry; apply with_output_same].
    + constructor.
    + intros t. split; [intros []|intros ([] & _)].
    + intros t u (a & b & c & E). destruct a; discriminate.
  - destruct IH as (extra & [N W O] & E). unfold add_dump_tensors in *. rewrite fold_left_app, E. cbn [fold_left]. unfold dump_one. cbn [tensormap g_output with_output].
    destruct (dhas (tensormap g) x) eqn:K; [destruct (memb x (g_output g ++ extra)) eqn:M; cbn [negb]|].
    + exists extra. split; [|reflexivity]. split; [exact N| |].
      * intros t. rewrite W, in_app_iff. cbn [In]. split; [tauto|]. intros ([I|[<-|[]]] & H & J); [tauto|]. apply memb_In, in_app_iff in M as [M|M]; [tauto|]. apply W in M. tauto.
      * intros t u B. destruct (O t u B) as (l1 & l2 & -> & P & Q). exists l1, (l2 ++ [x]). rewrite <- app_assoc. auto.
    + assert (NI : ~ In x (g_output g ++ extra)) by (intros I; apply memb_In in I; congruence).
      exists (extra ++ [x]). split; [|unfold with_output; cbn [nodemap tensormap producedby consumedby initials dynamics g_input]; rewrite app_assoc; reflexivity]. split.
      * apply NoDup_app_intro; [exact N|constructor; [intros []|constructor]|]. intros t I [<-|[]]. apply NI, in_app_iff. right. exact I.
      * intros t. rewrite !in_app_iff, W. cbn [In]. split.
        -- intros [H|[<-|[]]]; [tauto|]. split; [tauto|]. split; [apply known_dec, K|]. intros I. apply NI, in_app_iff. left. exact I.
        -- intros ([I|[<-|[]]] & H & J); tauto.
      * intros t u B. apply before_snoc in B as [B|[-> I]].
        -- destruct (O t u B) as (l1 & l2 & -> & P & Q). exists l1, (l2 ++ [x]). rewrite <- app_assoc. auto.
        -- assert (NX : ~ In x names). { intros J. apply NI, in_app_iff. destruct (in_dec string_dec x (g_output g)) as [Y|Y]; [left; exact Y|right]. apply W. split; [exact J|]. split; [apply known_dec, K|exact Y]. }
           apply W in I as (I & _). destruct (first_split t names I) as (l1 & l2 & -> & P). exists l1, (l2 ++ [x]). rewrite <- app_assoc. split; [reflexivity|]. split; [exact P|].
           intros J. apply NX, in_app_iff. left. exact J.
    + exists extra. split; [|reflexivity]. assert (KN : dget (tensormap g) x = None) by (unfold dhas in K; destruct (dget (tensormap g) x); congruence). split; [exact N| |].
      * intros t. rewrite W, in_app_iff. cbn [In]. split; [tauto|]. intros ([I|[<-|[]]] & H & J); tauto.
      * intros t u B. destruct (O t u B) as (l1 & l2 & -> & P & Q). exists l1, (l2 ++ [x]). rewrite <- app_assoc. auto.
Qed.

(** Claim: the outputs grow by exactly the requested tensors that the graph has and that are not outputs yet; nothing else changes. *)
Theorem C121_outputs : forall g names, exists extra, additions g names extra /\ let g' := add_dump_tensors names g in
  g_output g' = g_output g ++ extra /\ nodemap g' = nodemap g /\ tensormap g' = tensormap g /\ producedby g' = producedby g /\ consumedby g' = consumedby g /\
  initials g' = initials g /\ dynamics g' = dynamics g /\ g_input g' = g_input g.
Proof. intros g names. destruct (dump_spec g names) as (extra & A & E). exists extra. split; [exact A|]. cbv zeta. rewrite E. repeat split. Qed.
(** Claim: asking again changes nothing, and asking in parts is asking at once. *)
Theorem C121_again : forall g names more, incl more names -> add_dump_tensors more (add_dump_tensors names g) = add_dump_tensors names g.
Proof.
  intros g names more I. destruct (dump_spec g names) as (extra & [_ W _] & E). rewrite E.
  destruct (dump_spec (with_output (g_output g ++ extra) g) more) as ([|t x2] & [_ W2 _] & E2); rewrite E2; [cbn [g_output with_output]; rewrite app_nil_r; reflexivity|].
  exfalso. destruct (proj1 (W2 t) (or_introl eq_refl)) as (J & K & L). cbn [tensormap g_output with_output] in *. apply L, in_app_iff.
  destruct (in_dec string_dec t (g_output g)); [left; assumption|right]. apply W. auto.
Qed.
Theorem C121_parts : forall g a b, add_dump_tensors (a ++ b) g = add_dump_tensors b (add_dump_tensors a g).
Proof. intros g a b. unfold add_dump_tensors. apply fold_left_app. Qed.

(** ---- running the graph by value ---- *)
Section VALUES.
Context {V : Type} (vshape : V -> list Z) (vrule : node -> list (trec (V := V)) -> sres (list V)).
Lemma dhas_set_values (vs : list V) : forall outs tm t, dhas (set_values vshape tm outs vs) t = dhas tm t.
Proof.
  induction vs as [|v vs IH]; intros [|o outs] tm t; cbn [set_values]; try reflexivity. rewrite IH. destruct (dhas tm o) eqn:E; [|reflexivity].
  unfold dhas in *. destruct (String.eqb_spec t o) as [->|N]; [rewrite dget_dset_eq; destruct (dget tm o); congruence|rewrite dget_dset_neq by congruence; reflexivity].
Qed.
Lemma dhas_value_nodes ns : forall tm tm', value_nodes vshape vrule ns tm = SOk tm' -> forall t, dhas tm' t = dhas tm t.
Proof.
  induction ns as [|n r IH]; intros tm tm'; cbn [value_nodes]; [intros [= <-]; reflexivity|].
  destruct (lookup_all tm (n_in n)) as [i|e]; cbn [sbind]; [|discriminate]. destruct (lookup_all tm (n_out n)) as [o|e]; cbn [sbind]; [|discriminate].
  destruct (vrule n i) as [vs|e]; cbn [sbind]; [|discriminate]. intros H t. rewrite (IH _ _ H). apply dhas_set_values.
Qed.
Lemma dhas_inputs ins : forall tm t, dhas (update_input_by_map vshape ins tm) t = dhas tm t.
Proof.
  unfold update_input_by_map. induction ins as [|[k v] r IH]; intros tm t; cbn [fold_left fst snd]; [reflexivity|]. rewrite IH. destruct (dhas tm k) eqn:E; [|reflexivity].
  unfold dhas in *. destruct (String.eqb_spec t k) as [->|N]; [rewrite dget_dset_eq; destruct (dget tm k); congruence|rewrite dget_dset_neq by congruence; reflexivity].
Qed.
Lemma output_values_app (tm : dict (trec (V := V))) a b : output_values tm (a ++ b) = (let* x := output_values tm a in let* y := output_values tm b in SOk (x ++ y)).
Proof.
  induction a as [|k a IH]; cbn [app output_values sbind]; [destruct (output_values tm b); reflexivity|]. destruct (dget tm k); cbn [sbind]; [|reflexivity].
  rewrite IH. destruct (output_values tm a); cbn [sbind]; [|reflexivity]. destruct (output_values tm b); reflexivity.
Qed.
Lemma output_values_known (tm : dict (trec (V := V))) l : (forall t, In t l -> dhas tm t = true) ->
  exists ws, output_values tm l = SOk ws /\ Forall2 (fun t w => output_values tm [t] = SOk [w]) l ws.
Proof.
  induction l as [|k l IH]; intros H; [exists []; split; [reflexivity|constructor]|]. destruct IH as (ws & E & F); [intros t I; apply H; right; exact I|].
  pose proof (H k (or_introl eq_refl)) as K. unfold dhas in K. cbn [output_values]. destruct (dget tm k) as [x|] eqn:G; [|discriminate]. rewrite E. cbn [sbind]. eexists. split; [reflexivity|].
  constructor; [|exact F]. cbn [output_values]. rewrite G. reflexivity.
Qed.
(** Claim: a run by value of the graph with dumped tensors raises exactly when, and as, a run of the original graph does; otherwise it returns
    the original results followed by one value per dumped tensor: the value the run leaves in that tensor, which is what the graph returns when
    that tensor is its only output. *)
Theorem C121_values : forall g names ins tm, (forall t, dget (tensormap g) t <> None -> dhas tm t = true) ->
  exists extra, additions g names extra /\
  match graph_value_infer vshape vrule g ins tm with
  | SRaise e => graph_value_infer vshape vrule (add_dump_tensors names g) ins tm = SRaise e
  | SOk vs => exists ws, graph_value_infer vshape vrule (add_dump_tensors names g) ins tm = SOk (vs ++ ws) /\
                Forall2 (fun t w => graph_value_infer vshape vrule (with_output [t] g) ins tm = SOk [w]) extra ws
  end.
Proof.
  intros g names ins tm H. destruct (dump_spec g names) as (extra & A & E). exists extra. split; [exact A|]. rewrite E. unfold graph_value_infer. cbn [g_output with_output].
  change (nodes_of (with_output (g_output g ++ extra) g)) with (nodes_of g). destruct (value_nodes vshape vrule (nodes_of g) (update_input_by_map vshape ins tm)) as [tm'|e] eqn:R; cbn [sbind]; [|reflexivity].
  rewrite output_values_app. destruct (output_values tm' (g_output g)) as [vs|e]; cbn [sbind]; [|reflexivity].
  destruct (output_values_known tm' extra) as (ws & W & F).
  { intros t I. rewrite (dhas_value_nodes _ _ _ R), dhas_inputs. apply H. apply (ad_which _ _ _ A) in I. tauto. }
  exists ws. rewrite W. cbn [sbind]. split; [reflexivity|]. clear W. apply (F2_impl _ _ _ _ F).
  intros t w P. change (nodes_of (with_output [t] g)) with (nodes_of g). rewrite R. exact P.
Qed.
End VALUES.
(** Claim: a run by value returns the true value of every dumped tensor that a node reads or produces. *)
Theorem C121_dumped_values_are_true : forall V (vshape : V -> list Z) sem vrule g names truth ins tm,
  consistent g -> respects_deps (nodes_of g) -> ~ In "" (outs_of (nodes_of g)) ->
  a_run sem (nodes_of g) truth -> (forall n, In n (nodes_of g) -> values_right vshape sem vrule n) ->
  (forall t, In t (reads_of (nodes_of g)) \/ In t (outs_of (nodes_of g)) \/ In t (g_output g) -> exists r, dget tm t = Some r) ->
  (forall t v, In (t, v) ins -> v = truth t) ->
  (forall t r, ~ In t (outs_of (nodes_of g)) -> ~ In t (map fst ins) -> dget tm t = Some r -> In t (reads_of (nodes_of g)) \/ In t (g_output g) ->
    tr_shape r = vshape (truth t) /\ tr_num r = Some (truth t)) ->
  (forall t, In t names -> dget (tensormap g) t <> None -> In t (reads_of (nodes_of g)) \/ In t (outs_of (nodes_of g))) ->
  graph_value_infer vshape vrule (add_dump_tensors names g) ins tm = SOk (map (fun t => Some (truth t)) (g_output (add_dump_tensors names g))).
Proof.
  intros V vshape sem vrule g names truth ins tm C R NE RUN VR K I S H. destruct (dump_spec g names) as (extra & [_ W _] & E). rewrite E.
  assert (X : forall t, In t extra -> In t (reads_of (nodes_of g)) \/ In t (outs_of (nodes_of g))) by (intros t J; apply W in J; apply H; tauto).
  apply (C92_values_are_true V vshape sem); try assumption.
  - first [exact C|destruct C; constructor; assumption].
  - intros t J. cbn [g_output with_output] in J. change (nodes_of (with_output (g_output g ++ extra) g)) with (nodes_of g) in J. apply K. rewrite in_app_iff in J. specialize (X t). tauto.
  - intros t r NO NI G J. cbn [g_output with_output] in J. change (nodes_of (with_output (g_output g ++ extra) g)) with (nodes_of g) in J, NO.
    apply (S t r NO NI G). rewrite in_app_iff in J. specialize (X t). tauto.
Qed.

(** ---- the saved file ---- *)
Section SAVED.
Context {D V : Type} (v0 : V).
(** Claim: the saved file declares the dumped tensors as outputs, after the original ones, each with the element type and shape the graph has for
    it, and takes them off the list of inner value records; nodes, initializers and inputs are written as before. *)
Theorem C121_saved : forall g names (tm : dict (ltensor (D := D) (V := V))), (forall t, dget (tensormap g) t <> None -> dget tm t <> None) ->
  exists extra, additions g names extra /\ let p := save_graph v0 g tm in let p' := save_graph v0 (add_dump_tensors names g) tm in
  p_nodes p' = p_nodes p /\ p_init p' = p_init p /\ p_in p' = p_in p /\
  (exists infos, p_out p' = p_out p ++ infos /\ map fst infos = filter (fun t => negb (String.eqb t "")) extra /\
     forall t v, In (t, v) infos -> exists x, dget tm t = Some x /\ v = lt_info x) /\
  forall t v, In (t, v) (p_vi p') <-> In (t, v) (p_vi p) /\ ~ In t extra.
Proof.
  intros g names tm H. destruct (dump_spec g names) as (extra & A & E). exists extra. split; [exact A|]. cbv zeta. rewrite E. split; [reflexivity|]. split; [reflexivity|]. split; [reflexivity|]. split.
  - exists (flat_map (value_if_known tm) extra). split; [apply flat_map_app|]. assert (K : forall t, In t extra -> dget tm t <> None) by (intros t I; apply H, (ad_which _ _ _ A), I).
    clear A E. split.
    + induction extra as [|t r IH]; [reflexivity|]. cbn [flat_map filter]. rewrite map_app, IH by (intros u I; apply K; right; exact I).
      unfold value_if_known at 1. specialize (K t (or_introl eq_refl)). destruct (dget tm t) as [x|]; [|congruence]. unfold value_proto. destruct (String.eqb t ""); reflexivity.
    + intros t v I. apply in_flat_map in I as (u & _ & I). unfold value_if_known in I. destruct (dget tm u) as [x|] eqn:G; [|destruct I]. unfold value_proto in I.
      destruct (String.eqb u ""); [destruct I|]. destruct I as [[= <- <-]|[]]. eauto.
  - intros t v. assert (M : forall u, In (t, v) (value_if_known (D := D) tm u) -> u = t) by
      (intros u I; unfold value_if_known in I; destruct (dget tm u); [|destruct I]; unfold value_proto in I; destruct (String.eqb u ""); [destruct I|]; destruct I as [[= <- <-]|[]]; reflexivity).
    unfold save_graph. cbn [p_vi]. cbn [g_input g_output dynamics with_output]. rewrite !in_flat_map. split.
    + intros (u & I & J). pose proof (M u J) as ->. apply filter_In in I as (I & F). apply negb_true_iff, orb_false_iff in F as [F1 F2].
      split; [exists t; split; [|exact J]|]; [apply filter_In; split; [exact I|]|].
      * rewrite F1. cbn [orb]. destruct (memb t (g_output g)) eqn:Q; [|reflexivity]. exfalso. apply memb_In in Q. assert (memb t (g_output g ++ extra) = true) by (apply memb_In, in_app_iff; left; exact Q). congruence.
      * intros Q. assert (memb t (g_output g ++ extra) = true) by (apply memb_In, in_app_iff; right; exact Q). congruence.
    + intros ((u & I & J) & N). pose proof (M u J) as ->. apply filter_In in I as (I & F). apply negb_true_iff, orb_false_iff in F as [F1 F2].
      exists t. split; [|exact J]. apply filter_In. split; [exact I|]. rewrite F1. cbn [orb]. destruct (memb t (g_output g ++ extra)) eqn:Q; [|reflexivity].
      exfalso. apply memb_In, in_app_iff in Q as [Q|Q]; [apply memb_In in Q; congruence|exact (N Q)].
Qed.
End SAVED.

(** ---- memory planning ---- *)
Local Open Scope Z_scope.
Lemma raw_dumped g extra l (P : forall t tn, dget (tensormap g) t = Some tn -> 0 <= get_memsize tn) (K : forall t, In t extra -> dget (tensormap g) t <> None) :
  let stp outs := fun acc t => match acc with None => None | Some a => if memb t (g_input g) || memb t outs then Some a else
        match dget (tensormap g) t with Some tn => Some (a + get_memsize tn) | None => None end end in
  forall a b w, a <= b -> fold_left (stp (g_output g ++ extra)) l (Some a) = Some w -> exists u, fold_left (stp (g_output g)) l (Some b) = Some u /\ w <= u.
Proof.
  intros stp. assert (NN : forall outs l, fold_left (stp outs) l None = None) by (intros outs; induction l0; auto).
  induction l as [|t l IH]; intros a b w L; cbn [fold_left]; [intros [= <-]; exists b; auto|]. unfold stp at 2 4. rewrite (orb_comm (memb t (g_input g))), (orb_comm (memb t (g_input g)) (memb t (g_output g))).
  assert (X : memb t (g_output g ++ extra) = memb t (g_output g) || memb t extra).
  { apply eq_true_iff_eq. rewrite orb_true_iff, !memb_In, in_app_iff. reflexivity. }
  rewrite X. destruct (memb t (g_output g)); cbn [orb]; [apply IH, L|]. destruct (memb t (g_input g)); [rewrite orb_true_r; apply IH, L|]. rewrite orb_false_r.
  destruct (memb t extra) eqn:M.
  - apply memb_In, K in M. destruct (dget (tensormap g) t) as [tn|] eqn:G; [|congruence]. apply IH. specialize (P t tn G). lia.
  - destruct (dget (tensormap g) t) as [tn|]; [apply IH; lia|rewrite NN; discriminate].
Qed.
(** Claim: the planner takes no notice of a dump: whatever plan it returns for the graph with dumped tensors is the plan of the original graph. *)
Theorem C121_plan_unchanged : forall g names pad mem total, (forall t tn, dget (tensormap g) t = Some tn -> 0 <= get_memsize tn) ->
  compress_memory (add_dump_tensors names g) pad = CPlan mem total -> compress_memory g pad = CPlan mem total.
Proof.
  intros g names pad mem total P H. destruct (dump_spec g names) as (extra & [_ W _] & E). rewrite E in H. unfold compress_memory in *.
  change (plan (with_output (g_output g ++ extra) g) pad) with (plan g pad) in H. destruct (plan g pad) as [m t].
  assert (R0 : forall l w, fold_left (fun acc t => match acc with None => None | Some a => if memb t (g_input g) || memb t (g_output g ++ extra) then Some a else
        match dget (tensormap g) t with Some tn => Some (a + get_memsize tn) | None => None end end) l (Some 0) = Some w -> 0 <= w).
  { intros l. assert (Q : forall a w, 0 <= a -> fold_left (fun acc t => match acc with None => None | Some a => if memb t (g_input g) || memb t (g_output g ++ extra) then Some a else
        match dget (tensormap g) t with Some tn => Some (a + get_memsize tn) | None => None end end) l (Some a) = Some w -> 0 <= w).
    { induction l as [|x l IH]; intros a w L; cbn [fold_left]; [intros [= <-]; exact L|]. destruct (memb x (g_input g) || memb x (g_output g ++ extra)); [apply IH, L|].
      destruct (dget (tensormap g) x) as [tn|] eqn:G; [apply IH; specialize (P x tn G); lia|].
      clear. intros F. exfalso. induction l; cbn [fold_left] in F; [discriminate|auto]. }
    intros w. apply Q. lia. }
  unfold raw_memsize in *. cbn [g_input g_output tensormap dynamics with_output] in H.
  destruct (fold_left _ (dynamics g) (Some 0)) as [raw|] eqn:F in H; [|discriminate].
  pose proof (R0 _ _ F) as N0. destruct (raw_dumped g extra (dynamics g) P (fun t I => proj1 (proj2 (proj1 (W t) I))) 0 0 raw (Z.le_refl 0) F) as (u & U & L). cbv zeta in U. rewrite U.
  destruct (Z.eqb_spec raw 0) as [->|N]; [discriminate|]. destruct (Z.eqb_spec u 0); [lia|]. exact H.
Qed.
(** The planner fails with ZeroDivisionError once every intermediate tensor is dumped. *)
Theorem C121_dump_all_refuted : forall g names pad, (forall t, In t (dynamics g) -> In t names /\ dget (tensormap g) t <> None) ->
  compress_memory (add_dump_tensors names g) pad = CZeroDivision.
Proof.
  intros g names pad H. apply no_intermediates_crash. destruct (dump_spec g names) as (extra & [_ W _] & E). rewrite E. cbn [dynamics with_output g_input g_output]. intros t I.
  right. apply in_app_iff. destruct (in_dec string_dec t (g_output g)); [left; assumption|right]. apply W. destruct (H t I). auto.
Qed.
(** A dumped tensor is not kept: when the plan is executed, its memory goes to a later tensor. [chain] is x -> y -> z -> w with output "w"; "y" is dumped. *)
Definition chain : graph := with_output ["w"] demo_out.
Theorem C121_dumped_survives_refuted : exists pad mem total sem size p e, let g := add_dump_tensors ["y"; "nothing"; "y"; "w"] chain in
  g_output g = ["w"; "y"] /\ 0 < pad /\ wf_plan_input g /\ topologically_ordered g /\ planned g pad mem total /\
  (forall u tn, dget (tensormap g) u = Some tn -> Z.of_nat (size u) = data_bytes tn) /\
  look_pool mem size (run_pool sem mem size (load_pool mem p e (g_input g)) (nodes_of g)) "y" <> run_private sem e (nodes_of g) "y".
Proof.
  exists 64, [("y", (0, 64)); ("z", (64, 64)); ("w", (0, 64))], 128, (demo_sem demo_out_size), demo_out_size, (mkP (fun _ => 0) (fun _ => [])), (fun _ => repeat 1 16).
  cbv zeta. split; [reflexivity|]. split; [lia|]. split; [exact demo_out_wf|]. split; [apply topo_b_ok; vm_compute; reflexivity|].
  split; [vm_compute; reflexivity|]. split.
  - intros u tn E. apply dget_In in E. cbn in E. destruct E as [E|[E|[E|[E|[]]]]]; injection E as _ <-; reflexivity.
  - vm_compute. discriminate.
Qed.
(** The Shape/Reshape graph of C92's case, with tensor records: "y" and "s2" are dumped ("q" is unknown, "z" is an output already). *)
Definition known_reshaping : graph :=
  mkGraph (nodemap reshaping) (map (fun t => (t, dyn [2; 3])) ["x"; "s"; "s2"; "a"; "y"; "z"]) (producedby reshaping) (consumedby reshaping) [] ["s"; "s2"; "a"; "y"; "z"] ["x"] ["z"].
Example C121_case : g_output (add_dump_tensors ["y"; "q"; "z"; "s2"; "y"] known_reshaping) = ["z"; "y"; "s2"] /\
  (forall t, dget (tensormap known_reshaping) t <> None -> dhas (blank reshaping) t = true) /\
  graph_value_infer vsh dvrule (add_dump_tensors ["y"; "q"; "z"; "s2"; "y"] known_reshaping) [("x", x23)] (blank reshaping) =
    SOk [Some ([2; 3]%nat, [1; 0; 3; 0; 5; 0]); Some ([2; 3]%nat, [1; 0; 3; 0; 5; 0]); Some ([2%nat], [2; 3])] /\
  compress_memory (add_dump_tensors ["y"] chain) 64 = compress_memory chain 64 /\
  compress_memory (add_dump_tensors ["y"; "z"] chain) 64 = CZeroDivision.
Proof.
  split; [vm_compute; reflexivity|]. split; [|split; [vm_compute; reflexivity|split; vm_compute; reflexivity]].
  intros t H. destruct (dget (tensormap known_reshaping) t) eqn:E; [|congruence]. apply dget_In in E. cbn in E.
  destruct E as [E|[E|[E|[E|[E|[E|[]]]]]]]; injection E as <- _; reflexivity.
Qed.
