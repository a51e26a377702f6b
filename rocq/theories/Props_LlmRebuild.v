(** C120: build_graph called twice on one Builder. *)
From Coq Require Import Permutation Bool Lia.
From Verif Require Import PyBase PyBaseFacts GraphModel CompressSpec ShapeModel FusionModel FusionProofs RegressModel RegressProofs LlmModel LlmProofs LlmSpec LlmNames LlmBuild LlmLayers LlmGraphProofs
  LlmCostProofs LlmRel LlmInferProofs Props_Llm Props_LlmGraph LlmWireSpec LlmWire Props_LlmWire LlmRebuildModel LlmRebuild.
Open Scope string_scope. Open Scope list_scope. Open Scope Z_scope.

(** ** Replaying events into a graph that has them *)
Lemma dset_present {A} (d : dict A) k v : dget d k = Some v -> dset d k v = d.
Proof.
  induction d as [|[k1 v1] d IH]; cbn [dget dset]; [discriminate|]. destruct (String.eqb_spec k k1) as [->|]; [intros [= ->]; reflexivity|]. intros H. rewrite IH by exact H. reflexivity.
Qed.
Lemma dset_keys {A} (d : dict A) k v : In k (dkeys d) -> dkeys (dset d k v) = dkeys d.
Proof.
  unfold dkeys. induction d as [|[k1 v1] d IH]; cbn [map dset fst]; intros H; [destruct H|]. destruct (String.eqb_spec k k1) as [->|N]; [reflexivity|]. cbn [map fst]. f_equal. apply IH.
  destruct H; [congruence|assumption].
Qed.
Lemma dsets_keys os (t : tensor) : forall d, incl os (dkeys d) -> dkeys (fold_left (fun d o => dset d o t) os d) = dkeys d.
Proof.
  induction os as [|o r IH]; intros d I; cbn [fold_left]; [reflexivity|]. assert (E : dkeys (dset d o t) = dkeys d) by (apply dset_keys, I; left; reflexivity).
  rewrite IH; [exact E|]. rewrite E. intros x X. apply I. right. exact X.
Qed.
Lemma dsets_get os (t : tensor) : forall d k, dget (fold_left (fun d o => dset d o t) os d) k = if memb k os then Some t else dget d k.
Proof.
  induction os as [|o r IH]; intros d k; cbn [fold_left memb]; [reflexivity|]. rewrite IH. destruct (String.eqb_spec o k) as [->|N].
  - rewrite dget_dset_eq. rewrite ?String.eqb_refl. destruct (memb k r); reflexivity.
  - rewrite dget_dset_neq by congruence. destruct (String.eqb_spec k o); [congruence|]. reflexivity.
Qed.
Lemma replay_nodes l : forall g, (forall nd t, In (ENode nd t) l -> dget (nodemap g) (n_name nd) = Some nd) -> nodemap (fold_left replay_step l g) = nodemap g.
Proof.
  induction l as [|e r IH]; intros g H; cbn [fold_left]; [reflexivity|].
  assert (E : nodemap (replay_step g e) = nodemap g) by (destruct e; cbn [replay_step nodemap]; try reflexivity; apply dset_present, (H n t); left; reflexivity).
  rewrite IH; [exact E|]. rewrite E. intros nd t I. apply (H nd t). right. exact I.
Qed.
Lemma replay_keys l : forall g, (forall x, In x (defs l) -> In (fst x) (dkeys (tensormap g))) -> dkeys (tensormap (fold_left replay_step l g)) = dkeys (tensormap g).
Proof.
  induction l as [|e r IH]; intros g H; cbn [fold_left]; [reflexivity|]. unfold defs in H. cbn [flat_map] in H.
  assert (E : dkeys (tensormap (replay_step g e)) = dkeys (tensormap g)).
  { destruct e as [n t|n t|nd t]; cbn [replay_step tensormap]; [apply dset_keys, (H (n, t)), in_app_iff; left; left; reflexivity..|].
    apply dsets_keys. intros o O. apply (H (o, t)). apply in_app_iff. left. cbn [ev_defs]. apply in_map_iff. eauto. }
  rewrite IH; [exact E|]. rewrite E. intros x I. apply H, in_app_iff. right. exact I.
Qed.
Lemma replay_get l : forall g k, (exists u, In (k, u) (defs l) /\ dget (tensormap (fold_left replay_step l g)) k = Some u) \/
  ((forall u, ~ In (k, u) (defs l)) /\ dget (tensormap (fold_left replay_step l g)) k = dget (tensormap g) k).
Proof.
  induction l as [|e r IH]; intros g k; cbn [fold_left]; [right; split; [intros u []|reflexivity]|]. unfold defs. cbn [flat_map].
  destruct (IH (replay_step g e) k) as [(u & I & G)|[N G]]; [left; exists u; split; [apply in_app_iff; right; exact I|exact G]|].
  assert (X : (exists u, In (k, u) (ev_defs e) /\ dget (tensormap (replay_step g e)) k = Some u) \/ ((forall u, ~ In (k, u) (ev_defs e)) /\ dget (tensormap (replay_step g e)) k = dget (tensormap g) k)).
  { assert (S : forall n (t : tensor), (exists u, In (k, u) [(n, t)] /\ dget (dset (tensormap g) n t) k = Some u) \/ ((forall u, ~ In (k, u) [(n, t)]) /\ dget (dset (tensormap g) n t) k = dget (tensormap g) k)).
    { intros n t. destruct (String.eqb_spec k n) as [->|D]; [left; exists t; split; [left; reflexivity|apply dget_dset_eq]|].
      right. split; [intros u [E|[]]; congruence|apply dget_dset_neq; congruence]. }
    destruct e as [n t|n t|nd t]; cbn [replay_step tensormap ev_defs]; [apply S..|]. rewrite dsets_get. destruct (memb k (n_out nd)) eqn:M.
    - left. exists t. split; [|reflexivity]. apply memb_In in M. apply in_map_iff. eauto.
    - right. split; [|reflexivity]. intros u I. apply in_map_iff in I as (o & E & I). injection E as -> _. apply memb_In in I. congruence. }
  destruct X as [(u & I & G2)|[N2 G2]].
  - left. exists u. split; [apply in_app_iff; left; exact I|congruence].
  - right. split; [intros u I; apply in_app_iff in I as [I|I]; [exact (N2 u I)|exact (N u I)]|congruence].
Qed.
Lemma replay_initials l : forall g, initials (fold_left replay_step l g) = initials g ++ map fst (statics l).
Proof.
  unfold statics. induction l as [|e r IH]; intros g; cbn [fold_left flat_map map]; [symmetry; apply app_nil_r|]. rewrite IH. destruct e; cbn [replay_step initials ev_statics app map fst]; try reflexivity.
  rewrite <- app_assoc. reflexivity.
Qed.
Lemma evR_fun b1 s1 b2 s2 e f f' : evR b1 s1 b2 s2 e f -> evR b1 s1 b2 s2 e f' -> f = f'.
Proof. intros H K. destruct H; inversion K; subst; try reflexivity. Qed.
Lemma Forall2_l {A C} (R : A -> C -> Prop) l l' : Forall2 R l l' -> forall x, In x l -> exists y, In y l' /\ R x y.
Proof. induction 1 as [|x y l l' H F IH]; intros z I; [destruct I|destruct I as [<-|I]]; [exists y; split; [left; reflexivity|exact H]|]. destruct (IH z I) as (w & W & Q). exists w. split; [right; exact W|exact Q]. Qed.
Lemma Forall2_r {A C} (R : A -> C -> Prop) l l' : Forall2 R l l' -> forall y, In y l' -> exists x, In x l /\ R x y.
Proof. induction 1 as [|x y l l' H F IH]; intros z I; [destruct I|destruct I as [<-|I]]; [exists x; split; [left; reflexivity|exact H]|]. destruct (IH z I) as (w & W & Q). exists w. split; [right; exact W|exact Q]. Qed.

(** ** C120 *)
Section REBUILD.
Context (m : dict flags) (c : config) (wm : dict (dict string)) (root : string) (fl : flags) (b1 s1 b2 s2 : Z).
(** Building again for other sizes succeeds. The nodes stay as they are; the tensors are those that a new builder records for the second
    sizes, except for the input "position" of a rotary model; the initializers of the second call are appended to those of the first
    (all but the rotary tables), and so are its inputs and its output. *)
Theorem C120_rebuild : forall g1, arch_config m c = SOk fl -> names_ok fl wm root -> (flag_or fl "pos_embedding" false = true -> flag_or fl "qk_rope" true = false) ->
  built m c b1 s1 wm root = SOk g1 ->
  exists g fresh logits, rebuilt m c [(b1, s1); (b2, s2)] wm root = SOk g /\ built m c b2 s2 wm root = SOk fresh /\
    nodemap g = nodemap g1 /\ nodemap g = nodemap fresh /\
    dkeys (tensormap g) = dkeys (tensormap fresh) /\ (forall t, t <> "position" -> dget (tensormap g) t = dget (tensormap fresh) t) /\
    g_output g1 = [logits] /\ g_output g = [logits; logits] /\
    (exists again, initials g = initials g1 ++ again /\ incl again (initials g1) /\
                   forall t, In t (initials g1) -> In t again \/ t = "rope.cos" \/ t = "rope.sin") /\
    (exists again, g_input g = g_input g1 ++ again /\ incl again (g_input g1) /\ In "ids" again /\ forall t, In t (g_input g1) -> In t again \/ t = "position").
Proof.
  intros g1 A N P H1.
  pose proof (build_ok fl c b1 s1 wm root True (fun _ => Logic.I) N P) as K1. pose proof (build_ok fl c b2 s2 wm root True (fun _ => Logic.I) N P) as K2.
  pose proof (build_rel b1 s1 b2 s2 fl c wm root bst0 bst0) as RF. specialize (RF ltac:(constructor; try reflexivity; constructor)).
  unfold rebuilt, built in *. rewrite A in *. cbn [sbind] in *. unfold wp in K1, K2.
  destruct (build_graph fl c b1 s1 wm root bst0) as [[o st1]|e] eqn:E1; cbn [sbind fst snd] in *; [|discriminate]. injection H1 as <-.
  destruct (build_graph fl c b2 s2 wm root bst0) as [[o' stf]|e] eqn:Ef; [|contradiction]. destruct RF as [<- [RL _ _ _ _]].
  destruct K1 as (W1 & _ & _ & _ & F1). destruct K2 as (W2 & _ & _ & _ & F2).
  (* the second run *)
  pose (x1 := {| log := [EInput "ids" (idt [b1; s1])]; rope_done := false; pos_done := false; bounds := [] |}).
  pose (y1 := {| log := log st1 ++ [EInput "ids" (idt [b2; s2])]; rope_done := rope_done st1; pos_done := pos_done st1; bounds := bounds st1 |}).
  pose proof (rest_rel b1 s1 b2 s2 (log st1) [EInput "ids" (idt [b2; s2])] (rope_done st1) (pos_done st1) fl c wm root x1 y1) as RR.
  rewrite build_first in E1. change (log bst0 ++ [EInput "ids" (idt [b1; s1])]) with [EInput "ids" (idt [b1; s1])] in E1. fold x1 in E1.
  change {| log := [EInput "ids" (idt [b1; s1])]; rope_done := rope_done bst0; pos_done := pos_done bst0; bounds := bounds bst0 |} with x1 in E1. rewrite E1 in RR.
  specialize (RR ltac:(constructor; cbn [log rope_done pos_done x1 y1]; [exists [EInput "ids" (idt [b1; s1])], [EInput "ids" (idt [b2; s2])]; unfold skipped; rewrite !andb_false_r; repeat split;
     [apply Permutation_refl|repeat constructor|apply incl_refl]|rewrite orb_false_r; reflexivity..])).
  assert (E2 : build_graph fl c b2 s2 wm root st1 = build_rest fl c wm root b2 s2 y1) by reflexivity.
  cbn [build_all]. unfold bind, ret. rewrite (build_first fl c wm root b1 s1 bst0).
  change {| log := log bst0 ++ [EInput "ids" (idt [b1; s1])]; rope_done := rope_done bst0; pos_done := pos_done bst0; bounds := bounds bst0 |} with x1. rewrite E1. cbn [sbind fst snd].
  rewrite E2. destruct (build_rest fl c wm root b2 s2 y1) as [[o2 st2]|e]; [|contradiction]. cbn [sbind fst snd].
  destruct RR as [<- [(l & l' & L1 & L2 & L3 & L4) _ _]].
  set (G1 := fold_left replay_step (log st1) g0) in *. set (Gf := fold_left replay_step (log stf) g0) in *.
  change (gr st1) with G1 in W1. change (gr stf) with Gf in W2.
  assert (GR : graph_rel b1 s1 b2 s2 G1 Gf) by (apply replay_rel; [exact RL|constructor; try reflexivity; constructor]).
  assert (G2 : fold_left replay_step (log st2) (mkGraph [] [] [] [] [] [] [] []) = fold_left replay_step l' G1) by (rewrite L2, fold_left_app; reflexivity).
  rewrite G2. clear G2.
  assert (M1 : forall e, In e l -> In e (log st1)) by (intros e I; apply (Permutation_in _ (Permutation_sym L1)), in_app_iff; right; exact I).
  assert (M2 : forall e, In e l' -> In e (log stf)).
  { intros f I. destruct (Forall2_r _ _ _ L3 f I) as (e & I1 & R1). destruct (Forall2_l _ _ _ RL e (M1 e I1)) as (f2 & I2 & R2). rewrite (evR_fun _ _ _ _ _ _ _ R1 R2). exact I2. }
  assert (MS : forall e, In e (skipped b1 s1 (rope_done st1) (pos_done st1) c (rope_done st1) (pos_done st1)) -> In e (tables c) \/ e = EInput "position" (idt [b1; s1])).
  { intros e I. unfold skipped in I. apply in_app_iff in I as [I|I]; [destruct (rope_done st1); cbn [andb] in I; [left; exact I|destruct I]|].
    destruct (pos_done st1); cbn [andb] in I; [destruct I as [I|[]]; auto|destruct I]. }
  assert (M3 : forall e, In e (log st1) -> In e l \/ In e (tables c) \/ e = EInput "position" (idt [b1; s1])).
  { intros e I. apply (Permutation_in _ L1), in_app_iff in I as [I|I]; auto. }
  assert (ND : nodemap (fold_left replay_step l' G1) = nodemap G1).
  { apply replay_nodes. intros nd t I. rewrite (gr_nodes _ _ _ _ _ _ GR). exact (faithful_N _ W2 F2 nd t (M2 _ I)). }
  assert (KG : dkeys (tensormap Gf) = dkeys (tensormap G1)).
  { pose proof (gr_tm _ _ _ _ _ _ GR) as T. clear -T. unfold dkeys. induction T as [|[k1 v1] [k2 v2] d e [E R] T IH]; cbn [map fst] in *; congruence. }
  assert (D2 : forall x, In x (defs l') -> dget (tensormap Gf) (fst x) = Some (snd x)).
  { intros x I. apply F2. unfold defs in *. apply in_flat_map in I as (e & I & J). apply in_flat_map. exists e. split; [apply M2, I|exact J]. }
  assert (KS : dkeys (tensormap (fold_left replay_step l' G1)) = dkeys (tensormap G1)).
  { apply replay_keys. intros x I. rewrite <- KG. apply dhas_keys. unfold dhas. rewrite (D2 x I). reflexivity. }
  assert (RE : forall e, In e l -> exists f, In f l' /\ evR b1 s1 b2 s2 e f) by exact (Forall2_l _ _ _ L3).
  eexists. eexists. exists o. split; [reflexivity|]. split; [reflexivity|]. unfold with_outputs, replay. cbn [nodemap tensormap initials g_input g_output].
  fold g0. fold G1. fold Gf. split; [exact ND|]. split; [rewrite ND; exact (gr_nodes _ _ _ _ _ _ GR)|]. split; [rewrite KS, KG; reflexivity|].
  split; [|split; [reflexivity|split; [reflexivity|split]]].
  - intros t NP. destruct (replay_get l' G1 t) as [(u & I & G)|[NI G]]; [rewrite G; symmetry; apply (D2 (t, u) I)|]. rewrite G.
    destruct (replay_get (log st1) g0 t) as [(u & I & Gu)|[_ Gu]].
    + unfold defs in I. apply in_flat_map in I as (e & I & J). destruct (M3 e I) as [M|[M|M]].
      * exfalso. destruct (RE e M) as (f & Mf & R). assert (exists u', In (t, u') (ev_defs f)) as (u' & Q).
        { destruct R; cbn [ev_defs] in *; [eauto|destruct J as [J|[]]; injection J as <- <-; eexists; left; reflexivity|]. apply in_map_iff in J as (w & [= <- <-] & J). eexists. apply in_map_iff. eauto. }
        apply (NI u'). unfold defs. apply in_flat_map. eauto.
      * fold G1 in Gu. rewrite Gu. symmetry. apply (proj2 (proj2 F2) (t, u)). destruct (Forall2_l _ _ _ RL e I) as (f & If & R).
        unfold defs. apply in_flat_map. exists f. split; [exact If|]. destruct M as [<-|[<-|[]]]; inversion R; subst; exact J.
      * subst e. cbn [ev_defs] in J. destruct J as [J|[]]. congruence.
    + fold G1 in Gu. rewrite Gu. cbn [g0 tensormap dget]. symmetry. apply dget_None. rewrite KG. apply dget_None. exact Gu.
  - exists (map fst (statics l')). split; [apply replay_initials|]. destruct F1 as (_ & I1 & _). fold G1 in I1. rewrite I1. split.
    + intros t I. apply in_map_iff in I as ([t' x] & <- & I). unfold statics in *. apply in_flat_map in I as (f & I & J). destruct (Forall2_r _ _ _ L3 f I) as (e & Ie & R).
      destruct R; cbn [ev_statics] in J; try contradiction. destruct J as [J|[]]. injection J as <- <-. apply in_map_iff. eexists. split; [|apply in_flat_map; eexists; split; [exact (M1 _ Ie)|left; reflexivity]]. reflexivity.
    + intros t I. apply in_map_iff in I as ([t' x] & <- & I). unfold statics in *. apply in_flat_map in I as (e & I & J). destruct (M3 e I) as [M|[M|M]].
      * left. destruct (RE e M) as (f & Mf & R). destruct R; cbn [ev_statics] in J; try contradiction. destruct J as [J|[]]. injection J as <- <-.
        apply in_map_iff. eexists. split; [|apply in_flat_map; eexists; split; [exact Mf|left; reflexivity]]. reflexivity.
      * right. destruct M as [<-|[<-|[]]]; cbn [ev_statics] in J; destruct J as [J|[]]; injection J as <- _; auto.
      * subst e. destruct J.
  - exists (map fst (flat_map ev_inputs l')). split; [apply replay_inputs|]. assert (I1 : g_input G1 = map fst (flat_map ev_inputs (log st1))) by apply replay_inputs. rewrite I1.
    split; [|split].
    + intros t I. apply in_map_iff in I as ([t' x] & <- & I). apply in_flat_map in I as (f & I & J). destruct (Forall2_r _ _ _ L3 f I) as (e & Ie & R).
      destruct R; cbn [ev_inputs] in J; try contradiction. destruct J as [J|[]]. injection J as <- <-. apply in_map_iff. eexists. split; [|apply in_flat_map; eexists; split; [exact (M1 _ Ie)|left; reflexivity]]. reflexivity.
    + apply in_map_iff. eexists. split; [|apply in_flat_map; eexists; split; [apply L4; left; reflexivity|left; reflexivity]]. reflexivity.
    + intros t I. apply in_map_iff in I as ([t' x] & <- & I). apply in_flat_map in I as (e & I & J). destruct (M3 e I) as [M|[M|M]].
      * left. destruct (RE e M) as (f & Mf & R). destruct R; cbn [ev_inputs] in J; try contradiction. destruct J as [J|[]]. injection J as <- <-.
        apply in_map_iff. eexists. split; [|apply in_flat_map; eexists; split; [exact Mf|left; reflexivity]]. reflexivity.
      * exfalso. destruct M as [<-|[<-|[]]]; destruct J.
      * right. subst e. cbn [ev_inputs] in J. destruct J as [J|[]]. injection J as <- _. reflexivity.
Qed.
End REBUILD.
(** A graph built twice names "ids" twice among its inputs, so it is not one that can be executed: its names are not distinct. *)
Theorem C120_executable_refuted : forall m c wm root fl b1 s1 b2 s2 g1 g, arch_config m c = SOk fl -> names_ok fl wm root ->
  (flag_or fl "pos_embedding" false = true -> flag_or fl "qk_rope" true = false) ->
  built m c b1 s1 wm root = SOk g1 -> rebuilt m c [(b1, s1); (b2, s2)] wm root = SOk g -> executable_graph g1 /\ ~ executable_graph g.
Proof.
  intros m c wm root fl b1 s1 b2 s2 g1 g A N P B R. split.
  - exact (proj1 (C69_built_graph_executable m c b1 s1 wm root fl g1 A N P B)).
  - destruct (C120_rebuild m c wm root fl b1 s1 b2 s2 g1 A N P B) as (g' & fr & lo & R' & _ & _ & _ & _ & _ & _ & _ & _ & ag & I & J & K & _).
    assert (g' = g) by congruence. subst g'. intros W. pose proof (eg_once _ W) as D. unfold tensor_names in D. apply NoDup_app_inv in D as (D & _ & _). rewrite I in D.
    apply NoDup_app_inv in D as (_ & _ & D). exact (D "ids" (J _ K) K).
Qed.
Definition llama : config := tiny "LlamaForCausalLM" None None.
(** A Llama builder used for (1, 16) and then for (2, 32): every tensor but "position" has the second sizes. *)
Theorem C120_position_refuted : exists m g1 g, new_builders ArchMap [llama] = SOk m /\ built m llama 1 16 WeightMap layer_root0 = SOk g1 /\
  rebuilt m llama [(1, 16); (2, 32)] WeightMap layer_root0 = SOk g /\
  option_map t_shape (dget (tensormap g) "ids") = Some [2; 32] /\ option_map t_shape (dget (tensormap g) "position") = Some [1; 16] /\
  g_input g = ["ids"; "position"; "ids"] /\ length (initials g1) = 14%nat /\ length (initials g) = 26%nat /\ nodemap g = nodemap g1 /\ length (nodemap g) = 19%nat.
Proof. do 3 eexists. split; [vm_compute; reflexivity|]. split; [vm_compute; reflexivity|]. split; [vm_compute; reflexivity|]. repeat split; vm_compute; reflexivity. Qed.
Example C120_applies : exists m fl g1, new_builders ArchMap [llama] = SOk m /\ arch_config m llama = SOk fl /\ names_ok fl WeightMap layer_root0 /\
  (flag_or fl "pos_embedding" false = true -> flag_or fl "qk_rope" true = false) /\ built m llama 1 16 WeightMap layer_root0 = SOk g1.
Proof.
  do 3 eexists. split; [vm_compute; reflexivity|]. split; [vm_compute; reflexivity|]. split; [apply default_names; reflexivity|]. split; [discriminate|]. vm_compute; reflexivity.
Qed.
(** A cache added a second time for another context length replaces the first one in the tensor table, but every attention node then reads
    it twice, and the input list names it twice. *)
Theorem C120_cache_twice_refuted : forall c fl b1 n1 b2 n2 g, let once := add_kv_cache c fl b2 n2 g in let g2 := add_kv_cache c fl b2 n2 (add_kv_cache c fl b1 n1 g) in
  (forall t, dget (tensormap g2) t = dget (tensormap once) t) /\ g_input g2 = g_input g ++ ["n_past"; "kv_cache"; "n_past"; "kv_cache"] /\ ~ executable_graph g2 /\
  (forall k nd, In (k, nd) (nodemap g) -> exists nd2, In (k, nd2) (nodemap g2) /\ n_name nd2 = n_name nd /\ n_op nd2 = n_op nd /\ n_out nd2 = n_out nd /\
     n_in nd2 = (if String.eqb (n_op nd) "SDPA" then n_in nd ++ ["n_past"; "kv_cache"; "n_past"; "kv_cache"] else n_in nd)).
Proof.
  intros c fl b1 n1 b2 n2 g. cbv zeta. assert (I : g_input (add_kv_cache c fl b2 n2 (add_kv_cache c fl b1 n1 g)) = g_input g ++ ["n_past"; "kv_cache"; "n_past"; "kv_cache"]).
  { unfold add_kv_cache. cbn [g_input]. rewrite <- app_assoc. reflexivity. }
  split; [|split; [exact I|split]].
  - intros t. unfold add_kv_cache. cbn [tensormap]. destruct (String.eqb_spec t "kv_cache") as [->|N1]; [rewrite !dget_dset_eq; reflexivity|]. rewrite !(dget_dset_neq _ _ "kv_cache") by congruence.
    destruct (String.eqb_spec t "n_past") as [->|N2]; [rewrite !dget_dset_eq; reflexivity|]. rewrite !dget_dset_neq by congruence. reflexivity.
  - intros W. pose proof (eg_once _ W) as D. unfold tensor_names in D. apply NoDup_app_inv in D as (D & _ & _). rewrite I in D. apply NoDup_app_inv in D as (_ & D & _).
    inversion D as [|x l N _]. apply N. cbn. auto.
  - intros k nd H. unfold add_kv_cache. cbn [nodemap]. rewrite map_map. set (F := fun x : string * node => _). exists (snd (F (k, nd))). split; [change (In (fst (F (k, nd)), snd (F (k, nd))) (map F (nodemap g))); rewrite <- surjective_pairing; apply in_map; exact H|].
    unfold F. cbn [fst snd]. destruct (String.eqb (n_op nd) "SDPA") eqn:E; cbn [n_name n_op n_in n_out].
    + rewrite E. cbn [n_name n_op n_in n_out]. rewrite <- app_assoc. repeat split.
    + rewrite E. repeat split.
Qed.
