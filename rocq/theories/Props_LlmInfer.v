(** C104, C105: builder graphs at different batch sizes and sequence lengths. *)
From Verif Require Import PyBase PyBaseFacts GraphModel CompressSpec ShapeModel FusionModel FusionProofs RegressModel RegressProofs LlmModel LlmProofs LlmSpec LlmNames LlmBuild LlmLayers LlmGraphProofs
  LlmCost LlmCostSpec LlmCostProofs LlmRel InferModel LlmInfer LlmInferProofs Props_Llm Props_LlmGraph Props_LlmCost.
Open Scope string_scope. Open Scope Z_scope.

(** ** C104 *)
(** the shape of a tensor at sizes [b1], [s1] and at sizes [b2], [s2]: the same for a weight; otherwise only the two
    leading dimensions differ *)
Definition resized (b1 s1 b2 s2 : Z) (t u : tensor) : Prop :=
  t_esize t = t_esize u /\ t_kind t = t_kind u /\
  (t_shape t = t_shape u \/ t_kind t = DYNAMIC /\ exists rest, t_shape t = b1 :: s1 :: rest /\ t_shape u = b2 :: s2 :: rest).
Lemma pair_built m c b1 s1 b2 s2 wm root fl g : arch_config m c = SOk fl -> built m c b1 s1 wm root = SOk g ->
  exists h, built m c b2 s2 wm root = SOk h /\ graph_rel b1 s1 b2 s2 g h /\ g_output g = g_output h /\ built_ranges m c b1 s1 wm root = built_ranges m c b2 s2 wm root.
Proof.
  intros A H. pose proof (build_rel b1 s1 b2 s2 fl c wm root bst0 bst0) as R. unfold built, built_ranges in *. rewrite A in *. cbn [sbind] in *.
  destruct (build_graph fl c b1 s1 wm root bst0) as [[o st]|e]; cbn [sbind fst snd] in *; [|discriminate]. injection H as <-.
  destruct (build_graph fl c b2 s2 wm root bst0) as [[o' st']|e]; cbn [sbind fst snd] in *.
  - destruct R as [-> [L _ _ B0 _]]. { constructor; try reflexivity. constructor. }
    eexists. split; [reflexivity|]. split; [|split; [reflexivity|rewrite B0; reflexivity]].
    pose proof (replay_rel b1 s1 b2 s2 _ _ L (mkGraph [] [] [] [] [] [] [] []) (mkGraph [] [] [] [] [] [] [] [])) as G. destruct G as [G1 G2 G3 G4]; [constructor; auto; constructor|]. constructor; assumption.
  - exfalso. apply R. constructor; try reflexivity. constructor.
Qed.
(** Nodes, wiring, weights, interface and slice bounds of a built graph do not depend on the batch size and the
    sequence length; neither does whether [build_graph] succeeds. Only the leading two dimensions of tensors that are not
    weights differ. *)
Theorem C104_independent_of_sizes : forall m c b1 s1 b2 s2 wm root g,
  built m c b1 s1 wm root = SOk g ->
  exists h, built m c b2 s2 wm root = SOk h /\
    nodemap h = nodemap g /\ initials h = initials g /\ g_input h = g_input g /\ g_output h = g_output g /\
    built_ranges m c b2 s2 wm root = built_ranges m c b1 s1 wm root /\
    forall t, match dget (tensormap g) t, dget (tensormap h) t with
              | Some x, Some y => resized b1 s1 b2 s2 x y
              | None, None => True
              | _, _ => False
              end.
Proof.
  intros m c b1 s1 b2 s2 wm root g H. assert (exists fl, arch_config m c = SOk fl) as (fl & A) by (unfold built in H; destruct (arch_config m c); [eauto|discriminate]).
  destruct (pair_built m c b1 s1 b2 s2 wm root fl g A H) as (h & B & [G1 G2 G3 G4] & O & R). exists h. repeat split; auto.
  intros t. pose proof (entry_get b1 s1 b2 s2 _ _ t G4) as E. destruct (dget (tensormap g) t) as [x|], (dget (tensormap h) t) as [y|]; auto.
  destruct E as [->|[(d & -> & ->)|[-> ->]]]; (split; [reflexivity|split; [reflexivity|]]); [left; reflexivity|right|right]; (split; [reflexivity|]); eexists; split; reflexivity.
Qed.
Theorem C104_same_failure : forall m c b1 s1 b2 s2 wm root e, built m c b1 s1 wm root = SRaise e -> built m c b2 s2 wm root = SRaise e.
Proof.
  intros m c b1 s1 b2 s2 wm root e H. unfold built in *. destruct (arch_config m c) as [fl|]; [|exact H]. cbn [sbind] in *. pose proof (build_rel b1 s1 b2 s2 fl c wm root bst0 bst0) as R.
  destruct (build_graph fl c b1 s1 wm root bst0) as [[o st]|e1]; cbn [sbind] in *; [discriminate|].
  destruct (build_graph fl c b2 s2 wm root bst0) as [[o' st']|e2]; cbn [sbind] in *; [exfalso; apply R; constructor; try reflexivity; constructor|].
  injection H as ->. rewrite R; [reflexivity|]. constructor; try reflexivity. constructor.
Qed.

(** ** C105 *)
(** all described sizes are sizes: not negative, and below 2^53 - 1 (the range in which the division inside Slice is exact) *)
Definition in_range (g : graph) : Prop := forall t tn d, dget (tensormap g) t = Some tn -> In d (t_shape tn) -> 0 <= d < 2 ^ 53 - 1.
(** [shape_infer] on a graph built for one batch size and sequence length, given inputs of another, succeeds and leaves on
    every tensor exactly the shape that building for the other sizes records. *)
Theorem C105_reinfer : forall m c b1 s1 b2 s2 wm root fl g h ranges inputs,
  arch_config m c = SOk fl -> names_ok fl wm root -> (flag_or fl "pos_embedding" false = true -> flag_or fl "qk_rope" true = false) -> sane fl c ->
  built m c b1 s1 wm root = SOk g -> built_ranges m c b1 s1 wm root = SOk ranges -> built m c b2 s2 wm root = SOk h -> in_range h ->
  (forall k v, In (k, v) inputs -> In k (g_input g) /\ fst v = [b2; s2]) -> (forall k, In k (g_input g) -> In k (map fst inputs)) ->
  exists tm, reinfer c g ranges inputs = SOk tm /\ forall t, option_map tr_shape (dget tm t) = option_map t_shape (dget (tensormap h) t).
Proof.
  intros m c b1 s1 b2 s2 wm root fl g h ranges inputs A N P Sn HG HR HH IR H1 H2. destruct (pair_built m c b1 s1 b2 s2 wm root fl g A HG) as (h' & B & G & _ & R). rewrite HH in B. injection B as <-.
  destruct (run_facts m c b2 s2 wm root fl h A N P HH) as (ra & F). pose proof (f_ranges _ _ _ _ _ _ _ _ _ F) as E. rewrite <- R, HR in E. injection E as <-.
  eapply reinfer_ok; eauto. intros t sh (x & Ex & <-). apply Forall_forall. intros d Hd. eapply IR; eauto.
Qed.
(** Without inputs it reproduces the shapes the builder recorded. *)
Theorem C105_reproduces : forall m c b s wm root fl g ranges,
  arch_config m c = SOk fl -> names_ok fl wm root -> (flag_or fl "pos_embedding" false = true -> flag_or fl "qk_rope" true = false) -> sane fl c ->
  built m c b s wm root = SOk g -> built_ranges m c b s wm root = SOk ranges -> in_range g ->
  exists tm, reinfer c g ranges [] = SOk tm /\ forall t, option_map tr_shape (dget tm t) = option_map t_shape (dget (tensormap g) t).
Proof.
  intros m c b s wm root fl g ranges A N P Sn HG HR IR. destruct (pair_built m c b s b s wm root fl g A HG) as (h' & B & G & _ & R). rewrite HG in B. injection B as <-.
  destruct (run_facts m c b s wm root fl g A N P HG) as (ra & F). pose proof (f_ranges _ _ _ _ _ _ _ _ _ F) as E. rewrite HR in E. injection E as <-.
  eapply reinfer_ok; eauto; [|intros k v []]. intros t sh (x & Ex & <-). apply Forall_forall. intros d Hd. eapply IR; eauto.
Qed.
(** A gated mixture-of-experts model (its attention slices the fused projection), built for one sequence of 16 and inferred for
    two of 40. *)
Lemma check_range g : forallb (fun kt => forallb (fun d => (0 <=? d) && (d <? 2 ^ 53 - 1)) (t_shape (snd kt))) (tensormap g) = true -> in_range g.
Proof.
  intros H t tn d E I. rewrite forallb_forall in H. specialize (H _ (dget_In _ _ _ _ E)). cbn [snd] in H. rewrite forallb_forall in H. specialize (H d I). apply andb_true_iff in H as [X Y]. apply Z.leb_le in X. apply Z.ltb_lt in Y. lia.
Qed.
Example C105_applies : exists m g ranges tm, new_builders ArchMap [tiny "Qwen3_5MoeForCausalLM" None None] = SOk m /\
  built m (tiny "Qwen3_5MoeForCausalLM" None None) 1 16 WeightMap layer_root0 = SOk g /\
  built_ranges m (tiny "Qwen3_5MoeForCausalLM" None None) 1 16 WeightMap layer_root0 = SOk ranges /\
  In ("model.layers.0.q.slice", (0, 64)) ranges /\
  reinfer (tiny "Qwen3_5MoeForCausalLM" None None) g ranges [("ids", ([2; 40], repeat 0 80)); ("position", ([2; 40], repeat 0 80))] = SOk tm /\
  option_map tr_shape (dget tm "model.layers.0.gate.slice.output") = Some [2; 40; 64] /\ option_map tr_shape (dget tm "lm_head.output") = Some [2; 40; 1000].
Proof.
  set (c := tiny "Qwen3_5MoeForCausalLM" None None).
  destruct (C69_shipped_tables [] c 1 16) as (m & g & E & B & _); [discriminate|reflexivity|reflexivity|].
  destruct (flags_after_table [] c) as (m' & f & E' & AF & F1 & F2 & _); [discriminate|]. cbn [app] in *. rewrite E in E'. injection E' as <-.
  destruct (C104_independent_of_sizes m c 1 16 2 40 _ _ g B) as (h & BH & _).
  destruct (run_facts m c 1 16 WeightMap layer_root0 f g AF (default_names f F1 F2) ltac:(rewrite F2; discriminate) B) as (ra & F). pose proof (f_ranges _ _ _ _ _ _ _ _ _ F) as HR.
  assert (E2 := E). vm_compute in E2. injection E2 as <-.
  assert (IN : g_input g = ["ids"; "position"]) by (assert (B2 := B); vm_compute in B2; injection B2 as <-; reflexivity).
  assert (IR : in_range h) by (assert (B2 := BH); vm_compute in B2; injection B2 as <-; apply check_range; vm_compute; reflexivity).
  assert (IRA : In ("model.layers.0.q.slice", (0, 64)) ra) by (assert (B2 := HR); vm_compute in B2; injection B2 as <-; cbn; tauto).
  destruct (C105_reinfer _ c 1 16 2 40 _ _ f g h ra [("ids", ([2; 40], repeat 0 80)); ("position", ([2; 40], repeat 0 80))] AF (default_names f F1 F2) ltac:(rewrite F2; discriminate) (tiny_sane _ _ _ f) B HR BH IR) as (tm & R & S0).
  { rewrite IN. intros k v [H|[H|[]]]; injection H as <- <-; cbn; auto. }
  { rewrite IN. intros k Hk. exact Hk. }
  eexists. exists g, ra, tm. split; [exact E|]. split; [exact B|]. split; [exact HR|]. split; [exact IRA|]. split; [exact R|].
  rewrite !S0. assert (B2 := BH). vm_compute in B2. injection B2 as <-. split; reflexivity.
Qed.
