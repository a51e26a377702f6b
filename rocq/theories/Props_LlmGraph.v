(** C69: the graphs of [llm.Builder]. *)
From Coq Require Import Permutation.
From Verif Require Import PyBase PyBaseFacts GraphModel CompressSpec ShapeModel FusionModel FusionProofs RegressModel RegressProofs LlmModel LlmProofs LlmSpec LlmNames LlmBuild LlmLayers LlmGraphProofs
  TopSortModel TopSortSpec OrderSpec Decide Props_Llm.
Open Scope Z_scope. Open Scope string_scope.

Definition logits_ok (batch seq_len vocab : Z) (g : graph) : Prop :=
  exists o tn, g_output g = [o] /\ In o (outs_of (nodes_of g)) /\ dget (tensormap g) o = Some tn /\ t_shape tn = [batch; seq_len; vocab].
Lemma built_spec m c batch seq_len wm root fl : arch_config m c = SOk fl -> names_ok fl wm root ->
  (flag_or fl "pos_embedding" false = true -> flag_or fl "qk_rope" true = false) ->
  match built m c batch seq_len wm root with
  | SOk g => executable_graph g /\ logits_ok batch seq_len (c_vocab c) g /\ (forall t, In t (tensor_names g) -> has_dot t = true \/ t = "ids" \/ t = "position")
  | SRaise _ => ~ buildable fl c wm
  end.
Proof.
  intros A N P. unfold built. rewrite A. cbn [sbind].
  pose proof (build_ok fl c batch seq_len wm root (~ buildable fl c wm) (fun x => x) N P) as H. unfold wp in H.
  destruct (build_graph fl c batch seq_len wm root bst0) as [[o s]|e]; cbn [sbind fst snd] in *; [|exact H].
  destruct H as (W & O & (tn & G & S) & D & _). split; [|split].
  - destruct W as [W1 W2 W3 W4 W5 W6]. constructor; assumption.
  - exists o, tn. auto.
  - exact D.
Qed.
(** Whenever [build_graph] returns, the graph can be executed in construction order: names are distinct, each
    tensor is defined once, everything a node reads exists before it, every tensor is described, and the single
    declared output is a node's result of shape (batch, sequence, vocabulary).  The weight-name map must give
    distinct names (see [names_ok]); position embeddings must not be combined with rotary ones. *)
Theorem C69_built_graph_executable : forall m c batch seq_len wm root fl g,
  arch_config m c = SOk fl -> names_ok fl wm root -> (flag_or fl "pos_embedding" false = true -> flag_or fl "qk_rope" true = false) ->
  built m c batch seq_len wm root = SOk g -> executable_graph g /\ logits_ok batch seq_len (c_vocab c) g.
Proof. intros m c batch seq_len wm root fl g A N P E. pose proof (built_spec m c batch seq_len wm root fl A N P) as H. rewrite E in H. tauto. Qed.
(** Building does not raise for a configuration with a known activation, a norm epsilon and the needed names. *)
Theorem C69_build_succeeds : forall m c batch seq_len wm root fl,
  arch_config m c = SOk fl -> names_ok fl wm root -> (flag_or fl "pos_embedding" false = true -> flag_or fl "qk_rope" true = false) ->
  buildable fl c wm -> exists g, built m c batch seq_len wm root = SOk g.
Proof. intros m c batch seq_len wm root fl A N P K. pose proof (built_spec m c batch seq_len wm root fl A N P) as H. destruct (built m c batch seq_len wm root); [eauto|contradiction]. Qed.

Lemma table_flags k f : In (k, f) ArchMap -> k <> "GPT2LMHeadModel" ->
  flag_or f "post_attn_norm" false = false /\ flag_or f "pos_embedding" false = false /\
  forall x, In x ["mlp_gate"; "norm_scale"; "norm_bias"; "fuse_qkv"; "qkv_bias"; "o_bias"; "mlp_bias"; "lm_head_bias"] -> dhas f x = true.
Proof.
  intros I N. assert (X : forallb (fun kf => String.eqb (fst kf) "GPT2LMHeadModel" || (negb (flag_or (snd kf) "post_attn_norm" false) && negb (flag_or (snd kf) "pos_embedding" false)
      && forallb (dhas (snd kf)) ["mlp_gate"; "norm_scale"; "norm_bias"; "fuse_qkv"; "qkv_bias"; "o_bias"; "mlp_bias"; "lm_head_bias"])) ArchMap = true) by (vm_compute; reflexivity).
  rewrite forallb_forall in X. specialize (X _ I). cbn [fst snd] in X. apply orb_prop in X as [X|X]; [apply String.eqb_eq in X; contradiction|].
  apply andb_prop in X as [X X3]. apply andb_prop in X as [X1 X2]. apply negb_true_iff in X1. apply negb_true_iff in X2. rewrite forallb_forall in X3. auto.
Qed.
Lemma flags_after_table h c : c_arch c <> "GPT2LMHeadModel" -> exists m f, new_builders ArchMap (h ++ [c]) = SOk m /\ arch_config m c = SOk f /\
  flag_or f "post_attn_norm" false = false /\ flag_or f "pos_embedding" false = false /\
  forall x, In x ["mlp_gate"; "norm_scale"; "norm_bias"; "fuse_qkv"; "qkv_bias"; "o_bias"; "mlp_bias"; "lm_head_bias"] -> dhas f x = true.
Proof.
  intros NG. destruct (C50_flags_after_history h c) as (m & f0 & f & E & A0 & A & F). exists m, f. split; [exact E|]. split; [exact A|].
  assert (T : In (arch_key ArchMap c, f0) ArchMap) by (apply dget_In; unfold arch_config, dlook in A0; destruct (dget ArchMap (arch_key ArchMap c)); congruence).
  assert (NK : arch_key ArchMap c <> "GPT2LMHeadModel") by (unfold arch_key; destruct (dhas ArchMap (c_arch c)); [exact NG|discriminate]).
  destruct (table_flags _ _ T NK) as (T1 & T2 & T3). unfold flag_or in *. rewrite (F "post_attn_norm"), (F "pos_embedding"). cbn [String.eqb Ascii.eqb Bool.eqb orb].
  split; [exact T1|]. split; [exact T2|]. intros x I. specialize (T3 x I). unfold dhas in *. rewrite F.
  destruct (String.eqb x "mlp_bias"); [unfold later; destruct (last_given c_mlp_bias _ _); auto|]. destruct (String.eqb x "qkv_bias" || String.eqb x "o_bias"); [|exact T3].
  unfold later. destruct (last_given c_attention_bias _ _); auto.
Qed.
(** With the shipped tables: after any history of builders, every configuration of every architecture except
    GPT-2 (layer counts, sizes, layer types, mixtures of experts, latent attention...) with a known activation
    and an rms norm builds, and builds an executable graph. *)
Theorem C69_shipped_tables : forall h c batch seq_len,
  c_arch c <> "GPT2LMHeadModel" -> c_rms c = true -> dhas ActMap (c_act c) = true ->
  exists m g, new_builders ArchMap (h ++ [c]) = SOk m /\ built m c batch seq_len WeightMap layer_root0 = SOk g /\
    executable_graph g /\ logits_ok batch seq_len (c_vocab c) g.
Proof.
  intros h c batch seq_len NG R A. destruct (flags_after_table h c NG) as (m & f & E & AF & F1 & F2 & F3). exists m.
  pose proof (default_names f F1 F2) as N. assert (P : flag_or f "pos_embedding" false = true -> flag_or f "qk_rope" true = false) by (rewrite F2; discriminate).
  assert (K : buildable f c WeightMap).
  { split; [exact F3|]. split; [|split; [rewrite F2; discriminate|split; [left; exact R|exact A]]].
    intros sk I. assert (X : forallb (fun sk => match given WeightMap (fst sk) (snd sk) with [] => false | _ => true end) [("embedding", "embed"); ("attention", "input_norm"); ("attention", "qkv"); ("attention", "q"); ("attention", "k"); ("attention", "v"); ("attention", "o");
     ("attention", "output_norm"); ("mlp", "input_norm"); ("mlp", "gate_up"); ("mlp", "gate"); ("mlp", "up"); ("mlp", "down"); ("mlp", "output_norm");
     ("lm_head", "input_norm"); ("lm_head", "lm")] = true) by (vm_compute; reflexivity).
    rewrite forallb_forall in X. specialize (X _ I). intros Y. rewrite Y in X. discriminate. }
  destruct (C69_build_succeeds m c batch seq_len WeightMap layer_root0 f AF N P K) as (g & G). exists g. split; [exact E|]. split; [exact G|].
  exact (C69_built_graph_executable _ _ _ _ _ _ _ _ AF N P G).
Qed.
(** Adding a KV cache keeps the graph executable, and only adds the two inputs. *)
Theorem C69_kv_cache : forall m c batch seq_len wm root fl g n_context,
  arch_config m c = SOk fl -> names_ok fl wm root -> (flag_or fl "pos_embedding" false = true -> flag_or fl "qk_rope" true = false) ->
  built m c batch seq_len wm root = SOk g ->
  let g' := add_kv_cache c fl batch n_context g in
  executable_graph g' /\ map fst (nodemap g') = map fst (nodemap g) /\ g_input g' = (g_input g ++ ["n_past"; "kv_cache"])%list /\
  initials g' = initials g /\ outs_of (nodes_of g') = outs_of (nodes_of g).
Proof.
  intros m c batch seq_len wm root fl g n_context A N P E g'. pose proof (built_spec m c batch seq_len wm root fl A N P) as H. rewrite E in H. destruct H as (W & _ & D).
  apply kv_cache_executable; [exact W| |]; intros X; destruct (D _ X) as [Y|[Y|Y]]; discriminate.
Qed.
(** The memory planner's and the reorderer's hypotheses hold of every such graph. *)
Theorem C69_plannable : forall g, executable_graph g ->
  exists g', graph_reorder_nodes g = Some g' /\ Permutation (nodemap g') (nodemap g) /\ wf_plan_input g' /\ topologically_ordered g'.
Proof. exact eg_plan. Qed.
Example C69_applies : exists m g, new_builders ArchMap [tiny "Qwen3_5MoeForCausalLM" None None] = SOk m /\ built m (tiny "Qwen3_5MoeForCausalLM" None None) 1 16 WeightMap layer_root0 = SOk g /\
  length (nodemap g) = 21%nat /\ length (initials g) = 29%nat.
Proof. eexists. eexists. split; [vm_compute; reflexivity|]. split; [vm_compute; reflexivity|]. split; reflexivity. Qed.

(** The weight map that benchmark/llm_test.py:1251-1279 passes for GPT-2. *)
Definition Gpt2Map : dict (dict string) := [
  ("embedding", [("embed", "wte"); ("pos", "wpe")]);
  ("attention", [("input_norm", "ln_1"); ("qkv", "attn.c_attn"); ("q", "attn.q_proj"); ("k", "attn.k_proj"); ("v", "attn.v_proj"); ("o", "attn.c_proj"); ("output_norm", "post_attention_layernorm")]);
  ("mlp", [("input_norm", "ln_2"); ("gate", "mlp.gate_proj"); ("up", "mlp.c_fc"); ("down", "mlp.c_proj"); ("gate_up", "mlp.gate_up_proj"); ("output_norm", "post_feedforward_layernorm")]);
  ("lm_head", [("input_norm", "model.norm"); ("lm", "lm_head")])].
Theorem C69_gpt2_map : forall c m batch seq_len g, c_arch c = "GPT2LMHeadModel" -> new_builders ArchMap [c] = SOk m -> built m c batch seq_len Gpt2Map "h." = SOk g ->
  executable_graph g /\ logits_ok batch seq_len (c_vocab c) g.
Proof.
  intros c m batch seq_len g C E G. destruct (C50_flags_after_history [] c) as (m' & f0 & f & E' & A0 & A & F). cbn [app] in E'. assert (m' = m) by congruence. subst m'.
  unfold arch_config, arch_key in A0. rewrite C in A0. cbv in A0. injection A0 as <-.
  assert (P : flag_or f "pos_embedding" false = true /\ flag_or f "qk_rope" true = false /\ flag_or f "post_attn_norm" false = false).
  { unfold flag_or. rewrite !F. cbn. auto. }
  destruct P as (P1 & P2 & P3). eapply C69_built_graph_executable; [exact A| |intros _; exact P2|exact G].
  unfold names_ok, layer_segments, global_segments. rewrite P1, P3. split; [|split].
  - destruct (flag_or f "post_mlp_norm" false); vm_compute; repeat (constructor; [cbn; intuition discriminate|]); constructor.
  - vm_compute. repeat (constructor; [cbn; intuition discriminate|]); constructor.
  - intros n Hn. vm_compute in Hn. repeat (destruct Hn as [<-|Hn]; [reflexivity|]). contradiction.
Qed.
(** With the default weight map GPT-2 raises a KeyError: the map has no name for the position embedding. *)
Theorem C69_gpt2_default_refuted : forall c m batch seq_len, c_arch c = "GPT2LMHeadModel" -> new_builders ArchMap [c] = SOk m ->
  built m c batch seq_len WeightMap layer_root0 = SRaise KeyErr.
Proof.
  intros c m batch seq_len C E. destruct (C50_flags_after_history [] c) as (m' & f0 & f & E' & A0 & A & F). cbn [app] in E'. assert (m' = m) by congruence. subst m'.
  unfold arch_config, arch_key in A0. rewrite C in A0. cbv in A0. injection A0 as <-.
  unfold built. rewrite A. cbn [sbind]. assert (P : flag_or f "pos_embedding" false = true) by (unfold flag_or; rewrite F; reflexivity).
  unfold build_graph. rewrite P. reflexivity.
Qed.
Lemma NoDup_nodupb l : NoDup l -> nodupb l = true.
Proof. induction l as [|x l IH]; intros N; [reflexivity|]. inversion N; subst. cbn. rewrite IH by assumption. rewrite (proj2 (memb_nIn x l)) by assumption. reflexivity. Qed.
(** A norm after attention with the default weight map: both norms of a layer get the same name, so that one
    of the two nodes is lost, a weight is registered twice, and what is left is cyclic: [save_graph], which
    reorders the nodes, keeps 9 of 20 nodes. *)
Definition post_norm_table : dict flags := dset ArchMap "Gemma2ForCausalLM" (base_flags true true false false false false false false ++ [("post_mlp_norm", true); ("post_attn_norm", true)])%list.
Theorem C69_post_norm_refuted : exists m g g', new_builders post_norm_table [tiny "Gemma2ForCausalLM" None None] = SOk m /\
  built m (tiny "Gemma2ForCausalLM" None None) 1 16 WeightMap layer_root0 = SOk g /\ ~ executable_graph g /\
  graph_reorder_nodes g = Some g' /\ length (nodemap g) = 20%nat /\ length (nodemap g') = 9%nat.
Proof.
  eexists. eexists. eexists. split; [vm_compute; reflexivity|]. split; [vm_compute; reflexivity|].
  assert (X : forall P A B : Prop, (P -> A) -> ~ A -> B -> ~ P /\ B) by (intros; tauto).
  match goal with |- ~ executable_graph ?g /\ _ => apply (X _ (NoDup (tensor_names g))); [apply eg_once| |] end.
  - intros N. apply NoDup_nodupb in N. vm_compute in N. discriminate.
  - split; [vm_compute; reflexivity|]. split; vm_compute; reflexivity.
Qed.
