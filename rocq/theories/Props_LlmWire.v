(** C101: the graph that [llm.Builder] makes is the transformer its configuration describes. *)
From Verif Require Import PyBase PyBaseFacts GraphModel CompressSpec ShapeModel FusionModel FusionProofs RegressModel RegressProofs LlmModel LlmProofs LlmSpec LlmNames LlmBuild LlmLayers LlmGraphProofs Props_Llm Props_LlmGraph LlmWireSpec LlmWire.
Open Scope Z_scope. Open Scope string_scope.

Lemma faithful_N l : executable_graph (fold_left replay_step l g0) -> faithful l -> forall nd t, In (ENode nd t) l -> dget (nodemap (fold_left replay_step l g0)) (n_name nd) = Some nd.
Proof.
  intros W (A & _ & _) nd t E. apply In_dget; [apply (eg_nodes _ W)|]. rewrite A. apply in_map_iff. exists (nd, t). split; [reflexivity|].
  unfold lnodes. apply in_flat_map. exists (ENode nd t). split; [exact E|]. left. reflexivity.
Qed.
Lemma faithful_S l : faithful l -> forall n t, In (EStatic n t) l -> In n (initials (fold_left replay_step l g0)) /\ dget (tensormap (fold_left replay_step l g0)) n = Some t.
Proof.
  intros (_ & B & C) n t E. split.
  - rewrite B. apply in_map_iff. exists (n, t). split; [reflexivity|]. apply in_flat_map. exists (EStatic n t). split; [exact E|]. left. reflexivity.
  - apply (C (n, t)). apply in_flat_map. exists (EStatic n t). split; [exact E|]. left. reflexivity.
Qed.
(** Whenever [build_graph] returns: the declared output is computed, through exactly the described chain of nodes, from
    "ids" (and "position"): embedding, [c_layers] layers in order each of which reads its predecessor, final norm, head. *)
Theorem C101_wiring : forall m c batch seq_len wm root fl g,
  arch_config m c = SOk fl -> names_ok fl wm root -> (flag_or fl "pos_embedding" false = true -> flag_or fl "qk_rope" true = false) ->
  built m c batch seq_len wm root = SOk g ->
  exists ranges logits, built_ranges m c batch seq_len wm root = SOk ranges /\ g_output g = [logits] /\ transformer g ranges fl c wm root logits.
Proof.
  intros m c batch seq_len wm root fl g A N P H. unfold built, built_ranges in *. rewrite A in *. cbn [sbind] in *.
  pose proof (build_ok fl c batch seq_len wm root True (fun _ => Logic.I) N P) as K. unfold wp in K.
  destruct (build_graph fl c batch seq_len wm root bst0) as [[o s]|e] eqn:E; cbn [sbind fst snd] in *; [|discriminate]. injection H as <-.
  destruct K as (W & _ & _ & _ & F). exists (bounds s), o. split; [reflexivity|]. split; [reflexivity|].
  eapply build_w with (L := log s); [| |exact E|split; apply incl_refl].
  - intros nd t I. exact (faithful_N _ W F nd t I).
  - intros n t I. exact (faithful_S _ F n t I).
Qed.
(** With the shipped tables, after any history of builders, for every architecture but GPT-2. *)
Theorem C101_shipped_tables : forall h c batch seq_len,
  c_arch c <> "GPT2LMHeadModel" -> c_rms c = true -> dhas ActMap (c_act c) = true ->
  exists m fl g ranges logits, new_builders ArchMap (h ++ [c]) = SOk m /\ arch_config m c = SOk fl /\ built m c batch seq_len WeightMap layer_root0 = SOk g /\
    built_ranges m c batch seq_len WeightMap layer_root0 = SOk ranges /\ g_output g = [logits] /\ transformer g ranges fl c WeightMap layer_root0 logits.
Proof.
  intros h c batch seq_len NG R A. destruct (C69_shipped_tables h c batch seq_len NG R A) as (m & g & E & G & _).
  destruct (flags_after_table h c NG) as (m' & f & E' & AF & F1 & F2 & F3). rewrite E in E'. injection E' as <-.
  assert (P : flag_or f "pos_embedding" false = true -> flag_or f "qk_rope" true = false) by (rewrite F2; discriminate).
  destruct (C101_wiring m c batch seq_len WeightMap layer_root0 f g AF (default_names f F1 F2) P G) as (ra & lo & RA & O & T).
  exists m, f, g, ra, lo. auto 10.
Qed.
(** A case: a mixture-of-experts model with gated attention; the last add reads the attention add and the experts. *)
Example C101_applies : exists m g, new_builders ArchMap [tiny "Qwen3_5MoeForCausalLM" None None] = SOk m /\
  built m (tiny "Qwen3_5MoeForCausalLM" None None) 1 16 WeightMap layer_root0 = SOk g /\ g_output g = ["lm_head.output"] /\
  computes g "lm_head" "MatMul" ["model.norm.output"; "lm_head.weight"] /\
  computes g "model.layers.0.mlp_add" "Add" ["model.layers.0.attention_add.output"; "model.layers.0.moe.output"].
Proof. eexists. eexists. split; [vm_compute; reflexivity|]. split; [vm_compute; reflexivity|]. repeat split; vm_compute; reflexivity. Qed.
