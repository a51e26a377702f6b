(** C50: LLM builders share a module-level architecture table. *)
From Verif Require Import PyBase PyBaseFacts GraphModel ShapeModel FusionModel FusionProofs RegressModel LlmModel LlmProofs.
Open Scope Z_scope. Open Scope string_scope.

(** ** C50 *)
(** Creating builders never fails, and after any history the flags a new builder sees are: the table's
    own values, overridden by the most recent configuration (of any model that uses the same table entry)
    that gives mlp_bias, resp. attention_bias. *)
Theorem C50_flags_after_history : forall h c, exists m f0 f,
  new_builders ArchMap (h ++ [c]) = SOk m /\ arch_config ArchMap c = SOk f0 /\ arch_config m c = SOk f /\
  forall k, dget f k =
    if String.eqb k "mlp_bias" then later (last_given c_mlp_bias (arch_key ArchMap c) (h ++ [c])) (dget f0 k)
    else if String.eqb k "qkv_bias" || String.eqb k "o_bias" then later (last_given c_attention_bias (arch_key ArchMap c) (h ++ [c])) (dget f0 k)
    else dget f0 k.
Proof.
  intros h c. destruct (builders_table (h ++ [c]) [] ArchMap table0) as (m & E & T). cbn [app] in T. destruct (arch_after _ _ c T) as (f0 & A0 & A).
  exists m, f0. eexists. repeat (split; [eassumption|]). intros k. unfold over, later.
  destruct (String.eqb_spec k "mlp_bias") as [K|N1]; [|destruct (String.eqb_spec k "qkv_bias") as [K|N2]; [|destruct (String.eqb_spec k "o_bias") as [K|N3]]];
    try subst k; destruct (last_given c_mlp_bias _ _) as [b|], (last_given c_attention_bias _ _) as [a|]; rewrite ?dget_dset; cbn [orb String.eqb Ascii.eqb Bool.eqb]; try reflexivity.
  all: rewrite ?(proj2 (String.eqb_neq _ _) N1), ?(proj2 (String.eqb_neq _ _) N2), ?(proj2 (String.eqb_neq _ _) N3); reflexivity.
Qed.
(** The graph is the one a fresh process would build, provided no earlier model with the same table entry
    gave an option that this one leaves out. *)
Theorem C50_independent_partial : forall h c m m1 batch seq wm root,
  (forall d, In d h -> same_arch d c = true ->
     (c_mlp_bias c = None -> c_mlp_bias d = None) /\ (c_attention_bias c = None -> c_attention_bias d = None)) ->
  new_builders ArchMap (h ++ [c]) = SOk m -> new_builders ArchMap [c] = SOk m1 ->
  built m c batch seq wm root = built m1 c batch seq wm root.
Proof.
  intros h c m m1 batch seq wm root H E E1.
  destruct (builders_table (h ++ [c]) [] ArchMap table0) as (m' & E' & T). assert (m' = m) by congruence. subst m'. cbn [app] in T.
  destruct (builders_table [c] [] ArchMap table0) as (m' & E1' & T1). assert (m' = m1) by congruence. subst m'. cbn [app] in T1.
  destruct (arch_after _ _ c T) as (f0 & A0 & A). destruct (arch_after _ _ c T1) as (f0' & A0' & A1). assert (f0' = f0) by congruence. subst f0'.
  unfold built. rewrite A, A1. rewrite !last_given_snoc. cbn [last_given]. rewrite String.eqb_refl.
  assert (X : forall sel, (forall d, In d h -> same_arch d c = true -> sel c = None -> sel d = None) ->
    later (sel c) (last_given sel (arch_key ArchMap c) h) = later None (sel c)).
  { intros sel Hs. destruct (sel c) as [b|] eqn:S; [reflexivity|]. cbn [later]. clear -Hs S. induction h as [|d h IH]; [reflexivity|]. cbn [last_given].
    rewrite IH by (intros; apply Hs; auto; right; auto). cbn [later]. destruct (String.eqb (arch_key ArchMap d) (arch_key ArchMap c)) eqn:Q; [|reflexivity].
    apply Hs; [left; reflexivity|exact Q|reflexivity]. }
  rewrite (X c_mlp_bias), (X c_attention_bias); [reflexivity| |]; intros d I S; apply (H d I S).
Qed.
(** A builder that already exists keeps its flags if later models with its table entry give the same options
    as itself, or none. *)
Theorem C50_existing_partial : forall h1 c h2 m m1 batch seq wm root,
  (forall d, In d h2 -> same_arch d c = true -> c_mlp_bias d = None /\ c_attention_bias d = None) ->
  new_builders ArchMap (h1 ++ [c]) = SOk m1 -> new_builders m1 h2 = SOk m ->
  built m c batch seq wm root = built m1 c batch seq wm root.
Proof.
  intros h1 c h2 m m1 batch seq wm root H E1 E.
  destruct (builders_table (h1 ++ [c]) [] ArchMap table0) as (m' & E1' & T1). assert (m' = m1) by congruence. subst m'. cbn [app] in T1.
  destruct (builders_table h2 _ _ T1) as (m' & E' & T). assert (m' = m) by congruence. subst m'.
  destruct (arch_after _ _ c T) as (f0 & A0 & A). destruct (arch_after _ _ c T1) as (f0' & A0' & A1). assert (f0' = f0) by congruence. subst f0'.
  unfold built. rewrite A, A1. clear -H.
  assert (X : forall sel hh, (forall d, In d h2 -> same_arch d c = true -> sel d = None) -> last_given sel (arch_key ArchMap c) (hh ++ h2) = last_given sel (arch_key ArchMap c) hh).
  { intros sel. clear H. induction h2 as [|d h2 IH]; intros hh Hs; [rewrite app_nil_r; reflexivity|].
    replace (hh ++ d :: h2)%list with ((hh ++ [d]) ++ h2)%list by (rewrite <- app_assoc; reflexivity). rewrite IH by (intros; apply Hs; auto; right; auto).
    rewrite last_given_snoc. destruct (String.eqb (arch_key ArchMap d) (arch_key ArchMap c)) eqn:Q; [|reflexivity]. rewrite (Hs d); [reflexivity|left; reflexivity|exact Q]. }
  rewrite (X c_mlp_bias), (X c_attention_bias); [reflexivity| |]; intros d I S; apply (H d I S).
Qed.
(** A one-layer model. *)
Definition tiny (arch : string) (mb ab : option bool) : config := {|
  c_arch := arch; c_mlp_bias := mb; c_attention_bias := ab; c_model_type := "llama"; c_hidden := 64; c_inter := 256; c_heads := 8; c_kv_heads := 2;
  c_layers := 1; c_vocab := 1000; c_head_dim := None; c_n_positions := 128; c_act := "silu"; c_rms := true; c_lneps := false; c_layer_types := None;
  c_max_pos := None; c_rotary_dim := None; c_final_cap := false; c_experts := None; c_moe_inter := None; c_shared_inter := None; c_q_lora := None; c_o_lora := None;
  c_o_groups := None; c_lin_q_heads := None; c_lin_v_heads := None; c_lin_qk_dim := None; c_lin_v_dim := None |}.
Example C50_applies : exists m g, new_builders ArchMap ([tiny "Qwen2ForCausalLM" None (Some true); tiny "GPTJForCausalLM" (Some true) None] ++ [tiny "LlamaForCausalLM" None None]) = SOk m /\
  built m (tiny "LlamaForCausalLM" None None) 1 16 WeightMap layer_root0 = SOk g /\ length (nodemap g) = 19%nat /\ length (initials g) = 14%nat.
Proof. eexists. eexists. split; [vm_compute; reflexivity|]. split; [vm_compute; reflexivity|]. split; reflexivity. Qed.
(** Building a model of an unlisted architecture with attention_bias changes every later Llama graph
    (four more bias tensors), and the graph of a Llama builder that already exists. *)
Theorem C50_history_refuted : exists c d m0 m1 g0 g1, c <> d /\
  new_builders ArchMap [c] = SOk m0 /\ new_builders ArchMap [d; c] = SOk m1 /\
  built m0 c 1 16 WeightMap layer_root0 = SOk g0 /\ built m1 c 1 16 WeightMap layer_root0 = SOk g1 /\
  length (initials g1) = (length (initials g0) + 4)%nat.
Proof.
  exists (tiny "LlamaForCausalLM" None None), (tiny "MistralForCausalLM" None (Some true)). do 4 eexists. split; [discriminate|].
  split; [vm_compute; reflexivity|]. split; [vm_compute; reflexivity|]. split; [vm_compute; reflexivity|]. split; [vm_compute; reflexivity|]. reflexivity.
Qed.
Theorem C50_existing_refuted : exists c d m0 m1 g0 g1,
  new_builders ArchMap [c] = SOk m0 /\ new_builders m0 [d] = SOk m1 /\
  built m0 c 1 16 WeightMap layer_root0 = SOk g0 /\ built m1 c 1 16 WeightMap layer_root0 = SOk g1 /\ initials g0 <> initials g1.
Proof.
  exists (tiny "LlamaForCausalLM" None None), (tiny "MistralForCausalLM" None (Some true)). do 4 eexists.
  split; [vm_compute; reflexivity|]. split; [vm_compute; reflexivity|]. split; [vm_compute; reflexivity|]. split; [vm_compute; reflexivity|]. discriminate.
Qed.
