(** C78, C79, C80: shapes, size and cost of the graphs of [llm.Builder]. *)
From Coq Require Import Znumtheory Reals Permutation.
From Verif Require Import PyBase PyBaseFacts GraphModel CompressSpec ShapeModel FloatPy FusionModel FusionProofs RegressModel RegressProofs ProfileModel ProfileProofs LlmModel LlmProofs LlmSpec LlmBuild LlmLayers LlmGraphProofs
  TopSortModel TopSortSpec OrderSpec OrderProofs LlmCost LlmCostSpec LlmCostProofs LlmCostOps LlmCostTop LlmCostRows Props_Llm Props_LlmGraph.
Open Scope string_scope. Open Scope Z_scope.

Definition kv_cache_of (c : config) (fl : flags) (batch n_context : Z) : list tensor :=
  [mkTensor DYNAMIC [] 8; mkTensor DYNAMIC [batch; c_layers c * 2; n_context; if flag_or fl "is_mla" false then head_size c else kv_width c] 4].
Lemma replay_consumed l : forall g, consumedby (fold_left replay_step l g) = consumedby g.
Proof. induction l as [|e l IH]; intros g; [reflexivity|]. cbn [fold_left]. rewrite IH. destruct e; reflexivity. Qed.
Lemma lnodes_defs l e o : In e (lnodes l) -> In o (n_out (fst e)) -> In (o, snd e) (defs l).
Proof.
  unfold lnodes, defs. rewrite !in_flat_map. intros (v & Iv & I) Io. exists v. split; [exact Iv|]. destruct v as [n t|n t|n t]; cbn in *; try contradiction. destruct I as [<-|[]]. cbn in *. apply in_map_iff. eauto.
Qed.
Lemma statics_defs l p : In p (statics l) -> In p (defs l).
Proof. unfold statics, defs. rewrite !in_flat_map. intros (v & Iv & I). exists v. split; [exact Iv|]. destruct v; cbn in *; tauto. Qed.

Section BUILT.
Context (m : dict flags) (c : config) (x : extra) (batch seq_len : Z) (wm : dict (dict string)) (root : string) (fl : flags) (g : graph).
Context (HA : arch_config m c = SOk fl) (HN : names_ok fl wm root) (HP : flag_or fl "pos_embedding" false = true -> flag_or fl "qk_rope" true = false).
Context (HB : built m c batch seq_len wm root = SOk g).
Record made (cache : list tensor) (past : Z) (l : list ev) (cs : list cost) : Prop := {
  m_nodes : nodemap g = map (fun e => (n_name (fst e), fst e)) (lnodes l);
  m_init : initials g = map fst (statics l);
  m_defs : forall d, In d (defs l) -> dget (tensormap g) (fst d) = Some (snd d);
  m_cons : consumedby g = [];
  m_ok : Forall2 (node_ok fl c x batch seq_len cache (defs l)) (lnodes l) cs;
  m_cost : ksum cs = model_cost fl c x batch seq_len past;
  m_w : wsum (statics l) = model_params fl c;
  m_read : forall n, In n (map fst (statics l)) -> exists e, In e (lnodes l) /\ In n (n_in (fst e))
}.
Lemma built_cost cache past : (cache = [] /\ past = 0 \/
    exists np kb kl ctx kv, cache = [np; act [kb; kl; ctx; kv]] /\ t_kind np = DYNAMIC /\ past = x_past x /\ past + seq_len <= ctx) ->
  exists l cs, made cache past l cs.
Proof.
  intros HC. pose proof (build_ok fl c batch seq_len wm root (~ buildable fl c wm) (fun z => z) HN HP) as H1.
  pose proof (build_K fl c x batch seq_len wm root cache past HC) as H2. unfold wp in H1, H2. unfold built in HB. rewrite HA in HB. cbn [sbind] in HB.
  destruct (build_graph fl c batch seq_len wm root bst0) as [[o s]|e]; cbn [sbind fst snd] in *; [|discriminate]. injection HB as Eg.
  destruct H1 as (_ & _ & _ & _ & (A & A2 & D)). destruct H2 as (w & J & W). destruct J as [_ (cs & B1 & B2) Ew Er _ _ R].
  exists (log s), cs. constructor.
  - rewrite <- Eg. exact A.
  - rewrite <- Eg. exact A2.
  - rewrite <- Eg. exact D.
  - rewrite <- Eg. unfold replay. cbn [consumedby]. rewrite replay_consumed. reflexivity.
  - exact B1.
  - exact B2.
  - rewrite Ew, W, Er. reflexivity.
  - intros n Hn. destruct (R n Hn) as [[]|X]. exact X.
Qed.
Lemma plain_made : exists l cs, made [] 0 l cs.
Proof. apply built_cost. auto. Qed.
Lemma made_stored cache past l cs : made cache past l cs -> stored_params g = model_params fl c.
Proof.
  intros [_ I D _ _ _ W _]. rewrite <- W. unfold stored_params, wsum. rewrite I, map_map. apply sum_map_ext. intros p Hp. rewrite (D p) by (apply statics_defs; exact Hp). reflexivity.
Qed.
Lemma made_keys cache past l cs : made cache past l cs -> map fst (nodemap g) = map (fun e => n_name (fst e)) (lnodes l).
Proof. intros M. rewrite (m_nodes _ _ _ _ M), map_map. reflexivity. Qed.
End BUILT.

(** ** C78 *)
(** In every graph that [build_graph] returns, the recorded shape of every tensor fits the operators that
    read and write it. *)
Theorem C78_well_shaped : forall m c batch seq_len wm root fl g,
  arch_config m c = SOk fl -> names_ok fl wm root -> (flag_or fl "pos_embedding" false = true -> flag_or fl "qk_rope" true = false) ->
  sane fl c -> built m c batch seq_len wm root = SOk g -> well_shaped g.
Proof.
  intros m c batch seq_len wm root fl g A N P Sn B.
  pose (x := Build_extra None None None None None None None None 0).
  destruct (plain_made m c x batch seq_len wm root fl g A N P B) as (l & cs & M). destruct M as [Mn _ D _ F _ _ _].
  intros n Hn. unfold nodes_of in Hn. rewrite Mn, map_map in Hn. apply in_map_iff in Hn as (e & <- & Ie). cbn [snd].
  apply In_nth_error in Ie as (i & Ei). assert (exists k, node_ok fl c x batch seq_len [] (defs l) e k) as (k & its & F1 & Ty & _ & _ & _ & _ & (o & Eo) & _).
  { clear -F Ei. revert i Ei. induction F as [|a k es ks H F IH]; intros [|i] Ei; try discriminate; [injection Ei as ->; eauto|eauto]. }
  exists o, (map t_shape its), (t_shape (snd e)). split; [exact Eo|]. split; [|split].
  - clear -F1 D. induction F1 as [|a t ns ts [I _] F1 IH]; [constructor|]. constructor; [|exact IH]. exists t. split; [apply (D (a, t) I)|reflexivity].
  - exists (snd e). split; [|reflexivity]. apply (D (o, snd e)). apply lnodes_defs; [eapply nth_error_In; eauto|rewrite Eo; left; reflexivity].
  - apply Ty. exact Sn.
Qed.
(** Every architecture of the shipped tables except GPT-2. *)
Theorem C78_shipped_tables : forall h c batch seq_len,
  c_arch c <> "GPT2LMHeadModel" -> c_rms c = true -> dhas ActMap (c_act c) = true -> (forall fl, sane fl c) ->
  exists m g, new_builders ArchMap (h ++ [c]) = SOk m /\ built m c batch seq_len WeightMap layer_root0 = SOk g /\ well_shaped g.
Proof.
  intros h c batch seq_len NG R A Sn. destruct (C69_shipped_tables h c batch seq_len NG R A) as (m & g & E & B & _). exists m, g. split; [exact E|]. split; [exact B|].
  destruct (flags_after_table h c NG) as (m' & f & E' & AF & F1 & F2 & _). rewrite E in E'. injection E' as <-.
  eapply C78_well_shaped; [exact AF|apply default_names; assumption|rewrite F2; discriminate|apply Sn|exact B].
Qed.
Lemma tiny_sane arch mb ab fl : sane fl (tiny arch mb ab).
Proof. constructor; cbn; try lia; try discriminate; [split; [exists 8; reflexivity|discriminate]|intros (i & Ei); discriminate]. Qed.
Example C78_applies : exists m g, new_builders ArchMap [tiny "Qwen3_5MoeForCausalLM" None None] = SOk m /\ built m (tiny "Qwen3_5MoeForCausalLM" None None) 1 16 WeightMap layer_root0 = SOk g /\
  well_shaped g /\ length (nodes_of g) = 21%nat.
Proof.
  destruct (C78_shipped_tables [] (tiny "Qwen3_5MoeForCausalLM" None None) 1 16) as (m & g & E & B & W); [discriminate|reflexivity|reflexivity|apply tiny_sane|].
  exists m, g. split; [exact E|]. split; [exact B|]. split; [exact W|]. vm_compute in E. injection E as <-. vm_compute in B. injection B as <-. reflexivity.
Qed.
Lemma shape_fun g t a b : has_shape g t a -> has_shape g t b -> a = b.
Proof. intros (x & E & <-) (y & F & <-). rewrite E in F. injection F as <-. reflexivity. Qed.
Lemma shapes_fun g ts : forall a b, Forall2 (has_shape g) ts a -> Forall2 (has_shape g) ts b -> a = b.
Proof. induction ts as [|t ts IH]; intros a b F G; inversion F; inversion G; subst; [reflexivity|]. f_equal; [eapply shape_fun; eauto|auto]. Qed.
(** The halving activation outside the fused projection: the recorded output is as wide as the input. *)
Definition gegelu_cfg : config := {|
  c_arch := "LlamaForCausalLM"; c_mlp_bias := None; c_attention_bias := None; c_model_type := "llama"; c_hidden := 64; c_inter := 256; c_heads := 8; c_kv_heads := 2;
  c_layers := 1; c_vocab := 1000; c_head_dim := None; c_n_positions := 128; c_act := "gegelu"; c_rms := true; c_lneps := false; c_layer_types := None;
  c_max_pos := None; c_rotary_dim := None; c_final_cap := false; c_experts := None; c_moe_inter := None; c_shared_inter := None; c_q_lora := None; c_o_lora := None;
  c_o_groups := None; c_lin_q_heads := None; c_lin_v_heads := None; c_lin_qk_dim := None; c_lin_v_dim := None |}.
Theorem C78_gegelu_refuted : exists m g, new_builders ArchMap [gegelu_cfg] = SOk m /\ built m gegelu_cfg 1 16 WeightMap layer_root0 = SOk g /\ ~ well_shaped g.
Proof.
  eexists. eexists. split; [vm_compute; reflexivity|]. split; [vm_compute; reflexivity|]. match goal with |- ~ well_shaped ?g0 => set (g := g0) end.
  intros W. set (n := mkNode "model.layers.0.mlp.activation" "GeGelu" ["model.layers.0.mlp.gate_proj.output"] ["model.layers.0.mlp.activation.output"]).
  destruct (W n) as (o & ins & out & Eo & F & G & T); [unfold g, n, nodes_of; cbn; tauto|].
  injection Eo as <-. assert (H1 : Forall2 (has_shape g) (n_in n) [[1; 16; 256]]) by (repeat constructor; eexists; split; reflexivity).
  assert (H2 : has_shape g "model.layers.0.mlp.activation.output" [1; 16; 256]) by (eexists; split; reflexivity).
  rewrite (shapes_fun _ _ _ _ F H1) in T. rewrite (shape_fun _ _ _ _ G H2) in T. inversion T; subst; try (match goal with H : _ \/ _ |- _ => destruct H; discriminate end).
  apply app_inv_head in H0. injection H0 as H0. destruct pre as [|a [|b [|d [|e pre]]]]; cbn in H; try discriminate; injection H as ? ? H; lia.
Qed.
(** The per-head norms of a linear-attention layer use the attention's head size even when the linear heads
    have another: here 24 scales for rows of 16. *)
Definition gdn_cfg : config := {|
  c_arch := "Qwen3_5ForConditionalGeneration"; c_mlp_bias := None; c_attention_bias := None; c_model_type := "qwen3_5"; c_hidden := 64; c_inter := 256; c_heads := 8; c_kv_heads := 2;
  c_layers := 1; c_vocab := 1000; c_head_dim := Some 24; c_n_positions := 128; c_act := "silu"; c_rms := true; c_lneps := false; c_layer_types := Some ["linear_attention"];
  c_max_pos := None; c_rotary_dim := None; c_final_cap := false; c_experts := None; c_moe_inter := None; c_shared_inter := None; c_q_lora := None; c_o_lora := None;
  c_o_groups := None; c_lin_q_heads := Some 4; c_lin_v_heads := Some 8; c_lin_qk_dim := Some 16; c_lin_v_dim := Some 16 |}.
Theorem C78_linear_heads_refuted : exists m g, new_builders ArchMap [gdn_cfg] = SOk m /\ built m gdn_cfg 1 16 WeightMap layer_root0 = SOk g /\ ~ well_shaped g /\
  getattr (c_lin_qk_dim gdn_cfg) (head_size gdn_cfg) = 16 /\ has_shape g "model.layers.0.self_attn.q_norm.weight" [24].
Proof.
  eexists. eexists. split; [vm_compute; reflexivity|]. split; [vm_compute; reflexivity|]. match goal with |- ~ well_shaped ?g0 /\ _ => set (g := g0) end. split; [|split; [reflexivity|eexists; split; reflexivity]].
  intros W. set (n := mkNode "model.layers.0.self_attn.q_norm" "LayerNormalization" ["model.layers.0.self_attn.q_proj.output"; "model.layers.0.self_attn.q_norm.weight"] ["model.layers.0.self_attn.q_norm.output"]).
  destruct (W n) as (o & ins & out & Eo & F & G & T); [unfold g, n, nodes_of; cbn; tauto|].
  injection Eo as <-. assert (H1 : Forall2 (has_shape g) (n_in n) [[1; 16; 64]; [24]]) by (repeat constructor; eexists; split; reflexivity).
  rewrite (shapes_fun _ _ _ _ F H1) in T. inversion T; subst; try (match goal with H : _ \/ _ |- _ => destruct H; discriminate end).
  match goal with X : Forall _ _ |- _ => inversion X as [|w ws (e & Ee & De) _]; subst end. injection Ee as <-.
  match goal with X : (pre ++ _)%list = _ |- _ => destruct pre as [|a [|b [|d' [|e pre]]]]; cbn in X; try discriminate; injection X as ? ? X; subst end. destruct De as [q Hq]. lia.
Qed.

(** ** C79 *)
(** The weights of a built graph are exactly the model's parameters, each read by some node; the shape of
    the input ids does not matter. *)
Theorem C79_model_size : forall m c batch seq_len wm root fl g,
  arch_config m c = SOk fl -> names_ok fl wm root -> (flag_or fl "pos_embedding" false = true -> flag_or fl "qk_rope" true = false) ->
  built m c batch seq_len wm root = SOk g ->
  stored_params g = model_params fl c /\ forall t, In t (initials g) -> exists n, In n (nodes_of g) /\ In t (n_in n).
Proof.
  intros m c batch seq_len wm root fl g A N P B.
  pose (x := Build_extra None None None None None None None None 0).
  destruct (plain_made m c x batch seq_len wm root fl g A N P B) as (l & cs & M). split; [eapply made_stored; exact M|].
  intros t It. rewrite (m_init _ _ _ _ _ _ _ _ _ _ M) in It. destruct (m_read _ _ _ _ _ _ _ _ _ _ M t It) as (e & Ie & In_).
  exists (fst e). split; [|exact In_]. unfold nodes_of. rewrite (m_nodes _ _ _ _ _ _ _ _ _ _ M), map_map. apply in_map_iff. exists e. auto.
Qed.
Example C79_applies : exists m c g fl, new_builders ArchMap [c] = SOk m /\ arch_config m c = SOk fl /\ built m c 1 16 WeightMap layer_root0 = SOk g /\
  model_params fl c = 220352 /\ stored_params g = 220352.
Proof.
  pose (c := tiny "LlamaForCausalLM" None None). destruct (new_builders ArchMap [c]) as [m|] eqn:E; [|vm_compute in E; discriminate].
  destruct (built m c 1 16 WeightMap layer_root0) as [g|] eqn:B; [|vm_compute in E; injection E as <-; vm_compute in B; discriminate].
  destruct (arch_config m c) as [fl|] eqn:A; [|vm_compute in E; injection E as <-; vm_compute in A; discriminate].
  exists m, c, g, fl. split; [exact E|]. split; [exact A|]. split; [exact B|].
  vm_compute in E. injection E as <-. vm_compute in A. injection A as <-. vm_compute in B. injection B as <-. split; vm_compute; reflexivity.
Qed.
(** The "Params" column of the report counts the shared rotary tables at each of their uses (two per rotated
    layer) and everything else once. *)
Fixpoint countb {A} (p : A -> bool) (l : list A) : Z := match l with [] => 0 | a :: r => b2z (p a) + countb p r end.
Lemma k_params_ksum l : k_params (ksum l) = sum_list (map k_params l).
Proof. apply ksum_params. Qed.
Lemma layer_k fl c x b s p i : k_params (layer_cost fl c x b s p i) = layer_params fl c i + b2z (rotates fl c i) * (2 * rope_params c).
Proof.
  assert (HA : k_params (attention_cost fl c b s p) = attention_params fl c + b2z (flag_or fl "qk_rope" true) * (2 * rope_params c)).
  { unfold attention_cost, attention_params, kwhen. destruct (flag_or fl "qkv_gated" false), (flag_or fl "fuse_qkv" false), (flag_or fl "qk_norm" false), (flag_or fl "qk_rope" true); cbn -[linear_params rope_params Z.mul]; ring. }
  assert (HG : k_params (gdn_cost fl c x b s) = gdn_params fl c) by (unfold gdn_cost, gdn_params; cbn -[linear_params Z.mul gdn_q_width gdn_v_width]; ring).
  assert (HM : k_params (mlp_cost fl c b s) = mlp_params fl c).
  { unfold mlp_cost, mlp_params, kwhen. destruct (String.eqb (c_model_type c) "phi3" || String.eqb (c_model_type c) "phi3small"); [cbn -[linear_params Z.mul]; ring|].
    destruct (flag_or fl "mlp_gate" false); cbn -[linear_params Z.mul act_per]; ring. }
  unfold layer_cost, layer_params, rotates.
  assert (HX : forall q r, k_params (ksum [norm_cost fl c b s; q; kwhen (flag_or fl "post_attn_norm" false) [norm_cost fl c b s]; eltwise_cost b s (c_hidden c) 1; norm_cost fl c b s; r; kwhen (flag_or fl "post_mlp_norm" false) [norm_cost fl c b s]; eltwise_cost b s (c_hidden c) 1])
    = norm_params fl c + k_params q + b2z (flag_or fl "post_attn_norm" false) * norm_params fl c + norm_params fl c + k_params r + b2z (flag_or fl "post_mlp_norm" false) * norm_params fl c).
  { intros q r. unfold kwhen. destruct (flag_or fl "post_attn_norm" false), (flag_or fl "post_mlp_norm" false); cbn -[norm_params Z.mul]; ring. }
  rewrite HX. clear HX. replace (k_params (if flag_or fl "is_moe" false then moe_cost fl c x b s else mlp_cost fl c b s)) with (if flag_or fl "is_moe" false then moe_params fl c else mlp_params fl c) by (destruct (flag_or fl "is_moe" false); [reflexivity|auto]).
  destruct (is_gdn c i); cbn [negb andb b2z]; [rewrite HG; ring|]. destruct (flag_or fl "is_mla" false); cbn [negb andb b2z]; [change (k_params (mla_cost c x b s)) with (mla_params c); ring|]. rewrite HA. ring.
Qed.
Lemma layers_k fl c x b s p l : k_params (ksum (map (layer_cost fl c x b s p) l)) = sum_list (map (layer_params fl c) l) + countb (rotates fl c) l * (2 * rope_params c).
Proof.
  induction l as [|i l IH]; [reflexivity|]. cbn [map ksum fold_right countb]. fold (ksum (map (layer_cost fl c x b s p) l)). cbn [kadd k_params]. rewrite IH, layer_k, sum_cons. ring.
Qed.
Lemma model_k fl c x b s p : k_params (model_cost fl c x b s p) = model_params fl c +
  (if existsb (rotates fl c) (seq 0 (n_layers c)) then 2 * countb (rotates fl c) (seq 0 (n_layers c)) - 1 else 0) * rope_params c.
Proof.
  unfold model_cost, model_params. set (ls := seq 0 (n_layers c)).
  assert (Z0 : existsb (rotates fl c) ls = false -> countb (rotates fl c) ls = 0).
  { induction ls as [|i ls IH]; [reflexivity|]. cbn [existsb countb]. intros H. apply orb_false_iff in H as [H1 H2]. rewrite H1, (IH H2). reflexivity. }
  pose proof (layers_k fl c x b s p ls) as L. set (kl := ksum (map (layer_cost fl c x b s p) ls)) in *. unfold kwhen.
  destruct (existsb (rotates fl c) ls); [clear Z0|specialize (Z0 eq_refl); rewrite Z0 in L];
    destruct (flag_or fl "pos_embedding" false), (c_final_cap c); cbn -[norm_params linear_params rope_params Z.mul]; rewrite L; ring.
Qed.

(** ** C80 *)
Definition tokens (batch seq_len : Z) : Z := batch * seq_len.
(** what a report says about a model *)
Record reports (fl : flags) (c : config) (x : extra) (batch seq_len past : Z) (g : graph) (r : report) : Prop := {
  (** the MACs, parameters and bytes are those of the formulas *)
  rs_macs : sum_list (map r_macs (rp_rows r)) = k_macs (model_cost fl c x batch seq_len past);
  rs_params : rp_params r = k_params (model_cost fl c x batch seq_len past);
  rs_memory : rp_memory r = 4 * (k_io (model_cost fl c x batch seq_len past) + k_static (model_cost fl c x batch seq_len past));
  (** a matrix product costs one MAC per token and parameter *)
  rs_matmul : forall w, In w (rp_rows r) -> r_op w = "MatMul" -> r_macs w = tokens batch seq_len * r_params w;
  rs_rows : map r_name (rp_rows r) = dkeys (nodemap g)
}.
Lemma dedup_ok g : (forall t, In t (initials g) -> dhas (tensormap g) t = true) -> exists d, dedup_params g = SOk d.
Proof.
  intros H. unfold dedup_params.
  assert (G : forall A (f : string -> sres A) l, (forall t, In t l -> exists b, f t = SOk b) -> exists r, smap f l = SOk r).
  { clear. intros A f l. induction l as [|t l IH]; intros H; [cbn; eauto|]. destruct (H t) as (b & Eb); [left; reflexivity|]. destruct IH as (r & Er); [intros; apply H; right; assumption|].
    cbn [smap]. rewrite Eb. cbn [sbind]. rewrite Er. cbn [sbind]. eauto. }
  match goal with |- exists d, sbind (smap ?f ?l) _ = _ => destruct (G _ f l) as (r & Er); [|rewrite Er; cbn [sbind]; eauto] end.
  intros t It. specialize (H t It). unfold dhas in H. unfold dlook. destruct (dget (tensormap g) t); [|discriminate]. cbn [sbind]. destruct (dget (consumedby g) t) as [[|a b]|]; eauto.
Qed.
Lemma report_of fl c x batch seq_len past cache g' es cs d :
  Forall2 (node_ok fl c x batch seq_len cache d) es cs -> ksum cs = model_cost fl c x batch seq_len past ->
  Forall2 (fun kn k => profile_node (llm_nprof fl c x) g' (fst kn) = SOk (mkrow (fst kn) (n_op (snd kn)) k)) (nodemap g') cs ->
  map (fun kn => n_op (snd kn)) (nodemap g') = map (fun e => n_op (fst e)) es ->
  (forall t, In t (initials g') -> dhas (tensormap g') t = true) ->
  exists r, profiles (llm_nprof fl c x) g' [] r /\ reports fl c x batch seq_len past g' r.
Proof.
  intros F E R OP I. destruct (profile_run _ _ _ _ R) as (mf & Pr). destruct (dedup_ok g' I) as (dd & Ed).
  eexists. split.
  - exists (dkeys (nodemap g')). split; [reflexivity|]. unfold profile_with, dkeys. rewrite Pr. cbn [sbind]. rewrite Ed. cbn [sbind]. reflexivity.
  - pose proof (Forall2_len _ _ _ R) as L. constructor; cbn [rp_rows rp_params rp_memory app].
    + rewrite combine_macs by exact L. rewrite <- E. symmetry. apply ksum_macs.
    + rewrite E. apply Z.add_0_l.
    + rewrite E. apply Z.add_0_l.
    + intros w Hw Ow. apply in_map_iff in Hw as ([kn k] & <- & I2). cbn [fst snd mkrow r_op r_macs r_params] in *.
      clear -F R OP I2 Ow. revert cs R F I2. generalize dependent es. induction (nodemap g') as [|a nm IH]; intros es OP cs R F I2; [destruct I2|].
      destruct es as [|e es]; [discriminate|]. cbn [map] in OP. injection OP as O1 O2. inversion R; subst. inversion F; subst. cbn [combine] in I2. destruct I2 as [X|I2].
      * injection X as -> ->. match goal with Y : node_ok _ _ _ _ _ _ _ e k |- _ => destruct Y as (its & _ & _ & _ & _ & _ & _ & _ & M); apply M; rewrite <- O1; exact Ow end.
      * eapply IH; eauto.
    + rewrite map_map. unfold dkeys. cbn [mkrow r_name]. clear -L. revert cs L. induction (nodemap g') as [|a nm IH]; intros [|k cs] L; try discriminate; [reflexivity|]. cbn [combine map fst]. f_equal. apply IH. cbn in L. lia.
Qed.
Lemma Forall2_weak {A C} (P Q : A -> C -> Prop) l m : (forall a b, In a l -> P a b -> Q a b) -> Forall2 P l m -> Forall2 Q l m.
Proof. intros H F. induction F; constructor; [apply H; [left; reflexivity|assumption]|]. apply IHF. intros a b I. apply H. right. exact I. Qed.
Lemma Forall2_map_l {A A' C} (f : A -> A') (P : A' -> C -> Prop) l m : Forall2 (fun a b => P (f a) b) l m -> Forall2 P (map f l) m.
Proof. induction 1; constructor; auto. Qed.
(** Profiling a freshly built model: *)
Theorem C80_report : forall m c x batch seq_len wm root fl g,
  arch_config m c = SOk fl -> names_ok fl wm root -> (flag_or fl "pos_embedding" false = true -> flag_or fl "qk_rope" true = false) ->
  built m c batch seq_len wm root = SOk g ->
  exists r, profiles (llm_nprof fl c x) g [] r /\ reports fl c x batch seq_len 0 g r.
Proof.
  intros m c x batch seq_len wm root fl g A N P B.
  destruct (plain_made m c x batch seq_len wm root fl g A N P B) as (l & cs & M). destruct (C69_built_graph_executable _ _ _ _ _ _ _ _ A N P B) as (W & _).
  destruct M as [Mn Mi D _ F Ec _ _]. eapply report_of; [exact F|exact Ec| | |].
  - rewrite Mn. apply Forall2_map_l. cbn [fst snd]. eapply Forall2_weak; [|exact F]. intros e k Ie Hk. cbn [fst snd].
    eapply (row_general fl c x batch seq_len []) with (xs := []) (n := fst e); [constructor|exact Hk|exact D| | |reflexivity|reflexivity|symmetry; apply app_nil_r|].
    + intros o Eo. apply lnodes_defs; [exact Ie|rewrite Eo; left; reflexivity].
    + apply In_dget; [apply W|]. rewrite Mn. apply in_map_iff. exists e. auto.
    + unfold more. destruct (String.eqb _ _); constructor.
  - rewrite Mn, map_map. reflexivity.
  - intros t It. apply (eg_known _ W). unfold tensor_names. rewrite !in_app_iff. auto.
Qed.
(** ... and with a KV cache of [n_context] positions, [x_past x] of them filled. *)
Lemma cache_lookup c fl batch n_context g t : ~ In "n_past" (tensor_names g) -> ~ In "kv_cache" (tensor_names g) -> executable_graph g -> dhas (tensormap g) t = true ->
  dget (tensormap (add_kv_cache c fl batch n_context g)) t = dget (tensormap g) t.
Proof.
  intros F1 F2 W H. apply (eg_known _ W) in H. unfold add_kv_cache. cbn [tensormap]. rewrite !dget_dset_neq; [reflexivity| |]; intros E; rewrite <- E in H; contradiction.
Qed.
Theorem C80_report_cached : forall m c x batch seq_len wm root fl g n_context,
  arch_config m c = SOk fl -> names_ok fl wm root -> (flag_or fl "pos_embedding" false = true -> flag_or fl "qk_rope" true = false) ->
  built m c batch seq_len wm root = SOk g -> x_past x + seq_len <= n_context ->
  let g' := add_kv_cache c fl batch n_context g in
  exists r, profiles (llm_nprof fl c x) g' [] r /\ reports fl c x batch seq_len (x_past x) g' r.
Proof.
  intros m c x batch seq_len wm root fl g n_context A N P B HC g'.
  set (cache := kv_cache_of c fl batch n_context).
  destruct (built_cost m c x batch seq_len wm root fl g A N P B cache (x_past x)) as (l & cs & M).
  { right. do 5 eexists. split; [reflexivity|]. split; [reflexivity|]. split; [reflexivity|exact HC]. }
  pose proof (built_spec m c batch seq_len wm root fl A N P) as H. rewrite B in H. destruct H as (W & _ & Dt).
  assert (F1 : ~ In "n_past" (tensor_names g)) by (intros X; destruct (Dt _ X) as [Y|[Y|Y]]; discriminate).
  assert (F2 : ~ In "kv_cache" (tensor_names g)) by (intros X; destruct (Dt _ X) as [Y|[Y|Y]]; discriminate).
  destruct (kv_cache_executable c fl batch n_context g W F1 F2) as (W' & _ & _ & I' & _). fold g' in W', I'.
  destruct M as [Mn Mi D _ F Ec _ _].
  set (kvn := fun n => if String.eqb (n_op n) "SDPA" then mkNode (n_name n) (n_op n) (n_in n ++ ["n_past"; "kv_cache"]) (n_out n) else n).
  assert (Nm : nodemap g' = map (fun e => (n_name (fst e), kvn (fst e))) (lnodes l)).
  { unfold g', add_kv_cache. cbn [nodemap]. rewrite Mn, map_map. reflexivity. }
  assert (OP : forall n, n_op (kvn n) = n_op n /\ n_out (kvn n) = n_out n) by (intros n; unfold kvn; destruct (String.eqb (n_op n) "SDPA"); auto).
  eapply report_of; [exact F|exact Ec| | |].
  - rewrite Nm. apply Forall2_map_l. cbn [fst snd]. eapply Forall2_weak; [|exact F]. intros e k Ie Hk. cbn [fst snd]. rewrite (proj1 (OP (fst e))).
    eapply (row_general fl c x batch seq_len cache) with (xs := if String.eqb (n_op (fst e)) "SDPA" then ["n_past"; "kv_cache"] else []) (n := kvn (fst e)); [repeat constructor|exact Hk| | | |apply OP|apply OP| |].
    + intros p Ip. unfold g'. rewrite cache_lookup; auto. unfold dhas. rewrite (D p Ip). reflexivity.
    + intros o Eo. apply lnodes_defs; [exact Ie|rewrite Eo; left; reflexivity].
    + apply In_dget; [apply W'|]. rewrite Nm. apply in_map_iff. exists e. auto.
    + unfold kvn. destruct (String.eqb (n_op (fst e)) "SDPA"); [reflexivity|symmetry; apply app_nil_r].
    + unfold more. destruct (String.eqb _ _); [|constructor]. repeat constructor; unfold g', add_kv_cache; cbn [tensormap]; [rewrite dget_dset_neq by discriminate|]; apply dget_dset_eq.
  - rewrite Nm, !map_map. cbn [snd]. apply map_ext. intros e. apply OP.
  - intros t It. apply (eg_known _ W'). unfold tensor_names. rewrite !in_app_iff. auto.
Qed.
(** The weights are the same with a cache. *)
Theorem C79_cached_size : forall m c batch seq_len wm root fl g n_context,
  arch_config m c = SOk fl -> names_ok fl wm root -> (flag_or fl "pos_embedding" false = true -> flag_or fl "qk_rope" true = false) ->
  built m c batch seq_len wm root = SOk g -> stored_params (add_kv_cache c fl batch n_context g) = model_params fl c.
Proof.
  intros m c batch seq_len wm root fl g n_context A N P B. rewrite <- (proj1 (C79_model_size _ _ _ _ _ _ _ _ A N P B)).
  pose proof (built_spec m c batch seq_len wm root fl A N P) as H. rewrite B in H. destruct H as (W & _ & Dt).
  unfold stored_params. apply sum_map_ext. intros t It. rewrite cache_lookup; auto.
  - intros X; destruct (Dt _ X) as [Y|[Y|Y]]; discriminate.
  - intros X; destruct (Dt _ X) as [Y|[Y|Y]]; discriminate.
  - apply (eg_known _ W). unfold tensor_names. rewrite !in_app_iff. auto.
Qed.
Theorem C79_reported_params : forall fl c x batch seq_len past g r, reports fl c x batch seq_len past g r ->
  rp_params r = model_params fl c + (if existsb (rotates fl c) (seq 0 (n_layers c)) then 2 * countb (rotates fl c) (seq 0 (n_layers c)) - 1 else 0) * rope_params c.
Proof. intros fl c x batch seq_len past g r [_ -> _ _ _]. apply model_k. Qed.
(** "Dedup Params" is the model's size once the nodes have been reordered ([save_graph], [graph_reorder_nodes]) ... *)
Theorem C79_dedup_after_reorder : forall m c batch seq_len wm root fl g g',
  arch_config m c = SOk fl -> names_ok fl wm root -> (flag_or fl "pos_embedding" false = true -> flag_or fl "qk_rope" true = false) ->
  built m c batch seq_len wm root = SOk g -> graph_reorder_nodes g = Some g' -> dedup_params g' = SOk (model_params fl c).
Proof.
  intros m c batch seq_len wm root fl g g' A N P B R. destruct (C79_model_size _ _ _ _ _ _ _ _ A N P B) as [Sz Rd]. rewrite <- Sz.
  destruct (C69_built_graph_executable _ _ _ _ _ _ _ _ A N P B) as (W & _). destruct (eg_plan g W) as (g2 & R2 & Pm & _). rewrite R in R2. injection R2 as <-.
  destruct (reorder_fields g g' R) as (_ & _ & _ & T & I & _ & _ & _ & Cx & _).
  unfold dedup_params, stored_params. rewrite I.
  assert (K : forall t, In t (initials g) -> exists a b tn, dget (consumedby g') t = Some (a :: b) /\ dget (tensormap g) t = Some tn).
  { intros t It. destruct (Rd t It) as (n & In1 & In2). specialize (Cx t).
    assert (Q : In t (reads_of (nodes_of g'))).
    { unfold reads_of. apply in_flat_map. exists n. split; [|exact In2]. unfold nodes_of in *. eapply Permutation_in; [apply Permutation_map; symmetry; exact Pm|exact In1]. }
    assert (Kn : dhas (tensormap g) t = true) by (apply (eg_known _ W); unfold tensor_names; rewrite !in_app_iff; auto). unfold dhas in Kn. destruct (dget (tensormap g) t) as [tn|]; [|discriminate].
    destruct (dget (consumedby g') t) as [[|a b]|]; [|exists a, b, tn; auto|contradiction]. cbn in Cx. symmetry in Cx. apply count_zero in Cx. contradiction. }
  rewrite T. clear -K. generalize dependent (initials g). intros l K.
  match goal with |- sbind (smap ?f l) _ = _ => assert (E : smap f l = SOk (map (fun t => match dget (tensormap g) t with Some tn => volume (t_shape tn) | None => 0 end) l)) end.
  { induction l as [|t l IH]; [reflexivity|]. cbn [smap map]. destruct (K t) as (a & b & tn & E1 & E2); [left; reflexivity|]. rewrite E1, E2. unfold dlook at 1. rewrite E2. cbn [sbind].
    rewrite IH; [reflexivity|]. intros; apply K; right; assumption. }
  rewrite E. reflexivity.
Qed.
(** ... and always 0 before: the builder does not record the readers of a tensor. *)
Theorem C79_dedup_refuted : (forall m c batch seq_len wm root fl g,
    arch_config m c = SOk fl -> names_ok fl wm root -> (flag_or fl "pos_embedding" false = true -> flag_or fl "qk_rope" true = false) ->
    built m c batch seq_len wm root = SOk g -> dedup_params g = SOk 0) /\
  exists m c g, new_builders ArchMap [c] = SOk m /\ built m c 1 16 WeightMap layer_root0 = SOk g /\ dedup_params g = SOk 0 /\ stored_params g = 220352.
Proof.
  split.
  - intros m c batch seq_len wm root fl g A N P B. destruct (plain_made m c (Build_extra None None None None None None None None 0) batch seq_len wm root fl g A N P B) as (l & cs & M).
    unfold dedup_params. rewrite (m_cons _ _ _ _ _ _ _ _ _ _ M). cbn [dget].
    assert (E : smap (fun _ : string => SOk 0) (initials g) = SOk (map (fun _ => 0) (initials g))) by (induction (initials g) as [|t ts IH]; [reflexivity|]; cbn [smap]; cbn [sbind]; rewrite IH; reflexivity).
    rewrite E. cbn [sbind]. f_equal. apply sum_map_zero. reflexivity.
  - destruct C79_applies as (m & c & g & fl & E & A & B & _ & S0). exists m, c, g. split; [exact E|]. split; [exact B|]. split; [|exact S0].
    clear -B. unfold built in B. destruct (arch_config m c) as [f|]; [|discriminate]. cbn [sbind] in B. destruct (build_graph f c 1 16 WeightMap layer_root0 bst0) as [[o s]|]; [|discriminate]. cbn [sbind fst snd] in B. injection B as <-.
    assert (C0 : consumedby (replay (log s) o) = []) by (unfold replay; cbn [consumedby]; apply replay_consumed).
    unfold dedup_params. rewrite C0. cbn [dget]. generalize (initials (replay (log s) o)). intros l.
    assert (E : smap (fun _ : string => SOk 0) l = SOk (map (fun _ => 0) l)) by (induction l as [|t ts IH]; [reflexivity|]; cbn [smap]; cbn [sbind]; rewrite IH; reflexivity).
    rewrite E. cbn [sbind]. f_equal. apply sum_map_zero. reflexivity.
Qed.
(** MACs are additive over the sequences of a batch. *)
Lemma layer_batches fl c x b1 b2 s p i : k_macs (layer_cost fl c x (b1 + b2) s p i) = k_macs (layer_cost fl c x b1 s p i) + k_macs (layer_cost fl c x b2 s p i).
Proof.
  assert (HA : k_macs (attention_cost fl c (b1 + b2) s p) = k_macs (attention_cost fl c b1 s p) + k_macs (attention_cost fl c b2 s p)).
  { unfold attention_cost, kwhen. destruct (flag_or fl "qkv_gated" false), (flag_or fl "fuse_qkv" false), (flag_or fl "qk_norm" false), (flag_or fl "qk_rope" true);
      cbn -[linear_params Z.mul Z.add Z.div head_size rope_params norm_params q_heads_width kv_heads_width]; ring. }
  assert (HG : k_macs (gdn_cost fl c x (b1 + b2) s) = k_macs (gdn_cost fl c x b1 s) + k_macs (gdn_cost fl c x b2 s)) by (unfold gdn_cost; cbn -[linear_params Z.mul Z.add gdn_q_width gdn_v_width getattr head_size]; ring).
  assert (HM : k_macs (mlp_cost fl c (b1 + b2) s) = k_macs (mlp_cost fl c b1 s) + k_macs (mlp_cost fl c b2 s)).
  { unfold mlp_cost, kwhen. destruct (String.eqb (c_model_type c) "phi3" || String.eqb (c_model_type c) "phi3small"); [cbn -[linear_params Z.mul Z.add]; ring|].
    destruct (flag_or fl "mlp_gate" false); cbn -[linear_params Z.mul Z.add act_per]; ring. }
  assert (HL : k_macs (mla_cost c x (b1 + b2) s) = k_macs (mla_cost c x b1 s) + k_macs (mla_cost c x b2 s)).
  { unfold mla_cost. cbn [k_macs]. destruct (0 <? getattr (x_ratio x) 0), (getattr (x_ratio x) 0 =? 4), (1 <? s / getattr (x_ratio x) 0); ring. }
  assert (HE : k_macs (moe_cost fl c x (b1 + b2) s) = k_macs (moe_cost fl c x b1 s) + k_macs (moe_cost fl c x b2 s)).
  { unfold moe_cost. cbn [k_macs]. destruct (flag_or fl "no_shared_expert" false), (flag_or fl "no_shared_gate" false); ring. }
  assert (HX : forall b q r, k_macs (ksum [norm_cost fl c b s; q; kwhen (flag_or fl "post_attn_norm" false) [norm_cost fl c b s]; eltwise_cost b s (c_hidden c) 1; norm_cost fl c b s; r; kwhen (flag_or fl "post_mlp_norm" false) [norm_cost fl c b s]; eltwise_cost b s (c_hidden c) 1])
    = b * s * ((2 + b2z (flag_or fl "post_attn_norm" false) + b2z (flag_or fl "post_mlp_norm" false)) * (7 * c_hidden c + 29) + 2 * c_hidden c) + k_macs q + k_macs r).
  { intros b q r. unfold kwhen. destruct (flag_or fl "post_attn_norm" false), (flag_or fl "post_mlp_norm" false); cbn -[norm_params Z.mul Z.add]; change (b2z true) with 1; change (b2z false) with 0; ring. }
  unfold layer_cost. rewrite !HX. destruct (is_gdn c i), (flag_or fl "is_mla" false), (flag_or fl "is_moe" false); rewrite ?HA, ?HG, ?HM, ?HL, ?HE; ring.
Qed.
Theorem C80_batches : forall fl c x b1 b2 s p, k_macs (model_cost fl c x (b1 + b2) s p) = k_macs (model_cost fl c x b1 s p) + k_macs (model_cost fl c x b2 s p).
Proof.
  intros fl c x b1 b2 s p.
  assert (L : forall l, k_macs (ksum (map (layer_cost fl c x (b1 + b2) s p) l)) = k_macs (ksum (map (layer_cost fl c x b1 s p) l)) + k_macs (ksum (map (layer_cost fl c x b2 s p) l))).
  { induction l as [|i l IH]; [reflexivity|]. cbn [map]. unfold ksum in *. cbn [fold_right kadd k_macs]. rewrite IH, layer_batches. ring. }
  unfold model_cost. specialize (L (seq 0 (n_layers c))). unfold kwhen.
  set (A0 := ksum (map _ _)) in *. set (A1 := ksum (map (layer_cost fl c x b1 s p) _)) in *. set (A2 := ksum (map (layer_cost fl c x b2 s p) _)) in *.
  destruct (flag_or fl "pos_embedding" false), (c_final_cap c); cbn -[norm_params linear_params Z.mul Z.add]; rewrite L; ring.
Qed.
(** A decoding step costs more the fuller the cache is: exactly the attention over the longer past. *)
Theorem C80_past : forall fl c x b s p q,
  k_macs (model_cost fl c x b s (p + q)) - k_macs (model_cost fl c x b s p) =
  countb (fun i => negb (is_gdn c i) && negb (flag_or fl "is_mla" false)) (seq 0 (n_layers c)) * (b * c_heads c * s * q * (2 * head_size c + 36)).
Proof.
  intros fl c x b s p q.
  assert (L : forall l, k_macs (ksum (map (layer_cost fl c x b s (p + q)) l)) = k_macs (ksum (map (layer_cost fl c x b s p) l))
     + countb (fun i => negb (is_gdn c i) && negb (flag_or fl "is_mla" false)) l * (b * c_heads c * s * q * (2 * head_size c + 36))).
  { induction l as [|i l IH]; [cbn; reflexivity|]. cbn [map countb]. unfold ksum in *. cbn [fold_right kadd k_macs]. rewrite IH.
    assert (E : k_macs (layer_cost fl c x b s (p + q) i) = k_macs (layer_cost fl c x b s p i) + b2z (negb (is_gdn c i) && negb (flag_or fl "is_mla" false)) * (b * c_heads c * s * q * (2 * head_size c + 36))).
    { unfold layer_cost. destruct (is_gdn c i); [cbn [negb andb b2z]; ring|]. destruct (flag_or fl "is_mla" false); [cbn [negb andb b2z]; ring|]. cbn [negb andb b2z].
      unfold ksum. cbn [fold_right kadd k_macs]. unfold attention_cost, ksum. cbn [fold_right kadd k_macs]. unfold attn_core_cost. cbn [k_macs]. ring. }
    rewrite E. ring. }
  unfold model_cost, ksum at 1 3. cbn [fold_right kadd k_macs]. rewrite L. ring.
Qed.
(** The latent-attention models never look at the cache: however full it is, the report is the one of an empty cache. *)
Theorem C80_latent_cache_refuted : forall m c x batch seq_len wm root fl g n_context,
  arch_config m c = SOk fl -> names_ok fl wm root -> (flag_or fl "pos_embedding" false = true -> flag_or fl "qk_rope" true = false) ->
  built m c batch seq_len wm root = SOk g -> flag_or fl "is_mla" false = true -> x_past x + seq_len <= n_context ->
  exists r, profiles (llm_nprof fl c x) (add_kv_cache c fl batch n_context g) [] r /\ reports fl c x batch seq_len 0 (add_kv_cache c fl batch n_context g) r.
Proof.
  intros m c x batch seq_len wm root fl g n_context A N P B M L. destruct (C80_report_cached m c x batch seq_len wm root fl g n_context A N P B L) as (r & R1 & R2). exists r. split; [exact R1|].
  assert (E : model_cost fl c x batch seq_len (x_past x) = model_cost fl c x batch seq_len 0).
  { unfold model_cost. do 3 f_equal. f_equal. apply f_equal. apply map_ext. intros i. unfold layer_cost. rewrite M. destruct (is_gdn c i); reflexivity. }
  destruct R2 as [S1 S2 S3 S4 S5]. rewrite E in *. constructor; assumption.
Qed.
Definition no_extra : extra := Build_extra None None None None None None None None 0.
Definition shipped (c : config) (batch seq_len : Z) (g : graph) (fl : flags) : Prop :=
  exists m, new_builders ArchMap [c] = SOk m /\ arch_config m c = SOk fl /\ built m c batch seq_len WeightMap layer_root0 = SOk g.
Ltac ship := eexists; split; [vm_compute; reflexivity|]; split; [vm_compute; reflexivity|vm_compute; reflexivity].
(** A linear-attention node is charged with the three projections that precede it as nodes of their own, and
    with an output projection for which the graph has no weight. *)
Definition gdn_ok : config := {|
  c_arch := "Qwen3_5ForConditionalGeneration"; c_mlp_bias := None; c_attention_bias := None; c_model_type := "qwen3_5"; c_hidden := 64; c_inter := 256; c_heads := 8; c_kv_heads := 2;
  c_layers := 1; c_vocab := 1000; c_head_dim := Some 16; c_n_positions := 128; c_act := "silu"; c_rms := true; c_lneps := false; c_layer_types := Some ["linear_attention"];
  c_max_pos := None; c_rotary_dim := None; c_final_cap := false; c_experts := None; c_moe_inter := None; c_shared_inter := None; c_q_lora := None; c_o_lora := None;
  c_o_groups := None; c_lin_q_heads := Some 4; c_lin_v_heads := Some 8; c_lin_qk_dim := Some 16; c_lin_v_dim := Some 16 |}.
Theorem C80_linear_attention_refuted : exists g fl q k v gdn, shipped gdn_ok 1 16 g fl /\
  profile_node (llm_nprof fl gdn_ok no_extra) g "model.layers.0.self_attn.q_proj" = SOk q /\
  profile_node (llm_nprof fl gdn_ok no_extra) g "model.layers.0.self_attn.k_proj" = SOk k /\
  profile_node (llm_nprof fl gdn_ok no_extra) g "model.layers.0.self_attn.v_proj" = SOk v /\
  profile_node (llm_nprof fl gdn_ok no_extra) g "model.layers.0.gdn" = SOk gdn /\
  r_op q = "MatMul" /\ r_op k = "MatMul" /\ r_op v = "MatMul" /\ r_op gdn = "GDN" /\
  r_macs q + r_macs k + r_macs v + 16 * (128 * 64) < r_macs gdn /\
  Forall (fun t => ~ has_shape g t [128; 64]) (initials g).
Proof.
  do 6 eexists. split; [ship|]. do 4 (split; [vm_compute; reflexivity|]). do 4 (split; [reflexivity|]). split; [vm_compute; reflexivity|].
  repeat constructor; intros (tn & E & F); vm_compute in E; injection E as <-; discriminate F.
Qed.
(** MiniMax-M2 has no shared expert, yet its MoE nodes are charged with the shared expert's gate. *)
Theorem C80_shared_gate_refuted : exists g fl w, shipped (tiny "MiniMaxM2ForCausalLM" None None) 1 16 g fl /\
  profile_node (llm_nprof fl (tiny "MiniMaxM2ForCausalLM" None None) no_extra) g "model.layers.0.moe" = SOk w /\ r_op w = "MoE" /\
  flag_or fl "no_shared_expert" false = true /\
  r_macs w = 16 * (64 * 256 + 8 * (3 * (256 * 64) + 34 * 256) + 64) + 16 * (33 * 64).
Proof. do 3 eexists. split; [ship|]. split; [vm_compute; reflexivity|]. split; [reflexivity|]. split; [reflexivity|]. vm_compute. reflexivity. Qed.
Example C80_applies : exists m c g fl, new_builders ArchMap [c] = SOk m /\ arch_config m c = SOk fl /\ built m c 2 16 WeightMap layer_root0 = SOk g /\
  names_ok fl WeightMap layer_root0 /\ k_macs (model_cost fl c no_extra 2 16 0) = 4694752 /\ k_macs (model_cost fl c no_extra 2 16 100) = 6025952.
Proof.
  pose (c := tiny "LlamaForCausalLM" None None). destruct (new_builders ArchMap [c]) as [m|] eqn:E; [|vm_compute in E; discriminate].
  destruct (built m c 2 16 WeightMap layer_root0) as [g|] eqn:B; [|vm_compute in E; injection E as <-; vm_compute in B; discriminate].
  destruct (arch_config m c) as [fl|] eqn:A; [|vm_compute in E; injection E as <-; vm_compute in A; discriminate].
  exists m, c, g, fl. split; [exact E|]. split; [exact A|]. split; [exact B|].
  vm_compute in E. injection E as <-. vm_compute in A. injection A as <-. split; [apply default_names; reflexivity|]. split; vm_compute; reflexivity.
Qed.
(** Rotary tables of any leading sizes: only the rows of the sequence count, at most all of them. *)
Theorem C80_rope_tables : forall b s w more a c m h outs y k e, nth_error outs 0 = Some y ->
  exists macs, rope_profile (mkTensor DYNAMIC (b :: s :: w) e :: more) [mkTensor STATIC [a; c; m; h] k; mkTensor STATIC [a; c; m; h] k] outs = SOk (macs, vols outs, 2 * (a * c * Z.min s m * h)).
Proof.
  intros b s w more a c m h outs y k e H. unfold rope_profile, pw_core, shape_at. rewrite H. cbn [sbind nth_error]. eexists. cbn [sbind t_shape map]. f_equal. f_equal.
  unfold rope_static, volume, sum_list. cbn [fold_right fold_left]. destruct (Z.ltb_spec s m); [rewrite Z.min_l by lia|rewrite Z.min_r by lia]; ring.
Qed.
