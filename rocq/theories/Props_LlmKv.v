(** C93: KV cache accounting of [llm.Builder]. *)
From Coq Require Import Znumtheory Reals Permutation.
From Verif Require Import PyBase PyBaseFacts GraphModel CompressSpec ShapeModel FloatPy FusionModel FusionProofs RegressModel RegressProofs ProfileModel ProfileProofs LlmModel LlmProofs LlmSpec LlmBuild LlmLayers LlmGraphProofs
  TopSortModel TopSortSpec OrderSpec OrderProofs LlmCost LlmCostSpec LlmCostProofs LlmCostOps LlmCostTop LlmCostRows Props_Llm Props_LlmGraph LlmKv Props_LlmCost.
Open Scope string_scope. Open Scope Z_scope.

Lemma Forall2_at {A C} (P : A -> C -> Prop) l m a : Forall2 P l m -> In a l -> exists b, In b m /\ P a b.
Proof. induction 1 as [|x y l m H F IH]; [intros []|]. intros [E|I]; [subst; exists y; split; [left; reflexivity|exact H]|]. destruct (IH I) as (b & B1 & B2). exists b. split; [right; exact B1|exact B2]. Qed.
Lemma shapes_of_three (its : list tensor) a b d : map t_shape its = [a; b; d] -> exists t u v, its = [t; u; v] /\ t_shape t = a.
Proof. destruct its as [|t [|u [|v [|w its]]]]; intros E; try discriminate. injection E as E1 E2 E3. exists t, u, v. auto. Qed.

(** the keys and values of one layer: 2 x (heads x head size) numbers per position of each sequence *)
Definition layer_kv (c : config) (batch positions : Z) : Z := 2 * (c_kv_heads c * head_size c) * (batch * positions).
Theorem C93_attention_kv : forall m c x batch seq_len wm root fl g n,
  arch_config m c = SOk fl -> names_ok fl wm root -> (flag_or fl "pos_embedding" false = true -> flag_or fl "qk_rope" true = false) ->
  built m c batch seq_len wm root = SOk g -> In n (nodes_of g) -> n_op n = "SDPA" ->
  node_kv_size c x g n = SOk (layer_kv c batch seq_len).
Proof.
  intros m c x batch seq_len wm root fl g n A N P B Hn Op.
  destruct (plain_made m c x batch seq_len wm root fl g A N P B) as (l & cs & M). destruct M as [Mn _ D _ F _ _ _].
  unfold nodes_of in Hn. rewrite Mn, map_map in Hn. apply in_map_iff in Hn as (e & <- & Ie). cbn [snd] in *.
  destruct (Forall2_at _ _ _ _ F Ie) as (k & _ & its & F1 & _ & _ & _ & _ & _ & _ & _ & HS & _). specialize (HS Op).
  unfold node_kv_size. rewrite (smap_lookup g (n_in (fst e)) its).
  2: { eapply Forall2_impl; [|exact F1]. cbn. intros a t [I0 _]. apply (D (a, t) I0). }
  destruct (shapes_of_three _ _ _ _ HS) as (t & u & v & -> & Et). cbn [sbind]. unfold sdpa_core, shape_at. cbn [nth_error sbind]. rewrite Et. cbn [dim_at nth_error sbind].
  change (5 <=? zlen [t; u; v]) with false. cbn [sbind snd]. f_equal. unfold layer_kv. ring.
Qed.
Print Assumptions C93_attention_kv.
Theorem C93_cached_attention_kv : forall m c x batch seq_len wm root fl g n_context n,
  arch_config m c = SOk fl -> names_ok fl wm root -> (flag_or fl "pos_embedding" false = true -> flag_or fl "qk_rope" true = false) ->
  built m c batch seq_len wm root = SOk g -> x_past x + seq_len <= n_context ->
  let g' := add_kv_cache c fl batch n_context g in
  In n (nodes_of g') -> n_op n = "SDPA" -> node_kv_size c x g' n = SOk (layer_kv c batch (x_past x + seq_len)).
Proof.
  intros m c x batch seq_len wm root fl g n_context n A N P B HC g' Hn Op.
  set (cache := kv_cache_of c fl batch n_context).
  destruct (built_cost m c x batch seq_len wm root fl g A N P B cache (x_past x)) as (l & cs & M).
  { right. do 5 eexists. split; [reflexivity|]. split; [reflexivity|]. split; [reflexivity|exact HC]. }
  pose proof (built_spec m c batch seq_len wm root fl A N P) as H. rewrite B in H. destruct H as (W & _ & Dt).
  assert (F1 : ~ In "n_past" (tensor_names g)) by (intros X; destruct (Dt _ X) as [Y|[Y|Y]]; discriminate).
  assert (F2 : ~ In "kv_cache" (tensor_names g)) by (intros X; destruct (Dt _ X) as [Y|[Y|Y]]; discriminate).
  destruct M as [Mn Mi D _ F Ec _ _].
  set (kvn := fun n => if String.eqb (n_op n) "SDPA" then mkNode (n_name n) (n_op n) (n_in n ++ ["n_past"; "kv_cache"]) (n_out n) else n).
  assert (Nm : nodemap g' = map (fun e => (n_name (fst e), kvn (fst e))) (lnodes l)).
  { unfold g', add_kv_cache. cbn [nodemap]. rewrite Mn, map_map. reflexivity. }
  unfold nodes_of in Hn. rewrite Nm, map_map in Hn. apply in_map_iff in Hn as (e & <- & Ie). cbn [snd] in *.
  assert (OP : n_op (kvn (fst e)) = n_op (fst e)) by (unfold kvn; destruct (String.eqb (n_op (fst e)) "SDPA"); reflexivity). rewrite OP in Op.
  destruct (Forall2_at _ _ _ _ F Ie) as (k & _ & its & FI & _ & _ & _ & _ & _ & _ & _ & HS & _). specialize (HS Op).
  unfold kvn. rewrite Op. cbn [String.eqb Ascii.eqb Bool.eqb]. unfold node_kv_size. cbn [n_in].
  rewrite (smap_lookup g' (n_in (fst e) ++ ["n_past"; "kv_cache"]) (its ++ cache)).
  2: { apply Forall2_app.
       - eapply Forall2_impl; [|exact FI]. cbn beta. intros a t [I0 _]. unfold g'. rewrite cache_lookup; auto; [apply (D (a, t) I0)|]. unfold dhas. change (match dget (tensormap g) a with Some _ => true | None => false end = true); rewrite (D (a, t) I0 : dget (tensormap g) a = Some t); reflexivity.
       - repeat constructor; unfold g', add_kv_cache; cbn [tensormap]; [rewrite dget_dset_neq by discriminate|]; apply dget_dset_eq. }
  destruct (shapes_of_three _ _ _ _ HS) as (t & u & v & -> & Et). cbn [sbind]. unfold sdpa_core, shape_at, cache, kv_cache_of. cbn [app nth_error sbind]. rewrite Et. cbn [dim_at nth_error sbind].
  match goal with |- context [5 <=? zlen ?L] => change (5 <=? zlen L) with true end. cbn [t_shape nth_error dim_at sbind].
  apply Z.leb_le in HC. unfold dim_at. cbn [nth_error sbind]. rewrite HC. cbn [sbind snd]. f_equal. unfold layer_kv. ring.
Qed.
Print Assumptions C93_cached_attention_kv.
(** [Builder.kv_params] is the KV size of all layers, if every layer has ordinary attention *)
Theorem C93_builder_kv_params : forall fl c batch seq_len n_past, flag_or fl "is_mla" false = false ->
  builder_kv_params fl c batch seq_len n_past = c_layers c * layer_kv c batch (n_past + seq_len).
Proof. intros fl c batch seq_len n_past E. unfold builder_kv_params, layer_kv, kv_width. rewrite E. ring. Qed.
Print Assumptions C93_builder_kv_params.

(** [set_past_kv_length] changes what the attention operators read, but not [kv_params]: the size reported for a decode step
    (benchmark/llm_test.py:423-438) is that of the cache at its creation *)
Theorem C93_set_past_refuted : forall fl c batch seq_len p q, flag_or fl "is_mla" false = false ->
  0 < batch -> 0 < c_layers c -> 0 < c_kv_heads c -> 0 < head_size c -> p <> q ->
  let st := fold_left (kv_step fl c batch seq_len) [BuildGraph; AddKvCache p; SetPast q] (0, 0) in
  snd st = q /\ fst st <> c_layers c * layer_kv c batch (q + seq_len).
Proof.
  intros fl c batch seq_len p q E B L K H N. cbn [fold_left kv_step fst snd]. split; [reflexivity|]. rewrite C93_builder_kv_params by exact E. unfold layer_kv.
  intros X. apply N. set (w := c_layers c * (2 * (c_kv_heads c * head_size c)) * batch) in *.
  assert (W : w > 0) by (unfold w; assert (0 < c_kv_heads c * head_size c) by nia; assert (0 < c_layers c * (2 * (c_kv_heads c * head_size c))) by nia; nia).
  assert (Y : w * (p + seq_len) = w * (q + seq_len)) by (unfold w; clear - X; nia).
  apply Z.mul_reg_l in Y; lia.
Qed.
Print Assumptions C93_set_past_refuted.
Theorem C93_made_with_past : forall fl c batch seq_len p, flag_or fl "is_mla" false = false ->
  fold_left (kv_step fl c batch seq_len) [BuildGraph; AddKvCache p] (0, 0) = (c_layers c * layer_kv c batch (p + seq_len), p).
Proof. intros. cbn [fold_left kv_step]. rewrite C93_builder_kv_params by assumption. reflexivity. Qed.
Print Assumptions C93_made_with_past.
(** ... and it charges linear-attention layers, which keep no keys and values, like the others *)
Theorem C93_linear_layers_refuted : exists g fl, shipped gdn_ok 1 16 g fl /\ flag_or fl "is_mla" false = false /\
  total_kv_size gdn_ok no_extra g = SOk 0 /\ builder_kv_params fl gdn_ok 1 16 0 = 1024.
Proof. do 2 eexists. split; [ship|]. split; [reflexivity|]. split; vm_compute; reflexivity. Qed.
Print Assumptions C93_linear_layers_refuted.
Example C93_applies : exists g fl, shipped (tiny "LlamaForCausalLM" None None) 2 16 g fl /\ flag_or fl "is_mla" false = false /\
  total_kv_size (tiny "LlamaForCausalLM" None None) no_extra g = SOk (builder_kv_params fl (tiny "LlamaForCausalLM" None None) 2 16 0) /\
  builder_kv_params fl (tiny "LlamaForCausalLM" None None) 2 16 0 = 1024.
Proof. do 2 eexists. split; [ship|]. split; [reflexivity|]. split; vm_compute; reflexivity. Qed.
