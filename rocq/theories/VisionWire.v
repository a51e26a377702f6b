(** The vision builder's graph is the encoder its configuration describes. *)
From Coq Require Import Permutation.
From Verif Require Import PyBase PyBaseFacts GraphModel CompressSpec ShapeModel FusionModel FusionProofs RegressModel RegressProofs LlmModel LlmSpec LlmNames LlmBuild LlmCost LlmCostSpec LlmCostProofs LlmRel LlmWireSpec InferModel LlmInfer LlmInferProofs Props_LlmWire VisionModel VisionSpec VisionProofs VisionFits VisionGraph.
Open Scope string_scope. Open Scope Z_scope.

Section WIRE.
Context (v : vdims) (c h w : Z).
Notation its := (vision_items v c h w).
Notation n := (grid v h w).
Notation g := (vgraph v c h w).
Notation st := (nums its).
Let d := d_hidden v.
Let a := d_heads v * d_head v.
Notation sub l := (incl l its).
Lemma w_node nm op ins sh k : In (IS nm op ins sh k) its -> step g nm op ins (nm ++ ".output").
Proof. intros H. split; [reflexivity|]. destruct (vision_exec v c h w) as (W & F & _). exact (item_node _ _ _ _ _ _ W F H). Qed.
Lemma w_comp nm op ins sh k : In (IS nm op ins sh k) its -> computes g nm op ins.
Proof. intros H. apply (w_node _ _ _ _ _ H). Qed.
Lemma w_weight nm sh : In (IW nm sh) its -> weight g nm sh.
Proof. intros H. destruct (vision_exec v c h w) as (W & F & _). exact (item_weight _ _ _ F H). Qed.
Lemma w_const nm l l' : In (IN nm l) its -> l = l' -> constant g st nm l'.
Proof.
  intros H <-. destruct (vision_exec v c h w) as (W & F & _). split; [exact (item_number _ _ _ F H)|].
  exact (item_stored _ _ (items_t_nodup v c h w) H).
Qed.
Ltac at_ k H := apply H; cbn [In]; do k right; left; reflexivity.
Ltac pick H := apply H; cbn; tauto.
Lemma lin_w nm x i o : sub (lin_items n nm x i o) -> affine g nm x (nm ++ ".output") i o.
Proof. intros H. split; [reflexivity|]. split; [apply w_weight; pick H|]. split; [apply w_weight; pick H|]. eapply w_comp. pick H. Qed.
Lemma ln_w nm x : sub (ln_items v n nm x) -> layer_norm g v nm x (nm ++ ".output").
Proof. intros H. split; [reflexivity|]. split; [apply w_weight; pick H|]. split; [apply w_weight; pick H|]. eapply w_comp. pick H. Qed.
Lemma slice_w nm x off m off' b : sub (slice_items n nm x off m) -> off = off' -> off + m = b -> columns g st nm x (nm ++ ".output") off' b.
Proof.
  intros H <- E. split; [reflexivity|]. split; [eapply w_const; [pick H|reflexivity]|]. split; [eapply w_const; [pick H|rewrite E; reflexivity]|].
  split; [eapply w_const; [pick H|reflexivity]|]. split; [eapply w_const; [pick H|reflexivity]|]. eapply w_comp. pick H.
Qed.
Lemma gelu_w nm x m : sub (gelu_items n nm x m) -> step g nm "Gelu" [x] (nm ++ ".output").
Proof. intros H. eapply w_node. pick H. Qed.
Lemma add_w nm x y : sub (add_items v n nm x y) -> step g nm "Add" [x; y] (nm ++ ".output").
Proof. intros H. eapply w_node. pick H. Qed.
Lemma sub_app A B : sub (A ++ B) -> sub A /\ sub B.
Proof. intros H. split; intros x X; apply H; apply in_or_app; auto. Qed.
Lemma attn_w nm x : sub (attn_items v n nm x) -> self_attention g st v nm x ((nm ++ ".o") ++ ".output").
Proof.
  unfold attn_items. intros H. repeat (apply sub_app in H as [? H]). unfold self_attention. cbv zeta.
  do 5 eexists. split; [apply lin_w; eassumption|]. split; [eapply slice_w; [eassumption|unfold a; ring|unfold a; ring]|]. split; [eapply slice_w; [eassumption|unfold a; ring|unfold a; ring]|].
  split; [eapply slice_w; [eassumption|unfold a; ring|unfold a; ring]|]. split; [|apply lin_w; eassumption]. eapply w_node.
  match goal with H0 : sub [IS _ "SDPA" _ _ _] |- _ => apply H0; left; reflexivity end.
Qed.
Lemma mlp_w nm x i m o : sub (mlp_items n nm x i m o) -> perceptron g nm x ((nm ++ ".fc2") ++ ".output") i m o.
Proof.
  unfold mlp_items. intros H. repeat (apply sub_app in H as [? H]). do 2 eexists. split; [apply lin_w; eassumption|]. split; [eapply gelu_w; eassumption|apply lin_w; eassumption].
Qed.
Lemma layer_w i x : sub (layer_items v n (block_name i) x) -> vision_block g st v i x ((block_name i ++ ".mlp_add") ++ ".output").
Proof.
  unfold layer_items. intros H. repeat (apply sub_app in H as [? H]). unfold vision_block. fold (block_name i). cbv zeta.
  do 5 eexists. split; [apply ln_w; eassumption|]. split; [apply attn_w; eassumption|]. split; [apply add_w; eassumption|]. split; [apply ln_w; eassumption|].
  split; [apply mlp_w; eassumption|apply add_w; eassumption].
Qed.
Lemma layers_w k : forall i x, sub (layers_items v n i k x) -> vision_blocks g st v i k x (layers_out i k x).
Proof.
  induction k as [|k IH]; intros i x H; cbn [layers_items layers_out] in *; [constructor|]. apply sub_app in H as [H1 H2].
  econstructor; [apply layer_w; exact H1|apply IH; exact H2].
Qed.
Lemma encoder_w : vision_encoder g st v c h w (proj_out v).
Proof.
  pose proof (incl_refl its) as H. unfold vision_items in H at 1. apply sub_app in H as [HH H]. apply sub_app in H as [HB HT].
  unfold tail_items in HT. apply sub_app in HT as [HN HP]. unfold vision_encoder. do 5 eexists.
  split; [apply w_weight; pick HH|]. split; [eapply (w_node "vision.patch_embed"); pick HH|]. split; [eapply w_const; [pick HH|reflexivity]|].
  split; [eapply (w_node "vision.patch_reshape"); pick HH|]. split; [apply w_weight; pick HH|]. split; [eapply (w_node "vision.pos_embed_add"); pick HH|].
  split; [apply layers_w; exact HB|]. split; [exact (ln_w "vision.post_ln" _ HN)|].
  unfold proj_items, proj_out in *. destruct (d_mlp v).
  - exact (mlp_w "vision.projector" _ _ _ _ HP).
  - exact (lin_w "vision.projector" _ _ _ HP).
Qed.
(** counts *)
Lemma layers_count k : forall i x, length (nnames (layers_items v n i k x)) = (13 * k)%nat.
Proof. induction k as [|k IH]; intros i x; [reflexivity|]. cbn [layers_items]. rewrite nnames_app, app_length, layer_n, IH, map_length. change (length local_n) with 13%nat. lia. Qed.
Lemma nodes_count : length (nodes_of g) = (13 * Z.to_nat (d_layers v) + if d_mlp v then 7 else 5)%nat.
Proof.
  destruct (vision_exec v c h w) as (_ & _ & _ & PN). unfold nodes_of. rewrite map_length. change (nodemap g) with (nodemap (built_of its)). rewrite <- (map_length fst), PN.
  unfold vision_items. rewrite !nnames_app, !app_length. unfold body_items. rewrite layers_count. unfold tail_items. rewrite nnames_app, app_length. unfold proj_items.
  destruct (d_mlp v); cbn [nnames head_items ln_items mlp_items lin_items gelu_items app flat_map length]; lia.
Qed.
Definition wnames (l : list item) : list string := flat_map (fun i => match i with IW n _ => [n] | IN n _ => [n] | _ => [] end) l.
Lemma wnames_app x y : wnames (x ++ y) = (wnames x ++ wnames y)%list.
Proof. apply flat_map_app. Qed.
Lemma layers_weights k : forall i x, length (wnames (layers_items v n i k x)) = (24 * k)%nat.
Proof. induction k as [|k IH]; intros i x; [reflexivity|]. cbn [layers_items]. rewrite wnames_app, app_length, IH. change (length (wnames (layer_items v n (block_name i) x))) with 24%nat. lia. Qed.
Lemma weights_count : length (initials g) = (24 * Z.to_nat (d_layers v) + if d_mlp v then 9 else 7)%nat.
Proof.
  destruct (vision_exec v c h w) as (_ & F & _). change (initials g) with (initials (built_of its)). rewrite initials_items by exact F. fold (wnames its).
  unfold vision_items. rewrite !wnames_app, !app_length. unfold body_items. rewrite layers_weights. unfold tail_items. rewrite wnames_app, app_length. unfold proj_items.
  destruct (d_mlp v); cbn [wnames head_items ln_items mlp_items lin_items gelu_items app flat_map length]; lia.
Qed.
Lemma only_pixels : g_input g = ["pixel_values"].
Proof.
  change (g_input g) with (g_input (built_of its)). rewrite inputs_items. unfold vision_items. rewrite !flat_map_app. cbn [head_items flat_map app]. f_equal.
  assert (L : forall k i x, flat_map (fun i => match i with IIn n _ => [n] | _ => [] end) (layers_items v n i k x) = []).
  { induction k as [|k IH]; intros i x; [reflexivity|]. cbn [layers_items]. rewrite flat_map_app, IH. reflexivity. }
  unfold body_items. rewrite L. unfold tail_items, proj_items. rewrite flat_map_app. destruct (d_mlp v); reflexivity.
Qed.
Lemma out_item : exists i x, In i its /\ ent i = (proj_out v, (act [1; n; d_llm v], x)).
Proof.
  unfold vision_items, tail_items, proj_items, proj_out. destruct (d_mlp v).
  - exists (IS "vision.projector.fc2" "MatMul" ["vision.projector.gelu.output"; "vision.projector.fc2.weight"; "vision.projector.fc2.bias"] [1; n; d_llm v] (linear_cost 1 n (d_proj v) (d_llm v) true)), None.
    split; [|reflexivity]. apply in_or_app; right; apply in_or_app; right; apply in_or_app; right. unfold mlp_items. apply in_or_app; right. apply in_or_app; right. right; right; left; reflexivity.
  - exists (IS "vision.projector" "MatMul" ["vision.post_ln.output"; "vision.projector.weight"; "vision.projector.bias"] [1; n; d_llm v] (linear_cost 1 n d (d_llm v) true)), None.
    split; [|reflexivity]. apply in_or_app; right; apply in_or_app; right; apply in_or_app; right. right; right; left; reflexivity.
Qed.
Lemma tensor_at i : In i its -> dget (tensormap g) (fst (ent i)) = Some (fst (snd (ent i))).
Proof. intros H. destruct (vision_exec v c h w) as (_ & F & _). exact (item_tensor _ _ F H). Qed.
Lemma out_shape : has_shape g (proj_out v) [1; n; d_llm v].
Proof. destruct out_item as (i & x & I & E). pose proof (tensor_at i I) as T. rewrite E in T. eexists. split; [exact T|reflexivity]. Qed.
Lemma in_shape : has_shape g "pixel_values" [1; c; h; w].
Proof. pose proof (tensor_at (IIn "pixel_values" [1; c; h; w])) as T. eexists. split; [apply T; left; reflexivity|reflexivity]. Qed.
End WIRE.
