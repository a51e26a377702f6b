(** C112, C113, C114: the vision encoders of [llm.Builder]. *)
From Coq Require Import Reals.
From Verif Require Import PyBase PyBaseFacts GraphModel CompressSpec ShapeModel FloatPy FusionModel FusionProofs RegressModel RegressProofs ProfileModel LlmModel LlmSpec LlmBuild LlmCost LlmCostSpec LlmCostProofs LlmRel LlmWireSpec InferModel LlmInfer LlmInferProofs
  VisionModel VisionSpec VisionProofs VisionFits VisionGraph VisionWire VisionInfer VisionCost.
Open Scope string_scope. Open Scope Z_scope.

Lemma dims_patch cfg v : vision_dims cfg = SOk v -> d_patch v = getattr (v_patch cfg) 14 /\ getattr (v_heads cfg) 16 <> 0.
Proof. unfold vision_dims. destruct (Z.eqb_spec (getattr (v_heads cfg) 16) 0); [discriminate|]. intros H. injection H as <-. auto. Qed.
Lemma graph_is cfg c h w v g st : vision_dims cfg = SOk v -> vision_graph cfg c h w = SOk (g, st) -> d_patch v <> 0 /\ g = vgraph v c h w /\ st = nums (vision_items v c h w).
Proof.
  intros D H. destruct (Z.eq_dec (d_patch v) 0) as [E|E].
  - exfalso. unfold vision_graph in H. rewrite D in H. cbn [sbind] in H. rewrite vision_raises in H by exact E. discriminate.
  - rewrite (vision_graph_eq v c h w cfg D E) in H. injection H as <- <-. auto.
Qed.
(** ** C112 *)
(** [build_vision_graph] succeeds exactly when the number of heads and the patch size are not 0. *)
Theorem C112_succeeds : forall cfg c h w,
  (exists g st, vision_graph cfg c h w = SOk (g, st)) <-> getattr (v_heads cfg) 16 <> 0 /\ getattr (v_patch cfg) 14 <> 0.
Proof.
  intros cfg c h w. split.
  - intros (g & st & H). unfold vision_graph in H. destruct (vision_dims cfg) as [v|] eqn:D; [|discriminate]. destruct (dims_patch cfg v D) as [E F].
    destruct (graph_is cfg c h w v g st D) as (N & _); [unfold vision_graph; rewrite D; exact H|]. rewrite <- E. auto.
  - intros [H1 H2]. assert (exists v, vision_dims cfg = SOk v) as (v & D). { unfold vision_dims. destruct (Z.eqb_spec (getattr (v_heads cfg) 16) 0); [contradiction|]. eauto. }
    do 2 eexists. apply (vision_graph_eq v c h w cfg D). destruct (dims_patch cfg v D) as [-> _]. exact H2.
Qed.
(** The sizes are the configured ones; a missing one has its documented value: 1024 wide, 24 blocks, 16 heads of width hidden / heads,
    MLPs four times as wide, patches of 14 x 14, an MLP projector as wide as the language model. *)
Definition given {A} (field : option A) (default used : A) : Prop := match field with Some x => used = x | None => used = default end.
Theorem C112_config : forall cfg v, vision_dims cfg = SOk v ->
  given (v_hidden cfg) 1024 (d_hidden v) /\ given (v_layers cfg) 24 (d_layers v) /\ given (v_heads cfg) 16 (d_heads v) /\
  given (v_inter cfg) (4 * d_hidden v) (d_inter v) /\ given (v_patch cfg) 14 (d_patch v) /\
  given (v_head_dim cfg) (d_hidden v / d_heads v) (d_head v) /\ given (v_proj cfg) (v_llm cfg) (d_proj v) /\ d_llm v = v_llm cfg /\
  (d_mlp v = true <-> v_proj_type cfg = None \/ v_proj_type cfg = Some "mlp").
Proof.
  intros cfg v. unfold vision_dims. destruct (Z.eqb_spec (getattr (v_heads cfg) 16) 0); [discriminate|]. intros H. injection H as <-.
  unfold given, getattr. cbn [d_hidden d_layers d_heads d_inter d_patch d_head d_proj d_mlp d_llm].
  split; [destruct (v_hidden cfg); reflexivity|]. split; [destruct (v_layers cfg); reflexivity|]. split; [destruct (v_heads cfg); reflexivity|].
  split; [destruct (v_inter cfg); [reflexivity|apply Z.mul_comm]|]. split; [destruct (v_patch cfg); reflexivity|]. split; [destruct (v_head_dim cfg); reflexivity|].
  split; [destruct (v_proj cfg); reflexivity|]. split; [reflexivity|].
  destruct (v_proj_type cfg) as [t|]; [|split; [left; reflexivity|reflexivity]]. destruct (String.eqb_spec t "mlp") as [->|N]; split; intros K; auto; try discriminate. destruct K as [K|K]; congruence.
Qed.
(** The graph is executable, its only input are the pixels, and its output is computed from them by exactly the described
    encoder: patches, positions, [d_layers] blocks in order, norm, projector. *)
Theorem C112_encoder : forall cfg c h w v g st, vision_dims cfg = SOk v -> vision_graph cfg c h w = SOk (g, st) ->
  executable_graph g /\ g_input g = ["pixel_values"] /\ has_shape g "pixel_values" [1; c; h; w] /\
  exists out, g_output g = [out] /\ has_shape g out [1; patches v h w; d_llm v] /\ vision_encoder g st v c h w out.
Proof.
  intros cfg c h w v g st D H. destruct (graph_is _ _ _ _ _ _ _ D H) as (N & -> & ->).
  split; [apply vgraph_exec|]. split; [apply only_pixels|]. split; [apply in_shape|]. exists (proj_out v). split; [reflexivity|]. split; [apply out_shape|apply encoder_w].
Qed.
(** nothing else is in it *)
Theorem C112_counts : forall cfg c h w v g st, vision_dims cfg = SOk v -> vision_graph cfg c h w = SOk (g, st) ->
  length (nodes_of g) = (13 * Z.to_nat (d_layers v) + if d_mlp v then 7 else 5)%nat /\
  length (initials g) = (24 * Z.to_nat (d_layers v) + if d_mlp v then 9 else 7)%nat.
Proof. intros cfg c h w v g st D H. destruct (graph_is _ _ _ _ _ _ _ D H) as (N & -> & ->). split; [apply nodes_count|apply weights_count]. Qed.
(** Zero heads fail even when the width of a head is given: the default is computed anyway. *)
Theorem C112_default_refuted : forall cfg c h w d, v_heads cfg = Some 0 -> v_head_dim cfg = Some d -> vision_graph cfg c h w = SRaise ZeroDivErr.
Proof. intros cfg c h w d H _. unfold vision_graph, vision_dims. rewrite H. reflexivity. Qed.
Theorem C112_no_patch_size_refuted : forall cfg c h w, getattr (v_heads cfg) 16 <> 0 -> v_patch cfg = Some 0 -> vision_graph cfg c h w = SRaise ZeroDivErr.
Proof.
  intros cfg c h w H P. unfold vision_graph. assert (exists v, vision_dims cfg = SOk v) as (v & D). { unfold vision_dims. destruct (Z.eqb_spec (getattr (v_heads cfg) 16) 0); [contradiction|]. eauto. }
  rewrite D. cbn [sbind]. rewrite vision_raises; [reflexivity|]. destruct (dims_patch cfg v D) as [-> _]. rewrite P. reflexivity.
Qed.
(** A patch is not a token.  The patches come as [1; hidden; rows; columns], the tokens are [1; patches; hidden], and the node between
    them (C112_encoder) is a Reshape, which keeps the numbers in row-major order and transposes nothing.  [flat4] and [flat3] are the row-major positions. *)
Definition flat4 (d rows cols o y x : Z) : Z := (o * rows + y) * cols + x.
Definition flat3 (d token j : Z) : Z := token * d + j.
(** token [i] would be patch [i]: feature [j] of the token is feature [j] of the patch in row [i / cols], column [i mod cols] *)
Definition tokens_are_patches (d rows cols : Z) : Prop :=
  forall i j, 0 <= i < rows * cols -> 0 <= j < d -> flat3 d i j = flat4 d rows cols j (i / cols) (i mod cols).
Theorem C112_tokens_refuted : forall d rows cols, 0 < d -> 0 < rows -> 0 < cols -> (tokens_are_patches d rows cols <-> d = 1 \/ rows * cols = 1).
Proof.
  intros d rows cols D R C. unfold tokens_are_patches, flat3, flat4. split.
  - intros H. destruct (Z.eq_dec d 1) as [|N]; [left; assumption|]. right. pose proof (Z.mul_pos_pos _ _ R C). specialize (H 0 1 ltac:(lia) ltac:(lia)).
    rewrite Z.div_0_l, Z.mod_0_l in H by lia. rewrite Z.mul_1_l, !Z.add_0_r, Z.mul_0_l in H. lia.
  - intros E i j Hi Hj. pose proof (Z.div_mod i cols ltac:(lia)). destruct E as [-> | E].
    + assert (j = 0) as -> by lia. lia.
    + assert (i = 0) as -> by lia. rewrite Z.div_0_l, Z.mod_0_l by lia. rewrite !Z.add_0_r, Z.mul_0_l, <- Z.mul_assoc, E. lia.
Qed.
Definition vit : vconfig := {| v_hidden := Some 64; v_layers := Some 2; v_heads := Some 4; v_inter := None; v_patch := None; v_head_dim := None; v_proj := None; v_proj_type := None; v_llm := 96 |}.
Definition vit_dims : vdims := {| d_hidden := 64; d_layers := 2; d_heads := 4; d_inter := 256; d_patch := 14; d_head := 16; d_proj := 96; d_mlp := true; d_llm := 96 |}.
Lemma vit_ok : vision_dims vit = SOk vit_dims.
Proof. reflexivity. Qed.
Example C112_applies : exists g st, vision_graph vit 3 56 70 = SOk (g, st) /\ length (nodes_of g) = 33%nat /\ length (initials g) = 57%nat /\
  computes g "vision.blocks.1.attn.sdpa" "SDPA" ["vision.blocks.1.attn.q_slice.output"; "vision.blocks.1.attn.k_slice.output"; "vision.blocks.1.attn.v_slice.output"] /\
  has_shape g "vision.projector.fc2.output" [1; 20; 96].
Proof. do 2 eexists. split; [vm_compute; reflexivity|]. repeat split; try (vm_compute; reflexivity). eexists. split; vm_compute; reflexivity. Qed.

(** ** C113 *)
(** Every recorded shape fits its node. *)
Theorem C113_shapes : forall cfg c h w v g st, vision_dims cfg = SOk v -> vision_graph cfg c h w = SOk (g, st) -> 0 <= d_heads v * d_head v -> vision_shaped g.
Proof. intros cfg c h w v g st D H P. destruct (graph_is _ _ _ _ _ _ _ D H) as (N & -> & ->). apply shaped. exact P. Qed.
(** sizes as they occur: positive, and small enough for exact floating-point division *)
Definition usual (v : vdims) (h w : Z) : Prop :=
  0 < d_patch v /\ 0 < d_hidden v /\ 0 <= d_heads v * d_head v /\ 3 * (d_heads v * d_head v) < 2 ^ 53 - 1 /\ 0 < patches v h w < 2 ^ 53 - 1.
Definition image (v : vdims) (b c h w : Z) : Prop := 0 <= b /\ 0 <= c /\ 0 <= h /\ 0 <= w /\ h + 2 * d_patch v < 2 ^ 50 /\ w + 2 * d_patch v < 2 ^ 50.
(** the shapes after inference on a [b]x[c]x[h]x[w] image *)
Definition inferred (v : vdims) (g : graph) (b c h w : Z) (t : string) : option (list Z) :=
  if String.eqb t "pixel_values" then Some [b; c; h; w]
  else if String.eqb t "vision.patch_embed.output" then Some [b; d_hidden v; h / d_patch v; w / d_patch v]
  else option_map t_shape (dget (tensormap g) t).
Lemma tm2_shapes v c h w b2 c2 h2 w2 num t :
  option_map tr_shape (dget (dset (dset (vision_tensors (vgraph v c h w) (nums (vision_items v c h w))) "pixel_values" (mkT [b2; c2; h2; w2] num)) "vision.patch_embed.output" (mkT [b2; d_hidden v; h2 / d_patch v; w2 / d_patch v] None)) t)
  = inferred v (vgraph v c h w) b2 c2 h2 w2 t.
Proof.
  unfold inferred. destruct (String.eqb_spec t "pixel_values") as [->|N1]; [rewrite dget_dset_neq by discriminate; rewrite dget_dset_eq; reflexivity|].
  destruct (String.eqb_spec t "vision.patch_embed.output") as [->|N2]; [rewrite dget_dset_eq; reflexivity|]. rewrite !dget_dset_neq by auto. rewrite tm0_get. destruct (dget (tensormap (vgraph v c h w)) t); reflexivity.
Qed.
(** An image, or a batch of images, gets through exactly when it has as many patches as the one the graph was built for;
    every other tensor then keeps its shape, the result has shape [1; patches; d_llm]. *)
Theorem C113_infer : forall cfg c h w v g st b2 c2 h2 w2 data, vision_dims cfg = SOk v -> vision_graph cfg c h w = SOk (g, st) ->
  usual v h w -> image v b2 c2 h2 w2 ->
  (b2 * patches v h2 w2 = patches v h w ->
   exists tm, vision_infer v g st [("pixel_values", ([b2; c2; h2; w2], data))] = SOk tm /\ forall t, option_map tr_shape (dget tm t) = inferred v g b2 c2 h2 w2 t) /\
  (b2 * patches v h2 w2 <> patches v h w -> vision_infer v g st [("pixel_values", ([b2; c2; h2; w2], data))] = SRaise ValueErr).
Proof.
  intros cfg c h w v g st b2 c2 h2 w2 data D H (U1 & U2 & U3 & U4 & U5) (I1 & I2 & I3 & I4 & I5 & I6). destruct (graph_is _ _ _ _ _ _ _ D H) as (N & -> & ->).
  pose proof (tm0_holds v c h w "pixel_values" (pl (act [1; c; h; w]))) as HP. cbn [rec_of pl fst snd act t_shape] in HP.
  assert (EQ : vision_infer v (vgraph v c h w) (nums (vision_items v c h w)) [("pixel_values", ([b2; c2; h2; w2], data))] =
    if b2 * (h2 / d_patch v) * (w2 / d_patch v) =? grid v h w then SOk (dset (dset (vision_tensors (vgraph v c h w) (nums (vision_items v c h w))) "pixel_values" (mkT [b2; c2; h2; w2] (Some ([b2; c2; h2; w2], data)))) "vision.patch_embed.output" (mkT [b2; d_hidden v; h2 / d_patch v; w2 / d_patch v] None)) else SRaise ValueErr).
  { unfold vision_infer, graph_shape_infer, update_input_by_map. cbn [fold_left fst snd]. unfold dhas. rewrite HP by (cbn; tauto). unfold update_tensor. cbn [fst].
    rewrite only_pixels. cbn [check_inputs]. rewrite dget_dset_eq. cbn [tr_shape forallb].
    repeat (match goal with |- context [0 <=? ?x] => destruct (Z.leb_spec 0 x); [|lia] end). cbn [andb sbind].
    apply run_vision; auto; lia. }
  rewrite EQ. unfold patches in *. assert (G : grid v h w = h / d_patch v * (w / d_patch v)) by reflexivity. rewrite <- Z.mul_assoc. rewrite G. split; intros K.
  - rewrite (proj2 (Z.eqb_eq _ _) K). eexists. split; [reflexivity|]. intros t. apply tm2_shapes.
  - rewrite (proj2 (Z.eqb_neq _ _) K). reflexivity.
Qed.
(** Without an argument, inference reproduces every recorded shape. *)
Theorem C113_as_built : forall cfg c h w v g st, vision_dims cfg = SOk v -> vision_graph cfg c h w = SOk (g, st) -> usual v h w -> image v 1 c h w ->
  exists tm, vision_infer v g st [] = SOk tm /\ forall t, option_map tr_shape (dget tm t) = option_map t_shape (dget (tensormap g) t).
Proof.
  intros cfg c h w v g st D H (U1 & U2 & U3 & U4 & U5) (I1 & I2 & I3 & I4 & I5 & I6). destruct (graph_is _ _ _ _ _ _ _ D H) as (N & -> & ->).
  pose proof (tm0_holds v c h w "pixel_values" (pl (act [1; c; h; w]))) as HP. cbn [rec_of pl fst snd act t_shape] in HP. specialize (HP ltac:(cbn; tauto)).
  assert (HE : dget (vision_tensors (vgraph v c h w) (nums (vision_items v c h w))) "vision.patch_embed.output" = Some (mkT [1; d_hidden v; h / d_patch v; w / d_patch v] None)) by (apply (tm0_holds v c h w _ (pl (act [1; d_hidden v; h / d_patch v; w / d_patch v]))); cbn; tauto).
  exists (vision_tensors (vgraph v c h w) (nums (vision_items v c h w))). split.
  - unfold vision_infer, graph_shape_infer, update_input_by_map. cbn [fold_left]. rewrite only_pixels. cbn [check_inputs]. rewrite HP. cbn [tr_shape rec_of pl fst act t_shape forallb].
    repeat (match goal with |- context [0 <=? ?x] => destruct (Z.leb_spec 0 x); [|lia] end). cbn [andb sbind].
    pose proof (run_vision v c h w U1 U3 U5 U2 U4 1 c h w None) as R. rewrite (dset_same _ _ (mkT [1; c; h; w] None) HP) in R. rewrite (dset_same _ _ _ HE) in R. specialize (R ltac:(lia) ltac:(lia)).
    rewrite R. assert (G : 1 * (h / d_patch v) * (w / d_patch v) = grid v h w) by (unfold grid; cbv zeta; ring). rewrite (proj2 (Z.eqb_eq _ _) G). reflexivity.
  - intros t. rewrite tm0_get. destruct (dget (tensormap (vgraph v c h w)) t); reflexivity.
Qed.
(** The number of channels is never looked at. *)
Theorem C113_channels_refuted : forall cfg c h w v g st c2 data, vision_dims cfg = SOk v -> vision_graph cfg c h w = SOk (g, st) -> usual v h w -> image v 1 c2 h w ->
  exists tm, vision_infer v g st [("pixel_values", ([1; c2; h; w], data))] = SOk tm.
Proof.
  intros cfg c h w v g st c2 data D H U I. destruct (C113_infer cfg c h w v g st 1 c2 h w data D H U I) as [A _]. destruct A as (tm & E & _); [ring|]. exists tm. exact E.
Qed.
(** Two images of the size the graph was built for are refused. *)
Theorem C113_batch_refuted : forall cfg c h w v g st data, vision_dims cfg = SOk v -> vision_graph cfg c h w = SOk (g, st) -> usual v h w -> image v 2 c h w ->
  vision_infer v g st [("pixel_values", ([2; c; h; w], data))] = SRaise ValueErr.
Proof.
  intros cfg c h w v g st data D H U I. destruct (C113_infer cfg c h w v g st 2 c h w data D H U I) as [_ B]. apply B. destruct U as (_ & _ & _ & _ & U). lia.
Qed.
(** A graph for an image smaller than a patch is built, but no inference on it succeeds. *)
Theorem C113_small_image_refuted : forall cfg c h w v, vision_dims cfg = SOk v -> 0 < d_patch v -> 0 < d_hidden v -> image v 1 c h w -> h < d_patch v ->
  exists g st, vision_graph cfg c h w = SOk (g, st) /\ vision_infer v g st [] = SRaise ValueErr.
Proof.
  intros cfg c h w v D P Hd (I1 & I2 & I3 & I4 & I5 & I6) L. exists (vgraph v c h w), (nums (vision_items v c h w)). split; [apply vision_graph_eq; [exact D|lia]|].
  unfold vision_infer, graph_shape_infer, update_input_by_map. cbn [fold_left]. rewrite only_pixels. cbn [check_inputs].
  pose proof (tm0_holds v c h w "pixel_values" (pl (act [1; c; h; w]))) as HP. cbn [rec_of pl fst snd act t_shape] in HP. rewrite HP by (cbn; tauto). cbn [tr_shape rec_of pl fst act t_shape forallb].
  repeat (match goal with |- context [0 <=? ?x] => destruct (Z.leb_spec 0 x); [|lia] end). cbn [andb sbind].
  apply run_small; auto. unfold grid. cbv zeta. rewrite Z.div_small by lia. reflexivity.
Qed.
Example C113_applies : exists g st, vision_graph vit 3 56 70 = SOk (g, st) /\ usual vit_dims 56 70 /\ image vit_dims 5 3 28 28 /\
  5 * patches vit_dims 28 28 = patches vit_dims 56 70 /\ inferred vit_dims g 5 3 28 28 "vision.projector.fc2.output" = Some [1; 20; 96].
Proof. do 2 eexists. split; [apply (vision_graph_eq vit_dims 3 56 70 vit vit_ok); discriminate|]. split; [repeat split; vm_compute; congruence|]. split; [repeat split; vm_compute; congruence|]. split; vm_compute; reflexivity. Qed.

(** ** C114 *)
Theorem C114_size : forall cfg c h w v g st, vision_dims cfg = SOk v -> vision_graph cfg c h w = SOk (g, st) -> stored_params g = encoder_params v c (patches v h w).
Proof. intros cfg c h w v g st D H. destruct (graph_is _ _ _ _ _ _ _ D H) as (N & -> & ->). apply stored_total. Qed.
Theorem C114_report : forall cfg c h w v g st, vision_dims cfg = SOk v -> vision_graph cfg c h w = SOk (g, st) ->
  exists r, profiles (vision_nprof v) g [] r /\
    sum_list (map r_macs (rp_rows r)) = encoder_macs v c (patches v h w) /\
    rp_params r = encoder_params v c (patches v h w) /\
    rp_memory r = 4 * (encoder_io v (patches v h w) + encoder_params v c (patches v h w)) /\
    map r_name (rp_rows r) = dkeys (nodemap g).
Proof. intros cfg c h w v g st D H. destruct (graph_is _ _ _ _ _ _ _ D H) as (N & -> & ->). apply report_ok. Qed.
(** Attention is what grows faster than the image: with [k] times the patches it costs [k * k] times as much, all else [k] times. *)
Definition attention_macs (v : vdims) (n : Z) : Z := blocks v * (d_heads v * n * n * (2 * d_head v + 36)).
Theorem C114_scaling : forall v c n k, encoder_macs v c (k * n) - attention_macs v (k * n) = k * (encoder_macs v c n - attention_macs v n) /\
  attention_macs v (k * n) = k * k * attention_macs v n.
Proof. intros v c n k. unfold encoder_macs, attention_macs, block_macs, norm_macs, projector_macs. destruct (d_mlp v); split; ring. Qed.
(** The image size enters the number of stored parameters through the positions only. *)
Theorem C114_resolution : forall v c n m, encoder_params v c n - encoder_params v c m = (n - m) * d_hidden v.
Proof. intros v c n m. unfold encoder_params. ring. Qed.
Example C114_applies : exists g st, vision_graph vit 3 56 70 = SOk (g, st) /\ encoder_params vit_dims 3 20 = 154587 /\ stored_params g = 154587.
Proof. do 2 eexists. split; [vm_compute; reflexivity|]. split; vm_compute; reflexivity. Qed.
