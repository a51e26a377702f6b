(** The log of the vision builder, item by item. *)
From Verif Require Import PyBase PyBaseFacts GraphModel ShapeModel FusionModel RegressModel RegressProofs LlmModel LlmSpec LlmNames LlmBuild LlmCost LlmCostSpec LlmCostProofs LlmRel InferModel LlmInfer VisionModel.
Open Scope string_scope. Open Scope Z_scope.

Notation narr := (list Z * list Z)%type.
Notation entry := (string * (tensor * option narr))%type.
Inductive item :=
| IIn (n : string) (sh : list Z)
| IW (n : string) (sh : list Z)
| IN (n : string) (l : list Z)
| IS (n op : string) (ins : list string) (sh : list Z) (k : cost).
Definition ev_of (i : item) : ev :=
  match i with
  | IIn n sh => EInput n (mkTensor DYNAMIC sh 4)
  | IW n sh => EStatic n (mkTensor STATIC sh 4)
  | IN n l => EStatic n (mkTensor STATIC [zlen l] 8)
  | IS n op ins sh _ => ENode (mkNode n op ins [n ++ ".output"]) (mkTensor DYNAMIC sh 4)
  end.
Definition ent (i : item) : entry :=
  match i with
  | IIn n sh => (n, (act sh, None))
  | IW n sh => (n, (wt sh, None))
  | IN n l => (n, (ct [zlen l], Some ([zlen l], l)))
  | IS n _ _ sh _ => (n ++ ".output", (act sh, None))
  end.
Definition nums (l : list item) : list (string * narr) := flat_map (fun i => match i with IN n l => [(n, ([zlen l], l))] | _ => [] end) l.
Definition costs (l : list item) : list cost := flat_map (fun i => match i with IS _ _ _ _ k => [k] | _ => [] end) l.
Lemma nums_app a b : nums (a ++ b) = (nums a ++ nums b)%list.
Proof. apply flat_map_app. Qed.
Lemma costs_app a b : costs (a ++ b) = (costs a ++ costs b)%list.
Proof. apply flat_map_app. Qed.

(** ** What each function adds *)
Definition ext (s : bst) (items : list item) (bo : list (string * (Z * Z))) : bst :=
  {| log := (log s ++ map ev_of items)%list; rope_done := rope_done s; pos_done := pos_done s; bounds := (bounds s ++ bo)%list |}.
Lemma ext_ext s a b i j : ext (ext s a i) b j = ext s (a ++ b) (i ++ j).
Proof. unfold ext. cbn [log rope_done pos_done bounds]. rewrite map_app, !app_assoc. reflexivity. Qed.
Lemma ext_nil s : ext s [] [] = s.
Proof. unfold ext. cbn [map]. rewrite !app_nil_r. destruct s; reflexivity. Qed.
Definition makes {A} (m : B A) (a : A) (items : list item) (bo : list (string * (Z * Z))) : Prop := forall s, m s = SOk (a, ext s items bo).
Lemma makes_bind {A C} (m : B A) (f : A -> B C) a i b r i' b' : makes m a i b -> makes (f a) r i' b' -> makes (bind m f) r (i ++ i') (b ++ b').
Proof. intros H K s. unfold bind. rewrite H. cbn [sbind fst snd]. rewrite K, ext_ext. reflexivity. Qed.
Lemma makes_ret {A} (a : A) : makes (ret a) a [] [].
Proof. intros s. rewrite ext_nil. reflexivity. Qed.
Lemma makes_lift {A} (r : sres A) a : r = SOk a -> makes (lift r) a [] [].
Proof. intros -> s. rewrite ext_nil. reflexivity. Qed.
Lemma makes_eq {A} (m : B A) a i b a' i' b' : makes m a i b -> a = a' -> i = i' -> b = b' -> makes m a' i' b'.
Proof. intros H -> -> ->. exact H. Qed.
Lemma makes_static n sh : makes (static n sh) n [IW n sh] [].
Proof. intros s. unfold static, tell, ret, bind, ext. cbn. rewrite app_nil_r. reflexivity. Qed.
Lemma makes_emit n op ins sh k : makes (emit n op ins sh) (n ++ ".output", sh) [IS n op ins sh k] [].
Proof. intros s. unfold emit, tell, ret, bind, ext. cbn. rewrite app_nil_r. reflexivity. Qed.
Lemma makes_tell n sh : makes (tell (EInput n (mkTensor DYNAMIC sh 4))) tt [IIn n sh] [].
Proof. intros s. unfold tell, ext. cbn. rewrite app_nil_r. reflexivity. Qed.
Ltac mb := eapply makes_bind.
Ltac done := reflexivity.

Section ITEMS.
Context (v : vdims) (n : Z).
Let d := d_hidden v.
Let a := d_heads v * d_head v.
Notation B1 w := [1; n; w].
(** affine maps, norms, slices, activations *)
Definition lin_items (nm x : string) (i o : Z) : list item :=
  [IW (nm ++ ".weight") [i; o]; IW (nm ++ ".bias") [o]; IS nm "MatMul" [x; nm ++ ".weight"; nm ++ ".bias"] (B1 o) (linear_cost 1 n i o true)].
Definition ln_items (nm x : string) : list item :=
  [IW (nm ++ ".weight") [d]; IW (nm ++ ".bias") [d]; IS nm "LayerNormalization" [x; nm ++ ".weight"; nm ++ ".bias"] (B1 d) (norm_on 1 n d (2 * d))].
Definition slice_items (nm x : string) (off m : Z) : list item :=
  [IN (nm ++ ".start") [off]; IN (nm ++ ".end") [off + m]; IN (nm ++ ".axis") [2]; IN (nm ++ ".step") [1];
   IS nm "Slice" [x; nm ++ ".start"; nm ++ ".end"; nm ++ ".axis"; nm ++ ".step"] (B1 m) (slice_cost 1 n m)].
Definition gelu_items (nm x : string) (m : Z) : list item := [IS nm "Gelu" [x] (B1 m) (eltwise_cost 1 n m 34)].
Definition add_items (nm x y : string) : list item := [IS nm "Add" [x; y] (B1 d) (eltwise_cost 1 n d 1)].
Definition sdpa_cost : cost := mkCost (1 * d_heads v * n * n * (2 * d_head v + 36)) (1 * n * a) 0 0.
Definition attn_items (nm x : string) : list item :=
  (lin_items (nm ++ ".qkv") x d (3 * a) ++
   slice_items (nm ++ ".q_slice") ((nm ++ ".qkv") ++ ".output") 0 a ++
   slice_items (nm ++ ".k_slice") ((nm ++ ".qkv") ++ ".output") a a ++
   slice_items (nm ++ ".v_slice") ((nm ++ ".qkv") ++ ".output") (a * 2) a ++
   ([IS (nm ++ ".sdpa") "SDPA" [(nm ++ ".q_slice") ++ ".output"; (nm ++ ".k_slice") ++ ".output"; (nm ++ ".v_slice") ++ ".output"] (B1 a) sdpa_cost])%string ++
   lin_items (nm ++ ".o") ((nm ++ ".sdpa") ++ ".output") a d)%list.
Definition mlp_items (nm x : string) (i m o : Z) : list item :=
  (lin_items (nm ++ ".fc1") x i m ++ gelu_items (nm ++ ".gelu") ((nm ++ ".fc1") ++ ".output") m ++ lin_items (nm ++ ".fc2") ((nm ++ ".gelu") ++ ".output") m o)%list.
Definition layer_items (p x : string) : list item :=
  (ln_items (p ++ ".ln1") x ++ attn_items (p ++ ".attn") ((p ++ ".ln1") ++ ".output") ++
   add_items (p ++ ".attn_add") x (((p ++ ".attn") ++ ".o") ++ ".output") ++
   ln_items (p ++ ".ln2") ((p ++ ".attn_add") ++ ".output") ++
   mlp_items (p ++ ".mlp") ((p ++ ".ln2") ++ ".output") d (d_inter v) d ++
   add_items (p ++ ".mlp_add") ((p ++ ".attn_add") ++ ".output") (((p ++ ".mlp") ++ ".fc2") ++ ".output"))%list.
Definition block_name (i : nat) : string := "vision.blocks." ++ dec i.
Fixpoint layers_items (i k : nat) (x : string) : list item :=
  match k with O => [] | S k' => (layer_items (block_name i) x ++ layers_items (S i) k' ((block_name i ++ ".mlp_add") ++ ".output"))%list end.
Fixpoint layers_out (i k : nat) (x : string) : string := match k with O => x | S k' => layers_out (S i) k' ((block_name i ++ ".mlp_add") ++ ".output") end.
Definition slice_bounds (p : string) : list (string * (Z * Z)) :=
  [((p ++ ".attn") ++ ".q_slice", (0, 0 + a)); ((p ++ ".attn") ++ ".k_slice", (a, a + a)); ((p ++ ".attn") ++ ".v_slice", (a * 2, a * 2 + a))].
Fixpoint layers_bounds (i k : nat) : list (string * (Z * Z)) := match k with O => [] | S k' => (slice_bounds (block_name i) ++ layers_bounds (S i) k')%list end.
Definition proj_items (x : string) : list item :=
  if d_mlp v then mlp_items "vision.projector" x d (d_proj v) (d_llm v) else lin_items "vision.projector" x d (d_llm v).
Definition proj_out : string := if d_mlp v then "vision.projector.fc2.output" else "vision.projector.output".

Lemma lin_makes nm x i o m : makes (add_vision_mm (x, B1 m) i o nm) (nm ++ ".output", B1 o) (lin_items nm x i o) [].
Proof. unfold add_vision_mm. eapply makes_eq; [mb; [apply makes_static|]; mb; [apply makes_static|]; apply makes_emit with (k := linear_cost 1 n i o true)|done|done|done]. Qed.
Lemma ln_makes nm x : makes (add_vision_layernorm (x, B1 d) d nm) (nm ++ ".output", B1 d) (ln_items nm x) [].
Proof. unfold add_vision_layernorm. eapply makes_eq; [mb; [apply makes_static|]; mb; [apply makes_static|]; apply makes_emit with (k := norm_on 1 n d (2 * d))|done|done|done]. Qed.
Lemma slice_makes nm x w off m : makes (add_slice (x, B1 w) off m nm) (nm ++ ".output", B1 m) (slice_items nm x off m) [(nm, (off, off + m))].
Proof. intros s. unfold add_slice, static8, emit, note, tell, ret, bind, lift, ext. cbn. rewrite <- !app_assoc. reflexivity. Qed.
Lemma gelu_makes nm x m : makes (add_act (x, B1 m) "gelu_new" nm) (nm ++ ".output", B1 m) (gelu_items nm x m) [].
Proof. unfold add_act. eapply makes_eq; [mb; [apply makes_lift; reflexivity|]; apply makes_emit with (k := eltwise_cost 1 n m 34)|done|done|done]. Qed.
Lemma add_makes nm x y : makes (add_eltop (x, B1 d) (y, B1 d) "Add" nm) (nm ++ ".output", B1 d) (add_items nm x y) [].
Proof. unfold add_eltop. eapply makes_eq; [mb; [apply makes_lift; apply max_same|]; apply makes_emit with (k := eltwise_cost 1 n d 1)|done|done|done]. Qed.
Lemma attn_makes nm x : makes (add_vision_attention (x, B1 d) d (d_heads v) (d_head v) nm) ((nm ++ ".o") ++ ".output", B1 d) (attn_items nm x)
  [(nm ++ ".q_slice", (0, 0 + a)); (nm ++ ".k_slice", (a, a + a)); (nm ++ ".v_slice", (a * 2, a * 2 + a))].
Proof.
  unfold add_vision_attention. cbn zeta. fold a. unfold attn_items.
  eapply makes_eq; [mb; [apply lin_makes|]; mb; [apply slice_makes|]; mb; [apply slice_makes|]; mb; [apply slice_makes|]; mb; [apply makes_emit with (k := sdpa_cost)|]; apply lin_makes|done|done|done].
Qed.
Lemma mlp_makes nm x i m : makes (add_vision_mlp (x, B1 i) i m nm) ((nm ++ ".fc2") ++ ".output", B1 i) (mlp_items nm x i m i) [].
Proof. unfold add_vision_mlp. eapply makes_eq; [mb; [apply lin_makes|]; mb; [apply gelu_makes|]; apply lin_makes|done|done|done]. Qed.
Lemma layer_makes p x : makes (add_vision_layer (x, B1 d) d (d_heads v) (d_head v) (d_inter v) p) ((p ++ ".mlp_add") ++ ".output", B1 d) (layer_items p x) (slice_bounds p).
Proof.
  unfold add_vision_layer, layer_items.
  eapply makes_eq; [mb; [apply ln_makes|]; mb; [apply attn_makes|]; mb; [apply add_makes|]; mb; [apply ln_makes|]; mb; [apply mlp_makes|]; apply add_makes|done|done|done].
Qed.
Lemma layers_makes k : forall i x, makes (add_vision_layers v i k (x, B1 d)) (layers_out i k x, B1 d) (layers_items i k x) (layers_bounds i k).
Proof.
  induction k as [|k IH]; intros i x; cbn [add_vision_layers layers_items layers_out layers_bounds]; [apply makes_ret|].
  mb; [apply layer_makes|]. apply IH.
Qed.
Lemma proj_makes x : makes (add_vision_projector v (x, B1 d)) (proj_out, B1 (d_llm v)) (proj_items x) [].
Proof.
  unfold add_vision_projector, proj_items, proj_out. fold d. destruct (d_mlp v).
  - unfold mlp_items. eapply makes_eq; [mb; [apply lin_makes|]; mb; [apply gelu_makes|]; apply lin_makes|done|done|done].
  - apply lin_makes.
Qed.
End ITEMS.

(** the whole encoder *)
Section ALL.
Context (v : vdims) (c h w : Z).
Let p := d_patch v.
Let d := d_hidden v.
Definition grid : Z := (h / p) * (w / p).
Definition conv_cost : cost := mkCost (grid * d * (c * p * p)) (grid * d) (d * (c * p * p)) (d * (c * p * p)).
Definition head_items : list item :=
  [IIn "pixel_values" [1; c; h; w]; IW "vision.patch_embed.weight" [d; c; p; p];
   IS "vision.patch_embed" "Conv" ["pixel_values"; "vision.patch_embed.weight"] [1; d; h / p; w / p] conv_cost;
   IN "vision.patch_reshape.shape" [1; grid; d];
   IS "vision.patch_reshape" "Reshape" ["vision.patch_embed.output"; "vision.patch_reshape.shape"] [1; grid; d] (mkCost 0 (grid * d) 3 3);
   IW "vision.pos_embed" [1; grid; d];
   IS "vision.pos_embed_add" "Add" ["vision.patch_reshape.output"; "vision.pos_embed"] [1; grid; d] (mkCost (grid * d) (grid * d) (grid * d) (grid * d))].
Definition body_items : list item := layers_items v grid 0 (Z.to_nat (d_layers v)) "vision.pos_embed_add.output".
Definition body_out : string := layers_out 0 (Z.to_nat (d_layers v)) "vision.pos_embed_add.output".
Definition tail_items : list item := (ln_items v grid "vision.post_ln" body_out ++ proj_items v grid "vision.post_ln.output")%list.
Definition vision_items : list item := (head_items ++ body_items ++ tail_items)%list.
Definition body_bounds : list (string * (Z * Z)) := layers_bounds v 0 (Z.to_nat (d_layers v)).

Lemma grid_axis x : p <> 0 -> (x + 2 * 0 - p) / p + 1 = x / p.
Proof. intros H. replace (x + 2 * 0 - p) with (x + (-1) * p) by ring. rewrite Z.div_add by exact H. ring. Qed.
Lemma vision_makes : p <> 0 -> vision_state v c h w = SOk ((proj_out v, [1; grid; d_llm v], grid), ext bst0 vision_items body_bounds).
Proof.
  intros H. unfold vision_state.
  match goal with |- ?m bst0 = _ => assert (M : makes m (proj_out v, [1; grid; d_llm v], grid) vision_items body_bounds) end.
  { unfold add_vision_encoder, add_vision_conv2d. cbn [snd fst]. eapply makes_eq.
    - mb; [apply makes_tell|]. mb; [apply makes_lift; reflexivity|].
      mb. { mb; [apply makes_static|]. mb; [apply makes_lift; reflexivity|]. fold p. destruct (Z.eqb_spec p 0) as [E|_]; [contradiction|].
            cbn [fst snd]. rewrite !grid_axis by exact H. apply makes_emit with (k := conv_cost). }
      mb; [apply makes_lift; reflexivity|]. mb; [apply makes_ret|]. cbn [fst snd]. fold p. fold grid.
      mb. { unfold static8. intros s. unfold tell, ret, bind. cbn [sbind fst snd]. instantiate (2 := [IN "vision.patch_reshape.shape" [1; grid; d]]). instantiate (1 := []). unfold ext. cbn. rewrite app_nil_r. reflexivity. }
      mb; [apply makes_emit with (k := mkCost 0 (grid * d) 3 3)|]. mb; [apply makes_static|].
      mb. { unfold add_eltop. cbn [snd]. fold d. mb; [apply makes_lift; apply max_same|]. apply makes_emit with (k := mkCost (grid * d) (grid * d) (grid * d) (grid * d)). }
      mb; [apply layers_makes|]. mb; [apply ln_makes|]. mb; [apply proj_makes|]. apply makes_ret.
    - reflexivity.
    - cbn [app map ev_of]. unfold vision_items, head_items, body_items, tail_items, body_out. cbn [app]. rewrite !app_nil_r. reflexivity.
    - cbn [app]. rewrite !app_nil_r. reflexivity. }
  rewrite (M bst0). reflexivity.
Qed.
Lemma vision_raises : p = 0 -> vision_state v c h w = SRaise ZeroDivErr.
Proof.
  intros H. unfold vision_state, add_vision_encoder, add_vision_conv2d. cbn. fold p. rewrite H. reflexivity.
Qed.
End ALL.
