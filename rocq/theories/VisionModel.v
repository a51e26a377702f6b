(** onnx_tool/llm.py: the vision encoder of [llm.Builder] (782-989).
    Simplifications as in [LlmModel]: attributes of nodes are left out except for the operator type (those of the one
    Conv node are determined by the configuration: kernel and strides equal to the patch size, no padding, one group);
    weights carry no values. Sizes are integers. [self.batch] is 1 (llm.py:976). *)
From Verif Require Import PyBase GraphModel ShapeModel ShapeModel2 CostModel FusionModel RegressModel LlmModel LlmCost InferModel LlmInfer.
Open Scope string_scope. Open Scope Z_scope.

(** The attributes that [add_vision_encoder] reads (llm.py:900-909); [None]: attribute absent. [v_llm]: [self.hidden_size]. *)
Record vconfig := {
  v_hidden : option Z; v_layers : option Z; v_heads : option Z; v_inter : option Z; v_patch : option Z; v_head_dim : option Z;
  v_proj : option Z; v_proj_type : option string; v_llm : Z }.
(** llm.py:900-909: the values used. [getattr(self, 'vision_head_dim', hidden // heads)] divides whether or not the attribute
    is present. *)
Record vdims := { d_hidden : Z; d_layers : Z; d_heads : Z; d_inter : Z; d_patch : Z; d_head : Z; d_proj : Z; d_mlp : bool; d_llm : Z }.
Definition vision_dims (c : vconfig) : sres vdims :=
  let hidden := getattr (v_hidden c) 1024 in
  let heads := getattr (v_heads c) 16 in
  if heads =? 0 then SRaise ZeroDivErr else
  SOk {| d_hidden := hidden; d_layers := getattr (v_layers c) 24; d_heads := heads; d_inter := getattr (v_inter c) (hidden * 4);
         d_patch := getattr (v_patch c) 14; d_head := getattr (v_head_dim c) (hidden / heads); d_proj := getattr (v_proj c) (v_llm c);
         d_mlp := String.eqb (match v_proj_type c with Some t => t | None => "mlp" end) "mlp"; d_llm := v_llm c |}.

(** llm.py:782-804 [add_vision_conv2d] on a rank-4 tensor *)
Definition add_vision_conv2d (inp : tref) (in_ch out_ch ksize stride pad : Z) (name : string) : B tref :=
  do w <- static (name ++ ".weight") [out_ch; in_ch; ksize; ksize];
  do hw <- lift (match snd inp with _ :: _ :: h :: w :: _ => SOk (h, w) | _ => SRaise IndexErr end);
  if stride =? 0 then lift (SRaise ZeroDivErr) else
  emit name "Conv" [fst inp; w] [1; out_ch; (fst hw + 2 * pad - ksize) / stride + 1; (snd hw + 2 * pad - ksize) / stride + 1].
(** llm.py:806-823 [add_vision_layernorm] *)
Definition add_vision_layernorm (inp : tref) (d : Z) (name : string) : B tref :=
  do s <- static (name ++ ".weight") [d];
  do b <- static (name ++ ".bias") [d];
  emit name "LayerNormalization" [fst inp; s; b] (snd inp).
(** [shape[:-1] + [x]] *)
Definition with_last (sh : list Z) (x : Z) : list Z := (removelast sh ++ [x])%list.
(** llm.py:825-841 [add_vision_mm]; every call has [bias=True] *)
Definition add_vision_mm (inp : tref) (fin fout : Z) (name : string) : B tref :=
  do w <- static (name ++ ".weight") [fin; fout];
  do b <- static (name ++ ".bias") [fout];
  emit name "MatMul" [fst inp; w; b] (with_last (snd inp) fout).
(** llm.py:843-865 [add_vision_attention] *)
Definition add_vision_attention (inp : tref) (hidden heads head_dim : Z) (name : string) : B tref :=
  let a := heads * head_dim in
  do qkv <- add_vision_mm inp hidden (3 * a) (name ++ ".qkv");
  do q <- add_slice qkv 0 a (name ++ ".q_slice");
  do k <- add_slice qkv a a (name ++ ".k_slice");
  do v <- add_slice qkv (a * 2) a (name ++ ".v_slice");
  do o <- emit (name ++ ".sdpa") "SDPA" [fst q; fst k; fst v] (with_last (snd q) a);
  add_vision_mm o a hidden (name ++ ".o").
(** llm.py:867-875 [add_vision_mlp] *)
Definition add_vision_mlp (inp : tref) (hidden inter : Z) (name : string) : B tref :=
  do h <- add_vision_mm inp hidden inter (name ++ ".fc1");
  do h2 <- add_act h "gelu_new" (name ++ ".gelu");
  add_vision_mm h2 inter hidden (name ++ ".fc2").
(** llm.py:877-889 [add_vision_transformer_layer] *)
Definition add_vision_layer (inp : tref) (hidden heads head_dim inter : Z) (name : string) : B tref :=
  do normed <- add_vision_layernorm inp hidden (name ++ ".ln1");
  do at_out <- add_vision_attention normed hidden heads head_dim (name ++ ".attn");
  do cur <- add_eltop inp at_out "Add" (name ++ ".attn_add");
  do normed2 <- add_vision_layernorm cur hidden (name ++ ".ln2");
  do mlp_out <- add_vision_mlp normed2 hidden inter (name ++ ".mlp");
  add_eltop cur mlp_out "Add" (name ++ ".mlp_add").
(** llm.py:947-951: blocks [i], [i+1], ..., [k] of them *)
Fixpoint add_vision_layers (v : vdims) (i k : nat) (inp : tref) : B tref :=
  match k with
  | O => ret inp
  | S k' => do x <- add_vision_layer inp (d_hidden v) (d_heads v) (d_head v) (d_inter v) ("vision.blocks." ++ dec i); add_vision_layers v (S i) k' x
  end.
(** llm.py:956-968: the projector *)
Definition add_vision_projector (v : vdims) (cur : tref) : B tref :=
  if d_mlp v then
    do h <- add_vision_mm cur (d_hidden v) (d_proj v) "vision.projector.fc1";
    do h2 <- add_act h "gelu_new" "vision.projector.gelu";
    add_vision_mm h2 (d_proj v) (d_llm v) "vision.projector.fc2"
  else add_vision_mm cur (d_hidden v) (d_llm v) "vision.projector".
(** llm.py:891-968 [add_vision_encoder]: the result and the number of patches, stored with the sizes in the Reshape operand *)
Definition add_vision_encoder (v : vdims) (inp : tref) : B (tref * Z) :=
  do ch <- lift (match snd inp with _ :: c :: _ => SOk c | _ => SRaise IndexErr end);
  do cur <- add_vision_conv2d inp ch (d_hidden v) (d_patch v) (d_patch v) 0 "vision.patch_embed";
  do hw <- lift (match snd cur with [_; _; h; w] => SOk (h, w) | _ => SRaise ValueErr end);
  do n <- ret (fst hw * snd hw);
  do sh <- static8 "vision.patch_reshape.shape" [3];
  do seqd <- emit "vision.patch_reshape" "Reshape" [fst cur; sh] [1; n; d_hidden v];
  do pe <- static "vision.pos_embed" [1; n; d_hidden v];
  do x0 <- add_eltop seqd (pe, [1; n; d_hidden v]) "Add" "vision.pos_embed_add";
  do x <- add_vision_layers v 0 (Z.to_nat (d_layers v)) x0;
  do y <- add_vision_layernorm x (d_hidden v) "vision.post_ln";
  do z <- add_vision_projector v y;
  ret (z, n).
(** llm.py:970-989 [build_vision_graph], on a new builder's empty graph; also the numbers the graph stores *)
Definition vision_state (v : vdims) (c h w : Z) : sres ((tref * Z) * bst) :=
  (do _ <- tell (EInput "pixel_values" (mkTensor DYNAMIC [1; c; h; w] 4));
   add_vision_encoder v ("pixel_values", [1; c; h; w])) bst0.
Definition vision_stored (v : vdims) (n : Z) (bo : list (string * (Z * Z))) : list (string * (list Z * list Z)) :=
  ("vision.patch_reshape.shape", ([3], [1; n; d_hidden v])) :: stored_numbers bo.
(** the graph and the numbers stored in its initializers *)
Definition vision_graph (cfg : vconfig) (c h w : Z) : sres (graph * list (string * (list Z * list Z))) :=
  let* v := vision_dims cfg in
  let* x := vision_state v c h w in
  SOk (replay (log (snd x)) (fst (fst (fst x))), vision_stored v (snd (fst x)) (bounds (snd x))).

(** ** Inference and cost *)
(** llm.py:784-789: the attributes of the Conv node *)
Definition patch_window (p : Z) : window := {| w_autopad := Explicit; w_pads := [0; 0; 0; 0]; w_strides := [p; p]; w_dilations := [1; 1; 1] |}.
(** node.py:2143-2185 Conv, 2739-2763 Reshape; the rest as in [builder_shape_rule] *)
Definition vision_shape_rule (v : vdims) (n : node) (ins : list (trec (V := list Z * list Z))) : sres (list (list Z)) :=
  if String.eqb (n_op n) "Conv" then
    let* x := operand ins 0 in let* w := operand ins 1 in
    let* y := conv_shape (patch_window (d_patch v)) (tr_shape x) (tr_shape w) in SOk [y]
  else if String.eqb (n_op n) "Reshape" then
    let* x := operand ins 0 in let* s := operand ins 1 in
    let* y := reshape_shape (tr_shape x) (numbers s) in SOk [y]
  else builder_shape_rule 0 n ins.
Definition vision_tensors (g : graph) (st : list (string * (list Z * list Z))) : dict (trec (V := list Z * list Z)) :=
  map (fun kt => (fst kt, mkT (t_shape (snd kt)) (dget st (fst kt)))) (tensormap g).
(** [graph.shape_infer(inputs)] *)
Definition vision_infer (v : vdims) (g : graph) (st : list (string * (list Z * list Z))) (inputs : list (string * (list Z * list Z))) : sres (dict (trec (V := list Z * list Z))) :=
  graph_shape_infer fst (vision_shape_rule v) (fun _ _ => SRaise NotImplErr) g [] inputs (vision_tensors g st).
(** node.py:2217-2229 Conv, 231-233 Reshape (no MACs), 2868-2906 SDPA with the attributes of llm.py:854-855; the rest as in
    [op_profile]. *)
Definition vision_heads (v : vdims) : config := {|
  c_arch := ""; c_mlp_bias := None; c_attention_bias := None; c_model_type := ""; c_hidden := d_hidden v; c_inter := d_inter v;
  c_heads := d_heads v; c_kv_heads := d_heads v; c_layers := 0; c_vocab := 0; c_head_dim := Some (d_head v); c_n_positions := 0; c_act := "";
  c_rms := false; c_lneps := true; c_layer_types := None; c_max_pos := None; c_rotary_dim := None; c_final_cap := false; c_experts := None;
  c_moe_inter := None; c_shared_inter := None; c_q_lora := None; c_o_lora := None; c_o_groups := None; c_lin_q_heads := None;
  c_lin_v_heads := None; c_lin_qk_dim := None; c_lin_v_dim := None |}.
Definition no_extra : extra := {| x_topk := None; x_rope_dim := None; x_window := None; x_ratio := None; x_idx_heads := None; x_idx_dim := None;
  x_idx_topk := None; x_conv := None; x_past := 0 |}.
Definition vision_nprof (v : vdims) (n : node) (ins outs : list tensor) : sres (Z * Z * Z) :=
  if String.eqb (n_op n) "Conv" then plain (conv_macs (map t_shape ins) (map t_shape outs)) (static_inputs n ins) outs
  else if String.eqb (n_op n) "Reshape" then plain (SOk 0) (static_inputs n ins) outs
  else llm_nprof [] (vision_heads v) no_extra n ins outs.
