(** Specification vocabulary for the vision encoders of [llm.Builder]: what a vision transformer with a projector is, its
    shapes, its size and its cost. *)
From Verif Require Import PyBase GraphModel ShapeModel FusionModel RegressModel LlmModel LlmWireSpec LlmCostSpec VisionModel.
Open Scope string_scope. Open Scope Z_scope.

Section WIRING.
Context (g : graph) (stored : list (string * (list Z * list Z))) (v : vdims) (c h w : Z).
(** [name] is an initializer that holds the integers [l] *)
Definition constant (name : string) (l : list Z) : Prop :=
  weight g name [zlen l] /\ dget stored name = Some ([zlen l], l).
(** y = x W + b *)
Definition affine (name x y : string) (n_in n_out : Z) : Prop :=
  y = result name /\ weight g (name ++ ".weight") [n_in; n_out] /\ weight g (name ++ ".bias") [n_out] /\
  computes g name "MatMul" [x; name ++ ".weight"; name ++ ".bias"].
Definition layer_norm (name x y : string) : Prop :=
  y = result name /\ weight g (name ++ ".weight") [d_hidden v] /\ weight g (name ++ ".bias") [d_hidden v] /\
  computes g name "LayerNormalization" [x; name ++ ".weight"; name ++ ".bias"].
(** y = the columns [a], ..., [b - 1] of x *)
Definition columns (name x y : string) (a b : Z) : Prop :=
  y = result name /\ constant (name ++ ".start") [a] /\ constant (name ++ ".end") [b] /\ constant (name ++ ".axis") [2] /\ constant (name ++ ".step") [1] /\
  computes g name "Slice" [x; name ++ ".start"; name ++ ".end"; name ++ ".axis"; name ++ ".step"].
Definition step (name op : string) (ins : list string) (y : string) : Prop := y = result name /\ computes g name op ins.
(** [heads] attention heads of width [d_head]; queries, keys and values are the thirds of one projection *)
Definition self_attention (name x y : string) : Prop :=
  let a := d_heads v * d_head v in
  exists f q k u o, affine (name ++ ".qkv") x f (d_hidden v) (3 * a) /\
    columns (name ++ ".q_slice") f q 0 a /\ columns (name ++ ".k_slice") f k a (2 * a) /\ columns (name ++ ".v_slice") f u (2 * a) (3 * a) /\
    step (name ++ ".sdpa") "SDPA" [q; k; u] o /\ affine (name ++ ".o") o y a (d_hidden v).
Definition perceptron (name x y : string) (d_in d_mid d_out : Z) : Prop :=
  exists f a, affine (name ++ ".fc1") x f d_in d_mid /\ step (name ++ ".gelu") "Gelu" [f] a /\ affine (name ++ ".fc2") a y d_mid d_out.
(** x + attention (norm x), then + perceptron (norm ...) *)
Definition vision_block (i : nat) (x y : string) : Prop :=
  let p := "vision.blocks." ++ dec i in
  exists n1 a x1 n2 m, layer_norm (p ++ ".ln1") x n1 /\ self_attention (p ++ ".attn") n1 a /\ step (p ++ ".attn_add") "Add" [x; a] x1 /\
    layer_norm (p ++ ".ln2") x1 n2 /\ perceptron (p ++ ".mlp") n2 m (d_hidden v) (d_inter v) (d_hidden v) /\ step (p ++ ".mlp_add") "Add" [x1; m] y.
Inductive vision_blocks : nat -> nat -> string -> string -> Prop :=
| vb_none : forall i x, vision_blocks i 0 x x
| vb_more : forall i k x y z, vision_block i x y -> vision_blocks (S i) k y z -> vision_blocks i (S k) x z.
(** patches, one token each, plus positions; blocks; norm; projector *)
Definition patches : Z := (h / d_patch v) * (w / d_patch v).
Definition vision_encoder (out : string) : Prop :=
  exists e t x0 x y, weight g "vision.patch_embed.weight" [d_hidden v; c; d_patch v; d_patch v] /\
    step "vision.patch_embed" "Conv" ["pixel_values"; "vision.patch_embed.weight"] e /\
    constant "vision.patch_reshape.shape" [1; patches; d_hidden v] /\ step "vision.patch_reshape" "Reshape" [e; "vision.patch_reshape.shape"] t /\
    weight g "vision.pos_embed" [1; patches; d_hidden v] /\ step "vision.pos_embed_add" "Add" [t; "vision.pos_embed"] x0 /\
    vision_blocks 0 (Z.to_nat (d_layers v)) x0 x /\ layer_norm "vision.post_ln" x y /\
    if d_mlp v then perceptron "vision.projector" y out (d_hidden v) (d_proj v) (d_llm v)
    else affine "vision.projector" y out (d_hidden v) (d_llm v).
End WIRING.

(** ** Shapes *)
(** the shapes an operator of a vision encoder accepts, and the one it produces *)
Inductive vision_typed : string -> list (list Z) -> list Z -> Prop :=
| vt_conv b c h w o k : vision_typed "Conv" [[b; c; h; w]; [o; c; k; k]] [b; o; h / k; w / k]
| vt_reshape a b : volume a = volume b -> vision_typed "Reshape" [a; [zlen b]] b
| vt_other op ss out : typed op ss out -> vision_typed op ss out.
Definition vision_shaped (g : graph) : Prop :=
  forall n, In n (nodes_of g) -> exists o ins out, n_out n = [o] /\ Forall2 (has_shape g) (n_in n) ins /\ has_shape g o out /\ vision_typed (n_op n) ins out.

(** ** Size and cost *)
Section FORMULAS.
Context (v : vdims) (c n : Z).
Let d := d_hidden v.
Let a := d_heads v * d_head v.
Definition affine_params (i o : Z) : Z := i * o + o.
(** two norms, four affine maps, and the twelve integers of the slices *)
Definition block_params : Z :=
  2 * (2 * d) + affine_params d (3 * a) + affine_params a d + affine_params d (d_inter v) + affine_params (d_inter v) d + 12.
Definition projector_params : Z :=
  if d_mlp v then affine_params d (d_proj v) + affine_params (d_proj v) (d_llm v) else affine_params d (d_llm v).
Definition blocks : Z := Z.max 0 (d_layers v).
(** the patch kernel, the three integers of the Reshape, the positions, the blocks, the last norm and the projector *)
Definition encoder_params : Z :=
  d * (c * d_patch v * d_patch v) + 3 + n * d + blocks * block_params + 2 * d + projector_params.
Definition norm_macs : Z := n * d * 7 + n * 29.
Definition block_macs : Z :=
  2 * norm_macs + n * (affine_params d (3 * a) + affine_params a d + affine_params d (d_inter v) + affine_params (d_inter v) d)
  + d_heads v * n * n * (2 * d_head v + 36) + n * d_inter v * 34 + 2 * (n * d).
Definition projector_macs : Z := n * projector_params + if d_mlp v then n * d_proj v * 34 else 0.
Definition encoder_macs : Z :=
  n * d * (c * d_patch v * d_patch v) + n * d + blocks * block_macs + norm_macs + projector_macs.
(** numbers written: one per element of every result *)
Definition block_io : Z := n * (4 * d + 3 * a + 3 * a + a + d + d_inter v + d_inter v + d).
Definition encoder_io : Z :=
  3 * (n * d) + blocks * block_io + n * d + (if d_mlp v then n * (2 * d_proj v + d_llm v) else n * d_llm v).
End FORMULAS.
