(** What "the graph is the described transformer" means: which node reads what, layer by layer. Written from the architecture
    descriptions (pre-norm decoder with optional gates, norms, rotary embedding, mixture of experts, latent or linear attention).
    [fl] are the architecture switches, [wm] the names of the weights, [root] the name prefix of layers. *)
From Verif Require Import PyBase GraphModel ShapeModel RegressModel LlmModel.
Open Scope string_scope. Open Scope Z_scope.

Section SPEC.
(** [ranges]: the bounds stored in the operands of each slice node *)
Context (g : graph) (ranges : list (string * (Z * Z))) (fl : flags) (c : config) (batch seq_len : Z) (wm : dict (dict string)) (root : string).

(** node [name] computes [op] from the tensors [ins] *)
Definition computes (name op : string) (ins : list string) : Prop := dget (nodemap g) name = Some (mkNode name op ins [name ++ ".output"]).
(** [name] is a weight of the graph, of shape [sh] *)
Definition weight (name : string) (sh : list Z) : Prop := In name (initials g) /\ exists t, dget (tensormap g) name = Some t /\ t_kind t = STATIC /\ t_shape t = sh.
(** the tensor that node [name] produces *)
Definition result (name : string) : string := name ++ ".output".
Definition switch (k : string) (b : bool) : Prop := dget fl k = Some b.
Definition switch_or (k : string) (d b : bool) : Prop := dget fl k = Some b \/ (dget fl k = None /\ b = d).
Definition weight_name (section key n : string) : Prop := exists d, dget wm section = Some d /\ dget d key = Some n.

(** y = norm(x) *)
Definition norm (name x y : string) : Prop :=
  y = result name /\
  ((switch "norm_scale" false /\ computes name "LayerNormalization" [x]) \/
   (switch "norm_scale" true /\ switch "norm_bias" false /\ weight (name ++ ".weight") [c_hidden c] /\ computes name "LayerNormalization" [x; name ++ ".weight"]) \/
   (switch "norm_scale" true /\ switch "norm_bias" true /\ weight (name ++ ".weight") [c_hidden c] /\ weight (name ++ ".bias") [c_hidden c] /\
    computes name "LayerNormalization" [x; name ++ ".weight"; name ++ ".bias"])).
(** y = x W (+ b) *)
Definition linear (name x y : string) (n_in n_out : Z) (bias : bool) : Prop :=
  y = result name /\ weight (name ++ ".weight") [n_in; n_out] /\
  if bias then weight (name ++ ".bias") [n_out] /\ computes name "MatMul" [x; name ++ ".weight"; name ++ ".bias"] else computes name "MatMul" [x; name ++ ".weight"].
(** y = the columns [a], ..., [b - 1] of x *)
Definition part (name x y : string) (a b : Z) : Prop := y = result name /\ In (name, (a, b)) ranges /\ computes name "Slice" [x; name ++ ".start"; name ++ ".end"; name ++ ".axis"; name ++ ".step"].
Definition pairwise (name op a b y : string) : Prop := y = result name /\ computes name op [a; b].
Definition head_norm (name x y : string) : Prop := y = result name /\ weight (name ++ ".weight") [head_size c] /\ computes name "LayerNormalization" [x; name ++ ".weight"].
Definition activation_ops : list (string * string) := [("silu", "Silu"); ("gelu_new", "Gelu"); ("gegelu", "GeGelu")].
Definition activation (name act x y : string) : Prop := exists op, In (act, op) activation_ops /\ y = result name /\ computes name op [x].

(** queries, keys, values and the optional gate, from the normed input [x] *)
Definition projections (p x q k v : string) (gate : option string) : Prop :=
  exists bias, switch "qkv_bias" bias /\
  ((switch_or "qkv_gated" false true /\ exists nq nk nv qg ga, weight_name "attention" "q" nq /\ weight_name "attention" "k" nk /\ weight_name "attention" "v" nv /\
      linear (p ++ nq) x qg (c_hidden c) (2 * q_width c) bias /\ linear (p ++ nk) x k (c_hidden c) (kv_width c) bias /\ linear (p ++ nv) x v (c_hidden c) (kv_width c) bias /\
      part (p ++ "q.slice") qg q 0 (q_width c) /\ part (p ++ "gate.slice") qg ga (q_width c) (2 * q_width c) /\ gate = Some ga) \/
   (switch_or "qkv_gated" false false /\ gate = None /\
     ((switch "fuse_qkv" true /\ exists n qkv, weight_name "attention" "qkv" n /\ linear (p ++ n) x qkv (c_hidden c) (q_width c + 2 * kv_width c) bias /\
         part (p ++ "q.slice") qkv q 0 (q_width c) /\ part (p ++ "k.slice") qkv k (q_width c) (q_width c + kv_width c) /\
         part (p ++ "v.slice") qkv v (q_width c + kv_width c) (q_width c + 2 * kv_width c)) \/
      (switch "fuse_qkv" false /\ exists nq nk nv, weight_name "attention" "q" nq /\ weight_name "attention" "k" nk /\ weight_name "attention" "v" nv /\
         linear (p ++ nq) x q (c_hidden c) (q_width c) bias /\ linear (p ++ nk) x k (c_hidden c) (kv_width c) bias /\ linear (p ++ nv) x v (c_hidden c) (kv_width c) bias)))).
(** an optional step on queries and keys *)
Definition normed_heads (p q k q' k' : string) : Prop :=
  (switch_or "qk_norm" false true /\ head_norm (p ++ "self_attn.q_norm") q q' /\ head_norm (p ++ "self_attn.k_norm") k k') \/
  (switch_or "qk_norm" false false /\ q' = q /\ k' = k).
Definition rotated (p q k q' k' : string) : Prop :=
  (switch_or "qk_rope" true true /\
     q' = result (p ++ "rope_q") /\ computes (p ++ "rope_q") "Rope" [q; "rope.cos"; "rope.sin"; "position"] /\
     k' = result (p ++ "rope_k") /\ computes (p ++ "rope_k") "Rope" [k; "rope.cos"; "rope.sin"; "position"]) \/
  (switch_or "qk_rope" true false /\ q' = q /\ k' = k).
Definition softmax_attention (p x y : string) : Prop :=
  exists q k v gate q1 k1 q2 k2 a b n bias,
    projections p x q k v gate /\ normed_heads p q k q1 k1 /\ rotated p q1 k1 q2 k2 /\
    a = result (p ++ "mha") /\ computes (p ++ "mha") "SDPA" [q2; k2; v] /\
    match gate with
    | None => b = a
    | Some ga => exists s, activation (p ++ "attn_gate.act") "silu" ga s /\ pairwise (p ++ "attn.gated") "Mul" a s b
    end /\
    switch "o_bias" bias /\ weight_name "attention" "o" n /\ linear (p ++ n) b y (q_width c) (c_hidden c) bias.
Definition linear_attention (p x y : string) : Prop :=
  exists nq nk nv q k v q1 k1 bias,
    switch_or "qkv_bias" false bias /\ weight_name "attention" "q" nq /\ weight_name "attention" "k" nk /\ weight_name "attention" "v" nv /\
    (let dq := getattr (c_lin_q_heads c) (c_kv_heads c) * getattr (c_lin_qk_dim c) (head_size c) in
     let dv := getattr (c_lin_v_heads c) (c_kv_heads c * 2) * getattr (c_lin_v_dim c) (head_size c) in
     linear (p ++ nq) x q (c_hidden c) dq bias /\ linear (p ++ nk) x k (c_hidden c) dq bias /\ linear (p ++ nv) x v (c_hidden c) dv bias) /\
    head_norm (p ++ "self_attn.q_norm") q q1 /\ head_norm (p ++ "self_attn.k_norm") k k1 /\
    y = result (p ++ "gdn") /\ computes (p ++ "gdn") "GDN" [q1; k1; v].
(** [ws]: weight names (relative to [p]) with their shapes *)
Definition weights (p : string) (ws : list (string * list Z)) : Prop := forall n sh, In (n, sh) ws -> weight (p ++ n) sh.
Definition latent_attention (p x y : string) : Prop :=
  (let ql := getattr (c_q_lora c) 1024 in let og := getattr (c_o_groups c) 8 in let ol := og * getattr (c_o_lora c) 1024 in
   weights p [("wq_a.weight", [ql; c_hidden c]); ("q_norm.weight", [ql]); ("wq_b.weight", [q_width c; ql]); ("wkv.weight", [head_size c; c_hidden c]);
              ("kv_norm.weight", [head_size c]); ("wo_a.weight", [ol; q_width c / og]); ("wo_b.weight", [c_hidden c; ol])]) /\
  y = result (p ++ "mla") /\ computes (p ++ "mla") "MLA" (x :: map (append p) ["wq_a.weight"; "q_norm.weight"; "wq_b.weight"; "wkv.weight"; "kv_norm.weight"; "wo_a.weight"; "wo_b.weight"]).
Definition is_linear (i : nat) : Prop := exists l, c_layer_types c = Some l /\ nth_error l i = Some "linear_attention".
Definition attention (i : nat) (p x y : string) : Prop :=
  (is_linear i /\ linear_attention p x y) \/
  (~ is_linear i /\ switch_or "is_mla" false true /\ latent_attention p x y) \/
  (~ is_linear i /\ switch_or "is_mla" false false /\ softmax_attention p x y).

Definition experts (p x y : string) : Prop :=
  y = result (p ++ "moe") /\
  (let E := getattr (c_experts c) 256 in let I := getattr (c_moe_inter c) (c_inter c) in let H := c_hidden c in
   weights p [("moe.router.weight", [H; E]); ("moe.experts.gate.weight", [E; I; H]); ("moe.experts.up.weight", [E; I; H]); ("moe.experts.down.weight", [E; H; I])] /\
   (switch_or "no_shared_expert" false false ->
      let SI := getattr (c_shared_inter c) I in
      weights p [("moe.shared.gate.weight", [SI; H]); ("moe.shared.up.weight", [SI; H]); ("moe.shared.down.weight", [H; SI])] /\
      (switch_or "no_shared_gate" false false -> weight (p ++ "moe.shared_gate.weight") [H]))) /\
  let routed := ["moe.router.weight"; "moe.experts.gate.weight"; "moe.experts.up.weight"; "moe.experts.down.weight"] in
  let shared := ["moe.shared.gate.weight"; "moe.shared.up.weight"; "moe.shared.down.weight"] in
  ((switch_or "no_shared_expert" false true /\ computes (p ++ "moe") "MoE" (x :: map (append p) routed)) \/
   (switch_or "no_shared_expert" false false /\ switch_or "no_shared_gate" false true /\ computes (p ++ "moe") "MoE" (x :: map (append p) (routed ++ shared)%list)) \/
   (switch_or "no_shared_expert" false false /\ switch_or "no_shared_gate" false false /\
      computes (p ++ "moe") "MoE" (x :: map (append p) (routed ++ shared ++ ["moe.shared_gate.weight"])%list))).
Definition packed_mlp : Prop := c_model_type c = "phi3" \/ c_model_type c = "phi3small".
Definition feed_forward (p x y : string) : Prop :=
  exists bias gated nup ndown a, switch "mlp_bias" bias /\ switch "mlp_gate" gated /\ weight_name "mlp" "up" nup /\ weight_name "mlp" "down" ndown /\
    linear (p ++ ndown) a y (c_inter c) (c_hidden c) bias /\
    ((packed_mlp /\ exists n h, weight_name "mlp" "gate_up" n /\ linear (p ++ n) x h (c_hidden c) (2 * c_inter c) bias /\ activation (p ++ "mlp.activation") "gegelu" h a) \/
     (~ packed_mlp /\ exists u, linear (p ++ nup) x u (c_hidden c) (c_inter c) bias /\
        if gated then exists n h s, weight_name "mlp" "gate" n /\ linear (p ++ n) x h (c_hidden c) (c_inter c) bias /\
                                    activation (p ++ "mlp.activation") (c_act c) h s /\ pairwise (p ++ "mlp.gate_mul") "Mul" u s a
        else activation (p ++ "mlp.activation") (c_act c) u a)).

(** an optional norm after a sub-layer *)
Definition post_norm (key section p x y : string) : Prop :=
  (switch_or key false true /\ exists n, weight_name section "output_norm" n /\ norm (p ++ n) x y) \/ (switch_or key false false /\ y = x).
(** layer [i]: x + attention(norm x), then + feed-forward(norm ...) *)
Definition layer (i : nat) (x y : string) : Prop :=
  let p := root ++ dec i ++ "." in
  exists n0 n1 h a a' x1 h1 m m',
    weight_name "attention" "input_norm" n0 /\ norm (p ++ n0) x h /\ attention i p h a /\ post_norm "post_attn_norm" "attention" p a a' /\
    pairwise (p ++ "attention_add") "Add" x a' x1 /\
    weight_name "mlp" "input_norm" n1 /\ norm (p ++ n1) x1 h1 /\
    ((switch_or "is_moe" false true /\ experts p h1 m) \/ (switch_or "is_moe" false false /\ feed_forward p h1 m)) /\
    post_norm "post_mlp_norm" "mlp" p m m' /\ pairwise (p ++ "mlp_add") "Add" x1 m' y.
(** layers [i], [i+1], ... ([n] of them) *)
Inductive layers : nat -> nat -> string -> string -> Prop :=
| no_layer : forall i x, layers i 0 x x
| one_more : forall i n x y z, layer i x y -> layers (S i) n y z -> layers i (S n) x z.

Definition embedding (name ids y : string) (rows : Z) : Prop :=
  y = result name /\ weight (name ++ ".weight") [rows; c_hidden c] /\ computes name "Gather" [name ++ ".weight"; ids].
Definition transformer (logits : string) : Prop :=
  exists ne e x0 xn nn h nl l bias,
    weight_name "embedding" "embed" ne /\ embedding ne "ids" e (c_vocab c) /\
    ((switch_or "pos_embedding" false true /\ exists np po, weight_name "embedding" "pos" np /\ embedding np "position" po (c_n_positions c) /\
        pairwise "embedding_pos_add" "Add" po e x0) \/ (switch_or "pos_embedding" false false /\ x0 = e)) /\
    layers 0 (Z.to_nat (c_layers c)) x0 xn /\
    weight_name "lm_head" "input_norm" nn /\ norm nn xn h /\ weight_name "lm_head" "lm" nl /\ switch "lm_head_bias" bias /\
    linear nl h l (c_hidden c) (c_vocab c) bias /\
    if c_final_cap c then weight "models.final_logit_softcapping.weight" [] /\ logits = result "models.final_logit_softcapping" /\
       computes "models.final_logit_softcapping" "LogitSoftCapping" [l; "models.final_logit_softcapping.weight"]
    else logits = l.
End SPEC.
