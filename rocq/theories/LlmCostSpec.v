(** Specification vocabulary for the shapes, the size and the cost of the models of [llm.Builder]. *)
From Coq Require Import Znumtheory.
From Verif Require Import PyBase GraphModel ShapeModel FusionModel RegressModel LlmModel ProfileModel LlmCost.
Open Scope string_scope. Open Scope Z_scope.

(** ** What shapes an operator accepts, and the shape it produces *)
Inductive typed : string -> list (list Z) -> list Z -> Prop :=
  | ty_gather v h ids : typed "Gather" [[v; h]; ids] (ids ++ [h])
  | ty_matmul pre k n : typed "MatMul" [(pre ++ [k])%list; [k; n]] (pre ++ [n])
  | ty_matmul_bias pre k n : typed "MatMul" [(pre ++ [k])%list; [k; n]; [n]] (pre ++ [n])
  (** the scale (and bias) of a norm covers the last axis, or equal parts of it *)
  | ty_norm pre d ws : (length ws <= 2)%nat -> Forall (fun w => exists e, w = [e] /\ (e | d)) ws ->
      typed "LayerNormalization" ((pre ++ [d])%list :: ws) (pre ++ [d])
  | ty_act op sh : op = "Silu" \/ op = "Gelu" -> typed op [sh] sh
  | ty_gegelu pre n : typed "GeGelu" [(pre ++ [n + n])%list] (pre ++ [n])
  | ty_eltwise op sh : op = "Add" \/ op = "Mul" -> typed op [sh; sh] sh
  | ty_rope b s d m h : typed "Rope" [[b; s; d]; [1; 1; m; h]; [1; 1; m; h]; [b; s]] [b; s; d]
  | ty_slice b s n m : 0 <= m <= n -> typed "Slice" [[b; s; n]; [1]; [1]; [1]; [1]] [b; s; m]
  | ty_sdpa b s nq nk d : typed "SDPA" [[b; s; nq * d]; [b; s; nk * d]; [b; s; nk * d]] [b; s; nq * d]
  | ty_gdn b s a v h : typed "GDN" [[b; s; a]; [b; s; a]; [b; s; v]] [b; s; h]
  | ty_mla b s h l n d g o w : g * w = n * d ->
      typed "MLA" [[b; s; h]; [l; h]; [l]; [n * d; l]; [d; h]; [d]; [g * o; w]; [h; g * o]] [b; s; h]
  | ty_moe b s h e i : typed "MoE" [[b; s; h]; [h; e]; [e; i; h]; [e; i; h]; [e; h; i]] [b; s; h]
  | ty_moe_shared b s h e i j : typed "MoE" [[b; s; h]; [h; e]; [e; i; h]; [e; i; h]; [e; h; i]; [j; h]; [j; h]; [h; j]] [b; s; h]
  | ty_moe_gated b s h e i j : typed "MoE" [[b; s; h]; [h; e]; [e; i; h]; [e; i; h]; [e; h; i]; [j; h]; [j; h]; [h; j]; [h]] [b; s; h]
  | ty_softcap sh : typed "LogitSoftCapping" [sh; []] sh.
Definition has_shape (g : graph) (t : string) (sh : list Z) : Prop := exists tn, dget (tensormap g) t = Some tn /\ t_shape tn = sh.
(** the recorded shapes fit every node *)
Definition well_shaped (g : graph) : Prop :=
  forall n, In n (nodes_of g) -> exists o ins out, n_out n = [o] /\ Forall2 (has_shape g) (n_in n) ins /\ has_shape g o out /\ typed (n_op n) ins out.

(** ** Sizes *)
(** the numbers in all the weights of a graph *)
Definition stored_params (g : graph) : Z :=
  sum_list (map (fun t => match dget (tensormap g) t with Some tn => volume (t_shape tn) | None => 0 end) (initials g)).

Section FORMULAS.
Context (fl : flags) (c : config).
Let H := c_hidden c.
Let yes (k : string) : bool := flag_or fl k false.
Definition b2z (b : bool) : Z := if b then 1 else 0.
Definition linear_params (i o : Z) (bias : bool) : Z := i * o + b2z bias * o.
Definition norm_params : Z := if yes "norm_scale" then H + b2z (yes "norm_bias") * H else 0.
Definition q_heads_width : Z := c_heads c * head_size c.
Definition kv_heads_width : Z := c_kv_heads c * head_size c.
(** a slice has four one-element operands *)
Definition attention_params : Z :=
  let q := q_heads_width in let kv := kv_heads_width in let b := yes "qkv_bias" in
  (if yes "qkv_gated" then linear_params H (2 * q) b + 2 * linear_params H kv b + 2 * 4
   else if yes "fuse_qkv" then linear_params H (q + 2 * kv) b + 3 * 4
   else linear_params H q b + 2 * linear_params H kv b)
  + (if yes "qk_norm" then 2 * head_size c else 0)
  + linear_params q H (yes "o_bias").
Definition gdn_q_width : Z := getattr (c_lin_q_heads c) (c_kv_heads c) * getattr (c_lin_qk_dim c) (head_size c).
Definition gdn_v_width : Z := getattr (c_lin_v_heads c) (c_kv_heads c * 2) * getattr (c_lin_v_dim c) (head_size c).
(** no output projection: see C79_gdn_projection_refuted *)
Definition gdn_params : Z := 2 * linear_params H gdn_q_width (yes "qkv_bias") + linear_params H gdn_v_width (yes "qkv_bias") + 2 * head_size c.
Definition mla_params : Z :=
  let ql := getattr (c_q_lora c) 1024 in let ol := getattr (c_o_lora c) 1024 in let og := getattr (c_o_groups c) 8 in
  H * ql + ql + ql * q_heads_width + H * head_size c + head_size c + og * ol * (q_heads_width / og) + H * (og * ol).
Definition mlp_params : Z :=
  let I := c_inter c in let b := yes "mlp_bias" in
  if String.eqb (c_model_type c) "phi3" || String.eqb (c_model_type c) "phi3small" then linear_params H (I * 2) b + linear_params I H b
  else linear_params H I b + (if yes "mlp_gate" then linear_params H I b else 0) + linear_params I H b.
Definition moe_params : Z :=
  let E := getattr (c_experts c) 256 in let I := getattr (c_moe_inter c) (c_inter c) in let J := getattr (c_shared_inter c) I in
  H * E + 3 * (E * I * H) + (if yes "no_shared_expert" then 0 else 3 * (J * H) + (if yes "no_shared_gate" then 0 else H)).
Definition layer_params (i : nat) : Z :=
  norm_params + (if is_gdn c i then gdn_params else if yes "is_mla" then mla_params else attention_params)
  + b2z (yes "post_attn_norm") * norm_params
  + norm_params + (if yes "is_moe" then moe_params else mlp_params)
  + b2z (yes "post_mlp_norm") * norm_params.
Definition n_layers : nat := Z.to_nat (c_layers c).
(** layers whose queries and keys are rotated; they share one pair of tables *)
Definition rotates (i : nat) : bool := negb (is_gdn c i) && negb (yes "is_mla") && flag_or fl "qk_rope" true.
Definition rope_params : Z := 2 * (getattr (c_max_pos c) 4096 * (getattr (c_rotary_dim c) (head_size c) / 2)).
Definition model_params : Z :=
  c_vocab c * H + (if yes "pos_embedding" then c_n_positions c * H else 0)
  + sum_list (map layer_params (seq 0 n_layers))
  + norm_params + linear_params H (c_vocab c) (yes "lm_head_bias")
  + (if existsb rotates (seq 0 n_layers) then rope_params else 0).
End FORMULAS.

(** ** Cost of one forward pass over [b] sequences of [s] tokens, [past] of them already in the cache *)
(** MACs, activations written, weights read, and the "Params" column of the report *)
Record cost := mkCost { k_macs : Z; k_io : Z; k_static : Z; k_params : Z }.
Definition kzero : cost := mkCost 0 0 0 0.
Definition kadd (a e : cost) : cost := mkCost (k_macs a + k_macs e) (k_io a + k_io e) (k_static a + k_static e) (k_params a + k_params e).
Definition ksum (l : list cost) : cost := fold_right kadd kzero l.
Definition kwhen (q : bool) (l : list cost) : cost := if q then ksum l else kzero.

Section COSTS.
Context (fl : flags) (c : config) (x : extra) (b s past : Z).
Let H := c_hidden c.
Let T := b * s.
Let yes (k : string) : bool := flag_or fl k false.
(** a matrix product reads each weight once and uses it for every token *)
Definition linear_cost (i o : Z) (bias : bool) : cost := mkCost (T * linear_params i o bias) (T * o) (linear_params i o bias) (linear_params i o bias).
Definition norm_on (d w : Z) : cost := mkCost (T * d * 7 + T * 29) (T * d) w w.
Definition norm_cost : cost := norm_on H (norm_params fl c).
Definition head_norm_cost (d : Z) : cost := norm_on d (head_size c).
Definition eltwise_cost (d per : Z) : cost := mkCost (T * d * per) (T * d) 0 0.
Definition slice_cost (d : Z) : cost := mkCost 0 (T * d) 4 4.
Definition embedding_cost (rows : Z) : cost := mkCost 0 (T * H) (T * H) (rows * H).
(** a rotation reads the rows of the positions in use; the report charges it with the whole tables *)
Definition rope_cost (d : Z) : cost :=
  let m := getattr (c_max_pos c) 4096 in let h := getattr (c_rotary_dim c) (head_size c) / 2 in
  mkCost (T * d * 80) (T * d) (2 * (Z.min s m * h)) (rope_params c).
Definition attn_core_cost : cost :=
  mkCost (b * c_heads c * s * (past + s) * (2 * head_size c + 36)) (T * q_heads_width c) 0 0.
Definition act_per (act : string) : Z := if String.eqb act "silu" then 33 else 34.
Definition attention_cost : cost :=
  let q := q_heads_width c in let kv := kv_heads_width c in let bi := yes "qkv_bias" in
  ksum [ (if yes "qkv_gated" then ksum [linear_cost H (2 * q) bi; linear_cost H kv bi; linear_cost H kv bi; slice_cost q; slice_cost q]
          else if yes "fuse_qkv" then ksum [linear_cost H (q + 2 * kv) bi; slice_cost q; slice_cost kv; slice_cost kv]
          else ksum [linear_cost H q bi; linear_cost H kv bi; linear_cost H kv bi]);
         kwhen (yes "qk_norm") [head_norm_cost q; head_norm_cost kv];
         kwhen (flag_or fl "qk_rope" true) [rope_cost q; rope_cost kv];
         attn_core_cost;
         kwhen (yes "qkv_gated") [eltwise_cost q 33; eltwise_cost q 1];
         linear_cost q H (yes "o_bias") ].
(** The fused linear-attention operator: its MACs include the three projections before it, which are also
    nodes of their own, and an output projection, which has no weight. *)
Definition gdn_core_cost : cost :=
  let a := gdn_q_width c in let v := gdn_v_width c in
  mkCost (T * (2 * (H * a) + H * v) + T * (a * (2 + 2 * getattr (x_conv x) 4)) + T * s * (a + v) + T * H * 33 + T * (v * H)) (T * H * 2) 0 0.
Definition gdn_cost : cost :=
  let a := gdn_q_width c in let v := gdn_v_width c in let bi := yes "qkv_bias" in
  ksum [linear_cost H a bi; linear_cost H a bi; linear_cost H v bi; head_norm_cost a; head_norm_cost a; gdn_core_cost].
Definition mla_cost : cost :=
  let N := c_heads c in let D := head_size c in
  let ql := getattr (c_q_lora c) 1024 in let ol := getattr (c_o_lora c) 1024 in let og := getattr (c_o_groups c) 8 in
  let rd := getattr (x_rope_dim x) 64 in let r := getattr (x_ratio x) 0 in let ct := s / r in
  let ih := getattr (x_idx_heads x) 64 in let idm := getattr (x_idx_dim x) 128 in
  let projections := T * (H * ql + ql * (N * D) + H * D + og * (N * D / og) * ol + og * ol * H) in
  let norms := T * ql * 32 + T * (N * D) * 31 + T * D * 32 in
  let rotation := T * rd * 80 * (N + 1) in
  let compressor := if 0 <? r then T * (H * D) + b * ct * (r * D * 38 + D * 32 + rd * 80) else 0 in
  let indexer := if r =? 4 then T * (2 * (H * idm)) + b * ct * (r * idm * 38 + idm * 32 + rd * 80) + T * (ql * (ih * idm)) + T * (ih * rd * 80)
                                + T * ct * (ih * idm + ih * 2) + T * (H * ih) + (if 1 <? ct then T * ct * Z.log2 ct else 0) else 0 in
  let kv_len := if 0 <? r then Z.min (getattr (x_window x) 128) s + ct + Z.min (getattr (x_idx_topk x) 512) ct else s in
  let core := T * N * kv_len * (2 * D + 36) in
  mkCost (projections + norms + rotation + compressor + indexer + core) (T * H * 2) (mla_params c) (mla_params c).
Definition mlp_cost : cost :=
  let I := c_inter c in let bi := yes "mlp_bias" in
  if String.eqb (c_model_type c) "phi3" || String.eqb (c_model_type c) "phi3small"
  then ksum [linear_cost H (I * 2) bi; eltwise_cost I 34; linear_cost I H bi]
  else ksum [linear_cost H I bi; kwhen (yes "mlp_gate") [linear_cost H I bi; eltwise_cost I 1]; eltwise_cost I (act_per (c_act c)); linear_cost I H bi].
(** only the chosen experts run; all of them are parameters, at most one per (token, choice) is read *)
Definition moe_cost : cost :=
  let E := getattr (c_experts c) 256 in let I := getattr (c_moe_inter c) (c_inter c) in let J := getattr (c_shared_inter c) I in let k := getattr (x_topk x) 8 in
  let expert (j : Z) := 3 * (j * H) in
  mkCost (T * (H * E + k * (expert I + 34 * I) + (if yes "no_shared_expert" then 0 else expert J + 34 * J) + (if yes "no_shared_gate" then 0 else 33 * H) + H))
         (T * H * 2)
         (H * E + Z.min (T * k) E * expert I + (if yes "no_shared_expert" then 0 else expert J))
         (moe_params fl c).
Definition layer_cost (i : nat) : cost :=
  ksum [ norm_cost;
         (if is_gdn c i then gdn_cost else if yes "is_mla" then mla_cost else attention_cost);
         kwhen (yes "post_attn_norm") [norm_cost];
         eltwise_cost H 1; norm_cost;
         (if yes "is_moe" then moe_cost else mlp_cost);
         kwhen (yes "post_mlp_norm") [norm_cost];
         eltwise_cost H 1 ].
Definition model_cost : cost :=
  ksum [ embedding_cost (c_vocab c);
         kwhen (yes "pos_embedding") [embedding_cost (c_n_positions c); eltwise_cost H 1];
         ksum (map layer_cost (seq 0 (n_layers c)));
         norm_cost; linear_cost H (c_vocab c) (yes "lm_head_bias");
         kwhen (c_final_cap c) [eltwise_cost (c_vocab c) 43] ].
End COSTS.

(** ** Configurations whose shapes fit *)
Record sane (fl : flags) (c : config) : Prop := {
  sn_heads : 0 <= c_heads c; sn_kv : 0 <= c_kv_heads c; sn_head : 0 <= head_size c;
  (** the halving activation belongs to the fused gate-up projection *)
  sn_act : c_act c = "gegelu" -> flag_or fl "is_moe" false = true \/ c_model_type c = "phi3" \/ c_model_type c = "phi3small";
  sn_mla : flag_or fl "is_mla" false = true -> (getattr (c_o_groups c) 8 | q_heads_width c) /\ getattr (c_o_groups c) 8 <> 0;
  sn_gdn : (exists i, is_gdn c i = true) -> (head_size c | gdn_q_width c)
}.
