(** onnx_tool/node.py: the [profile] methods of the operators that [llm.Builder] creates.
    Simplifications: a node's attributes are the ones the builder gives to every node of its operator
    (llm.py:411-414, 566-574, 676-689, 737-745), so that they are read from the configuration;
    [int(math.log2(n))] (node.py:3330) is [Z.log2]. *)
From Verif Require Import PyBase GraphModel ShapeModel FusionModel RegressModel LlmModel ProfileModel.
Open Scope string_scope. Open Scope Z_scope.

(** the attributes of a [Builder] that only the cost of an operator depends on; [None]: attribute absent;
    [x_past]: the value of the tensor [n_past] *)
Record extra := {
  x_topk : option Z; x_rope_dim : option Z; x_window : option Z; x_ratio : option Z;
  x_idx_heads : option Z; x_idx_dim : option Z; x_idx_topk : option Z; x_conv : option Z; x_past : Z }.
(** node.py:19-34 *)
Definition MUL_MACS := 1. Definition ADD_MACS := 1. Definition CMP_MACS := 1. Definition DIV_MACS := 4.
Definition EXP_MACS := 32. Definition SIN_MACS := 39. Definition COS_MACS := 39. Definition SQRT_MACS := 24.
Definition TANH_MACS := EXP_MACS + 2 * ADD_MACS + DIV_MACS.

Section COST.
Context (fl : flags) (c : config) (x : extra).
Definition shape_at (ts : list tensor) (i : nat) : sres (list Z) := match nth_error ts i with Some t => SOk (t_shape t) | None => SRaise IndexErr end.
Definition dim_at (sh : list Z) (i : nat) : sres Z := match nth_error sh i with Some d => SOk d | None => SRaise IndexErr end.
(** [shape[-1]], [shape[-2]] *)
Definition dim_last (sh : list Z) : sres Z := dim_at (rev sh) 0.
Definition vols (ts : list tensor) : Z := sum_list (map (fun t => volume (t_shape t)) ts).

(** node.py:248-264, 267-285 [PWNode], [NpMathBase]: the operands are counted in [__init__], before the node
    has any ([Node.__init__] sets [self.input = []], node.py:179), so that the ratio is [max(1, -1)] *)
Definition pw_ratio : Z := Z.max 1 (0 - 1).
Definition pw_core (op_mac : Z) (outs : list tensor) : sres Z := let* o := shape_at outs 0 in SOk (volume o * pw_ratio * op_mac).
(** node.py:911-931 [GemmNode._profile_core] of a [MatMul] *)
Definition matmul_core (ins outs : list tensor) : sres Z :=
  let* y := shape_at outs 0 in
  match ins with
  | _ :: w :: r =>
      let* m := match rev (t_shape w) with _ :: k :: _ => SOk (volume y * k) | _ => SOk (volume y) end in
      SOk (if zlen ins =? 3 then m + volume y * ADD_MACS else m)
  | _ => SRaise NotImplErr
  end.
(** node.py:2525-2531 [LayerNormalizationNode._profile_core] with the default axis -1 *)
Definition norm_core (ins : list tensor) : sres Z :=
  let* t := shape_at ins 0 in
  match rev t with
  | [] => SRaise IndexErr
  | _ :: r => SOk (volume t * (MUL_MACS * 3 + ADD_MACS * 4) + volume (rev (1 :: r)) * (ADD_MACS + SQRT_MACS + DIV_MACS))
  end.
(** node.py:2882-2906 [SDPANode._profile_core]: MACs and [kv_size] *)
Definition sdpa_core (ins : list tensor) : sres (Z * Z) :=
  let* q := shape_at ins 0 in
  let* bs := dim_at q 0 in
  let* seq := dim_at q 1 in
  let* seq_all := (if 5 <=? zlen ins then
      let* cache := shape_at ins 4 in
      let* n_context := dim_at cache 2 in
      if x_past x + seq <=? n_context then SOk (x_past x + seq) else SRaise AssertErr
    else SOk seq) in
  let N := c_heads c in let D := head_size c in
  SOk (bs * N * seq * seq_all * D + bs * N * seq * seq_all * (EXP_MACS + DIV_MACS) + bs * N * seq * D * seq_all, bs * c_kv_heads c * seq_all * D * 2).
(** node.py:961-974 [GatherNode.profile] *)
Definition gather_profile (ins outs : list tensor) : sres (Z * Z * Z) :=
  let* w := shape_at ins 0 in let* ids := shape_at ins 1 in
  let* hidden := dim_last w in let* y := shape_at outs 0 in
  SOk (0, volume y, volume ids * hidden).
(** node.py:676-692 [RopeNode.profile] *)
Definition rope_static (seq : Z) (s : list Z) : Z :=
  match s with
  | [a; b; m; h] => if seq <? m then a * b * seq * h else volume s
  | _ => volume s
  end.
Definition rope_profile (ins statics outs : list tensor) : sres (Z * Z * Z) :=
  let* macs := pw_core (COS_MACS + SIN_MACS + MUL_MACS * 2) outs in
  let* xs := shape_at ins 0 in
  let seq := match xs with _ :: s :: _ => s | _ => 1 end in
  SOk (macs, vols outs, sum_list (map (fun t => rope_static seq (t_shape t)) statics)).
(** node.py:3019-3085 [GDNNode.profile] *)
Definition gdn_profile (ins : list tensor) : sres (Z * Z * Z) :=
  let* xs := shape_at ins 0 in let* B := dim_at xs 0 in let* S := dim_at xs 1 in
  let H := c_hidden c in let Nq := getattr (c_lin_q_heads c) (c_kv_heads c) in let Nv := getattr (c_lin_v_heads c) (c_kv_heads c * 2) in
  let Dqk := getattr (c_lin_qk_dim c) (head_size c) in let Dv := getattr (c_lin_v_dim c) (head_size c) in let K := getattr (x_conv x) 4 in
  SOk (B * S * H * Nq * Dqk + B * S * H * Nq * Dqk + B * S * H * Nv * Dv + 2 * B * S * Nq * Dqk + B * Nq * S * Dqk * K + B * Nq * S * Dqk * K
       + B * Nq * S * Dqk * S + B * Nv * S * S * Dv + B * S * H * (EXP_MACS + MUL_MACS) + B * S * Nv * Dv * H,
       B * S * H * 2, 0).
(** node.py:3123-3188 [MoENode.profile] *)
Definition moe_profile (ins : list tensor) : sres (Z * Z * Z) :=
  let* xs := shape_at ins 0 in let* B := dim_at xs 0 in let* S := dim_at xs 1 in
  let H := c_hidden c in let I := getattr (c_moe_inter c) (c_inter c) in let SI := getattr (c_shared_inter c) I in
  let E := getattr (c_experts c) 256 in let k := getattr (x_topk x) 8 in
  let macs := B * S * H * E + B * S * H * I * k + B * S * H * I * k + B * S * I * k * (EXP_MACS + MUL_MACS) + B * S * I * k * MUL_MACS + B * S * I * H * k in
  let macs := if flag_or fl "no_shared_expert" false then macs
              else macs + B * S * H * SI + B * S * H * SI + B * S * SI * (EXP_MACS + MUL_MACS) + B * S * SI * MUL_MACS + B * S * SI * H in
  let macs := if flag_or fl "no_shared_gate" false then macs else macs + B * S * H * (EXP_MACS + MUL_MACS) in
  let macs := macs + B * S * H * ADD_MACS in
  let acts := B * S * k in
  let shared := if flag_or fl "no_shared_expert" false then 0 else 3 * SI * H in
  SOk (macs, B * S * H * 2, if acts <? E then H * E + acts * 3 * I * H + shared else H * E + E * 3 * I * H + shared).
(** node.py:3236-3372 [MLANode.profile] *)
Definition mla_profile (ins : list tensor) : sres (Z * Z * Z) :=
  let* xs := shape_at ins 0 in let* B := dim_at xs 0 in let* S := dim_at xs 1 in
  let D := c_hidden c in let N := c_heads c in let H := head_size c in
  let Qr := getattr (c_q_lora c) 1024 in let Or := getattr (c_o_lora c) 1024 in let G := getattr (c_o_groups c) 8 in
  let Rd := getattr (x_rope_dim x) 64 in let W := Z.min (getattr (x_window x) 128) S in let CR := getattr (x_ratio x) 0 in
  let IN := getattr (x_idx_heads x) 64 in let ID := getattr (x_idx_dim x) 128 in let IT := getattr (x_idx_topk x) 512 in
  let rms := MUL_MACS * 2 + ADD_MACS * 2 + SQRT_MACS + DIV_MACS in
  let rot := COS_MACS + SIN_MACS + MUL_MACS * 2 in
  let macs := B * S * D * Qr + B * S * Qr * rms + B * S * Qr * N * H + B * S * N * H * (MUL_MACS * 2 + ADD_MACS + SQRT_MACS + DIV_MACS)
              + B * S * D * H + B * S * H * rms in
  let ct := S / CR in
  let macs := if 0 <? CR then macs + B * S * D * H + B * ct * CR * H * (EXP_MACS + DIV_MACS) + B * ct * CR * H * MUL_MACS + B * ct * CR * H * ADD_MACS
                                   + B * ct * H * rms + B * ct * Rd * rot else macs in
  let macs := if CR =? 4 then
      let macs := macs + B * S * D * ID + B * S * D * ID + B * ct * CR * ID * (EXP_MACS + DIV_MACS + MUL_MACS + ADD_MACS) + B * ct * ID * rms + B * ct * Rd * rot
                       + B * S * Qr * IN * ID + B * IN * S * Rd * rot + B * IN * S * ID * ct + B * S * IN * ct * (CMP_MACS + MUL_MACS) + B * S * D * IN in
      if 1 <? ct then macs + B * S * ct * Z.log2 ct * CMP_MACS else macs
    else macs in
  let macs := macs + B * N * S * Rd * rot + B * S * Rd * rot in
  let kv_len := if 0 <? CR then W + ct + Z.min IT ct else S in
  let macs := macs + B * N * S * H * kv_len + B * N * S * kv_len * (EXP_MACS + DIV_MACS) + B * N * S * kv_len * H in
  let macs := macs + B * S * G * (N * H / G) * Or + B * S * G * Or * D in
  SOk (macs, B * S * D * 2, D * Qr + Qr + Qr * N * H + D * H + H + G * Or * (N * H / G) + D * G * Or).

(** node.py:215-229 [Node.profile] around a class's [_profile_core] *)
Definition plain (core : sres Z) (statics outs : list tensor) : sres (Z * Z * Z) := let* m := core in SOk (m, vols outs, vols statics).
(** the method of each operator; 632-663, 296-300, 363-366: the element-wise ones; [SliceNode] has no MACs (node.py:231-233) *)
Definition op_profile (op : string) (ins statics outs : list tensor) : sres (Z * Z * Z) :=
  if String.eqb op "MatMul" then plain (matmul_core ins outs) statics outs
  else if String.eqb op "Gather" then gather_profile ins outs
  else if String.eqb op "LayerNormalization" then plain (norm_core ins) statics outs
  else if String.eqb op "SDPA" then let* r := sdpa_core ins in plain (SOk (fst r)) statics outs
  else if String.eqb op "Rope" then rope_profile ins statics outs
  else if String.eqb op "GDN" then gdn_profile ins
  else if String.eqb op "MoE" then moe_profile ins
  else if String.eqb op "MLA" then mla_profile ins
  else if String.eqb op "Add" then plain (pw_core ADD_MACS outs) statics outs
  else if String.eqb op "Mul" then plain (pw_core MUL_MACS outs) statics outs
  else if String.eqb op "Silu" then plain (pw_core (EXP_MACS + MUL_MACS) outs) statics outs
  else if String.eqb op "Gelu" then plain (pw_core (EXP_MACS + MUL_MACS * 2) outs) statics outs
  else if String.eqb op "GeGelu" then plain (pw_core (EXP_MACS + MUL_MACS * 2) outs) statics outs
  else if String.eqb op "LogitSoftCapping" then plain (pw_core (TANH_MACS + MUL_MACS + DIV_MACS) outs) statics outs
  else if String.eqb op "Slice" then plain (SOk 0) statics outs
  else SRaise KeyErr.
(** graph.py:1456, 1462: [node.static_inputs], [node.profile(itensors, otensors)] *)
Definition static_inputs (n : node) (ins : list tensor) : list tensor := map snd (filter is_static (combine (n_in n) ins)).
Definition llm_nprof (n : node) (ins outs : list tensor) : sres (Z * Z * Z) := op_profile (n_op n) ins (static_inputs n ins) outs.
End COST.
