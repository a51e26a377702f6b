(** Specification vocabulary for the graphs of [llm.Builder]. *)
From Verif Require Import PyBase GraphModel CompressSpec ShapeModel FusionModel RegressModel LlmModel.
Open Scope Z_scope. Open Scope string_scope.

(** every tensor name of a graph: inputs, weights, results of nodes *)
Definition tensor_names (g : graph) : list string := (g_input g ++ initials g ++ outs_of (nodes_of g))%list.

(** A graph that can be executed in the order in which it lists its nodes. *)
Record executable_graph (g : graph) : Prop := {
  (** node names are distinct, and a node is listed under its own name *)
  eg_nodes : NoDup (map fst (nodemap g));
  eg_keys : forall k n, In (k, n) (nodemap g) -> n_name n = k;
  (** every tensor is an input, a weight, or the result of one node: exactly one of these, once *)
  eg_once : NoDup (tensor_names g);
  (** what a node reads exists before the node runs *)
  eg_ready : forall i n t, nth_error (nodes_of g) i = Some n -> In t (n_in n) ->
    In t (g_input g) \/ In t (initials g) \/ exists j m, (j < i)%nat /\ nth_error (nodes_of g) j = Some m /\ In t (n_out m);
  (** exactly these tensors are described, none under the empty name *)
  eg_known : forall t, dhas (tensormap g) t = true <-> In t (tensor_names g);
  eg_named : ~ In "" (tensor_names g)
}.

(** The names a layer can use (relative to its prefix) and those outside the layers. *)
Section NAMES.
Context (fl : flags) (wm : dict (dict string)) (root : string).
Definition given (section key : string) : list string := match wkey wm section key with SOk n => [n] | SRaise _ => [] end.
Definition layer_segments : list (list string) := [
  given "attention" "input_norm"; given "attention" "qkv"; given "attention" "q"; given "attention" "k"; given "attention" "v";
  ["q.slice"]; ["k.slice"]; ["v.slice"]; ["gate.slice"]; ["self_attn.q_norm"]; ["self_attn.k_norm"]; ["gdn"]; ["rope_q"]; ["rope_k"];
  ["mha"]; ["attn_gate.act"]; ["attn.gated"]; given "attention" "o";
  ["wq_a"]; ["q_norm"]; ["wq_b"]; ["wkv"]; ["kv_norm"]; ["wo_a"]; ["wo_b"]; ["mla"];
  (if flag_or fl "post_attn_norm" false then given "attention" "output_norm" else []);
  ["attention_add"]; given "mlp" "input_norm";
  ["moe.router"]; ["moe.experts.gate"]; ["moe.experts.up"]; ["moe.experts.down"]; ["moe.shared.gate"]; ["moe.shared.up"]; ["moe.shared.down"];
  ["moe.shared_gate"]; ["moe"];
  given "mlp" "gate_up"; given "mlp" "up"; given "mlp" "gate"; ["mlp.activation"]; ["mlp.gate_mul"]; given "mlp" "down";
  (if flag_or fl "post_mlp_norm" false then given "mlp" "output_norm" else []);
  ["mlp_add"]].
Definition global_segments : list (list string) := [
  ["rope"]; given "embedding" "embed"; (if flag_or fl "pos_embedding" false then given "embedding" "pos" else []); ["embedding_pos_add"];
  given "lm_head" "input_norm"; given "lm_head" "lm"; ["models.final_logit_softcapping"]].
(** distinct names inside a layer, distinct names outside, and none of the latter begins like a layer *)
Definition names_ok : Prop :=
  NoDup (concat layer_segments) /\ NoDup (concat global_segments) /\
  forall n, In n (concat global_segments) -> String.prefix root n = false.
End NAMES.

(** What a configuration needs for the builder not to raise. *)
Definition buildable (fl : flags) (c : config) (wm : dict (dict string)) : Prop :=
  (forall k, In k ["mlp_gate"; "norm_scale"; "norm_bias"; "fuse_qkv"; "qkv_bias"; "o_bias"; "mlp_bias"; "lm_head_bias"] -> dhas fl k = true) /\
  (forall sk, In sk [("embedding", "embed"); ("attention", "input_norm"); ("attention", "qkv"); ("attention", "q"); ("attention", "k"); ("attention", "v"); ("attention", "o");
     ("attention", "output_norm"); ("mlp", "input_norm"); ("mlp", "gate_up"); ("mlp", "gate"); ("mlp", "up"); ("mlp", "down"); ("mlp", "output_norm");
     ("lm_head", "input_norm"); ("lm_head", "lm")] -> given wm (fst sk) (snd sk) <> []) /\
  (flag_or fl "pos_embedding" false = true -> given wm "embedding" "pos" <> []) /\
  (c_rms c = true \/ c_lneps c = true /\ flag_or fl "qk_norm" false = false /\ c_layer_types c = None) /\
  dhas ActMap (c_act c) = true.
