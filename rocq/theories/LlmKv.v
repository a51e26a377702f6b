(** The KV cache sizes that [llm.Builder] and the attention operator report. *)
From Verif Require Import PyBase GraphModel ShapeModel FusionModel RegressModel LlmModel ProfileModel LlmCost.
Open Scope string_scope. Open Scope Z_scope.

(** llm.py:1239-1243 and 1270-1275: [Builder.kv_params], with [n_past = 0] when it is set by [build_graph] *)
Definition builder_kv_params (fl : flags) (c : config) (batch seq_len n_past : Z) : Z :=
  batch * (seq_len + n_past) * (if flag_or fl "is_mla" false then head_size c else kv_width c) * 2 * c_layers c.
(** the attribute after [build_graph], [add_kv_cache] and [set_past_kv_length] (llm.py:1264-1265, which only stores the tensor):
    the value of [kv_params] together with the number of positions the attention operators will read from [n_past] *)
Inductive kv_call := BuildGraph | AddKvCache (n_past : Z) | SetPast (n_past : Z).
Definition kv_step (fl : flags) (c : config) (batch seq_len : Z) (st : Z * Z) (k : kv_call) : Z * Z :=
  match k with
  | BuildGraph => (builder_kv_params fl c batch seq_len 0, 0)
  | AddKvCache p => (builder_kv_params fl c batch seq_len p, p)
  | SetPast p => (fst st, p)
  end.
(** node.py:2882-2904: [kv_size] of an attention node, from the tensors of its operands *)
Definition node_kv_size (c : config) (x : extra) (g : graph) (n : node) : sres Z :=
  let* ins := smap (dlook (tensormap g)) (n_in n) in
  let* r := sdpa_core c x ins in SOk (snd r).
(** llm.py:1147-1150: the numbers behind the MHA memory of the report *)
Definition total_kv_size (c : config) (x : extra) (g : graph) : sres Z :=
  let* l := smap (node_kv_size c x g) (filter (fun n => String.eqb (n_op n) "SDPA") (nodes_of g)) in SOk (sum_list l).
