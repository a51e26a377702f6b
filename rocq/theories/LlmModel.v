(** onnx_tool/llm.py: [Builder] (217-270), the graph it builds (277-760, 995-1090, 1236-1296) and the
    device estimate [profile] (1113-1193).
    Simplifications: the renaming of configuration keys (219-243) is left out, a configuration is the
    resulting set of attributes; attributes of nodes are left out except for the operator type; weights
    carry no values; the vision builder (775-990) is left out.  [get_shape] returns a fresh list
    (tensor.py:427-434), so shapes are not shared.  [hidden_size // num_attention_heads] is taken with a
    non-zero number of heads.  A tensor and its entry in [initials]/[input] are
    recorded by one event, so the order of the keys of [tensormap] is not that of the code. *)
From Coq Require Import Reals.
From Verif Require Import PyBase GraphModel ShapeModel FusionModel RegressModel.
Open Scope Z_scope. Open Scope string_scope.

(** ** Architecture tables *)
Definition flags := dict bool.
(** llm.py:19-184 [ArchMap] *)
Definition base_flags (gate nscale nbias fuse qkv o mlp lm : bool) : flags :=
  [("mlp_gate", gate); ("norm_scale", nscale); ("norm_bias", nbias); ("fuse_qkv", fuse); ("qkv_bias", qkv); ("o_bias", o); ("mlp_bias", mlp); ("lm_head_bias", lm)].
Definition ArchMap : dict flags := [
  ("LlamaForCausalLM", (base_flags true true false false false false false false ++ [("post_mlp_norm", false); ("post_attn_norm", false)])%list);
  ("Qwen2ForCausalLM", base_flags true true false false true false false false);
  ("Qwen3ForCausalLM", (base_flags true true false false true false false false ++ [("qk_norm", true)])%list);
  ("Qwen3_5ForConditionalGeneration", (base_flags true true false false false false false false ++ [("qk_norm", true); ("qkv_gated", true)])%list);
  ("Qwen3_5MoeForCausalLM", (base_flags true true false false false false false false ++ [("qk_norm", true); ("qkv_gated", true); ("is_moe", true)])%list);
  ("DeepSeekV4ForCausalLM", (base_flags true true false false false false false false
      ++ [("qk_norm", false); ("qkv_gated", false); ("is_moe", true); ("is_mla", true); ("no_shared_gate", true)])%list);
  ("MiniMaxM2ForCausalLM", (base_flags true true false false false false false false
      ++ [("qk_norm", true); ("qkv_gated", false); ("is_moe", true); ("is_mla", false); ("no_shared_expert", true)])%list);
  ("Phi3ForCausalLM", base_flags false true false true false false false false);
  ("PhiForCausalLM", base_flags false true true false true true false true);
  ("Phi3SmallForCausalLM", base_flags false true false true false false false false);
  ("GPTJForCausalLM", base_flags false true true false false false false false);
  ("GPT2LMHeadModel", (base_flags false true true true true true true false ++ [("qk_rope", false); ("pos_embedding", true)])%list)].

(** The attributes of a [Builder] that come from its configuration; [None]: attribute absent. *)
Record config := {
  c_arch : string; c_mlp_bias : option bool; c_attention_bias : option bool; c_model_type : string;
  c_hidden : Z; c_inter : Z; c_heads : Z; c_kv_heads : Z; c_layers : Z; c_vocab : Z; c_head_dim : option Z; c_n_positions : Z;
  c_act : string; c_rms : bool; c_lneps : bool; c_layer_types : option (list string);
  c_max_pos : option Z; c_rotary_dim : option Z; c_final_cap : bool;
  c_experts : option Z; c_moe_inter : option Z; c_shared_inter : option Z;
  c_q_lora : option Z; c_o_lora : option Z; c_o_groups : option Z;
  c_lin_q_heads : option Z; c_lin_v_heads : option Z; c_lin_qk_dim : option Z; c_lin_v_dim : option Z
}.
Definition getattr (o : option Z) (d : Z) : Z := match o with Some z => z | None => d end.

(** llm.py:250-253: the entry of the module-level table that the builder refers to *)
Definition arch_key (m : dict flags) (c : config) : string := if dhas m (c_arch c) then c_arch c else "LlamaForCausalLM".
(** llm.py:254-258: the assignments through [self.arch_config] *)
Definition set_flags (c : config) (f : flags) : flags :=
  let f := match c_mlp_bias c with Some b => dset f "mlp_bias" b | None => f end in
  match c_attention_bias c with Some b => dset (dset f "qkv_bias" b) "o_bias" b | None => f end.
(** [Builder( **config )]: the table afterwards *)
Definition new_builder (m : dict flags) (c : config) : sres (dict flags) :=
  let k := arch_key m c in
  let* f := dlook m k in SOk (dset m k (set_flags c f)).
Fixpoint new_builders (m : dict flags) (cs : list config) : sres (dict flags) :=
  match cs with [] => SOk m | c :: r => let* m' := new_builder m c in new_builders m' r end.
(** what [self.arch_config] shows of a builder of [c], now *)
Definition arch_config (m : dict flags) (c : config) : sres flags := dlook m (arch_key m c).

(** ** The graph under construction *)
Inductive ev :=
  | EStatic (name : string) (t : tensor)      (** tensormap and initials *)
  | EInput (name : string) (t : tensor)       (** tensormap and input *)
  | ENode (n : node) (t : tensor).            (** nodemap, and tensormap of its single output *)
(** [bounds]: the numbers stored in the initializers [name.start] and [name.end] of the slices *)
Record bst := { log : list ev; rope_done : bool; pos_done : bool; bounds : list (string * (Z * Z)) }.
Definition B (A : Type) := bst -> sres (A * bst).
Definition ret {A} (a : A) : B A := fun s => SOk (a, s).
Definition bind {A C} (m : B A) (f : A -> B C) : B C := fun s => let* x := m s in f (fst x) (snd x).
Notation "'do' x <- a ; b" := (bind a (fun x => b)) (at level 200, x name, a at level 100, b at level 200).
Definition lift {A} (r : sres A) : B A := fun s => let* a := r in SOk (a, s).
Definition tell (e : ev) : B unit := fun s => SOk (tt, {| log := (log s ++ [e])%list; rope_done := rope_done s; pos_done := pos_done s; bounds := bounds s |}).
Definition note (name : string) (a b : Z) : B unit := fun s => SOk (tt, {| log := log s; rope_done := rope_done s; pos_done := pos_done s; bounds := (bounds s ++ [(name, (a, b))])%list |}).
(** a [Tensor] as seen by the builder: name and shape *)
Definition tref := (string * list Z)%type.
Definition static (name : string) (sh : list Z) : B string := do _ <- tell (EStatic name (mkTensor STATIC sh 4)); ret name.
Definition static8 (name : string) (sh : list Z) : B string := do _ <- tell (EStatic name (mkTensor STATIC sh 8)); ret name.
(** creating a node and its output tensor [name + '.output'] *)
Definition emit (name op : string) (ins : list string) (sh : list Z) : B tref :=
  do _ <- tell (ENode (mkNode name op ins [name ++ ".output"]) (mkTensor DYNAMIC sh 4)); ret (name ++ ".output", sh).

Section BUILD.
Context (fl : flags) (c : config) (batch seq_len : Z).
(** [self.w_map], by section and key; ['layer_prefix'] separately *)
Context (wm : dict (dict string)) (layer_root : string).
Definition wkey (section key : string) : sres string := let* d := dlook wm section in dlook d key.
(** [self.arch_config[k]] and [self.arch_config.get(k, d)] *)
Definition flag (k : string) : sres bool := dlook fl k.
Definition flag_or (k : string) (d : bool) : bool := match dget fl k with Some b => b | None => d end.

(** llm.py:263-267 *)
Definition head_size : Z := match c_head_dim c with Some d => d | None => c_hidden c / c_heads c end.
Definition q_width : Z := c_heads c * head_size.
Definition kv_width : Z := c_kv_heads c * head_size.

(** llm.py:277-290 [add_embedding] *)
Definition add_embedding (inp : tref) (insize : Z) (name : string) : B tref :=
  do w <- static (name ++ ".weight") [insize; c_hidden c];
  emit name "Gather" [w; fst inp] [batch; seq_len; c_hidden c].
(** llm.py:292-321 [add_layernorm] *)
Definition add_layernorm (inp : tref) (name : string) : B tref :=
  if negb (c_rms c) && negb (c_lneps c) then lift (SRaise AssertErr) else
  do sc <- lift (flag "norm_scale");
  if (sc : bool) then
    do s <- static (name ++ ".weight") [c_hidden c];
    do nb <- lift (flag "norm_bias");
    if (nb : bool) then
      do b <- static (name ++ ".bias") [c_hidden c];
      emit name "LayerNormalization" [fst inp; s; b] (snd inp)
    else emit name "LayerNormalization" [fst inp; s] (snd inp)
  else emit name "LayerNormalization" [fst inp] (snd inp).
(** llm.py:13-17 [ActMap], 323-331 [add_act] *)
Definition ActMap : dict string := [("silu", "Silu"); ("gelu_new", "Gelu"); ("gegelu", "GeGelu")].
Definition add_act (inp : tref) (act name : string) : B tref :=
  do op <- lift (dlook ActMap act); emit name op [fst inp] (snd inp).
(** llm.py:333-373 [add_rope] *)
Definition add_rope_tables : B unit := fun s =>
  if rope_done s then SOk (tt, s) else
  let mp := getattr (c_max_pos c) 4096 in
  let half := getattr (c_rotary_dim c) head_size / 2 in
  (do _ <- static "rope.cos" [1; 1; mp; half];
   do _ <- static "rope.sin" [1; 1; mp; half];
   fun s' => SOk (tt, {| log := log s'; rope_done := true; pos_done := pos_done s'; bounds := bounds s' |})) s.
Definition add_position : B unit := fun s =>
  if pos_done s then SOk (tt, s) else
  (do _ <- tell (EInput "position" (mkTensor DYNAMIC [batch; seq_len] 8));
   fun s' => SOk (tt, {| log := log s'; rope_done := rope_done s'; pos_done := true; bounds := bounds s' |})) s.
Definition add_rope (inp : tref) (name : string) : B tref :=
  do _ <- add_rope_tables;
  do _ <- add_position;
  emit name "Rope" [fst inp; "rope.cos"; "rope.sin"; "position"] (snd inp).
(** llm.py:375-386 [add_eltop] *)
Definition add_eltop (inp inp1 : tref) (op name : string) : B tref :=
  do sh <- lift (max_shape [snd inp; snd inp1]); emit name op [fst inp; fst inp1] sh.
(** llm.py:388-409 [add_mm] *)
Definition add_mm (inp : tref) (fin fout : Z) (bias : bool) (name : string) : B tref :=
  do w <- static (name ++ ".weight") [fin; fout];
  if bias then
    do b <- static (name ++ ".bias") [fout];
    emit name "MatMul" [fst inp; w; b] [batch; seq_len; fout]
  else emit name "MatMul" [fst inp; w] [batch; seq_len; fout].
(** llm.py:411-420 [add_mha] *)
Definition add_mha (inps : list tref) (name : string) : B tref :=
  emit name "SDPA" (map fst inps) [batch; seq_len; q_width].
(** llm.py:422-435 [add_slice] on axis 2 of a rank-3 tensor, with step 1 *)
Definition add_slice (inp : tref) (off size : Z) (name : string) : B tref :=
  do a <- static8 (name ++ ".start") [1];
  do b <- static8 (name ++ ".end") [1];
  do x <- static8 (name ++ ".axis") [1];
  do st <- static8 (name ++ ".step") [1];
  do _ <- note name off (off + size);
  do sh <- lift (match snd inp with d0 :: d1 :: _ :: r => SOk (d0 :: d1 :: size :: r) | _ => SRaise IndexErr end);
  emit name "Slice" [fst inp; a; b; x; st] sh.
(** llm.py:437-457 [add_qkv] *)
Definition add_qkv (p : string) (inp : tref) : B (tref * tref * tref) :=
  do bias <- lift (flag "qkv_bias");
  do fuse <- lift (flag "fuse_qkv");
  if (fuse : bool) then
    do nm <- lift (wkey "attention" "qkv");
    do qkv <- add_mm inp (c_hidden c) (q_width + kv_width + kv_width) bias (p ++ nm);
    do q <- add_slice qkv 0 q_width (p ++ "q.slice");
    do k <- add_slice qkv q_width kv_width (p ++ "k.slice");
    do v <- add_slice qkv (q_width + kv_width) kv_width (p ++ "v.slice");
    ret (q, k, v)
  else
    do nq <- lift (wkey "attention" "q");
    do nk <- lift (wkey "attention" "k");
    do nv <- lift (wkey "attention" "v");
    do q <- add_mm inp (c_hidden c) q_width bias (p ++ nq);
    do k <- add_mm inp (c_hidden c) kv_width bias (p ++ nk);
    do v <- add_mm inp (c_hidden c) kv_width bias (p ++ nv);
    ret (q, k, v).
(** llm.py:459-490 [add_qkv_gated] *)
Definition add_qkv_gated (p : string) (inp : tref) : B (tref * tref * tref * tref) :=
  do bias <- lift (flag "qkv_bias");
  do nq <- lift (wkey "attention" "q");
  do nk <- lift (wkey "attention" "k");
  do nv <- lift (wkey "attention" "v");
  do qp <- add_mm inp (c_hidden c) (q_width * 2) bias (p ++ nq);
  do k <- add_mm inp (c_hidden c) kv_width bias (p ++ nk);
  do v <- add_mm inp (c_hidden c) kv_width bias (p ++ nv);
  do q <- add_slice qp 0 q_width (p ++ "q.slice");
  do gate <- add_slice qp q_width q_width (p ++ "gate.slice");
  ret (q, k, v, gate).
(** llm.py:492-516 [add_mlp] *)
Definition add_mlp (p : string) (inp : tref) : B tref :=
  do bias <- lift (flag "mlp_bias");
  do gated <- lift (flag "mlp_gate");
  do nup <- lift (wkey "mlp" "up");
  do ndown <- lift (wkey "mlp" "down");
  do ngate <- lift (if (gated : bool) then wkey "mlp" "gate" else SOk "");
  if String.eqb (c_model_type c) "phi3" || String.eqb (c_model_type c) "phi3small" then
    do ngu <- lift (wkey "mlp" "gate_up");
    do o <- add_mm inp (c_hidden c) (c_inter c * 2) bias (p ++ ngu);
    do op <- lift (dlook ActMap "gegelu");
    (* 505-507: the shape of the activation's output is halved after its creation *)
    do o0 <- emit (p ++ "mlp.activation") op [fst o] [batch; seq_len; c_inter c * 2 / 2];
    add_mm o0 (c_inter c) (c_hidden c) bias (p ++ ndown)
  else
    do up <- add_mm inp (c_hidden c) (c_inter c) bias (p ++ nup);
    if (gated : bool) then
      do g <- add_mm inp (c_hidden c) (c_inter c) bias (p ++ ngate);
      do a <- add_act g (c_act c) (p ++ "mlp.activation");
      do o0 <- add_eltop up a "Mul" (p ++ "mlp.gate_mul");
      add_mm o0 (c_inter c) (c_hidden c) bias (p ++ ndown)
    else
      do o0 <- add_act up (c_act c) (p ++ "mlp.activation");
      add_mm o0 (c_inter c) (c_hidden c) bias (p ++ ndown).
(** llm.py:518-617 [add_moe] *)
Definition add_moe (p : string) (inp : tref) : B tref :=
  let E := getattr (c_experts c) 256 in
  let I := getattr (c_moe_inter c) (c_inter c) in
  let SI := getattr (c_shared_inter c) I in
  let H := c_hidden c in
  do r <- static (p ++ "moe.router.weight") [H; E];
  do g <- static (p ++ "moe.experts.gate.weight") [E; I; H];
  do u <- static (p ++ "moe.experts.up.weight") [E; I; H];
  do d <- static (p ++ "moe.experts.down.weight") [E; H; I];
  if flag_or "no_shared_expert" false then
    emit (p ++ "moe") "MoE" [fst inp; r; g; u; d] [batch; seq_len; H]
  else
    do sg <- static (p ++ "moe.shared.gate.weight") [SI; H];
    do su <- static (p ++ "moe.shared.up.weight") [SI; H];
    do sd <- static (p ++ "moe.shared.down.weight") [H; SI];
    if flag_or "no_shared_gate" false then
      emit (p ++ "moe") "MoE" [fst inp; r; g; u; d; sg; su; sd] [batch; seq_len; H]
    else
      do so <- static (p ++ "moe.shared_gate.weight") [H];
      emit (p ++ "moe") "MoE" [fst inp; r; g; u; d; sg; su; sd; so] [batch; seq_len; H].
(** llm.py:619-697 [add_mla] *)
Definition add_mla (p : string) (inp : tref) : B tref :=
  let H := c_hidden c in let ql := getattr (c_q_lora c) 1024 in let ol := getattr (c_o_lora c) 1024 in let og := getattr (c_o_groups c) 8 in
  do a <- static (p ++ "wq_a.weight") [ql; H];
  do qn <- static (p ++ "q_norm.weight") [ql];
  do b <- static (p ++ "wq_b.weight") [q_width; ql];
  do kv <- static (p ++ "wkv.weight") [head_size; H];
  do kn <- static (p ++ "kv_norm.weight") [head_size];
  do oa <- static (p ++ "wo_a.weight") [og * ol; q_width / og];
  do ob <- static (p ++ "wo_b.weight") [H; og * ol];
  emit (p ++ "mla") "MLA" [fst inp; a; qn; b; kv; kn; oa; ob] [batch; seq_len; H].
(** llm.py:992-1012 [add_qk_norm] *)
Definition add_qk_norm (inp : tref) (name : string) : B tref :=
  if c_rms c then
    do s <- static (name ++ ".weight") [head_size];
    emit name "LayerNormalization" [fst inp; s] (snd inp)
  else lift (SRaise AttributeErr).
(** llm.py:699-757 [add_gdn] *)
Definition add_gdn (p : string) (inp : tref) : B tref :=
  let nq := getattr (c_lin_q_heads c) (c_kv_heads c) in
  let nv := getattr (c_lin_v_heads c) (c_kv_heads c * 2) in
  let dq := getattr (c_lin_qk_dim c) head_size in
  let dv := getattr (c_lin_v_dim c) head_size in
  let bias := flag_or "qkv_bias" false in
  do nmq <- lift (wkey "attention" "q");
  do nmk <- lift (wkey "attention" "k");
  do nmv <- lift (wkey "attention" "v");
  do q <- add_mm inp (c_hidden c) (nq * dq) bias (p ++ nmq);
  do k <- add_mm inp (c_hidden c) (nq * dq) bias (p ++ nmk);
  do v <- add_mm inp (c_hidden c) (nv * dv) bias (p ++ nmv);
  do q <- add_qk_norm q (p ++ "self_attn.q_norm");
  do k <- add_qk_norm k (p ++ "self_attn.k_norm");
  emit (p ++ "gdn") "GDN" [fst q; fst k; fst v] [batch; seq_len; c_hidden c].
(** llm.py:1057-1078: the standard attention up to the output projection *)
Definition add_attention (p : string) (cur : tref) : B tref :=
  do qkvg <- (if flag_or "qkv_gated" false
              then do x <- add_qkv_gated p cur; ret (let '(q, k, v, g) := x in (q, k, v, Some g))
              else do x <- add_qkv p cur; ret (let '(q, k, v) := x in (q, k, v, None)));
  let '(q, k, v, gate) := qkvg in
  do qk <- (if flag_or "qk_norm" false
            then do q <- add_qk_norm q (p ++ "self_attn.q_norm"); do k <- add_qk_norm k (p ++ "self_attn.k_norm"); ret (q, k)
            else ret (q, k));
  let '(q, k) := qk in
  do qk <- (if flag_or "qk_rope" true
            then do q <- add_rope q (p ++ "rope_q"); do k <- add_rope k (p ++ "rope_k"); ret (q, k)
            else ret (q, k));
  let '(q, k) := qk in
  do cur <- add_mha [q; k; v] (p ++ "mha");
  do cur <- (match gate with
             | Some g => do g <- add_act g "silu" (p ++ "attn_gate.act"); add_eltop cur g "Mul" (p ++ "attn.gated")
             | None => ret cur
             end);
  do ob <- lift (flag "o_bias");
  do no <- lift (wkey "attention" "o");
  add_mm cur q_width (c_hidden c) ob (p ++ no).
(** llm.py:1030-1054 and 1057-1088: one layer; the three branches differ in the attention only *)
Definition is_gdn (i : nat) : bool :=
  match c_layer_types c with
  | Some l => match nth_error l i with Some t => String.eqb t "linear_attention" | None => false end
  | None => false
  end.
Definition layer_prefix (i : nat) : string := layer_root ++ dec i ++ ".".
Definition optional_norm (key section : string) (p : string) (cur : tref) : B tref :=
  if flag_or key false then do n <- lift (wkey section "output_norm"); add_layernorm cur (p ++ n) else ret cur.
Definition add_layer (i : nat) (inp : tref) : B tref :=
  let p := layer_prefix i in
  do n0 <- lift (wkey "attention" "input_norm");
  do cur <- add_layernorm inp (p ++ n0);
  do cur <- (if is_gdn i then add_gdn p cur else if flag_or "is_mla" false then add_mla p cur else add_attention p cur);
  do cur <- optional_norm "post_attn_norm" "attention" p cur;
  do inp <- add_eltop inp cur "Add" (p ++ "attention_add");
  do n1 <- lift (wkey "mlp" "input_norm");
  do cur <- add_layernorm inp (p ++ n1);
  do cur <- (if flag_or "is_moe" false then add_moe p cur else add_mlp p cur);
  do cur <- optional_norm "post_mlp_norm" "mlp" p cur;
  add_eltop inp cur "Add" (p ++ "mlp_add").
(** llm.py:1014-1090 [add_layers]: layers [i], [i+1], ..., [n] of them *)
Fixpoint add_layers (i n : nat) (inp : tref) : B tref :=
  match n with O => ret inp | S n' => do x <- add_layer i inp; add_layers (S i) n' x end.
(** llm.py:759-763 [add_lm_head] *)
Definition add_lm_head (inp : tref) : B tref :=
  do n <- lift (wkey "lm_head" "input_norm");
  do cur <- add_layernorm inp n;
  do lb <- lift (flag "lm_head_bias");
  do nm <- lift (wkey "lm_head" "lm");
  add_mm cur (c_hidden c) (c_vocab c) lb nm.
(** llm.py:1092-1100 [add_softcapping]; the weight is a scalar *)
Definition add_softcapping (inp : tref) (name : string) : B tref :=
  do b <- static (name ++ ".weight") [];
  emit name "LogitSoftCapping" [fst inp; b] (snd inp).
(** llm.py:1236-1262 [build_graph]: the name of the declared output *)
Definition build_graph : B string :=
  do _ <- tell (EInput "ids" (mkTensor DYNAMIC [batch; seq_len] 8));
  do ne <- lift (wkey "embedding" "embed");
  do cur <- add_embedding ("ids", [batch; seq_len]) (c_vocab c) ne;
  do cur <- (if flag_or "pos_embedding" false then
               do _ <- tell (EInput "position" (mkTensor DYNAMIC [batch; seq_len] 8));
               do np <- lift (wkey "embedding" "pos");
               do po <- add_embedding ("position", [batch; seq_len]) (c_n_positions c) np;
               add_eltop po cur "Add" "embedding_pos_add"
             else ret cur);
  do cur <- add_layers 0 (Z.to_nat (c_layers c)) cur;
  do cur <- add_lm_head cur;
  do cur <- (if c_final_cap c then add_softcapping cur "models.final_logit_softcapping" else ret cur);
  ret (fst cur).
End BUILD.

(** ** The resulting [Graph] *)
Definition replay_step (g : graph) (e : ev) : graph :=
  match e with
  | EStatic n t => mkGraph (nodemap g) (dset (tensormap g) n t) (producedby g) (consumedby g) (initials g ++ [n])%list (dynamics g) (g_input g) (g_output g)
  | EInput n t => mkGraph (nodemap g) (dset (tensormap g) n t) (producedby g) (consumedby g) (initials g) (dynamics g) (g_input g ++ [n])%list (g_output g)
  | ENode nd t => mkGraph (dset (nodemap g) (n_name nd) nd) (fold_left (fun d o => dset d o t) (n_out nd) (tensormap g))
                          (producedby g) (consumedby g) (initials g) (dynamics g) (g_input g) (g_output g)
  end.
Definition replay (l : list ev) (out : string) : graph :=
  let g := fold_left replay_step l (mkGraph [] [] [] [] [] [] [] []) in
  mkGraph (nodemap g) (tensormap g) (producedby g) (consumedby g) (initials g) (dynamics g) (g_input g) [out].
Definition bst0 : bst := {| log := []; rope_done := false; pos_done := false; bounds := [] |}.
(** [Builder(c)] on the table [m], then [build_graph]: the graph *)
Definition built (m : dict flags) (c : config) (batch seq_len : Z) (wm : dict (dict string)) (root : string) : sres graph :=
  let* fl := arch_config m c in
  let* x := build_graph fl c batch seq_len wm root bst0 in
  SOk (replay (log (snd x)) (fst x)).
(** the bounds stored in the slices' operands *)
Definition built_ranges (m : dict flags) (c : config) (batch seq_len : Z) (wm : dict (dict string)) (root : string) : sres (list (string * (Z * Z))) :=
  let* fl := arch_config m c in
  let* x := build_graph fl c batch seq_len wm root bst0 in
  SOk (bounds (snd x)).
(** llm.py:186-213 [WeightMap] *)
Definition WeightMap : dict (dict string) := [
  ("embedding", [("embed", "model.embed_tokens")]);
  ("attention", [("input_norm", "input_layernorm"); ("qkv", "self_attn.qkv_proj"); ("q", "self_attn.q_proj"); ("k", "self_attn.k_proj");
                 ("v", "self_attn.v_proj"); ("o", "self_attn.o_proj"); ("output_norm", "post_attention_layernorm")]);
  ("mlp", [("input_norm", "post_attention_layernorm"); ("gate", "mlp.gate_proj"); ("up", "mlp.up_proj"); ("down", "mlp.down_proj");
           ("gate_up", "mlp.gate_up_proj"); ("output_norm", "post_feedforward_layernorm")]);
  ("lm_head", [("input_norm", "model.norm"); ("lm", "lm_head")])].
Definition layer_root0 : string := "model.layers.".

(** llm.py:1267-1288 [add_kv_cache]: two more graph inputs, read by every SDPA node; [n_past] is a scalar
    ([update_tensor] with a 0-d array replaces the declared shape) *)
Definition add_kv_cache (c : config) (fl : flags) (batch n_context : Z) (g : graph) : graph :=
  let kv := if flag_or fl "is_mla" false then head_size c else kv_width c in
  mkGraph (map (fun kn => (fst kn, if String.eqb (n_op (snd kn)) "SDPA"
                                   then mkNode (n_name (snd kn)) (n_op (snd kn)) (n_in (snd kn) ++ ["n_past"; "kv_cache"])%list (n_out (snd kn)) else snd kn)) (nodemap g))
          (dset (dset (tensormap g) "n_past" (mkTensor DYNAMIC [] 8)) "kv_cache" (mkTensor DYNAMIC [batch; c_layers c * 2; n_context; kv] 4))
          (producedby g) (consumedby g) (initials g) (dynamics g) (g_input g ++ ["n_past"; "kv_cache"])%list (g_output g).
