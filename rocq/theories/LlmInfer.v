(** [Graph.shape_infer] on a graph of [llm.Builder]: the operators' [shape_infer] methods and the stored numbers. *)
From Verif Require Import PyBase GraphModel ShapeModel ShapeModel2 RegressModel LlmModel InferModel.
Open Scope string_scope. Open Scope Z_scope.

(** an integer array: shape and elements in order *)
Notation iarr := (list Z * list Z)%type.
(** tensor.py:436-441 [get_numpy]: zeros when nothing of the tensor's shape is stored *)
Definition numbers (t : trec (V := iarr)) : list Z :=
  let zeros := repeat 0 (Z.to_nat (numel (tr_shape t))) in
  match tr_num t with Some v => if list_eq_dec Z.eq_dec (fst v) (tr_shape t) then snd v else zeros | None => zeros end.
Definition operand {A} (l : list A) (i : nat) : sres A := match nth_error l i with Some a => SOk a | None => SRaise IndexErr end.
(** the [shape_infer] methods of the operators the builder creates; [hidden]: attribute [hidden_size] of GDN nodes (llm.py:737-745).
    node.py:946-958 Gather (axis 0, the default: llm.py:277-290 sets no attribute), 863-896 MatMul, 2521-2523 LayerNormalization,
    671-674 Rope, 3117-3119 MoE, 3230-3232 MLA, 254-259 Silu, Gelu, LogitSoftCapping, 659-663 GeGelu, 273-280 Add, Mul,
    2872-2880 SDPA, 3022-3028 GDN, 1706-1843 Slice. Simplified: a Slice with other than five operands is not built and raises here. *)
Definition builder_shape_rule (hidden : Z) (n : node) (ins : list (trec (V := iarr))) : sres (list (list Z)) :=
  let op := n_op n in
  if String.eqb op "Gather" then
    let* x := operand ins 0 in let* i := operand ins 1 in SOk [gather_shape 0 (tr_shape x) (tr_shape i)]
  else if String.eqb op "MatMul" then
    let* x := operand ins 0 in let* w := operand ins 1 in let* y := matmul_shape (tr_shape x) (tr_shape w) in SOk [y]
  else if String.eqb op "LayerNormalization" || String.eqb op "Rope" || String.eqb op "MoE" || String.eqb op "MLA" then
    let* x := operand ins 0 in SOk [tr_shape x]
  else if String.eqb op "Silu" || String.eqb op "Gelu" || String.eqb op "LogitSoftCapping" then
    let* y := pw_shape (map tr_shape ins) in SOk [y]
  else if String.eqb op "GeGelu" then
    let* x := operand ins 0 in
    match rev (tr_shape x) with d :: r => SOk [rev (d / 2 :: r)] | [] => SRaise IndexErr end
  else if String.eqb op "Add" || String.eqb op "Mul" then
    let* y := npmath_shape (map tr_shape ins) in SOk [y]
  else if String.eqb op "SDPA" then
    let* q := operand ins 0 in SOk [sdpa_shape (tr_shape q)]
  else if String.eqb op "GDN" then
    let* q := operand ins 0 in let* b := operand (tr_shape q) 0 in let* s := operand (tr_shape q) 1 in SOk [[b; s; hidden]]
  else if String.eqb op "Slice" then
    match ins with
    | [x; a; b; ax; st] => let* y := slice_shape (tr_shape x) (numbers a) (numbers b) (Some (numbers ax)) (Some (numbers st)) in SOk [y]
    | _ => SRaise IndexErr
    end
  else SRaise NotImplErr.
(** llm.py:422-427: what [add_slice] stores *)
Definition stored_numbers (ranges : list (string * (Z * Z))) : list (string * iarr) :=
  flat_map (fun r => let '(n, (a, b)) := r in [(n ++ ".start", ([1], [a])); (n ++ ".end", ([1], [b])); (n ++ ".axis", ([1], [2])); (n ++ ".step", ([1], [1]))]) ranges.
(** [Graph.tensormap] of a built graph *)
Definition built_tensors (g : graph) (ranges : list (string * (Z * Z))) : dict (trec (V := iarr)) :=
  map (fun kt => (fst kt, mkT (t_shape (snd kt)) (dget (stored_numbers ranges) (fst kt)))) (tensormap g).
(** [graph.shape_infer(inputs)] on the graph; the builder leaves [shape_calc] unset (node.py:181) on every node *)
Definition reinfer (c : config) (g : graph) (ranges : list (string * (Z * Z))) (inputs : list (string * iarr)) : sres (dict (trec (V := iarr))) :=
  graph_shape_infer fst (builder_shape_rule (c_hidden c)) (fun _ _ => SRaise NotImplErr) g [] inputs (built_tensors g ranges).
