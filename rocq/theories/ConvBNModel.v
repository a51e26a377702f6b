(** onnx_tool/fusion.py:462-498 [ConvBNFusion].  Numbers are real numbers: the float32 rounding of the
    numpy arithmetic is not modelled.  *)
From Coq Require Import Reals.
From Verif Require Import PyBase GraphModel ShapeModel EditModel FusionModel.
Open Scope string_scope. Open Scope list_scope.

Definition kernel := list (list (list R)).           (* one output channel: input channel x height x width *)
(** The arrays the fusion reads.  [TW writable w]: a rank-4 weight; an array loaded from raw_data is a
    read-only view ([numpy.frombuffer]); [TV v]: a vector; [TNone]: [numpy] is None. *)
Inductive tval := TW (writable : bool) (w : list kernel) | TV (v : list R) | TNone.

(** graph, attributes used by the search, array of each tensor, epsilon of each node *)
Record cstate := { cs_g : graph; cs_attr : string -> string -> option aval; cs_vals : dict tval; cs_eps : string -> R }.

Definition scale_kernel (s : R) (k : kernel) : kernel := map (map (map (Rmult s))) k.
Definition has_elem (k : kernel) : bool := existsb (existsb (fun r => match r with [] => false | _ => true end)) k.
(** [v[i]] of a vector *)
Definition vidx (v : list R) (i : nat) : sres R := match nth_error v i with Some x => SOk x | None => SRaise IndexErr end.
(** fusion.py:481: [gamma[i] / math.sqrt(var[i] + eps)]; math.sqrt raises ValueError on a negative
    argument.  Simplification: a zero argument (numpy gives inf) is an exception here. *)
Definition bn_scale (gamma var eps : R) : sres R :=
  if Rlt_dec (var + eps) 0 then SRaise ValueErr
  else if Req_EM_T (var + eps) 0 then SRaise ZeroDivErr
  else SOk (gamma / sqrt (var + eps))%R.
(** fusion.py:480-487: the loop over output channels *)
Fixpoint fold_bn (wr : bool) (gamma beta mean var : list R) (eps : R) (i : nat) (w : list kernel) (b : list R)
  : sres (list kernel * list R) :=
  match w, b with
  | [], _ => SOk ([], b)
  | k :: w', b0 :: b' =>
      let* g := vidx gamma i in
      let* v := vidx var i in
      let* sm := bn_scale g v eps in
      let* sv := vidx beta i in
      if has_elem k && negb wr then SRaise ValueErr else
      let* m := vidx mean i in
      let* rest := fold_bn wr gamma beta mean var eps (S i) w' b' in
      SOk (scale_kernel sm k :: fst rest, (sm * (b0 - m) + sv)%R :: snd rest)
  | _ :: _, [] => SRaise IndexErr
  end.

Definition of_res {A} (r : res A) : sres A :=
  match r with Ok a => SOk a | KeyError => SRaise KeyErr | ValueError => SRaise ValueErr | AssertionError => SRaise AssertErr end.
Definition as_vec (t : tval) : sres (list R) := match t with TV v => SOk v | _ => SRaise TypeErr end.
Definition bias_name (conv : string) : string := (conv ++ "_bias_")%string.
Definition set_nth0 (x : string) (l : list string) : list string := match l with [] => [] | _ :: r => x :: r end.

(** fusion.py:466-498: one matched pair.  Line 477 looks the bias up in [nodemap]: a KeyError unless
    some node has the tensor's name, and a Node has no attribute [numpy]. *)
Definition fuse_pair (s : cstate) (cn bn : string) : sres cstate :=
  let g := cs_g s in
  let* conv := dlook (nodemap g) cn in
  let* bnn := dlook (nodemap g) bn in
  let* wn := py_index (n_in conv) 1 in
  let* wt := dlook (cs_vals s) wn in
  let* gn := py_index (n_in bnn) 1 in let* gt := dlook (cs_vals s) gn in
  let* ben := py_index (n_in bnn) 2 in let* bet := dlook (cs_vals s) ben in
  let* mn := py_index (n_in bnn) 3 in let* mt := dlook (cs_vals s) mn in
  let* vn := py_index (n_in bnn) 4 in let* vt := dlook (cs_vals s) vn in
  if Nat.eqb (length (n_in conv)) 3 then
    let* third := py_index (n_in conv) 2 in
    let* _ := dlook (nodemap g) third in SRaise AttributeErr
  else
  match wt with
  | TW wr w =>
    let* gamma := as_vec gt in let* beta := as_vec bet in let* mean := as_vec mt in let* var := as_vec vt in
    let* r := fold_bn wr gamma beta mean var (cs_eps s bn) 0 w (repeat 0%R (length w)) in
    let '(w', b') := r in
    let vals1 := dset (cs_vals s) wn (TW wr w') in
    let vals2 := dset vals1 (bias_name cn) (TV b') in
    let g1 := mkGraph (nodemap g) (dset (tensormap g) (bias_name cn) (mkTensor STATIC [Z.of_nat (length b')] 4%Z))
                      (producedby g) (consumedby g) (initials g ++ [bias_name cn]) (dynamics g) (g_input g) (g_output g) in
    let* g2 := of_res (remove_node g1 bn false) in
    let* y := py_index (n_out bnn) 0 in
    match n_out conv with
    | [] => SRaise IndexErr
    | _ =>
      let conv' := mkNode (n_name conv) (n_op conv) (n_in conv ++ [bias_name cn]) (set_nth0 y (n_out conv)) in
      SOk {| cs_g := mkGraph (dset (nodemap g2) cn conv') (tensormap g2) (dset (producedby g2) y [n_name conv]) (consumedby g2)
                             (initials g2) (dynamics g2) (g_input g2) (g_output g2);
             cs_attr := cs_attr s; cs_vals := vals2; cs_eps := cs_eps s |}
    end
  | _ => SRaise TypeErr
  end.
(** fusion.py:462-466 *)
Fixpoint fuse_pairs (s : cstate) (sets : list (list string)) : sres cstate :=
  match sets with
  | [] => SOk s
  | ns :: r =>
      let* c := py_index ns 0 in
      let* b := py_index ns 1 in
      let* s' := fuse_pair s c b in fuse_pairs s' r
  end.
Definition ConvBNFusion (s : cstate) : sres cstate :=
  let* sets := search_pattern {| fg := cs_g s; fattr := cs_attr s |} (mk_pattern ConvBN false) in
  fuse_pairs s sets.
